(** C36, C37: structured output is well formed and faithful. *)
From Verif Require Import Bytes Decimal Sprinter SprinterSpec SprinterProofs SprinterProofs2 SprinterProofs3.
Local Open Scope nat_scope.

(** C36: whatever value is printed, and wherever separators are requested, the JSON printer
    does not crash and an RFC 8259 reader gets exactly that value back, strings byte for
    byte, with only the newline that ends a top-level array or object left over. *)
Theorem C36_json_reads_back : forall v calls, printing v calls ->
  exists p, json_run calls json_init = Some p /\
    exists n, forall fuel, n <= fuel -> read_json fuel (j_out p) = Some (v, if aggregate v then [chr 10] else []).
Proof.
  intros v calls H. destruct (printer_prints v calls json_init H) as (p & pre & b & E & B & L & S & O). exists p. split; [exact E|].
  cbn in L, O. subst pre. cbn in O. rewrite O.
  destruct (proj1 reader_inverts v b B [] (if aggregate v then [chr 10] else []) eq_refl) as (n & Hn); [destruct (aggregate v); reflexivity|].
  exists n. exact Hn.
Qed.
Print Assumptions C36_json_reads_back.
(** The printer is back at the top level, so a further value starts afresh: the stream is a
    sequence of texts each of which reads back. *)
Theorem C36_json_sequence : forall v calls p, printing v calls -> j_state p = [] ->
  exists p' text, json_run calls p = Some p' /\ j_state p' = [] /\ j_out p' = j_out p ++ text /\
    exists n, forall fuel, n <= fuel -> read_json fuel text = Some (v, if aggregate v then [chr 10] else []).
Proof.
  intros v calls p H Hs. destruct (printer_prints v calls p H) as (p' & pre & b & E & B & L & S & O). rewrite Hs in *. cbn in L, S, O. subst pre. cbn in O.
  exists p', (b ++ (if aggregate v then [chr 10] else [])). split; [exact E|]. split; [exact S|]. split; [exact O|].
  destruct (proj1 reader_inverts v b B [] (if aggregate v then [chr 10] else []) eq_refl) as (n & Hn); [destruct (aggregate v); reflexivity|]. exists n. exact Hn.
Qed.
Print Assumptions C36_json_sequence.
(** Different values never print alike. *)
Theorem C36_json_unambiguous : forall v v' calls calls' p p', printing v calls -> printing v' calls' ->
  json_run calls json_init = Some p -> json_run calls' json_init = Some p' -> j_out p = j_out p' -> v = v'.
Proof.
  intros v v' calls calls' p p' H H' E E' O. destruct (C36_json_reads_back v calls H) as (q & Eq & n & Hn). destruct (C36_json_reads_back v' calls' H') as (q' & Eq' & n' & Hn').
  rewrite E in Eq. injection Eq as <-. rewrite E' in Eq'. injection Eq' as <-. specialize (Hn (n + n') ltac:(lia)). specialize (Hn' (n + n') ltac:(lia)). rewrite O in Hn. congruence.
Qed.
Print Assumptions C36_json_unambiguous.
(** If all strings and keys are UTF-8 then so is the output. *)
Theorem C36_json_utf8 : forall v calls, printing v calls -> utf8_value v -> exists p, json_run calls json_init = Some p /\ utf8 (j_out p).
Proof.
  intros v calls H U. destruct (printer_prints v calls json_init H) as (p & pre & b & E & B & L & S & O). exists p. split; [exact E|].
  cbn in L, O. subst pre. cbn in O. rewrite O. apply utf8_app; [exact (proj1 prints_utf8 v b B U)|]. destruct (aggregate v); [apply utf8_ascii; reflexivity|apply utf8_nil].
Qed.
Print Assumptions C36_json_utf8.
(** But bytes that are not UTF-8 are copied to the output, which is then not JSON text
    (RFC 8259, section 8.1). *)
Theorem C36_json_utf8_always_refuted : ~ (forall v calls p, printing v calls -> json_run calls json_init = Some p -> utf8 (j_out p)).
Proof.
  intros H. specialize (H (VStr [chr 255]) [Str [chr 255]] _ eq_refl eq_refl). 
  assert (O : utf8 [chr 34; chr 255; chr 34]) by exact H. destruct O as (l & Hl & E).
  destruct Hl as [|x l Hx Hl]; [discriminate|].
  destruct Hx; cbn [concat app] in E; injection E as Ea E; subst a; unfold tail, between in *; try (match goal with H : context [code (ascii_of_pos 34)] |- _ => change (code (ascii_of_pos 34)) with 34%N in H; lia end).
  destruct Hl as [|x l Hx Hl]; [discriminate|]. destruct Hx; cbn [concat app] in E; injection E as Ea' E; subst; unfold tail, between in *; try (match goal with H : context [code (ascii_of_pos 255)] |- _ => change (code (ascii_of_pos 255)) with 255%N in H; lia end).
Qed.
Print Assumptions C36_json_utf8_always_refuted.

(** C37: the S-expression printer, with keys of letters, digits, '-' and '_'. *)
Theorem C37_sexp_reads_back : forall v calls, printing v calls -> good_keys v ->
  exists p, sexp_run calls sexp_init = Some p /\
    exists n, forall fuel, n <= fuel -> read_lisp fuel (s_out p) = Some (lisp v, if aggregate v then [chr 10] else []).
Proof.
  intros v calls H G. destruct (sexp_prints v G calls sexp_init H) as (p & pre & b & E & B & L & S & O). exists p. split; [exact E|].
  cbn in L, O. subst pre. cbn in O. rewrite O.
  destruct (proj1 lisp_reader_inverts (lisp v) b B [] (if aggregate v then [chr 10] else []) eq_refl) as (n & Hn); [destruct (aggregate v); reflexivity|].
  exists n. exact Hn.
Qed.
Print Assumptions C37_sexp_reads_back.
(** Strings are told apart whatever bytes they hold. *)
Theorem C37_sexp_strings_unambiguous : forall s s' calls calls' p p', printing (VStr s) calls -> printing (VStr s') calls' ->
  sexp_run calls sexp_init = Some p -> sexp_run calls' sexp_init = Some p' -> s_out p = s_out p' -> s = s'.
Proof.
  intros v v' calls calls' p p' H H' E E' O. destruct (C37_sexp_reads_back (VStr v) calls H I) as (q & Eq & n & Hn). destruct (C37_sexp_reads_back (VStr v') calls' H' I) as (q' & Eq' & n' & Hn').
  rewrite E in Eq. injection Eq as <-. rewrite E' in Eq'. injection Eq' as <-. specialize (Hn (n + n') ltac:(lia)). specialize (Hn' (n + n') ltac:(lia)). rewrite O in Hn. cbn [lisp] in *. congruence.
Qed.
Print Assumptions C37_sexp_strings_unambiguous.
(** As stated (for all values, with equality of values) the property fails: false and null
    print alike, and so do the empty list and the empty object. *)
Theorem C37_sexp_faithful_refuted : ~ (forall v v' calls calls' p p', printing v calls -> printing v' calls' ->
  sexp_run calls sexp_init = Some p -> sexp_run calls' sexp_init = Some p' -> s_out p = s_out p' -> v = v').
Proof. intros H. specialize (H (VBool false) VNull [Bool false] [Null] _ _ eq_refl eq_refl eq_refl eq_refl eq_refl). discriminate. Qed.
Print Assumptions C37_sexp_faithful_refuted.
(** A key with any other character, such as a configured extra header "X.Y", ends the
    process; the JSON printer prints every key. *)
Theorem C37_sexp_key_aborts : forall k v calls, forallb keyword_char k = false -> printing (VMap [(k, v)]) calls -> sexp_run calls sexp_init = None.
Proof.
  intros k v calls Hk H. unfold printing in H. cbn [emit flat_map app fst snd] in H.
  apply filter_first in H as (c0 & c' & -> & F0 & H). apply filter_first in H as (c1 & c2 & -> & F1 & _).
  rewrite sexp_run_app. destruct (sexp_seps c0 F0 sexp_init) as (p0 & E0 & _). rewrite E0. cbn [sexp_run sexp_call]. rewrite sexp_run_app.
  destruct (sexp_seps c1 F1 (sexp_begin_aggregate p0)) as (p1 & E1 & _). rewrite E1. cbn [sexp_run sexp_call]. unfold sexp_keyword. rewrite Hk. reflexivity.
Qed.
Print Assumptions C37_sexp_key_aborts.

(** A concrete nested value with every kind of byte class, and separators. *)
Definition ex_value : value := VList [VMap [(lit "thread", VStr (lit "0001")); (lit "n", VInt (-12)); (lit "ok", VBool true)]; VStr [chr 34; chr 92; chr 10; chr 1; chr 195; chr 169]; VList []; VMap []; VNull].
Definition ex_calls : list op := [BeginList; BeginMap; Key (lit "thread"); Str (lit "0001"); Separator; Key (lit "n"); Int (-12); Key (lit "ok"); Bool true; End; Separator;
  Str [chr 34; chr 92; chr 10; chr 1; chr 195; chr 169]; BeginList; End; BeginMap; End; Null; End].
Example C36_example : printing ex_value ex_calls /\ good_keys ex_value /\ utf8_value ex_value /\
  option_map j_out (json_run ex_calls json_init) = Some (lit "[{""thread"": ""0001""," ++ [chr 10] ++ lit """n"": -12, ""ok"": true}," ++ [chr 10] ++ lit """\""\\\n\u0001" ++ [chr 195; chr 169] ++ lit """, [], {}, null]" ++ [chr 10]) /\
  option_map s_out (sexp_run ex_calls sexp_init) = Some (lit "((:thread ""0001""" ++ [chr 10] ++ lit ":n -12 :ok t)" ++ [chr 10] ++ lit """\""\\\n\001" ++ [chr 195; chr 169] ++ lit """ () () nil)" ++ [chr 10]).
Proof.
  split; [reflexivity|]. split; [cbn; tauto|]. split; [|split; vm_compute; reflexivity].
  cbn. repeat split; try (apply utf8_ascii; reflexivity). apply (utf8_app [chr 34; chr 92; chr 10; chr 1]); [apply utf8_ascii; reflexivity|].
  apply utf8_one, u2; unfold tail, between; cbn; lia.
Qed.
