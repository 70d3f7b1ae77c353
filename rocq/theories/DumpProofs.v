From Verif Require Import Bytes Hex HexSpec HexProofs StrUtil StrUtilSpec StrUtilProofs Terms Meta MetaProofs StringMap DocMap
  Db DbSpec DbProofs Props PropsSpec PropsProofs TagOps TagOpsSpec TagOpsProofs TagLine TagLineSpec TagLineProofs Dump DumpSpec.
Local Open Scope nat_scope.

Lemma decode_c_encode s : cstr s -> decode_c (hex_encode s) = Some s.
Proof.
  intros H. apply decode_c_Some. exists s. split; [apply decode_denotes, decode_encode|]. now rewrite until_nul_cstr.
Qed.
Lemma encode_denotes s : denotes (hex_encode s) s.
Proof. apply decode_denotes, decode_encode. Qed.
Lemma encode_word s : cstr s -> word (hex_encode s).
Proof.
  intros H Hin. apply encode_safe in H. rewrite Forall_forall in H. apply H in Hin. apply safe_char_facts in Hin.
  destruct Hin as (_ & X & _). cbn in X; discriminate.
Qed.

(** First character of the encoding. *)
Lemma encode_head c s : exists r, hex_encode (c :: s) = (if is_output c then c else "%"%char) :: r.
Proof. unfold hex_encode. cbn [hex_encode_loop]. destruct (is_output c); cbn; eexists; reflexivity. Qed.
Lemma encode_nil s : hex_encode s = [] -> s = [].
Proof. destruct s as [|c s]; [reflexivity|]. intros H. destruct (encode_head c s) as (r & E). rewrite E in H. discriminate. Qed.
Lemma encode_minus s r : hex_encode s = "-"%char :: r -> exists r', s = "-"%char :: r'.
Proof.
  destruct s as [|c s]; [discriminate|]. destruct (encode_head c s) as (r' & E). rewrite E. destruct (is_output c).
  - intros [= -> _]. eauto.
  - discriminate.
Qed.
Lemma hexdigit_not_eq c : hexdigit (code c / 16) <> "="%char /\ hexdigit (code c mod 16) <> "="%char.
Proof.
  assert (H : (negb (beq (hexdigit (code c / 16)) "="%char) && negb (beq (hexdigit (code c mod 16)) "="%char)) = true).
  { revert c. apply byte_sweep. vm_compute. reflexivity. }
  apply andb_true_iff in H as [H1 H2]. apply negb_true_iff, beq_neq in H1, H2. auto.
Qed.
Lemma encode_no_eq s : ~ In "="%char s -> ~ In "="%char (hex_encode s).
Proof.
  unfold hex_encode. induction s as [|c s IH]; [auto|]. intros H. cbn [hex_encode_loop].
  assert (Hc : c <> "="%char) by (intros ->; apply H; now left). assert (Hs : ~ In "="%char s) by (intros X; apply H; now right).
  destruct (is_output c).
  - intros [X|X]; [congruence|]. now apply IH.
  - destruct (hexdigit_not_eq c) as [D1 D2]. unfold escape_byte. cbn [app In]. intros [X|[X|[X|X]]]; [discriminate|congruence|congruence|]. now apply IH.
Qed.

(** ** Lines *)
Lemma split_lines_acc_line acc b rest : ~ In NL b -> split_lines_acc acc (b ++ NL :: rest) = (acc ++ b ++ [NL]) :: split_lines_acc [] rest.
Proof.
  revert acc. induction b as [|c b IH]; intros acc H; cbn [app split_lines_acc].
  - rewrite beq_refl. reflexivity.
  - rewrite (proj2 (beq_neq c NL)) by (intros ->; apply H; now left).
    rewrite IH by (intros X; apply H; now right). now rewrite <- app_assoc.
Qed.
Definition full_line (l : bytes) : Prop := exists b, l = b ++ [NL] /\ ~ In NL b.
Lemma split_lines_concat ls : Forall full_line ls -> split_lines (concat ls) = ls.
Proof.
  unfold split_lines. induction 1 as [|l ls (b & -> & Hb) H IH]; [reflexivity|].
  cbn [concat]. rewrite <- app_assoc. cbn [app]. rewrite split_lines_acc_line by exact Hb. now rewrite IH.
Qed.

Definition id_query (id : bytes) : bytes := make_boolean_term (Some (lit "id")) id.
Lemma double_quotes_In c t : In c (double_quotes t) -> In c t.
Proof.
  induction t as [|x t IH]; cbn; [auto|]. destruct (beq_spec x """"%char) as [->|]; cbn; intuition.
Qed.
Lemma id_query_In c id : In c (id_query id) -> In c (lit "id:""") \/ In c id.
Proof.
  unfold id_query, make_boolean_term. intros H. apply in_app_or in H as [H|H].
  - left. cbn in H |- *. intuition.
  - destruct (need_quoting id); [|now right]. destruct H as [<-|H]; [left; cbn; auto|].
    apply in_app_or in H as [H|[<-|[]]]; [right; now apply double_quotes_In|left; cbn; auto 6].
Qed.
Lemma id_query_head id : exists r, id_query id = "i"%char :: r.
Proof. unfold id_query, make_boolean_term. cbn. eauto. Qed.
Lemma id_query_parse id : parse_boolean_term (id_query id) = Some (lit "id", id).
Proof.
  apply make_parse_roundtrip; [discriminate| |reflexivity]. cbn. intros [X|[X|[]]]; discriminate.
Qed.

Definition add_op (t : bytes) : tagop := {| to_tag := t; to_remove := false |}.
Lemma legal_encode t : legal (add_op t) -> hex_encode t <> [] /\ forall r, hex_encode t <> "-"%char :: r.
Proof.
  intros H. destruct (H eq_refl) as [H1 H2]. cbn in *. split.
  - intros E. now apply encode_nil in E.
  - intros r E. apply encode_minus in E as (r' & ->). now apply (H2 r').
Qed.
Lemma dump_tags_items gen q c r tags : q = c :: r -> c <> " "%char -> Forall cstr tags ->
  (gen = false -> Forall (fun t => legal (add_op t)) tags) ->
  exists rest, dump_tags false tags ++ lit " -- " ++ q = " "%char :: rest /\ items gen rest (map add_op tags) q.
Proof.
  intros Hq Hc. induction tags as [|t tags IH]; intros Hcs Hl.
  - exists (lit "-- " ++ q). split; [reflexivity|]. apply (it_dashes gen [] [] q c r); auto; intros x [].
  - inversion Hcs as [|? ? C1 C2]; subst. destruct IH as (rest & E & Hi); [exact C2| |].
    { intros Hg. specialize (Hl Hg). now inversion Hl. }
    exists ("+"%char :: hex_encode t ++ " "%char :: rest). split; [cbn [dump_tags app]; rewrite <- app_assoc, E; reflexivity|].
    cbn [map]. replace (add_op t) with {| to_tag := until_nul t; to_remove := false |} by (unfold add_op; now rewrite until_nul_cstr).
    apply (it_op gen [] false (hex_encode t) t rest (map add_op tags) (c :: r)); auto.
    + intros x [].
    + now apply encode_word.
    + discriminate.
    + intros Hg _. specialize (Hl Hg). inversion Hl; subst. now apply legal_encode.
    + apply encode_denotes.
Qed.

Definition tag_line_body (id : bytes) (tags : list bytes) : bytes := dump_tags true tags ++ lit " -- " ++ id_query id.
Lemma tag_line_batch gen id tags : Forall cstr tags -> (gen = false -> Forall (fun t => legal (add_op t)) tags) ->
  batch_line gen (tag_line_body id tags) (map add_op tags) (id_query id).
Proof.
  intros Hc Hl. destruct (id_query_head id) as (r & Hq). unfold tag_line_body. destruct tags as [|t tags].
  - exists [" "%char], "-"%char, (lit "- " ++ id_query id). split; [reflexivity|]. split; [intros c [<-|[]]; auto|].
    do 3 (split; [discriminate|]). apply (it_dashes gen [] [] (id_query id) "i"%char r); auto; try (intros x []). discriminate.
  - inversion Hc as [|? ? C1 C2]; subst.
    destruct (dump_tags_items gen (id_query id) "i"%char r tags Hq) as (rest & E & Hi); [discriminate|exact C2| |].
    { intros Hg. specialize (Hl Hg). now inversion Hl. }
    exists [], "+"%char, (hex_encode t ++ " "%char :: rest). split; [cbn [dump_tags app]; rewrite <- app_assoc, E; reflexivity|].
    split; [intros c []|]. do 3 (split; [discriminate|]). cbn [map].
    replace (add_op t) with {| to_tag := until_nul t; to_remove := false |} by (unfold add_op; now rewrite until_nul_cstr).
    apply (it_op gen [] false (hex_encode t) t rest (map add_op tags) (id_query id)); auto.
    + intros x [].
    + now apply encode_word.
    + discriminate.
    + intros Hg _. specialize (Hl Hg). inversion Hl; subst. now apply legal_encode.
    + apply encode_denotes.
Qed.
