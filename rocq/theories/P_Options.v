(** Property C46: command-line option parsing. *)
From Verif Require Import Bytes Decimal LastmodSpec LastmodProofs Options OptionsSpec OptionsProofs OptionsProofs2 OptionTables.
Local Open Scope Z_scope.

(** Every command line has at most one reading, and the parser finds it: it succeeds
    exactly on the command lines that can be read, with exactly the assignments and
    the remaining arguments of that reading. *)
Theorem C46_parse_iff_readable :
  forall t argv es rest, sensible t ->
  (parse_arguments t argv = (es, Some rest) <-> reads t 0 argv es rest).
Proof. intros. now apply parse_arguments_iff. Qed.
Print Assumptions C46_parse_iff_readable.

(** One option. *)
Theorem C46_option_iff_readable :
  forall t arg rest es rest', sensible t ->
  (parse_option t arg rest = (es, Some rest') <-> option_reads t arg rest es rest').
Proof. intros. now apply parse_option_iff. Qed.
Print Assumptions C46_option_iff_readable.

(** The word after "--no-" negates only flags and booleans, and only that option's
    variable (and present marker) is assigned. *)
Theorem C46_option_sets_only_its_variable :
  forall t arg rest es rest', sensible t -> parse_option t arg rest = (es, Some rest') ->
  exists k n p e, In (k, n, p) (entries t) /\ es = e :: present_effect p /\ effect_var e = kind_var k /\
    exists neg tail, arg = (if neg : bool then lit "no-" ++ n else n) ++ tail /\ (neg = true -> negatable_kind k = true) /\
      (tail = [] \/ exists s, tail = "="%char :: s \/ tail = ":"%char :: s).
Proof.
  intros t arg rest es rest' Hs H. apply parse_option_iff in H; [|exact Hs].
  destruct H as (k & n & p & neg & tail & r & rest2 & e & gb & Hin & Ha & Hk & T & M & He & _).
  exists k, n, p, e. repeat split; try assumption; [eapply means_var; exact M|]. exists neg, tail. repeat split; try assumption.
  destruct T as [(c & s & -> & [-> | ->] & _)|[(-> & _)|(-> & _)]]; eauto.
Qed.
Print Assumptions C46_option_sets_only_its_variable.

Theorem C46_only_table_variables_assigned :
  forall t argv es rest, sensible t -> parse_arguments t argv = (es, Some rest) ->
  forall e, In e es -> In (effect_var e) (flat_map desc_vars t).
Proof. intros t argv es rest Hs H. apply parse_arguments_iff in H; [|exact Hs]. eapply reads_vars; exact H. Qed.
Print Assumptions C46_only_table_variables_assigned.

(** "--" ends the options: whatever follows is left untouched. *)
Theorem C46_dashdash_ends_options :
  forall t argv es rest, sensible t -> parse_arguments t argv = (es, Some []) -> ~ In (lit "--") argv ->
  parse_arguments t (argv ++ lit "--" :: rest) = (es, Some rest).
Proof.
  intros t argv es rest Hs H Hn. apply parse_arguments_iff in H; [|exact Hs]. apply parse_arguments_iff; [exact Hs|].
  now apply reads_dashdash.
Qed.
Print Assumptions C46_dashdash_ends_options.

(** Without positional slots, the parser stops at the first argument that is neither
    an option nor consumed by one, and returns it and everything after it. *)
Theorem C46_stops_at_first_non_option :
  forall t argv es a q, sensible t -> slots t = [] -> parse_arguments t argv = (es, Some (a :: q)) ->
  ~ is_option a \/ In (lit "--") argv.
Proof.
  intros t argv es a q Hs Hp H. apply parse_arguments_iff in H; [|exact Hs]. revert H. generalize 0%nat. intros pos H.
  remember (a :: q) as fin eqn:Ef. induction H as [pos|pos rest|pos b rest Ha Hn|pos b rest v p es rest' Ha Hn R IH|pos arg rest es1 rest1 es rest' Ha Ho R IH].
  - discriminate.
  - right. now left.
  - injection Ef as -> _. now left.
  - rewrite Hp in Hn. destruct pos; discriminate.
  - destruct (IH Ef) as [H|H]; [now left|]. right. right. eapply option_reads_mono_in; eassumption.
Qed.
Print Assumptions C46_stops_at_first_non_option.

(** Unknown options are refused. *)
Theorem C46_unknown_option_refused :
  forall t arg rest, sensible t -> arg <> [] ->
  (forall k n p neg tail, In (k, n, p) (entries t) -> (neg = true -> negatable_kind k = true) ->
     arg = (if neg : bool then lit "no-" ++ n else n) ++ tail -> exists c s, tail = c :: s /\ c <> "="%char /\ c <> ":"%char) ->
  snd (parse_arguments t ((lit "--" ++ arg) :: rest)) = None.
Proof.
  intros t arg rest Hs Ha Hu. destruct (parse_arguments t ((lit "--" ++ arg) :: rest)) as [es [r|]] eqn:E; [|reflexivity].
  exfalso. apply parse_arguments_iff in E; [|exact Hs]. inversion E; subst.
  - congruence.
  - match goal with H : ~ is_option _ |- _ => apply H; exists arg; reflexivity end.
  - match goal with H : ~ is_option _ |- _ => apply H; exists arg; reflexivity end.
  - match goal with H : option_reads _ _ _ _ _ |- _ =>
      destruct H as (k & n & p & neg & tail & rc & rest2 & e & gb & Hin & Hb & Hk & T & _) end.
    destruct (Hu k n p neg tail Hin Hk Hb) as (c & s & -> & N1 & N2).
    destruct T as [(c' & s' & [= -> ->] & [-> | ->] & _)|[(C & _)|(C & _)]]; congruence.
Qed.
Print Assumptions C46_unknown_option_refused.

(** The hypotheses hold of every option table of the notmuch commands, none of which
    has positional slots. *)
Definition prefixb (a b : bytes) : bool := match strip_prefix a b with Some _ => true | None => false end.
Fixpoint nodupb (l : list bytes) : bool :=
  match l with [] => true | x :: l' => negb (existsb (bseq x) l') && nodupb l' end.
Definition sensibleb (t : list desc) : bool :=
  nodupb (flat_map keys_of (entries t)) &&
  forallb (fun '(k, n, _) => negb (mem "="%char n) && negb (mem ":"%char n) && negb (bseq n []) &&
                             negb (prefixb n (lit "no-" ++ n))) (entries t).
Lemma nodupb_ok l : nodupb l = true -> NoDup l.
Proof.
  induction l as [|x l IH]; intros H; [constructor|]. cbn [nodupb] in H. apply andb_true_iff in H. destruct H as [H1 H2].
  constructor; [|now apply IH]. intros C. apply negb_true_iff in H1.
  assert (existsb (bseq x) l = true); [|congruence]. apply existsb_exists. exists x. split; [exact C|apply bseq_refl].
Qed.
Lemma sensibleb_ok t : sensibleb t = true -> sensible t.
Proof.
  unfold sensibleb. intros H. apply andb_true_iff in H. destruct H as [H1 H2]. split; [now apply nodupb_ok|].
  apply Forall_forall. intros [[k n] p] Hin. apply (forallb_In _ _ _ H2) in Hin.
  rewrite !andb_true_iff, !negb_true_iff in Hin. destruct Hin as [[[A B] C] D].
  repeat split; [now apply mem_not_In|now apply mem_not_In|now apply bseq_neq|].
  intros r E. unfold prefixb in D. destruct (strip_prefix n (lit "no-" ++ n)) eqn:S; [discriminate|].
  rewrite E, strip_prefix_app in S. discriminate.
Qed.

Theorem C46_notmuch_tables_sensible :
  Forall (fun t => sensible t /\ slots t = []) all_tables.
Proof.
  assert (L : forallb (fun t => sensibleb t && match slots t with [] => true | _ => false end) all_tables = true) by (vm_compute; reflexivity).
  apply Forall_forall. intros t Ht. apply (forallb_In _ _ _ L) in Ht. apply andb_true_iff in Ht. destruct Ht as [A B].
  split; [now apply sensibleb_ok|]. destruct (slots t); [reflexivity|discriminate].
Qed.
Print Assumptions C46_notmuch_tables_sensible.

(** What does not hold. *)

(** A number too large for int is not refused; it is reduced modulo 2^32. *)
Theorem C46_int_out_of_range_refused_refuted :
  ~ (forall t arg rest es rest', sensible t -> parse_option t arg rest = (es, Some rest') ->
       forall v z, In (SetInt v z) es -> forall x, arg = lit "limit=" ++ decz x -> z = x).
Proof.
  intros H. assert (S : sensible opts_notmuch_search).
  { pose proof C46_notmuch_tables_sensible as F. rewrite Forall_forall in F. apply F. cbn [all_tables In]. tauto. }
  assert (L : parse_option opts_notmuch_search (lit "limit=4294967296") [] = ([SetInt 3 0], Some [])) by (vm_compute; reflexivity).
  specialize (H opts_notmuch_search _ [] _ _ S L 3%nat 0 (or_introl eq_refl) 4294967296).
  assert (E : lit "limit=4294967296" = lit "limit=" ++ decz 4294967296) by (vm_compute; reflexivity).
  specialize (H E). discriminate.
Qed.
Print Assumptions C46_int_out_of_range_refused_refuted.

(** A refused option may still have assigned its variable. *)
Theorem C46_refused_option_assigns_nothing_refuted :
  ~ (forall t arg rest, sensible t -> snd (parse_option t arg rest) = None -> fst (parse_option t arg rest) = []).
Proof.
  intros H. assert (S : sensible opts_notmuch_search).
  { pose proof C46_notmuch_tables_sensible as F. rewrite Forall_forall in F. apply F. cbn [all_tables In]. tauto. }
  specialize (H opts_notmuch_search (lit "limit=3x") [] S).
  assert (L : parse_option opts_notmuch_search (lit "limit=3x") [] = ([SetInt 3 3], None)) by (vm_compute; reflexivity).
  rewrite L in H. specialize (H eq_refl). discriminate.
Qed.
Print Assumptions C46_refused_option_assigns_nothing_refuted.

(** A terminated keyword array is searched within its bounds, and means the keyword
    list; the array of --include in dump and restore is not terminated, and an unknown
    keyword there reads past its end. *)
Theorem C46_keyword_search_in_bounds :
  forall kws s, scan_array (c_array kws true) s =
    match find_keyword kws s with Some z => Found z | None => NotFound end.
Proof.
  intros kws s. induction kws as [|[n z] kws IH]; [reflexivity|]. unfold c_array in *. cbn [map app scan_array find_keyword].
  destruct (bseq s n); [reflexivity|exact IH].
Qed.
Print Assumptions C46_keyword_search_in_bounds.

Theorem C46_include_keyword_search_in_bounds_refuted :
  ~ (forall s, scan_array include_array s <> PastEnd) /\
  (forall s, scan_array include_array s = PastEnd <-> find_keyword include_keywords s = None).
Proof.
  split.
  - intros H. apply (H (lit "bogus")). vm_compute. reflexivity.
  - intros s. unfold include_array, include_keywords, c_array. cbn [map app scan_array find_keyword].
    repeat (match goal with |- context[bseq s ?a] => destruct (bseq s a) end; try (split; discriminate)). split; reflexivity.
Qed.
Print Assumptions C46_include_keyword_search_in_bounds_refuted.

Example C46_nontrivial :
  sensible opts_notmuch_show /\
  parse_arguments opts_notmuch_show [lit "--format=json"; lit "--decrypt"; lit "--no-body"; lit "--limit"; lit "5"; lit "tag:inbox"; lit "--part=1"] =
    ([SetKeyword 1 20; SetKeyword 7 16; SetBool 9 false; SetInt 12 5], Some [lit "tag:inbox"; lit "--part=1"]) /\
  snd (parse_arguments opts_notmuch_show [lit "--formats=json"]) = None.
Proof.
  split; [|vm_compute; split; reflexivity].
  pose proof C46_notmuch_tables_sensible as F. rewrite Forall_forall in F. apply F. cbn [all_tables In]. tauto.
Qed.
