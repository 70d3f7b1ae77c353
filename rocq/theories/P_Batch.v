(** Property C07 (tag-util.c, notmuch-tag.c, notmuch-restore.c). *)
From Verif Require Import Bytes Hex HexSpec HexProofs StrUtil StrUtilSpec StrUtilProofs Terms Meta MetaProofs StringMap DocMap
  Db DbSpec DbProofs Props PropsSpec PropsProofs TagOps TagOpsSpec TagOpsProofs TagLine TagLineSpec TagLineProofs Dump DumpSpec
  DumpProofs DumpProofs2 DumpProofs3.
Local Open Scope nat_scope.

(** The parser accepts exactly the documented grammar, returns exactly the operations
    and the query written, and rejects or skips everything else. *)
Theorem C07_accepts_exactly_the_grammar :
  forall generous line body, unterminated line body -> line <> [] ->
  (forall ops q, parse_tag_line generous line = P_ok ops q <-> batch_line generous body ops q) /\
  (parse_tag_line generous line = P_skipped <-> ignorable line) /\
  (parse_tag_line generous line = P_invalid <-> malformed generous line).
Proof.
  intros gen line body Hu Hne. destruct (parse_tag_line_spec gen line body Hu Hne) as (A & B & C). split; [exact C|].
  assert (I : parse_tag_line gen line = P_skipped <-> ignorable line).
  { rewrite B. split; [intros X; exists body; auto|]. intros (b & H1 & _ & H2). now rewrite (unterminated_fun line b body H1 Hu) in H2. }
  split; [exact I|]. split.
  - intros E. exists body. split; [exact Hu|]. split; [exact Hne|]. split.
    + intros X. apply B in X. congruence.
    + intros (ops & q & X). apply C in X. congruence.
  - intros (b & H1 & _ & H2 & H3). rewrite (unterminated_fun line b body H1 Hu) in *.
    destruct (parse_tag_line gen line) as [| | |ops q] eqn:E; [congruence| |reflexivity|].
    + exfalso. apply H2, B. reflexivity.
    + exfalso. apply H3. exists ops, q. apply C. reflexivity.
Qed.
Print Assumptions C07_accepts_exactly_the_grammar.

(** The reading of a line is unique. *)
Theorem C07_unambiguous :
  forall generous body ops q ops' q', batch_line generous body ops q -> batch_line generous body ops' q' -> ops = ops' /\ q = q'.
Proof.
  intros gen body ops q ops' q' H H'. destruct body as [|c b].
  { destruct H as ([|] & ? & ? & E & _); discriminate. }
  assert (Hn : (c :: b) ++ [ascii_of_N 10] <> []) by discriminate.
  destruct (parse_tag_line_spec gen _ (c :: b) (or_introl eq_refl) Hn) as (_ & _ & C).
  apply C in H, H'. rewrite H in H'. now injection H'.
Qed.
Print Assumptions C07_unambiguous.

Lemma invalid_of gen line : malformed gen line -> parse_tag_line gen line = P_invalid.
Proof. intros H. pose proof H as (b & H1 & H2 & _). now apply (C07_accepts_exactly_the_grammar gen line b H1 H2). Qed.

Section Batch.
Variable eval : bytes -> option query.
Variable h : N.
Lemma warn_monotone ra lines : forall s w, snd (tag_file_loop eval h ra w lines s) = snd (tag_file_loop eval h ra true lines s) /\
  (fst (tag_file_loop eval h ra true lines s) = O_crash \/ fst (tag_file_loop eval h ra true lines s) = O_return true) /\
  (fst (tag_file_loop eval h ra true lines s) = O_crash -> fst (tag_file_loop eval h ra w lines s) = O_crash).
Proof.
  induction lines as [|l lines IH]; intros s w; cbn [tag_file_loop]; [cbn; intuition congruence|].
  destruct (parse_tag_line false (c_string_of l)) as [| | |ops q]; cbn [fst snd]; auto.
  - destruct (eval q) as [qq|]; cbn [fst snd]; [|intuition congruence].
    destruct (tag_query _ _ _ _ _ _) as [[] s']; cbn [fst snd]; try (intuition congruence). apply IH.
Qed.
End Batch.

(** A malformed line anywhere in the input of 'notmuch tag --batch' has no effect on
    the database, the other lines are processed as if it were absent, and the command
    does not report success. *)
Theorem C07_malformed_line_no_effect :
  forall eval h ra before bad after s, malformed false (until_nul bad) ->
  snd (tag_file eval h ra (before ++ bad :: after) s) = snd (tag_file eval h ra (before ++ after) s) /\
  fst (tag_file eval h ra (before ++ bad :: after) s) <> O_return false.
Proof.
  intros eval h ra before bad after s Hb. apply invalid_of in Hb. rewrite until_nul_c in Hb. unfold tag_file.
  enough (G : forall s w, snd (tag_file_loop eval h ra w (before ++ bad :: after) s) = snd (tag_file_loop eval h ra w (before ++ after) s) /\
    fst (tag_file_loop eval h ra w (before ++ bad :: after) s) <> O_return false) by apply G. clear s. induction before as [|l before IH]; intros s w; cbn [app tag_file_loop].
  - rewrite Hb. destruct (warn_monotone eval h ra after s w) as (A & [B|B] & C).
    + split; [now rewrite A|]. rewrite B. discriminate.
    + split; [now rewrite A|]. rewrite B. discriminate.
  - destruct (parse_tag_line false (c_string_of l)) as [| | |ops q]; cbn [fst snd]; [split; [reflexivity|discriminate]|auto|auto|].
    destruct (eval q) as [qq|]; cbn [fst snd]; [|split; [reflexivity|discriminate]].
    destruct (tag_query _ _ _ _ _ _) as [[] s']; cbn [fst snd]; try (split; [reflexivity|discriminate]). apply IH.
Qed.
Print Assumptions C07_malformed_line_no_effect.

(** If every line is blank, a comment or malformed, nothing changes at all. *)
Theorem C07_only_malformed_lines :
  forall eval h ra lines s, Forall (fun l => malformed false (until_nul l) \/ ignorable (until_nul l)) lines ->
  snd (tag_file eval h ra lines s) = s.
Proof.
  intros eval h ra lines s H. unfold tag_file. generalize false. induction H as [|l lines [Hl|Hl] H IH]; intros w; cbn [tag_file_loop]; [reflexivity| |].
  - apply invalid_of in Hl. rewrite until_nul_c in Hl. now rewrite Hl.
  - pose proof Hl as (b & H1 & H2 & _). apply (C07_accepts_exactly_the_grammar false _ b H1 H2) in Hl.
    rewrite until_nul_c in Hl. now rewrite Hl.
Qed.
Print Assumptions C07_only_malformed_lines.

(** Restore: a malformed line, or one whose query is not a single id term, changes
    nothing and the following lines are processed as if it were absent. *)
Theorem C07_restore_malformed_line_no_effect :
  forall compressed h i ra bad after r,
  malformed true bad \/
  (exists body ops q, unterminated bad body /\ bad <> [] /\ batch_line true body ops q /\ forall id, parse_boolean_term q <> Some (lit "id", id)) ->
  second_loop compressed h i false ra (bad :: after) r = second_loop compressed h i false ra after r.
Proof.
  intros compressed h i ra bad after r H. cbn [second_loop].
  assert (NP : is_properties_line i bad = false).
  { unfold is_properties_line. destruct (starts_with (lit "#=") bad) eqn:E; [|apply andb_false_r]. exfalso.
    apply starts_with_app in E as (x & E).
    assert (IG : ignorable bad).
    { destruct (chomp_spec bad) as (b & _ & Hu); [rewrite E; discriminate|]. exists b. split; [exact Hu|]. split; [rewrite E; discriminate|].
      right. exists []. destruct Hu as [Hu|[Hu _]]; rewrite E in Hu.
      - destruct b as [|c b]; [discriminate|]. injection Hu as <- _. exists b. split; [reflexivity|]. intros c [].
      - exists ("="%char :: x). split; [rewrite <- Hu; reflexivity|]. intros c []. }
    destruct H as [H|(b & ops & q & Hu & Hn & Hb & _)].
    - apply invalid_of in H. pose proof IG as (b & H1 & H2 & _). apply (C07_accepts_exactly_the_grammar true _ b H1 H2) in IG. congruence.
    - apply (C07_accepts_exactly_the_grammar true _ b Hu Hn) in IG, Hb. congruence. }
  rewrite NP. unfold restore_tag_line. destruct H as [H|(b & ops & q & Hu & Hn & Hb & Hq)].
  - rewrite (invalid_of _ _ H). reflexivity.
  - apply (C07_accepts_exactly_the_grammar true _ b Hu Hn) in Hb. rewrite Hb.
    destruct (parse_boolean_term q) as [[p t]|] eqn:E; [|reflexivity]. destruct (bseq_spec p (lit "id")) as [->|]; [|reflexivity].
    now elim (Hq t).
Qed.
Print Assumptions C07_restore_malformed_line_no_effect.

Example C07_nontrivial :
  malformed false (lit "+a%zz id:x" ++ [chr 10]) /\ malformed false (lit "+a -b") /\ malformed false (lit "+ id:x") /\
  malformed false (lit "+-a id:x") /\ malformed false (lit "+a --") /\
  parse_tag_line false (lit " +a%20b  -c -- -d") = P_ok [ {| to_tag := lit "a b"; to_remove := false |}; {| to_tag := lit "c"; to_remove := true |} ] (lit "-d").
Proof.
  assert (K : forall g l b, unterminated l b -> l <> [] -> parse_tag_line g l = P_invalid -> malformed g l).
  { intros g l b H1 H2 H3. now apply (C07_accepts_exactly_the_grammar g l b H1 H2). }
  split; [eapply K; [left; reflexivity|discriminate|reflexivity]|].
  do 4 (split; [eapply K; [right; split; [reflexivity|cbn; discriminate]|discriminate|reflexivity]|]). reflexivity.
Qed.

(** An accepted line contains only legal tags -- provided the line has no '%' escape. *)
Theorem C07_accepted_tags_legal_partial :
  forall body ops q, cstr body -> batch_line false body ops q -> ~ In "%"%char body -> Forall legal ops.
Proof.
  intros body ops q Hc (b & c & r & -> & _ & _ & _ & _ & Hi) Hp.
  assert (Hp' : forall x, In x (c :: r) -> x <> "%"%char /\ x <> NUL).
  { intros x Hx. split; [intros ->; apply Hp, in_or_app; now right|]. unfold cstr in Hc. rewrite forallb_forall in Hc.
    specialize (Hc x ltac:(apply in_or_app; now right)). intros ->. discriminate. }
  clear Hp Hc. revert Hp'. generalize (c :: r) Hi. clear.
  intros text Hi. induction Hi as [| |sp rm e t rest ops q Hsp Hw Hd Hl Hden Hi IH]; intros Hp; [constructor|constructor|].
  constructor.
  - intros Hr. cbn in Hr. subst rm. destruct (Hl eq_refl eq_refl) as [L1 L2]. cbn [to_tag].
    destruct e as [|a e]; [congruence|]. destruct (Hp a) as [Pa Na]; [apply in_or_app; right; right; now left|].
    inversion Hden as [|? ? s Hne Hs|]; subst; [|congruence]. cbn [until_nul].
    destruct (Ascii.eqb_spec a (ascii_of_N 0)) as [E|_]; [now elim Na|]. split; [discriminate|]. intros x [= -> _]. now apply (L2 e).
  - apply IH. intros x Hx. apply Hp. apply in_or_app. right. right. apply in_or_app. right. now right.
Qed.
Print Assumptions C07_accepted_tags_legal_partial.

(** Without that proviso it is false: legality is checked before decoding. *)
Theorem C07_accepted_tags_legal_refuted :
  ~ (forall body ops q, cstr body -> batch_line false body ops q -> Forall legal ops).
Proof.
  intros H. assert (X : batch_line false (lit "+%2dfoo id:x") [ {| to_tag := lit "-foo"; to_remove := false |} ] (lit "id:x")).
  { apply (C07_accepts_exactly_the_grammar false (lit "+%2dfoo id:x") (lit "+%2dfoo id:x")); [right; split; [reflexivity|discriminate]|discriminate|reflexivity]. }
  apply H in X; [|reflexivity]. inversion X as [|? ? L _]; subst. destruct (L eq_refl) as [_ L2]. now apply (L2 (lit "foo")).
Qed.
Print Assumptions C07_accepted_tags_legal_refuted.
Theorem C07_empty_tag_refused_refuted :
  ~ (forall body ops q o, cstr body -> batch_line false body ops q -> In o ops -> to_tag o <> []).
Proof.
  intros H. refine (H (lit "+%00 id:x") [ {| to_tag := []; to_remove := false |} ] (lit "id:x") _ eq_refl _ (or_introl eq_refl) eq_refl).
  apply (C07_accepts_exactly_the_grammar false (lit "+%00 id:x") (lit "+%00 id:x")); [right; split; [reflexivity|discriminate]|discriminate|reflexivity].
Qed.
Print Assumptions C07_empty_tag_refused_refuted.

(** Every line read by getline is handled -- except one starting with a NUL byte, for
    which chomp_newline reads (and may write) before the start of the buffer. *)
Theorem C07_every_line_handled_refuted :
  ~ (forall eval h ra line s, line <> [] -> fst (tag_file eval h ra [line] s) <> O_crash).
Proof.
  intros H. apply (H (fun _ => None) 1%N false [NUL; chr 10] (open_db {| st_docs := []; st_ub := 0 |} 0 true)); [discriminate|reflexivity].
Qed.
Print Assumptions C07_every_line_handled_refuted.

(** Command line: accepted arguments are '+tag' / '-tag' operations with legal tags, in
    order, up to "--" or the first word of the query; an illegal tag refuses the whole
    command before any message is touched. *)
Inductive tag_args : list bytes -> list tagop -> list bytes -> Prop :=
| ta_end : tag_args [] [] []
| ta_dashes rest : tag_args (lit "--" :: rest) [] rest
| ta_query c w rest : c <> "+"%char -> c <> "-"%char -> tag_args ((c :: w) :: rest) [] ((c :: w) :: rest)
| ta_empty rest : tag_args ([] :: rest) [] ([] :: rest)
| ta_add t rest ops q : t <> [] -> (forall r, t <> "-"%char :: r) -> tag_args rest ops q ->
    tag_args (("+"%char :: t) :: rest) ({| to_tag := t; to_remove := false |} :: ops) q
| ta_remove t rest ops q : t <> lit "-" -> tag_args rest ops q ->
    tag_args (("-"%char :: t) :: rest) ({| to_tag := t; to_remove := true |} :: ops) q.
Lemma tag_args_complete argv l q : tag_args argv l q -> forall ops, parse_tag_args argv ops = Some (ops ++ l, q).
Proof.
  induction 1 as [|rest|c w rest H1 H2|rest|t rest l q H1 H2 H IH|t rest l q H1 H IH]; intros ops; cbn [parse_tag_args]; rewrite ?app_nil_r; try reflexivity.
  - destruct (bseq_spec (c :: w) (lit "--")) as [E|_]; [injection E as X _; now elim H2|]. cbn [peek].
    destruct (beq_spec c "+"%char); [congruence|]. destruct (beq_spec c "-"%char); [congruence|]. reflexivity.
  - destruct (bseq_spec ("+"%char :: t) (lit "--")) as [E|_]; [discriminate|]. cbn [peek tl beq negb andb].
    change (beq "+" "+") with true. change (beq "+" "-") with false. cbn [negb andb].
    rewrite (proj2 (illegal_tag_false t false)) by auto. rewrite IH. now rewrite <- app_assoc.
  - destruct (bseq_spec ("-"%char :: t) (lit "--")) as [E|_]; [injection E as X; now elim H1|]. cbn [peek tl].
    change (beq "-" "+") with false. change (beq "-" "-") with true. cbn [negb andb].
    rewrite (proj2 (illegal_tag_false t true)) by discriminate. rewrite IH. now rewrite <- app_assoc.
Qed.
Theorem C07_command_line :
  forall argv ops q, parse_tag_args argv [] = Some (ops, q) <-> tag_args argv ops q.
Proof.
  intros argv ops q. split; [|intros H; now apply (tag_args_complete _ _ _ H [])].
  assert (G : forall argv acc l q, parse_tag_args argv acc = Some (l, q) -> exists l', l = acc ++ l' /\ tag_args argv l' q).
  { clear. induction argv as [|a argv IH]; intros acc l q; cbn [parse_tag_args].
    - intros [= <- <-]. exists []. rewrite app_nil_r. split; [reflexivity|constructor].
    - destruct (bseq_spec a (lit "--")) as [->|Hd].
      + intros [= <- <-]. exists []. rewrite app_nil_r. split; [reflexivity|constructor].
      + destruct a as [|c t].
        * cbn. intros [= <- <-]. exists []. rewrite app_nil_r. split; [reflexivity|constructor].
        * cbn [peek tl]. destruct (beq_spec c "+"%char) as [->|Hp].
          -- change (beq "+" "-") with false. cbn [negb andb]. destruct (illegal_tag t false) eqn:E; [discriminate|].
             intros H. apply IH in H as (l' & -> & H). destruct (proj1 (illegal_tag_false _ _) E eq_refl) as [L1 L2]. eexists. split; [rewrite <- app_assoc; reflexivity|].
             now constructor.
          -- destruct (beq_spec c "-"%char) as [->|Hm]; cbn [negb andb].
             ++ destruct (illegal_tag t true) eqn:E; [discriminate|]. intros H. apply IH in H as (l' & -> & H).
                eexists. split; [rewrite <- app_assoc; reflexivity|]. constructor; [|exact H]. intros ->. now apply Hd.
             ++ intros [= <- <-]. exists []. rewrite app_nil_r. split; [reflexivity|]. now constructor. }
  intros H. apply G in H as (l' & -> & H). exact H.
Qed.
Print Assumptions C07_command_line.
Example C07_command_line_nontrivial :
  parse_tag_args [lit "+a"; lit "--b"; lit "tag:x"] nil =
    Some ([ {| to_tag := lit "a"; to_remove := false |}; {| to_tag := lit "-b"; to_remove := true |} ], [lit "tag:x"]) /\
  parse_tag_args [lit "+a"; lit "+-b"; lit "tag:x"] nil = None /\ parse_tag_args [lit "+"] nil = None.
Proof. now vm_compute. Qed.
