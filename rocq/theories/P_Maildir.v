(** Properties C15 and C16: maildir file names and flags (lib/message.cc). *)
From Verif Require Import Bytes Maildir MaildirSpec MaildirProofs MaildirProofs2 MaildirProofs3.
From Coq Require Import Sorting.Sorted.
Local Open Scope nat_scope.

(** Every name in a "cur" or "new" directory can be taken apart, unless a directory
    above looks like maildir information; then it is never renamed. *)
Theorem C15_every_name :
  forall n, in_maildir n ->
  (exists root sub unique info, n = maildir_path root sub unique info /\ maildir_name root sub unique info) \/
  (forall to_set to_clear, new_maildir_filename n to_set to_clear = None).
Proof.
  intros n (root & sub & base & -> & Hs & Hb). destruct (strstr INFO root) as [p|] eqn:E.
  - right. intros ts tc. apply strstr_Some in E as (a & b & -> & _).
    apply (dir_info_null _ (S (length (a ++ INFO ++ b))) (a ++ INFO ++ b) sub base ts tc eq_refl Hs); [exists a, b; reflexivity|].
    now apply in_maildir_intro.
  - left. apply strstr_None in E. destruct (parse_base base Hb) as (u & info & -> & U1 & U2 & U3). exists root, sub, u, info. split; [reflexivity|].
    split; [exact E|]. auto.
Qed.
Print Assumptions C15_every_name.

(** The new name: same maildir, same unique part, moved from "new" to "cur"; the flags
    are the old ones and those to set, without those to clear, in order, none twice.
    Only a file in "new" without flags that needs none stays as it is. *)
Theorem C15_new_name :
  forall root sub unique info to_set to_clear, maildir_name root sub unique info -> good_flags (flags_of info) ->
  (forall c, In c to_set \/ In c to_clear -> (code c < 128)%N /\ c <> "/"%char) ->
  exists name, new_maildir_filename (maildir_path root sub unique info) to_set to_clear = Some name /\
  ((sub = lit "new" /\ info = None /\ to_set = [] /\ name = maildir_path root sub unique info) \/
   (~ (sub = lit "new" /\ info = None /\ to_set = []) /\
    exists flags, name = maildir_path root (lit "cur") unique (Some flags) /\
      StronglySorted (fun a b => (code a < code b)%N) flags /\
      (forall c, In c flags <-> (In c (flags_of info) \/ In c to_set) /\ ~ In c to_clear))).
Proof.
  intros root sub unique info ts tc Hn Hg Ha.
  destruct (new_name_spec root sub unique info ts tc Hn Hg) as (f' & (F1 & F2 & F3) & E).
  - apply Forall_forall. intros c Hc. now apply Ha; left.
  - apply Forall_forall. intros c Hc. now apply Ha; right.
  - intros X. destruct (Ha SLASH (or_introl X)) as (_ & Y). now apply Y.
  - eexists. split; [exact E|]. destruct info as [fl|].
    + right. split; [intros (_ & X & _); discriminate|]. exists f'. auto.
    + destruct (bseq_spec sub (lit "new")) as [->|Hne].
      * destruct ts as [|c ts]; [left; auto|]. right. split; [intros (_ & _ & X); discriminate|]. exists f'. auto.
      * right. split; [intros (X & _); contradiction|]. exists f'. auto.
Qed.
Print Assumptions C15_new_name.
(** Flags that are neither set nor cleared, known to notmuch or not, are kept. *)
Theorem C15_other_flags_kept :
  forall root sub unique info to_set to_clear root' sub' unique' info', maildir_name root sub unique info -> good_flags (flags_of info) ->
  (forall c, In c to_set \/ In c to_clear -> (code c < 128)%N /\ c <> "/"%char) ->
  maildir_name root' sub' unique' info' ->
  new_maildir_filename (maildir_path root sub unique info) to_set to_clear = Some (maildir_path root' sub' unique' info') ->
  root' = root /\ unique' = unique /\
  forall c, ~ In c to_set -> ~ In c to_clear -> (In c (flags_of info') <-> In c (flags_of info)).
Proof.
  intros root sub unique info ts tc root' sub' unique' info' Hn Hg Ha Hn' E.
  destruct (C15_new_name root sub unique info ts tc Hn Hg Ha) as (name & E1 & D). rewrite E in E1. injection E1 as <-.
  destruct D as [(-> & -> & -> & D)|(_ & flags & D & _ & F)].
  - apply path_inj in D as (-> & -> & -> & ->); [|assumption|assumption]. repeat split; auto.
  - apply path_inj in D as (-> & -> & -> & ->); [|assumption|].
    + split; [reflexivity|]. split; [reflexivity|]. intros c H1 H2. cbn. rewrite F. tauto.
    + destruct Hn as (H1 & H2 & H3 & H4 & H5). repeat (split; [auto|]). intros X. apply F in X as [[X|X] _].
      * destruct info; [contradiction|destruct X].
      * destruct (Ha "/"%char (or_introl X)) as (_ & Y). now apply Y.
Qed.
Print Assumptions C15_other_flags_kept.
(** Flags out of order, repeated or not ASCII: the file is left alone. *)
Theorem C15_odd_flags_not_renamed :
  forall root sub unique flags to_set to_clear, maildir_name root sub unique (Some flags) -> cstr flags -> ~ good_flags flags ->
  new_maildir_filename (maildir_path root sub unique (Some flags)) to_set to_clear = None.
Proof. exact bad_flags_null. Qed.
Print Assumptions C15_odd_flags_not_renamed.
(** Renaming again changes nothing. *)
Theorem C15_idempotent :
  forall root sub unique info to_set to_clear name, maildir_name root sub unique info -> good_flags (flags_of info) ->
  (forall c, In c to_set \/ In c to_clear -> (0 < code c < 128)%N /\ c <> "/"%char) -> (forall c, In c to_set -> ~ In c to_clear) ->
  new_maildir_filename (maildir_path root sub unique info) to_set to_clear = Some name ->
  new_maildir_filename name to_set to_clear = Some name.
Proof.
  intros root sub unique info ts tc name Hn Hg Ha Hd E.
  assert (Ha' : forall c, In c ts \/ In c tc -> (code c < 128)%N /\ c <> "/"%char) by (intros c H; destruct (Ha c H) as [X Y]; split; [lia|exact Y]).
  destruct (C15_new_name root sub unique info ts tc Hn Hg Ha') as (name1 & E1 & D). rewrite E in E1. injection E1 as <-.
  destruct D as [(-> & -> & -> & ->)|(_ & flags & -> & F1 & F3)]; [exact E|].
  assert (Hn' : maildir_name root (lit "cur") unique (Some flags)).
  { destruct Hn as (H1 & H2 & H3 & H4 & H5). repeat (split; [auto|]). intros X. apply F3 in X as [[X|X] _].
    - destruct info; [contradiction|destruct X].
    - destruct (Ha "/"%char (or_introl X)) as (_ & Y). now apply Y. }
  assert (Hg' : good_flags (flags_of (Some flags))).
  { split; [exact F1|]. rewrite Forall_forall. intros c Hc. apply F3 in Hc as [[Hc|Hc] _]; [|now apply Ha; left].
    destruct Hg as [_ G]. rewrite Forall_forall in G. now apply G. }
  destruct (C15_new_name root (lit "cur") unique (Some flags) ts tc Hn' Hg' Ha') as (name2 & E2 & D). rewrite E2. f_equal.
  destruct D as [(_ & X & _)|(_ & flags2 & -> & S2 & G2)]; [discriminate|]. f_equal. f_equal. apply sorted_ext; [exact S2|exact F1|].
  intros c. rewrite G2. cbn. rewrite F3. split; [|tauto]. intros [[X|X] Y]; [exact X|]. auto.
Qed.
Print Assumptions C15_idempotent.
(** Different messages of a mail store keep different names. *)
Theorem C15_distinct_names :
  forall root sub unique info root' sub' unique' info' to_set to_clear to_set' to_clear' name,
  maildir_name root sub unique info -> good_flags (flags_of info) -> maildir_name root' sub' unique' info' -> good_flags (flags_of info') ->
  (forall c, In c to_set \/ In c to_clear \/ In c to_set' \/ In c to_clear' -> (code c < 128)%N /\ c <> "/"%char) ->
  new_maildir_filename (maildir_path root sub unique info) to_set to_clear = Some name ->
  new_maildir_filename (maildir_path root' sub' unique' info') to_set' to_clear' = Some name ->
  root = root' /\ unique = unique'.
Proof.
  intros root sub unique info root' sub' unique' info' ts tc ts' tc' name Hn Hg Hn' Hg' Ha E E'.
  assert (A1 : forall c, In c ts \/ In c tc -> (code c < 128)%N /\ c <> "/"%char) by (intros c H; apply Ha; tauto).
  assert (A2 : forall c, In c ts' \/ In c tc' -> (code c < 128)%N /\ c <> "/"%char) by (intros c H; apply Ha; tauto).
  destruct (C15_new_name _ _ _ _ ts tc Hn Hg A1) as (n1 & E1 & D1). rewrite E in E1. injection E1 as <-.
  destruct (C15_new_name _ _ _ _ ts' tc' Hn' Hg' A2) as (n2 & E2 & D2). rewrite E' in E2. injection E2 as <-.
  assert (Q : exists sub1 info1, name = maildir_path root sub1 unique info1 /\ maildir_name root sub1 unique info1).
  { destruct D1 as [(_ & _ & _ & ->)|(_ & fl & -> & _ & F)]; [eauto|]. exists (lit "cur"), (Some fl). split; [reflexivity|].
    destruct Hn as (H1 & H2 & H3 & H4 & H5). repeat (split; [auto|]). intros X. apply F in X as [[X|X] _].
    - destruct info; [contradiction|destruct X].
    - destruct (A1 "/"%char (or_introl X)) as (_ & Y). now apply Y. }
  assert (Q' : exists sub1 info1, name = maildir_path root' sub1 unique' info1 /\ maildir_name root' sub1 unique' info1).
  { destruct D2 as [(_ & _ & _ & ->)|(_ & fl & -> & _ & F)]; [eauto|]. exists (lit "cur"), (Some fl). split; [reflexivity|].
    destruct Hn' as (H1 & H2 & H3 & H4 & H5). repeat (split; [auto|]). intros X. apply F in X as [[X|X] _].
    - destruct info'; [contradiction|destruct X].
    - destruct (A2 "/"%char (or_introl X)) as (_ & Y). now apply Y. }
  destruct Q as (s1 & i1 & -> & Q1). destruct Q' as (s2 & i2 & Q2 & Q3). apply path_inj in Q2 as (-> & _ & -> & _); auto.
Qed.
Print Assumptions C15_distinct_names.
(** The buffer allocated for the new name is exactly filled, for every file name. *)
Theorem C15_buffer_exact :
  forall f to_set to_clear name size, (forall c, In c to_set \/ In c to_clear -> (code c < 128)%N) ->
  new_maildir_filename_buf f to_set to_clear = NM_new name size -> size = (Z.of_nat (length name) + 1)%Z.
Proof. intros f ts tc name size H. apply buffer_exact; apply Forall_forall; intros c Hc; apply H; auto. Qed.
Print Assumptions C15_buffer_exact.
Example C15_example : new_maildir_filename (lit "/mail/new/12.host:2,PTa") (lit "RS") (lit "DFP") = Some (lit "/mail/cur/12.host:2,RSTa").
Proof. vm_compute. reflexivity. Qed.
Example C15_example_applies : lit "/mail/new/12.host:2,PTa" = maildir_path (lit "/mail") (lit "new") (lit "12.host") (Some (lit "PTa")) /\
  maildir_name (lit "/mail") (lit "new") (lit "12.host") (Some (lit "PTa")) /\ good_flags (lit "PTa").
Proof.
  split; [reflexivity|]. split.
  - split; [apply strstr_None; reflexivity|]. split; [auto|]. split; [cbn; intuition discriminate|]. split; [apply strstr_None; reflexivity|cbn; intuition discriminate].
  - split; repeat constructor.
Qed.

(** C16.  The flags to set are those the tags call for; the other known flags are
    cleared, unknown ones are in neither list. *)
Theorem C16_actions :
  forall tags to_set to_clear, get_maildir_flag_actions tags = (to_set, to_clear) ->
  (forall c, In c to_set <-> called_for tags c) /\ (forall c, In c to_clear <-> known c /\ ~ called_for tags c).
Proof. exact actions_spec. Qed.
Print Assumptions C16_actions.
Lemma maildir_bridge n : filename_is_in_maildir n = None <-> ~ in_maildir n.
Proof.
  split.
  - intros E (root & sub & base & -> & Hs & Hb). rewrite (in_maildir_intro root sub base Hs Hb) in E. discriminate.
  - intros H. destruct (filename_is_in_maildir n) as [i|] eqn:E; [|reflexivity]. exfalso. apply H. apply in_maildir_elim in E as (r & s & b & -> & Hs & Hb & _). exists r, s, b. auto.
Qed.
Lemma regular_fine n : regular n <-> fine n.
Proof. unfold regular, fine. now rewrite maildir_bridge. Qed.
Lemma match_agrees tags n : flags_match tags n <-> agrees tags n.
Proof. unfold flags_match, agrees. now rewrite maildir_bridge. Qed.

(** After writing tags to flags, with all renames succeeding, every maildir file of the
    message has exactly the known flags its tags call for. *)
Theorem C16_flags_match_tags :
  forall tags names d names' d' rename_ok, NoDup names -> (forall n, In n names -> regular n) ->
  (forall n, In n names -> d n <> None) -> (forall n, rename_ok n = true) ->
  tags_to_maildir_flags rename_ok tags names d = (names', d') ->
  forall n, In n names' -> flags_match tags n.
Proof.
  intros tags names d names' d' ok Nd Hr Hd Hok E n Hn. apply match_agrees. unfold tags_to_maildir_flags in E. destruct (get_maildir_flag_actions tags) as [ts tc] eqn:Ea.
  apply (sync_names_agree tags ts tc ok names Ea names d names' d'); auto. intros m Hm. apply regular_fine. auto.
Qed.
Print Assumptions C16_flags_match_tags.
(** Reading the flags back then gives the same tags. *)
Theorem C16_read_back :
  forall tags names d names' d' rename_ok, NoDup names -> (forall n, In n names -> regular n) ->
  (forall n, In n names -> d n <> None) -> (forall n, rename_ok n = true) ->
  tags_to_maildir_flags rename_ok tags names d = (names', d') ->
  forall t, In t (maildir_flags_to_tags names' tags) <-> In t tags.
Proof.
  intros tags names d names' d' ok Nd Hr Hd Hok E t. apply read_back. intros n Hn. apply match_agrees.
  exact (C16_flags_match_tags tags names d names' d' ok Nd Hr Hd Hok E n Hn).
Qed.
Print Assumptions C16_read_back.
(** Reading flags only touches the five tags that have a flag. *)
Theorem C16_other_tags_untouched :
  forall names tags t, (forall c p, ~ means c t p) -> (In t (maildir_flags_to_tags names tags) <-> In t tags).
Proof.
  intros names tags t H. destruct (ensure_maildir_flags names) as [flags|] eqn:E.
  - rewrite (flags_to_tags_In names tags flags t E). split; [intros [(c & p & X & _)|[_ X]]; [now apply H in X|exact X]|].
    intros X. right. split; [|exact X]. intros (c & p & Y). now apply H in Y.
  - unfold maildir_flags_to_tags. rewrite E. tauto.
Qed.
Print Assumptions C16_other_tags_untouched.
(** The tags of a message with one file, after reading its flags. *)
Theorem C16_flags_to_tags :
  forall root sub unique info tags t c p, maildir_name root sub unique info -> (info <> None \/ sub = lit "new") -> means c t p ->
  (In t (maildir_flags_to_tags [maildir_path root sub unique info] tags) <-> (In c (flags_of info) <-> p = true)).
Proof.
  intros root sub unique info tags t c p Hn Hi Hm. destruct (path_in_maildir _ _ _ _ Hn) as (P1 & P2).
  assert (E : ensure_maildir_flags [maildir_path root sub unique info] = Some (flags_of info)).
  { unfold ensure_maildir_flags. cbn [combine_flags]. rewrite P1. change (lit ":2,") with INFO. rewrite (strstr_path _ _ _ _ Hn). destruct info as [fl|].
    - rewrite path_eq, skipn_pre. reflexivity.
    - destruct Hi as [Hi| ->]; [congruence|]. rewrite P2. reflexivity. }
  rewrite (flags_to_tags_In _ tags _ t E). split.
  - intros [(c' & p' & H1 & H2)|[H1 _]]; [|exfalso; apply H1; eauto]. destruct (means_unique _ _ _ _ _ Hm H1) as [-> ->]. exact H2.
  - intros H. left. eauto.
Qed.
Print Assumptions C16_flags_to_tags.
(** The tags of a message with any number of files: a flag counts when any of the files has
    it; when no file says anything about flags the tags stay as they are. *)
Lemma combine_says names fs : Forall2 says names fs -> forall combined seen flags seen', combine_flags names combined seen = (flags, seen') ->
  (forall c, In c flags <-> In c combined \/ exists f, In (Some f) fs /\ In c f) /\ (seen' = true <-> seen = true \/ exists f, In (Some f) fs).
Proof.
  induction 1 as [|n o names fs S F IH]; intros combined seen flags seen' E.
  - injection E as <- <-. split.
    + intro c. split; [auto|]. intros [H|(f & [] & _)]. exact H.
    + split; [auto|]. intros [H|(f & [])]. exact H.
  - assert (J1 : forall f c, o = Some f -> ((In c (combined ++ f) \/ exists g, In (Some g) fs /\ In c g) <-> In c combined \/ exists g, In (Some g) (o :: fs) /\ In c g)).
    { intros f c ->. rewrite in_app_iff. split.
      - intros [[H|H]|(g & H1 & H2)]; [auto|right; exists f; cbn; auto|right; exists g; cbn; auto].
      - intros [H|(g & [H1|H1] & H2)]; [auto|injection H1 as ->; auto|right; eauto]. }
    assert (J2 : o = None -> forall P : bytes -> Prop, (exists g, In (Some g) fs /\ P g) <-> (exists g, In (Some g) (o :: fs) /\ P g)).
    { intros -> P. split; intros (g & H1 & H2); exists g; [cbn; auto|]. destruct H1 as [H1|H1]; [discriminate|auto]. }
    assert (J3 : o = None -> (exists g, In (Some g) fs) <-> (exists g, In (Some g) (o :: fs))).
    { intros ->. split; intros (g & H1); exists g; [cbn; auto|]. destruct H1 as [H1|H1]; [discriminate|auto]. }
    cbn [combine_flags] in E. destruct S as [root sub unique fl Hn|root unique Hn|root unique Hn|n Hn].
    + destruct (path_in_maildir _ _ _ _ Hn) as (P1 & P2). rewrite P1 in E. change (lit ":2,") with INFO in E. rewrite (strstr_path _ _ _ _ Hn) in E.
      rewrite path_eq, skipn_pre in E. change (skipn 3 (INFO ++ fl)) with fl in E. destruct (IH _ _ _ _ E) as [I1 I2]. split.
      * intro c. rewrite I1. apply J1. reflexivity.
      * rewrite I2. split; [intros _; right; exists fl; cbn; auto|intros _; auto].
    + destruct (path_in_maildir _ _ _ _ Hn) as (P1 & P2). rewrite P1 in E. change (lit ":2,") with INFO in E. rewrite (strstr_path _ _ _ _ Hn) in E. rewrite P2 in E.
      change (bseq (lit "new") (lit "new")) with true in E. cbv iota in E. destruct (IH _ _ _ _ E) as [I1 I2]. split.
      * intro c. rewrite I1. rewrite <- (J1 [] c eq_refl), app_nil_r. reflexivity.
      * rewrite I2. split; [intros _; right; exists []; cbn; auto|intros _; auto].
    + destruct (path_in_maildir _ _ _ _ Hn) as (P1 & P2). rewrite P1 in E. change (lit ":2,") with INFO in E. rewrite (strstr_path _ _ _ _ Hn) in E. rewrite P2 in E.
      change (bseq (lit "cur") (lit "new")) with false in E. cbv iota in E. destruct (IH _ _ _ _ E) as [I1 I2]. split.
      * intro c. rewrite I1. rewrite (J2 eq_refl). reflexivity.
      * rewrite I2. rewrite (J3 eq_refl). reflexivity.
    + apply maildir_bridge in Hn. rewrite Hn in E. destruct (IH _ _ _ _ E) as [I1 I2]. split.
      * intro c. rewrite I1. rewrite (J2 eq_refl). reflexivity.
      * rewrite I2. rewrite (J3 eq_refl). reflexivity.
Qed.
Theorem C16_flags_of_all_files :
  forall names said tags, Forall2 says names said ->
  ((exists f, In (Some f) said) -> forall c t p, means c t p ->
     (In t (maildir_flags_to_tags names tags) <-> ((exists f, In (Some f) said /\ In c f) <-> p = true))) /\
  (~ (exists f, In (Some f) said) -> maildir_flags_to_tags names tags = tags).
Proof.
  intros names said tags F. destruct (combine_flags names [] false) as [flags seen] eqn:E. destruct (combine_says names said F _ _ _ _ E) as [I1 I2]. split.
  - intros X c t p Hm. assert (S : seen = true) by (apply I2; auto).
    assert (EM : ensure_maildir_flags names = Some flags) by (unfold ensure_maildir_flags; rewrite E, S; reflexivity).
    rewrite (flags_to_tags_In names tags flags t EM).
    assert (Fl : In c flags <-> exists f, In (Some f) said /\ In c f) by (rewrite I1; split; [intros [[]|H]; exact H|auto]).
    rewrite <- Fl. split.
    + intros [(c' & p' & H1 & H2)|[H1 _]]; [|exfalso; apply H1; eauto]. destruct (means_unique _ _ _ _ _ Hm H1) as [-> ->]. exact H2.
    + intro H. left. eauto.
  - intro X. assert (S : seen = false). { destruct seen; [|reflexivity]. destruct (proj1 I2 eq_refl) as [Y|Y]; [discriminate|contradiction]. }
    unfold maildir_flags_to_tags, ensure_maildir_flags. rewrite E, S. reflexivity.
Qed.
Print Assumptions C16_flags_of_all_files.
Example C16_flags_of_all_files_case :
  Forall2 says [lit "/m/cur/a:2,FS"; lit "/m/cur/b"; lit "/m/new/c"] [Some (lit "FS"); None; Some []].
Proof.
  assert (K : forall s, forallb (fun c => negb (beq c ":"%char)) s = true -> ~ occurs (lit ":2,") s).
  { intros s H (a & b & ->). rewrite !forallb_app in H. cbn in H. rewrite Bool.andb_false_r in H. discriminate. }
  assert (Sl : forall s, forallb (fun c => negb (beq c "/"%char)) s = true -> ~ In "/"%char s).
  { intros s H I. rewrite forallb_forall in H. apply H in I. discriminate. }
  constructor; [|constructor; [|constructor; [|constructor]]].
  - apply (says_flags (lit "/m") (lit "cur") (lit "a") (lit "FS")). repeat split; try (apply K; reflexivity); try (apply Sl; reflexivity). auto.
  - apply (says_cur (lit "/m") (lit "b")). repeat split; try (apply K; reflexivity); try (apply Sl; reflexivity). auto.
  - apply (says_new (lit "/m") (lit "c")). repeat split; try (apply K; reflexivity); try (apply Sl; reflexivity). auto.
Qed.
(** Reading flags and writing them back leaves the file of a one-file message alone. *)
Theorem C16_no_rename_after_reading :
  forall root sub unique info tags d rename_ok, maildir_name root sub unique info -> good_flags (flags_of info) ->
  (info <> None /\ sub = lit "cur" \/ info = None /\ sub = lit "new") ->
  tags_to_maildir_flags rename_ok (maildir_flags_to_tags [maildir_path root sub unique info] tags) [maildir_path root sub unique info] d =
  ([maildir_path root sub unique info], d).
Proof.
  intros root sub unique info tags d ok Hn Hg Hi. set (n := maildir_path root sub unique info). set (tags' := maildir_flags_to_tags [n] tags).
  unfold tags_to_maildir_flags. destruct (get_maildir_flag_actions tags') as [ts tc] eqn:Ea. cbn [sync_names].
  destruct (filename_is_in_maildir n) as [i|]; [|reflexivity].
  destruct (actions_spec _ _ _ Ea) as (A & B). destruct (actions_ok _ _ _ Ea) as (O1 & O2 & O3).
  assert (Hi' : info <> None \/ sub = lit "new") by tauto.
  assert (C : forall c, known c -> (called_for tags' c <-> In c (flags_of info))).
  { intros c (t & p & Hm). pose proof (C16_flags_to_tags root sub unique info tags t c p Hn Hi' Hm) as Q. fold n tags' in Q. split.
    - intros (t' & p' & Hm' & H). assert (E : t' = t /\ p' = p) by (inversion Hm; subst; inversion Hm'; subst; auto). destruct E as [-> ->].
      destruct p; [apply Q in H; now apply H|]. destruct (in_dec ascii_dec c (flags_of info)) as [Y|Y]; [exact Y|]. exfalso. apply H. apply Q. split; [contradiction|discriminate].
    - intros H. exists t, p. split; [exact Hm|]. destruct p; [apply Q; tauto|]. intros X. apply Q in X. apply X in H. discriminate. }
  destruct (new_name_spec root sub unique info ts tc Hn Hg O1 O2 O3) as (f' & (F1 & F2 & F3) & E). fold n in E.
  assert (Ef : f' = flags_of info).
  { apply sorted_ext; [exact F1|exact (proj1 Hg)|]. intros c. rewrite F3, A, B. split.
    - intros [[X|X] Y]; [exact X|]. apply C; [now apply (called_known tags')|exact X].
    - intros X. split; [auto|]. intros [K Y]. apply Y. now apply C. }
  rewrite E. destruct Hi as [[Hi ->]|[-> ->]].
  - destruct info as [fl|]; [|congruence]. cbn in Ef. subst f'. fold n. now rewrite bseq_refl.
  - change (bseq (lit "new") (lit "new")) with true. cbn iota. destruct ts as [|c ts].
    + fold n. now rewrite bseq_refl.
    + exfalso. assert (X : In c (flags_of None)); [|destruct X]. apply C; [apply (called_known tags')|]; apply A; now left.
Qed.
Print Assumptions C16_no_rename_after_reading.
(** Whatever renames fail, every name the message then has is a file that exists. *)
Theorem C16_names_exist :
  forall rename_ok tags names d names' d', (forall n, In n names -> d n <> None) ->
  tags_to_maildir_flags rename_ok tags names d = (names', d') -> forall n, In n names' -> d' n <> None.
Proof.
  intros ok tags names d names' d' H E. unfold tags_to_maildir_flags in E. destruct (get_maildir_flag_actions tags) as [ts tc].
  exact (sync_names_exist ok ts tc names names d names' d' H E).
Qed.
Print Assumptions C16_names_exist.
(** If the new names are free and differ, no mail is lost, whatever renames fail: each
    file keeps its content under its old or its new name, and no other file changes. *)
Theorem C16_no_mail_lost :
  forall rename_ok tags to_set to_clear names d names' d', NoDup names -> get_maildir_flag_actions tags = (to_set, to_clear) ->
  (forall n m, In n names -> In m names -> target to_set to_clear n = target to_set to_clear m -> n = m) ->
  (forall n, In n names -> target to_set to_clear n <> n -> d (target to_set to_clear n) = None /\ ~ In (target to_set to_clear n) names) ->
  tags_to_maildir_flags rename_ok tags names d = (names', d') ->
  (forall n, In n names -> exists n', (n' = n \/ n' = target to_set to_clear n) /\ In n' names' /\ d' n' = d n) /\
  (forall p, ~ In p names -> (forall n, In n names -> p <> target to_set to_clear n) -> d' p = d p).
Proof.
  intros ok tags ts tc names d names' d' Nd Ea Hinj Hfree E. unfold tags_to_maildir_flags in E. rewrite Ea in E.
  destruct (sync_names_content ok ts tc names names d names' d' Nd (fun n H => H) Hinj Hfree E) as (I1 & _ & I3). auto.
Qed.
Print Assumptions C16_no_mail_lost.
Definition ex_disk : disk := fun p => if bseq p (lit "/m/new/1") then Some (lit "A") else if bseq p (lit "/m/cur/1:2,S") then Some (lit "B") else None.
(** An existing file under the new name is overwritten without notice. *)
Theorem C16_overwrites_existing_file_refuted :
  ~ (forall rename_ok tags names d names' d', NoDup names -> (forall n, In n names -> regular n) -> (forall n, In n names -> d n <> None) ->
     tags_to_maildir_flags rename_ok tags names d = (names', d') ->
     forall p, d p <> None -> ~ In p names -> d' p = d p).
Proof.
  intros H. specialize (H (fun _ => true) [] [lit "/m/new/1"] ex_disk).
  assert (R : regular (lit "/m/new/1")).
  { right. exists (lit "/m"), (lit "new"), (lit "1"), None. split; [reflexivity|]. split.
    - split; [apply strstr_None; reflexivity|]. split; [auto|]. split; [cbn; intuition discriminate|]. split; [apply strstr_None; reflexivity|exact I].
    - split; constructor. }
  destruct (tags_to_maildir_flags (fun _ => true) [] [lit "/m/new/1"] ex_disk) as [n' d'] eqn:E.
  assert (X : d' (lit "/m/cur/1:2,S") = Some (lit "A")).
  { assert (L : snd (tags_to_maildir_flags (fun _ => true) [] [lit "/m/new/1"] ex_disk) (lit "/m/cur/1:2,S") = Some (lit "A")) by (vm_compute; reflexivity).
    rewrite E in L. exact L. }
  assert (Y : ex_disk (lit "/m/cur/1:2,S") = Some (lit "B")) by (vm_compute; reflexivity).
  assert (Q : d' (lit "/m/cur/1:2,S") = ex_disk (lit "/m/cur/1:2,S")); [|rewrite X, Y in Q; discriminate].
  apply (H n' d').
  - repeat constructor. intros [].
  - intros n [<-|[]]. exact R.
  - intros n [<-|[]]. vm_compute. discriminate.
  - reflexivity.
  - rewrite Y. discriminate.
  - intros [Z|[]]. discriminate.
Qed.
Print Assumptions C16_overwrites_existing_file_refuted.
(** A concrete message with two copies. *)
Example C16_example : 
  fst (tags_to_maildir_flags (fun _ => true) [lit "inbox"; lit "replied"; lit "unread"] [lit "/m/new/1"; lit "/m/.sub/cur/2:2,Sa"; lit "/mh/7"]
    (fun _ => Some [])) = [lit "/mh/7"; lit "/m/cur/1:2,R"; lit "/m/.sub/cur/2:2,Ra"] /\
  maildir_flags_to_tags [lit "/mh/7"; lit "/m/cur/1:2,R"; lit "/m/.sub/cur/2:2,Ra"] [lit "inbox"; lit "flagged"] = [lit "unread"; lit "replied"; lit "inbox"].
Proof. split; vm_compute; reflexivity. Qed.
