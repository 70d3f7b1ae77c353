(** Property C59: the tags "notmuch new" gives to a message it sees for the first time
    (notmuch-new.c:367-444). *)
From Verif Require Import Bytes DocMap MsgId MailStore MailStoreSpec Maildir MaildirSpec MaildirProofs MaildirProofs2 MaildirProofs3 New NewSpec NewProofs NewProofs4 NewProofs9 NewProofs10 NewProofs12 NewTagsProofs NewExamples P_Threads P_Maildir.
From Coq Require Import Sorted Permutation.

(** No message with this id is in the database: at most a placeholder without tags. *)
Definition unknown_id (db : ndb) (id : bytes) : Prop :=
  forall k d, has (n_mail db) k d -> m_id d = id -> m_ghost d = true /\ m_tags d = [].

(** A new message has the configured tags and no others, however many files it has and
    wherever the run is interrupted - apart from the tags that indexing sets itself
    (attachment, signed, encrypted), from "unread", and, when maildir flags are
    synchronized, from the five tags that stand for flags. *)
Theorem C59_new_message_gets_the_configured_tags :
  forall compressed w db e db' id k d t, short_hash compressed -> reached compressed db -> possible compressed w ->
  run_new compressed w db = Some (e, db') -> unknown_id db id ->
  has (n_mail db') k d -> m_id d = id -> m_ghost d = false ->
  ~ auto_tag compressed w id t -> t <> lit "unread" -> (w_sync w = true -> ~ flag_tag t) ->
  (In t (m_tags d) <-> In t (w_tags w)).
Proof.
  intros c w db e db' id k d t Hc Hr Hp E Fr H Hid Hg Na N1 N2. destruct (reached_good c Hc db Hr) as [Hi Hgd].
  destruct (run_tags c Hc w db e db' id Hi Hgd Hp E Fr k d H Hid Hg) as [X _]. apply X; [exact Na|]. split; assumption.
Qed.
Print Assumptions C59_new_message_gets_the_configured_tags.

Lemma one_says f o : says f o ->
  (forall tags t, In t (maildir_flags_to_tags [f] tags) <->
     (exists flags c p, o = Some flags /\ means c t p /\ (In c flags <-> p = true)) \/ (In t tags /\ (o = None \/ ~ exists c p, means c t p))) /\
  (has_maildir_flag [f] "S"%char = true <-> exists flags, o = Some flags /\ In "S"%char flags).
Proof.
  intros S. assert (F : Forall2 says [f] [o]) by (constructor; [exact S|constructor]).
  destruct (combine_flags [f] [] false) as [fl seen] eqn:E. destruct (combine_says _ _ F _ _ _ _ E) as [I1 I2].
  assert (EM : ensure_maildir_flags [f] = if seen then Some fl else None) by (unfold ensure_maildir_flags; now rewrite E).
  destruct o as [flags|].
  - assert (Sn : seen = true) by (apply I2; right; exists flags; now left). rewrite Sn in EM.
    assert (Fl : forall c, In c fl <-> In c flags).
    { intros c. rewrite I1. split; [intros [[]|(g & [[= <-]|[]] & X)]; exact X|]. intros X. right. exists flags. split; [now left|exact X]. }
    split.
    + intros tags t. rewrite (flags_to_tags_In [f] tags fl t EM). split.
      * intros [(c & p & H1 & H2)|[H1 H2]]; [left; exists flags, c, p; rewrite Fl in H2; auto|right; auto].
      * intros [(g & c & p & [= <-] & H1 & H2)|[H1 [X|H2]]]; [left; exists c, p; rewrite Fl; auto|discriminate X|right; auto].
    + unfold has_maildir_flag. rewrite EM, found_In by discriminate. rewrite Fl. split; [eauto|]. intros (g & [= <-] & X). exact X.
  - assert (Sn : seen = false). { destruct seen; [|reflexivity]. exfalso. destruct (proj1 I2 eq_refl) as [X|(g & [X|[]])]; discriminate X. }
    rewrite Sn in EM. split.
    + intros tags t. unfold maildir_flags_to_tags. rewrite EM. split; [auto|]. intros [(g & c & p & X & _)|[X _]]; [discriminate X|exact X].
    + unfold has_maildir_flag. rewrite EM. split; [discriminate|]. intros (g & X & _). discriminate X.
Qed.

(** A new message with one file: exactly which tags it has.  [o] is what the name of the
    file says about flags. *)
Theorem C59_new_message_with_one_file :
  forall compressed w db e db' id k d f o t, short_hash compressed -> reached compressed db -> possible compressed w ->
  run_new compressed w db = Some (e, db') -> unknown_id db id ->
  has (n_mail db') k d -> m_id d = id -> m_ghost d = false -> m_files d = [f] -> says f o ->
  ~ auto_tag compressed w id t ->
  (In t (m_tags d) <->
     (* the maildir flags stand for it *)
     (w_sync w = true /\ exists flags c p, o = Some flags /\ means c t p /\ (In c flags <-> p = true)) \/
     (* it is configured, and is not "unread" for a file flagged as seen *)
     (In t (w_tags w) /\ ~ (t = lit "unread" /\ exists flags, o = Some flags /\ In "S"%char flags))).
Proof.
  intros c w db e db' id k d f o t Hc Hr Hp E Fr H Hid Hg Hf S Na. destruct (reached_good c Hc db Hr) as [Hi Hgd].
  destruct (run_tags c Hc w db e db' id Hi Hgd Hp E Fr k d H Hid Hg) as [_ X]. rewrite (X f t Hf Na). destruct (one_says f o S) as [S1 S2].
  unfold given. rewrite S1, S2. cbn. tauto.
Qed.
Print Assumptions C59_new_message_with_one_file.

(** So a message whose only file is flagged as seen is never "unread", whether flags are
    synchronized or not, even if "unread" is configured. *)
Theorem C59_seen_is_not_unread :
  forall compressed w db e db' id k d f flags, short_hash compressed -> reached compressed db -> possible compressed w ->
  run_new compressed w db = Some (e, db') -> unknown_id db id ->
  has (n_mail db') k d -> m_id d = id -> m_ghost d = false -> m_files d = [f] -> says f (Some flags) -> In "S"%char flags ->
  ~ auto_tag compressed w id (lit "unread") -> ~ In (lit "unread") (m_tags d).
Proof.
  intros c w db e db' id k d f flags Hc Hr Hp E Fr H Hid Hg Hf S Sn Na X.
  apply (C59_new_message_with_one_file c w db e db' id k d f (Some flags) _ Hc Hr Hp E Fr H Hid Hg Hf S Na) in X as [(_ & fl & ch & p & [= <-] & M & Q)|(_ & N)].
  - assert (ch = "S"%char /\ p = false) as [-> ->] by (inversion M; auto). apply Q in Sn. discriminate Sn.
  - apply N. eauto.
Qed.
Print Assumptions C59_seen_is_not_unread.

(** A maildir with a seen and flagged mail, one in "new", and one with two copies. *)
Definition box59 := NDir 10 5 [
  (lit "cur", NDir 20 2 [(lit "a:2,FS", mail (lit "a@x")); (lit "c:2,RS", mail (lit "c@x"))]);
  (lit "new", NDir 20 2 [(lit "b", mail (lit "b@x")); (lit "c", mail (lit "c@x"))]);
  (lit "tmp", NDir 20 2 [])].
Example C59_example :
  files_of (after (on false box59) nothing) =
    [(lit "a@x", [lit "/cur/a:2,FS"], [lit "inbox"; lit "flagged"]);
     (lit "c@x", [lit "/cur/c:2,RS"; lit "/new/c"], [lit "inbox"; lit "replied"]);
     (lit "b@x", [lit "/new/b"], [lit "inbox"; lit "unread"])] /\
  run_new sha (on false box59) nothing = Some (ExitSuccess, after (on false box59) nothing) /\
  reached sha nothing /\ possible sha (on false box59) /\ unknown_id nothing (lit "a@x") /\
  says (lit "/cur/a:2,FS") (Some (lit "FS")) /\ (forall id t, ~ auto_tag sha (on false box59) id t).
Proof.
  split; [vm_compute; reflexivity|]. split; [apply after_run; vm_compute; reflexivity|]. split; [constructor|]. split; [now apply possible_on|].
  split; [intros k d H; discriminate H|]. split.
  - assert (K : forall s, forallb (fun c => negb (beq c ":"%char)) s = true -> ~ occurs (lit ":2,") s).
    { intros s H (a & b & ->). rewrite !forallb_app in H. cbn in H. rewrite Bool.andb_false_r in H. discriminate. }
    assert (Sl : forall s, forallb (fun c => negb (beq c "/"%char)) s = true -> ~ In "/"%char s).
    { intros s H I. rewrite forallb_forall in H. apply H in I. discriminate. }
    apply (says_flags [] (lit "cur") (lit "a") (lit "FS")). repeat split; try (apply K; reflexivity); try (apply Sl; reflexivity). auto.
  - intros id t (f & keys & ok & M & _ & T).
    unfold box59, on, w_root in M. repeat match goal with
    | M : mail_in (NDir _ _ _) _ _ _ |- _ => inversion M; subst; clear M
    | H : In _ (_ :: _) |- _ => destruct H as [[= <- <-]|H]
    | H : In _ [] |- _ => destruct H
    | M : mail_in (mail _) _ _ _ |- _ => inversion M; subst; clear M
    | M : mail_in (NReg _) _ _ _ |- _ => inversion M; subst; clear M
    end; try (cbn in T; destruct T).
Qed.
