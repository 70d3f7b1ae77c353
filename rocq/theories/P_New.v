(** Properties C34 and C35: what "notmuch new" finds, adds and removes (notmuch-new.c). *)
From Verif Require Import Bytes DocMap MsgId MailStore MailStoreSpec Maildir New NewSpec NewProofs NewProofs4 NewProofs9 NewProofs10 NewProofs11 NewProofs12 NewExamples P_Threads.
From Coq Require Import Sorted Permutation.

(** A run never aborts, from any database that can exist, on any mail store, with any
    configuration, wherever it is interrupted. *)
Theorem C34_no_abort :
  forall compressed w db, short_hash compressed -> reached compressed db -> possible compressed w ->
  exists e db', run_new compressed w db = Some (e, db') /\ reached compressed db'.
Proof.
  intros c w db Hc Hr Hp. destruct (reached_good c Hc db Hr) as [Hi Hg].
  destruct (run_ok c Hc w false db Hi Hg Hp) as (e & db' & E & _); [discriminate|]. exists e, db'. split; [exact E|]. eapply reached_new; eassumption.
Qed.
Print Assumptions C34_no_abort.

(** C34: after a run that is not interrupted and does not fail, the recorded files are
    exactly: the regular files of the scanned directories that were recorded before or
    are readable mails (under the message id of the mail); and, of the files recorded
    before, those in places that are not scanned though their name still exists. *)
Theorem C34_exactly_the_visible_files :
  forall compressed w db e db', short_hash compressed -> reached compressed db -> possible compressed w ->
  w_full_scan w = true \/ trustworthy (w_ignored w) [] (w_root w) db ->
  run_new compressed w db = Some (e, db') -> e <> ExitFailure ->
  forall f id, recorded_for db' f id <->
    (exists c, visible (w_ignored w) [] (w_root w) f c /\
       (recorded_for db f id \/ ~ recorded db f /\ exists m keys, c = Some (m, keys, true) /\ id = stored compressed (f_id m))) \/
    (recorded_for db f id /\ shadowed (w_ignored w) [] (w_root w) f).
Proof.
  intros c w db e db' Hc Hr Hp Ht E Hne f id. destruct (reached_good c Hc db Hr) as [Hi Hg].
  destruct (run_ok c Hc w true db Hi Hg Hp ltac:(auto)) as (e' & db1 & E' & R). rewrite E in E'. injection E' as <- <-.
  assert (Hdir : is_dir (w_root w)). { destruct (is_dir_dec (w_root w)) as [X|X]; [exact X|]. pose proof (no_dir c w db X) as Y. congruence. }
  split.
  - intros H. destruct (r_sound _ _ _ _ _ _ _ _ _ _ R f id H) as [X|(X & m & keys & Y & ->)].
    + destruct (where_recorded c w db f Hg Hp Hdir) as [(co & V)|[S|G]]; [now exists id|left; exists co; auto|right; auto|].
      exfalso. exact (r_gone _ _ _ _ _ _ _ _ _ _ R eq_refl Hne f id H G).
    + left. exists (Some (m, keys, true)). split; [exact Y|]. right. split; [exact X|]. eauto.
  - intros [(co & V & [X|(X & m & keys & -> & ->)])|[X S]].
    + apply (r_stay _ _ _ _ _ _ _ _ _ _ R); [exact X|]. apply (not_gone c w f Hp). eauto.
    + apply (r_done _ _ _ _ _ _ _ _ _ _ R eq_refl Hne). split; [exact X|]. eauto.
    + apply (r_stay _ _ _ _ _ _ _ _ _ _ R); [exact X|]. apply (not_gone c w f Hp). auto.
Qed.
Print Assumptions C34_exactly_the_visible_files.

(** Whatever happens - interruption anywhere, failure, untrustworthy mtimes - only
    visible mails are added, and no file that is still visible is dropped. *)
Theorem C34_never_wrong :
  forall compressed w db e db', short_hash compressed -> reached compressed db -> possible compressed w -> run_new compressed w db = Some (e, db') ->
  (forall f id, recorded_for db' f id -> recorded_for db f id \/
     ~ recorded db f /\ exists m keys, visible (w_ignored w) [] (w_root w) f (Some (m, keys, true)) /\ id = stored compressed (f_id m)) /\
  (forall f id c, recorded_for db f id -> visible (w_ignored w) [] (w_root w) f c -> recorded_for db' f id).
Proof.
  intros c w db e db' Hc Hr Hp E. destruct (reached_good c Hc db Hr) as [Hi Hg].
  destruct (run_ok c Hc w false db Hi Hg Hp) as (e' & db1 & E' & R); [discriminate|]. rewrite E in E'. injection E' as <- <-. split.
  - apply (r_sound _ _ _ _ _ _ _ _ _ _ R).
  - intros f id co X V. apply (r_stay _ _ _ _ _ _ _ _ _ _ R); [exact X|]. apply (not_gone c w f Hp). eauto.
Qed.
Print Assumptions C34_never_wrong.

(** The exit status: success means that every visible mail is recorded; TEMPFAIL means
    that some visible mail that was not recorded could not be read. *)
Theorem C34_exit_status :
  forall compressed w db e db', short_hash compressed -> reached compressed db -> possible compressed w -> run_new compressed w db = Some (e, db') ->
  (e = ExitSuccess -> w_full_scan w = true \/ trustworthy (w_ignored w) [] (w_root w) db ->
     forall f m keys ok, visible (w_ignored w) [] (w_root w) f (Some (m, keys, ok)) -> recorded db' f) /\
  (e = ExitTempfail -> exists f m keys, visible (w_ignored w) [] (w_root w) f (Some (m, keys, false)) /\ ~ recorded db f).
Proof.
  intros c w db e db' Hc Hr Hp E. destruct (reached_good c Hc db Hr) as [Hi Hg]. split.
  - intros -> Ht f m keys ok V. destruct (run_ok c Hc w true db Hi Hg Hp ltac:(auto)) as (e' & db1 & E' & R). rewrite E in E'. injection E' as <- <-.
    destruct (rec_dec c db f Hi) as [(i & X)|X].
    + exists i. apply (r_stay _ _ _ _ _ _ _ _ _ _ R); [exact X|]. apply (not_gone c w f Hp). eauto.
    + destruct (r_success _ _ _ _ _ _ _ _ _ _ R eq_refl eq_refl f m keys ok V) as [->|Y]; [|contradiction].
      exists (stored c (f_id m)). apply (r_done _ _ _ _ _ _ _ _ _ _ R eq_refl ltac:(discriminate)). split; [exact X|]. eauto.
  - intros ->. destruct (run_ok c Hc w false db Hi Hg Hp) as (e' & db1 & E' & R); [discriminate|]. rewrite E in E'. injection E' as <- <-.
    exact (r_tempfail _ _ _ _ _ _ _ _ _ _ R eq_refl).
Qed.
Print Assumptions C34_exit_status.

(** A directory mtime is recorded only if it is the mtime of the scanned directory and
    lies in another second than the time of the scan, so that a later change in the same
    second is not missed (0 is what a new directory document has). *)
Theorem C34_mtimes :
  forall compressed w db e db', short_hash compressed -> reached compressed db -> possible compressed w -> run_new compressed w db = Some (e, db') ->
  forall p m, dir_get p db' = Some m -> dir_get p db = Some m \/ m = 0%Z \/
    exists nl es, scanned (w_ignored w) [] (w_root w) p (NDir m nl es) /\ m <> w_time w p.
Proof.
  intros c w db e db' Hc Hr Hp E. destruct (reached_good c Hc db Hr) as [Hi Hg].
  destruct (run_ok c Hc w false db Hi Hg Hp) as (e' & db1 & E' & R); [discriminate|]. rewrite E in E'. injection E' as <- <-.
  exact (r_mtime _ _ _ _ _ _ _ _ _ _ R).
Qed.
Print Assumptions C34_mtimes.

(** If a directory cannot be read or a link is dangling, a full scan exits with failure
    and drops nothing. *)
Theorem C34_an_obstacle_loses_nothing :
  forall compressed w db, short_hash compressed -> reached compressed db -> possible compressed w ->
  w_full_scan w = true -> obstacle (w_ignored w) (w_root w) ->
  exists db', run_new compressed w db = Some (ExitFailure, db') /\ forall f id, recorded_for db f id -> recorded_for db' f id.
Proof.
  intros c w db Hc Hr Hp Hf Ho. destruct (reached_good c Hc db Hr) as [Hi Hg]. unfold run_new. rewrite Hf.
  eapply (stopped_removes_nothing c Hc true) with (A := auto_tag c w); auto; [apply Hp|now apply possible_legal|now apply obstacle_not_readable].
Qed.
Print Assumptions C34_an_obstacle_loses_nothing.

(** After a successful run, running it again on the unchanged tree - full scan or not,
    interrupted anywhere or not - changes no recorded file, if link counts are honest. *)
Theorem C34_idempotent :
  forall compressed w db db1 w2 e db2, short_hash compressed -> reached compressed db -> possible compressed w ->
  w_full_scan w = true \/ trustworthy (w_ignored w) [] (w_root w) db -> honest_links (w_ignored w) (w_root w) ->
  run_new compressed w db = Some (ExitSuccess, db1) ->
  w_root w2 = w_root w -> w_verbatim w2 = w_verbatim w -> w_regex w2 = w_regex w -> run_new compressed w2 db1 = Some (e, db2) ->
  forall f id, recorded_for db2 f id <-> recorded_for db1 f id.
Proof.
  intros c w db db1 w2 e db2 Hc Hr Hp Ht Hh E1 Er Ev Ex E2 f id. destruct (reached_good c Hc db Hr) as [Hi Hg].
  destruct (run_ok c Hc w true db Hi Hg Hp ltac:(auto)) as (e' & db' & E' & R). rewrite E1 in E'. injection E' as <- <-.
  assert (Hp2 : possible c w2) by (unfold possible in *; rewrite Er; exact Hp).
  assert (T : trustworthy (w_ignored w2) [] (w_root w2) db1) by (unfold w_ignored; rewrite Er, Ev, Ex; exact (trusted_after c w db db1 Hi Hg Hp Hh R)).
  destruct (run_ok c Hc w2 true db1) as (e'' & db'' & E'' & R2); [apply R|apply R|exact Hp2|auto|]. rewrite E2 in E''. injection E'' as <- <-.
  assert (Ig : w_ignored w2 = w_ignored w) by (unfold w_ignored; congruence).
  split.
  - intros H. destruct (r_sound _ _ _ _ _ _ _ _ _ _ R2 f id H) as [X|(X & m & keys & Y & ->)]; [exact X|]. exfalso. apply X.
    rewrite Ev, Ex in Y. rewrite Er in Y. eapply (proj1 (C34_exit_status c w db ExitSuccess db1 Hc Hr Hp E1)); eauto.
  - intros H. apply (r_stay _ _ _ _ _ _ _ _ _ _ R2); [exact H|]. rewrite Er, Ev, Ex. exact (r_gone _ _ _ _ _ _ _ _ _ _ R eq_refl ltac:(discriminate) f id H).
Qed.
Print Assumptions C34_idempotent.

(** C35: a message with a name that is still visible, or a mail file with the same
    message id under a new visible name, survives - with all tags other than the
    maildir flag tags and those that indexing sets, and with its properties - wherever
    the run is interrupted. *)
Definition survives compressed (w : new_run) (d : mdoc) (db' : ndb) (k : N) : Prop :=
  exists d', has (n_mail db') k d' /\ m_id d' = m_id d /\ m_ghost d' = false /\ m_props d' = m_props d /\
    forall t, ~ flag_tag t -> ~ auto_tag compressed w (m_id d) t -> (In t (m_tags d') <-> In t (m_tags d)).
Theorem C35_a_visible_message_survives :
  forall compressed w db e db', short_hash compressed -> reached compressed db -> possible compressed w -> run_new compressed w db = Some (e, db') ->
  forall k d f c, has (n_mail db) k d -> m_ghost d = false -> In f (m_files d) -> visible (w_ignored w) [] (w_root w) f c ->
  survives compressed w d db' k /\ recorded_for db' f (m_id d).
Proof.
  intros c w db e db' Hc Hr Hp E k d f co H Hgh Hin V. destruct (reached_good c Hc db Hr) as [Hi Hg].
  destruct (run_ok c Hc w false db Hi Hg Hp) as (e' & db1 & E' & R); [discriminate|]. rewrite E in E'. injection E' as <- <-.
  assert (Ng := not_gone c w f Hp (or_introl (ex_intro _ co V))). split.
  - destruct (r_keeps _ _ _ _ _ _ _ _ _ _ R k d H Hgh) as (d' & X1 & X2 & X3 & _ & X4 & X5); [eauto|]. exists d'. auto.
  - apply (r_stay _ _ _ _ _ _ _ _ _ _ R); [|exact Ng]. exists k, d. auto.
Qed.
Print Assumptions C35_a_visible_message_survives.

Theorem C35_a_renamed_message_survives :
  forall compressed w db e db', short_hash compressed -> reached compressed db -> possible compressed w ->
  w_full_scan w = true \/ trustworthy (w_ignored w) [] (w_root w) db -> run_new compressed w db = Some (e, db') ->
  forall k d f m keys, has (n_mail db) k d -> m_ghost d = false -> ~ recorded db f ->
  visible (w_ignored w) [] (w_root w) f (Some (m, keys, true)) -> stored compressed (f_id m) = m_id d ->
  survives compressed w d db' k /\ (e <> ExitFailure -> recorded_for db' f (m_id d)).
Proof.
  intros c w db e db' Hc Hr Hp Ht E k d f m keys H Hgh Hn V Ei. destruct (reached_good c Hc db Hr) as [Hi Hg].
  destruct (run_ok c Hc w true db Hi Hg Hp ltac:(auto)) as (e' & db1 & E' & R). rewrite E in E'. injection E' as <- <-. split.
  - destruct (r_moved _ _ _ _ _ _ _ _ _ _ R eq_refl k d f m keys H Hgh V Hn Ei) as (d' & X1 & X2 & X3 & X4 & X5). exists d'. auto.
  - intros Hne. rewrite <- Ei. apply (r_done _ _ _ _ _ _ _ _ _ _ R eq_refl Hne). split; [exact Hn|]. eauto.
Qed.
Print Assumptions C35_a_renamed_message_survives.


(** Not true: "after a successful full scan every recorded file exists". A directory that
    has become a regular file keeps its old contents in the database (the names below it
    are only queued when no entry with its name exists any more). *)
Theorem C34_vanished_directory_is_noticed_refuted :
  exists compressed w db db' f, short_hash compressed /\ reached compressed db /\ possible compressed w /\ w_full_scan w = true /\
    run_new compressed w db = Some (ExitSuccess, db') /\ recorded db' f /\ ~ exists c, visible (w_ignored w) [] (w_root w) f c.
Proof.
  exists sha, (on true store3), db1, (after (on true store3) db1), (lit "/box/a").
  assert (P : possible sha (on true store3)) by now apply possible_on.
  assert (R' : reached sha (after (on true store3) db1)) by (apply after_reached; [apply db1_reached|exact P]).
  split; [apply sha_short|]. split; [apply db1_reached|]. split; [exact P|]. split; [reflexivity|]. split; [apply after_run; vm_compute; reflexivity|]. split.
  - exists (lit "a@x"). apply owner_some; [apply (reached_good sha sha_short _ R')|vm_compute; reflexivity].
  - intros (c & p & mt & nl & es & n & Hs & Hin & _ & E). cbn [on w_root store3] in Hs.
    apply scanned_dir in Hs as [[-> [= -> -> ->]]|(x & sub & H1 & H2 & _)].
    + cbn in Hin. destruct Hin as [[= <- _]|[[= <- _]|[]]]; discriminate E.
    + cbn in H1. destruct H1 as [[= <- <-]|[[= <- <-]|[]]]; destruct H2.
Qed.
Print Assumptions C34_vanished_directory_is_noticed_refuted.

(** Not true without [trustworthy]: "a successful run records every visible mail". A mail
    that appears in a directory reached through a symbolic link is missed for as long as
    the directory holding the link does not change. *)
Theorem C34_new_mail_behind_a_link_is_found_refuted :
  exists compressed w0 w db db' f m keys, short_hash compressed /\ reached compressed db /\ possible compressed w0 /\ possible compressed w /\
    run_new compressed w0 {| n_mail := empty_db; n_dirs := [] |} = Some (ExitSuccess, db) /\
    run_new compressed w db = Some (ExitSuccess, db') /\ visible (w_ignored w) [] (w_root w) f (Some (m, keys, true)) /\ ~ recorded db' f.
Proof.
  exists sha, (on false store4), (on false store5), (after (on false store4) nothing), (after (on false store5) (after (on false store4) nothing)), (lit "/link/new"), (letter (lit "n@x")), [].
  assert (P0 : possible sha (on false store4)) by now apply possible_on. assert (P : possible sha (on false store5)) by now apply possible_on.
  split; [apply sha_short|]. split; [apply after_reached; [constructor|exact P0]|]. split; [exact P0|]. split; [exact P|].
  split; [apply after_run; vm_compute; reflexivity|]. split; [apply after_run; vm_compute; reflexivity|]. split; [|apply owner_none; vm_compute; reflexivity].
  exists (lit "/link"), 30%Z, 2%N, [(lit "new", mail (lit "n@x"))], (lit "new"). split; [|split; [now left|split; [|reflexivity]]].
  - apply (scanned_sub _ [] store5 [] 10%Z 2%N [(lit "top", mail (lit "t@x")); (lit "link", NDir 30 2 [(lit "new", mail (lit "n@x"))])] (lit "link")); [constructor|cbn; auto|exact I|].
    split; [repeat split; try discriminate|]. split; [|intros [_ X]; discriminate X]. intros [_ X]; discriminate X.
  - repeat split; discriminate.
Qed.
Print Assumptions C34_new_mail_behind_a_link_is_found_refuted.

(** Not true: "a run after a temporary failure adds the mail that could not be read". *)
Theorem C34_temporary_failure_is_retried_refuted :
  exists compressed w0 w db db' f m keys, short_hash compressed /\ possible compressed w0 /\ possible compressed w /\
    run_new compressed w0 {| n_mail := empty_db; n_dirs := [] |} = Some (ExitTempfail, db) /\
    run_new compressed w db = Some (ExitSuccess, db') /\ visible (w_ignored w) [] (w_root w) f (Some (m, keys, true)) /\ ~ recorded db' f.
Proof.
  exists sha, (on false store6), (on false store7), (after (on false store6) nothing), (after (on false store7) (after (on false store6) nothing)), (lit "/late"), (letter (lit "l@x")), [].
  split; [apply sha_short|]. split; [now apply possible_on|]. split; [now apply possible_on|].
  split; [apply after_run; vm_compute; reflexivity|]. split; [apply after_run; vm_compute; reflexivity|]. split; [|apply owner_none; vm_compute; reflexivity].
  exists [], 10%Z, 2%N, [(lit "top", mail (lit "t@x")); (lit "late", mail (lit "l@x"))], (lit "late"). split; [constructor|]. split; [cbn; auto|]. split; [repeat split; discriminate|reflexivity].
Qed.
Print Assumptions C34_temporary_failure_is_retried_refuted.

(** A rename, a deletion and an addition between two runs: the renamed message keeps the
    tag set by the user; an ignored directory stays out. *)
Example C34_C35_nontrivial :
  files_of (after (on false store2) db1) =
    [(lit "a@x", [lit "/box/moved-a"], [lit "important"]); (lit "t@x", [lit "/top"], [lit "unread"; lit "inbox"]); (lit "c@x", [lit "/box/c"], [lit "unread"; lit "inbox"])] /\
  exit_of (on false store2) db1 = Some ExitSuccess /\ exit_of (on false store8) db1 = Some ExitSuccess /\ exit_of (on true store8) db1 = Some ExitFailure /\
  reached sha db1 /\ possible sha (on false store2) /\ obstacle (w_ignored (on true store8)) store8.
Proof.
  split; [vm_compute; reflexivity|]. split; [vm_compute; reflexivity|]. split; [vm_compute; reflexivity|]. split; [vm_compute; reflexivity|].
  split; [apply db1_reached|]. split; [now apply possible_on|]. left. exists (lit "/box"), 20%Z, 2%N.
  apply (scanned_sub _ [] store8 [] 10%Z 3%N [(lit "top", mail (lit "t@x")); (lit "box", NUnreadable 20 2)] (lit "box")); [constructor|cbn; auto|exact I|].
  split; [repeat split; try discriminate|]. split; intros [_ X]; discriminate X.
Qed.
