(** Property C75: "notmuch new" finds everything, whatever happened before (notmuch-new.c). *)
From Verif Require Import Bytes DocMap MsgId MailStore MailStoreSpec MailStoreProofs Maildir New NewSpec NewProofs NewProofs4 NewProofs9 NewProofs10 NewProofs11 NewProofs12 NewCrash NewHistorySpec NewHistoryProofs2 NewHistoryProofs3 NewHistoryProofs4 NewExamples NewHistoryExamples P_Threads.

(** What the history theorems share. *)
Lemma steps_to_run c v r H db w : short_hash c -> history c v r H db -> usable c v r w -> steady v r (Run w :: H) ->
  inv c (n_mail db) /\ good_ndb db /\ trustworthy (w_ignored w) [] (w_root w) db.
Proof.
  intros Hc Hh U St. destruct (history_sound c Hc v r H db Hh (steady_tail v r _ _ St)) as (Hi & Hg & So).
  split; [exact Hi|]. split; [exact Hg|]. assert (T := sound_trustworthy c v r H db w So U St). destruct U as (_ & Hv & Hx & _). unfold w_ignored. now rewrite Hv, Hx.
Qed.

(** After any history of runs - completed, interrupted, failed or killed at any moment -,
    deliveries, removals and changes of tags, a run that does not fail records exactly: the
    regular files of the scanned directories that were recorded before or are mails (under
    their message id), and, of the files recorded before, those in places that are not
    scanned though their name still exists.  In particular it records every visible mail.
    No full scan is needed: a directory that is skipped because its modification time is the
    recorded one has nothing new in it. *)
Theorem C75_converges :
  forall compressed v r H db w e db', short_hash compressed -> history compressed v r H db -> usable compressed v r w -> steady v r (Run w :: H) ->
  run_new compressed w db = Some (e, db') -> e <> ExitFailure ->
  (forall f id, recorded_for db' f id <->
    (exists c, visible (w_ignored w) [] (w_root w) f c /\
       (recorded_for db f id \/ ~ recorded db f /\ exists m keys, c = Some (m, keys, true) /\ id = stored compressed (f_id m))) \/
    (recorded_for db f id /\ shadowed (w_ignored w) [] (w_root w) f)) /\
  (forall f m keys ok, visible (w_ignored w) [] (w_root w) f (Some (m, keys, ok)) -> recorded db' f) /\ e = ExitSuccess.
Proof.
  intros c v r H db w e db' Hc Hh U St E Hne. destruct (steps_to_run c v r H db w Hc Hh U St) as (Hi & Hg & T).
  assert (Hp := proj1 U). assert (Hok : forall f keys ok, mail_in (w_root w) f keys ok -> ok = true) by apply U.
  destruct (run_ok c Hc w true db Hi Hg Hp ltac:(auto)) as (e' & db1 & E' & R). rewrite E in E'. injection E' as <- <-.
  assert (Hdir : is_dir (w_root w)). { destruct (is_dir_dec (w_root w)) as [X|X]; [exact X|]. pose proof (no_dir c w db X) as Y. congruence. }
  assert (Main : forall f id, recorded_for db' f id <->
    (exists c0, visible (w_ignored w) [] (w_root w) f c0 /\
       (recorded_for db f id \/ ~ recorded db f /\ exists m keys, c0 = Some (m, keys, true) /\ id = stored c (f_id m))) \/
    (recorded_for db f id /\ shadowed (w_ignored w) [] (w_root w) f)).
  { intros f id. split.
    - intros X0. destruct (r_sound _ _ _ _ _ _ _ _ _ _ R f id X0) as [X|(X & m & keys & Y & ->)].
      + destruct (where_recorded c w db f Hg Hp Hdir) as [(co & V)|[S|G]]; [now exists id|left; exists co; auto|right; auto|].
        exfalso. exact (r_gone _ _ _ _ _ _ _ _ _ _ R eq_refl Hne f id X0 G).
      + left. exists (Some (m, keys, true)). split; [exact Y|]. right. split; [exact X|]. eauto.
    - intros [(co & V & [X|(X & m & keys & -> & ->)])|[X S]].
      + apply (r_stay _ _ _ _ _ _ _ _ _ _ R); [exact X|]. apply (not_gone c w f Hp). eauto.
      + apply (r_done _ _ _ _ _ _ _ _ _ _ R eq_refl Hne). split; [exact X|]. eauto.
      + apply (r_stay _ _ _ _ _ _ _ _ _ _ R); [exact X|]. apply (not_gone c w f Hp). auto. }
  assert (Okv : forall f m keys ok, visible (w_ignored w) [] (w_root w) f (Some (m, keys, ok)) -> ok = true).
  { intros f m keys ok (p & mt & nl & es & n & Hs & Hin & _). eapply Hok. eapply scanned_mail; eassumption. }
  split; [exact Main|]. split.
  - intros f m keys ok V. assert (ok = true) by eauto. subst ok. destruct (rec_dec c db f Hi) as [(i & X)|X].
    + exists i. apply Main. left. eauto.
    + exists (stored c (f_id m)). apply Main. left. exists (Some (m, keys, true)). split; [exact V|]. right. eauto.
  - destruct e; [reflexivity|congruence|]. destruct (r_tempfail _ _ _ _ _ _ _ _ _ _ R eq_refl) as (f & m & keys & V & _). now apply Okv in V.
Qed.
Print Assumptions C75_converges.

(** Such a run exists and succeeds: it only needs not to be interrupted and to find the
    directories readable and no dangling link. *)
Theorem C75_one_more_run_is_enough :
  forall compressed v r H db w, short_hash compressed -> history compressed v r H db -> usable compressed v r w -> steady v r (Run w :: H) ->
  w_ticks w = None -> is_dir (w_root w) -> ~ obstacle (w_ignored w) (w_root w) ->
  exists db', run_new compressed w db = Some (ExitSuccess, db') /\
    (forall f, (exists m keys ok, visible (w_ignored w) [] (w_root w) f (Some (m, keys, ok))) -> recorded db' f) /\
    (forall f, recorded db' f -> (exists c, visible (w_ignored w) [] (w_root w) f c) \/ shadowed (w_ignored w) [] (w_root w) f).
Proof.
  intros c v r H db w Hc Hh U St Ht Hd Hob. destruct (steps_to_run c v r H db w Hc Hh U St) as (Hi & Hg & T). assert (Hp := proj1 U).
  destruct (run_ok c Hc w true db Hi Hg Hp ltac:(auto)) as (e & db' & E & _).
  assert (Hne : e <> ExitFailure).
  { unfold run_new in E. rewrite Ht in E. eapply (calm_run c); [apply Hp|now apply NewProofs4.dirb_is_dir| |exact E].
    intros q x Hs. destruct x; try exact I.
    - intros n Hn Ho. apply Hob. right. exists q. eauto 10.
    - apply Hob. left. eauto. }
  destruct (C75_converges c v r H db w e db' Hc Hh U St E Hne) as (Main & All & ->). exists db'. split; [exact E|]. split.
  - intros f (m & keys & ok & V). eauto.
  - intros f (i & X). apply Main in X as [(co & V & _)|[_ S]]; eauto.
Qed.
Print Assumptions C75_one_more_run_is_enough.

(** A run killed at any moment drops no file that is still visible, adds only visible mails,
    and the messages of the visible files keep their properties and all tags that are not
    maildir flag tags and not set by indexing. *)
Theorem C75_killed_anywhere :
  forall compressed v r H db w db', short_hash compressed -> history compressed v r H db -> usable compressed v r w -> steady v r (Run w :: H) ->
  killed compressed w db db' ->
  (forall f id, recorded_for db' f id -> recorded_for db f id \/
     ~ recorded db f /\ exists m keys, visible (w_ignored w) [] (w_root w) f (Some (m, keys, true)) /\ id = stored compressed (f_id m)) /\
  (forall f id c, recorded_for db f id -> visible (w_ignored w) [] (w_root w) f c -> recorded_for db' f id) /\
  (forall k d f c, has (n_mail db) k d -> m_ghost d = false -> In f (m_files d) -> visible (w_ignored w) [] (w_root w) f c ->
     exists d', has (n_mail db') k d' /\ m_id d' = m_id d /\ m_ghost d' = false /\ m_props d' = m_props d /\
       forall t, ~ flag_tag t -> ~ auto_tag compressed w (m_id d) t -> (In t (m_tags d') <-> In t (m_tags d))).
Proof.
  intros c v r H db w db' Hc Hh U St K. destruct (steps_to_run c v r H db w Hc Hh U St) as (Hi & Hg & T). assert (Hp := proj1 U).
  assert (R : stop c (w_verbatim w) (w_regex w) (w_time w) (auto_tag c w) (w_root w) db db').
  { assert (X := fun ticks => stop_spec c Hc (w_full_scan w) (w_sync w) (w_tags w) (w_verbatim w) (w_regex w) (w_time w) (auto_tag c w) (w_root w) ticks db Hi Hg (proj1 Hp) (possible_legal c w Hp) (or_intror T)).
    destruct K as [ticks e db' E|ticks s1 s2 db' E1 E2 Hin].
    - destruct (X ticks) as [(e1 & db1 & E1 & R) _]. rewrite E in E1. injection E1 as <- <-. exact R.
    - destruct (X ticks) as [_ Y]. eapply Y; eassumption. }
  split; [exact (st_sound _ _ _ _ _ _ _ _ R)|]. split.
  - intros f id co X V. apply (st_stay _ _ _ _ _ _ _ _ R); [exact X|]. apply (not_gone c w f Hp). eauto.
  - intros k d f co X1 X2 X3 V. destruct (st_keeps _ _ _ _ _ _ _ _ R k d X1 X2) as (d' & Y1 & Y2 & Y3 & _ & Y4 & Y5).
    + exists f. split; [exact X3|]. apply (not_gone c w f Hp). eauto.
    + exists d'. auto.
Qed.
Print Assumptions C75_killed_anywhere.

(** Not true without "nothing happened to it in between": a directory is moved away, a run
    is killed while it removes the directory from the database, the directory is moved back
    with its old modification time.  A mail in it is then missed by every later run, since
    the recorded mtime of the half-removed directory is still there. *)
Theorem C75_directory_moved_away_and_back_refuted :
  exists compressed w0 w1 w2 db0 db1 db2 f m keys, short_hash compressed /\
    usable compressed (w_verbatim w0) (w_regex w0) w0 /\ usable compressed (w_verbatim w0) (w_regex w0) w1 /\ usable compressed (w_verbatim w0) (w_regex w0) w2 /\
    run_new compressed w0 {| n_mail := empty_db; n_dirs := [] |} = Some (ExitSuccess, db0) /\ killed compressed w1 db0 db1 /\
    run_new compressed w2 db1 = Some (ExitSuccess, db2) /\
    visible (w_ignored w2) [] (w_root w2) f (Some (m, keys, true)) /\ ~ recorded db2 f /\
    exists e db3, run_new compressed w2 db2 = Some (e, db3) /\ ~ recorded db3 f.
Proof.
  set (w0 := on false with_box). set (w1 := on false without_box). set (w2 := on false box_again).
  set (d0 := after w0 nothing). set (d1 := half_of w1 d0). set (d2 := after w2 d1).
  exists sha, w0, w1, w2, d0, d1, d2, (lit "/box/a"), (letter (lit "a@x")), [].
  split; [apply sha_short|]. split; [now apply fine_usable|]. split; [now apply (fine_usable w1)|]. split; [now apply (fine_usable w2)|].
  split; [apply after_run; vm_compute; reflexivity|]. split.
  { apply half_killed. unfold d1, half_of. destruct (half w1 d0) eqn:E; [reflexivity|]. exfalso.
    assert (L : match half w1 d0 with Some _ => true | None => false end = true) by (vm_compute; reflexivity). rewrite E in L. discriminate L. }
  split; [apply after_run; vm_compute; reflexivity|]. split.
  { exists (lit "/box"), 20%Z, 2%N, [(lit "a", mail (lit "a@x")); (lit "b", mail (lit "b@x"))], (lit "a"). split; [|split; [now left|split; [repeat split; discriminate|reflexivity]]].
    apply (scanned_sub _ [] box_again [] 12%Z 3%N [(lit "top", mail (lit "t@x")); (lit "box", box)] (lit "box")); [constructor|cbn; auto|exact I|].
    split; [repeat split; try discriminate|]. split; intros [_ X]; discriminate X. }
  split; [apply owner_none; vm_compute; reflexivity|]. exists ExitSuccess, (after w2 d2). split; [apply after_run; vm_compute; reflexivity|apply owner_none; vm_compute; reflexivity].
Qed.
Print Assumptions C75_directory_moved_away_and_back_refuted.

(** Not true if new.ignore changes: a name that is no longer ignored is missed as long as its
    directory does not change (--full-scan finds it, C34). *)
Theorem C75_changed_ignore_list_refuted :
  exists compressed w0 w1 db0 db1 f m keys, short_hash compressed /\
    usable compressed (w_verbatim w0) (w_regex w0) w0 /\ usable compressed (w_verbatim w1) (w_regex w1) w1 /\ w_root w1 = w_root w0 /\
    run_new compressed w0 {| n_mail := empty_db; n_dirs := [] |} = Some (ExitSuccess, db0) /\ run_new compressed w1 db0 = Some (ExitSuccess, db1) /\
    visible (w_ignored w1) [] (w_root w1) f (Some (m, keys, true)) /\ ~ recorded db1 f.
Proof.
  set (tree := NDir 10 2 [(lit "skip", mail (lit "s@x")); (lit "top", mail (lit "t@x"))]).
  set (w0 := on false tree).
  set (w1 := {| w_full_scan := false; w_sync := true; w_tags := []; w_verbatim := []; w_regex := []; w_time := fun _ => 1000%Z; w_root := tree; w_ticks := None |}).
  set (d0 := after w0 nothing). exists sha, w0, w1, d0, (after w1 d0), (lit "/skip"), (letter (lit "s@x")), [].
  split; [apply sha_short|]. split; [now apply fine_usable|]. split; [now apply (fine_usable w1)|]. split; [reflexivity|].
  split; [apply after_run; vm_compute; reflexivity|]. split; [apply after_run; vm_compute; reflexivity|]. split; [|apply owner_none; vm_compute; reflexivity].
  exists [], 10%Z, 2%N, [(lit "skip", mail (lit "s@x")); (lit "top", mail (lit "t@x"))], (lit "skip"). split; [constructor|]. split; [cbn; auto|]. split; [repeat split; discriminate|reflexivity].
Qed.
Print Assumptions C75_changed_ignore_list_refuted.

(** A history to which the theorems apply: a run interrupted after its first mail, a run
    interrupted between recording two modification times, a tag, new mail, a final run. *)
Definition first := stopped 5 with_box.
Definition second := stopped 11 with_box.
Definition last_run := on false more_mail.
Definition third : ndb := {| n_mail := retag sha (lit "a@x") [lit "important"] (n_mail (after second (after first nothing))); n_dirs := n_dirs (after second (after first nothing)) |}.
Example C75_nontrivial :
  history sha [lit "skip"] [] [Run second; Run first] third /\ usable sha [lit "skip"] [] last_run /\ steady [lit "skip"] [] [Run last_run; Run second; Run first] /\
  files_of (after first nothing) <> [] /\ owner (after first nothing) (lit "/top") = None /\ map snd (n_dirs third) = [0%Z; 20%Z] /\
  files_of (after last_run third) =
    [(lit "a@x", [lit "/box/a"], [lit "important"]); (lit "b@x", [lit "/box/b"], [lit "unread"; lit "inbox"]); (lit "t@x", [lit "/top"], [lit "unread"; lit "inbox"]); (lit "c@x", [lit "/box/c"], [lit "unread"; lit "inbox"])].
Proof.
  assert (U1 : usable sha [lit "skip"] [] first) by now apply (fine_usable first).
  assert (U2 : usable sha [lit "skip"] [] second) by now apply (fine_usable second).
  split.
  { apply h_tags. eapply h_run; [eapply h_run; [apply h_start|exact U1|]|exact U2|]; apply after_run; vm_compute; reflexivity. }
  split; [now apply (fine_usable last_run)|]. split.
  { intros H0 w H1 w0 H2 E p m es es0 (nl & O) (nl0 & O0) _.
    assert (Same : forall a b : new_run, w_root a = w_root b -> good_tree (w_root b) -> forall n1 n2 e1 e2, scanned (entry_in_ignore_list [lit "skip"] []) [] (w_root a) p (NDir m n1 e1) ->
       scanned (entry_in_ignore_list [lit "skip"] []) [] (w_root b) p (NDir m n2 e2) -> e1 = e2).
    { intros a b Er Hg n1 n2 e1 e2 X Y. rewrite Er in X. pose proof (scanned_fun [lit "skip"] [] _ Hg [] p _ _ X Y) as Z. now injection Z. }
    assert (Old : forall a b, In a [first; second] -> In b [first; second] -> forall n1 n2 e1 e2, scanned (entry_in_ignore_list [lit "skip"] []) [] (w_root a) p (NDir m n1 e1) ->
       scanned (entry_in_ignore_list [lit "skip"] []) [] (w_root b) p (NDir m n2 e2) -> e1 = e2).
    { intros a b Ha Hb n1 n2 e1 e2. apply Same.
      - destruct Ha as [<-|[<-|[]]], Hb as [<-|[<-|[]]]; reflexivity.
      - destruct Hb as [<-|[<-|[]]]; [apply U1|apply U2]. }
    assert (New : forall b, In b [first; second] -> forall n1 n2 e1 e2, scanned (entry_in_ignore_list [lit "skip"] []) [] (w_root last_run) p (NDir m n1 e1) ->
       scanned (entry_in_ignore_list [lit "skip"] []) [] (w_root b) p (NDir m n2 e2) -> p = [] /\ same_entries e2 e1).
    { intros b Hb n1 n2 e1 e2 X Y. assert (Eb : w_root b = with_box) by (destruct Hb as [<-|[<-|[]]]; reflexivity). rewrite Eb in Y.
      apply scanned_all in X, Y. cbn in X, Y. destruct X as [[= <- <- _ <-]|[[= <- <- _ <-]|[]]], Y as [Y|[Y|[]]]; try discriminate Y. injection Y as _ <-. split; [reflexivity|].
      split; [reflexivity|]. split; intros n c [[= <- <-]|[Z|[]]]; try discriminate Z; (eexists; split; [left; reflexivity|tauto]). }
    destruct H0 as [|x H0]; cbn in E.
    - injection E as <- E. destruct H1 as [|y H1]; cbn in E.
      + injection E as <- <-. destruct (New second ltac:(cbn; auto) _ _ _ _ O O0) as [_ S]. auto.
      + injection E as <- E. destruct H1 as [|z H1]; cbn in E.
        * injection E as <- <-. destruct (New first ltac:(cbn; auto) _ _ _ _ O O0) as [-> S]. split; [exact S|]. constructor; [|constructor].
          cbn. exists es0. split; [exists nl0; exact O0|apply same_refl].
        * injection E as _ E. destruct H1; discriminate E.
    - injection E as <- E. destruct H0 as [|y H0]; cbn in E.
      + injection E as <- E. destruct H1 as [|z H1]; cbn in E.
        * injection E as <- <-. rewrite (Old second first (or_intror (or_introl eq_refl)) (or_introl eq_refl) _ _ _ _ O O0). split; [apply same_refl|constructor].
        * injection E as _ E. destruct H1; discriminate E.
      + injection E as _ E. destruct H0 as [|z H0]; cbn in E; [|destruct H0; discriminate E]. injection E as _ E. destruct H1; discriminate E. }
  split; [vm_compute; discriminate|]. split; [vm_compute; reflexivity|]. split; [vm_compute; reflexivity|]. vm_compute. reflexivity.
Qed.
