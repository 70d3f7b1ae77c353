(** C63: upgrading the database. *)
From Verif Require Import Bytes Terms Meta Db Decimal Features FeaturesSpec P_Features Paths PathsSpec PathsProofs PathsProofs2 PathsProofs3 Upgrade UpgradeSpec UpgradeProofs UpgradeProofs2 UpgradeProofs3 UpgradeProofs4.
From Coq Require Import ZArith Lia Sorted.
Local Open Scope nat_scope.

(** Whatever fails and wherever the process is killed, the disk holds the old database
    or, if the call succeeded, the upgraded one; an error leaves the old one in use. *)
Theorem C63_all_or_nothing sha1 compress root count_fails search_fails lookup_fails s st s' :
  s_txn s = None -> upgrade sha1 compress root count_fails search_fails lookup_fails s = (st, s') ->
  (forall d, In d (s_crash s') -> In d (s_crash s) \/ (st = U_ok /\ d = s_db s')) /\
  (st <> U_ok -> s_crash s' = s_crash s) /\
  (st = U_error -> s_db s' = s_db s /\ s_txn s' = None) /\
  (st = U_ok -> s_txn s' = None).
Proof.
  intros Htx E. unfold upgrade in E. cbv zeta in E.
  destruct (needs_upgrade true (u_version (s_db s)) (s_feat s)); cbn [negb] in E.
  2:{ injection E as <- <-. repeat split; auto; intros X; congruence. }
  assert (Ab : (U_abort, s) = (st, s') -> (forall d, In d (s_crash s') -> In d (s_crash s) \/ (st = U_ok /\ d = s_db s')) /\
    (st <> U_ok -> s_crash s' = s_crash s) /\ (st = U_error -> s_db s' = s_db s /\ s_txn s' = None) /\ (st = U_ok -> s_txn s' = None)).
  { intros X. injection X as <- <-. repeat split; auto; intros Y; congruence. }
  destruct (has _ _ && count_fails).
  { unfold done_label, cancel_transaction, abort in E. rewrite Htx in E. exact (Ab E). }
  unfold begin_transaction in E. rewrite Htx in E.
  set (s0 := set_feat (N.lor (s_feat s) FEATURES_CURRENT) _) in E.
  assert (G : forall s1, step_frame s0 s1 -> forall r, (r = U_ok -> done_label U_ok s1 = (st, s')) -> (r <> U_ok -> done_label r s1 = (st, s')) ->
    (forall d, In d (s_crash s') -> In d (s_crash s) \/ (st = U_ok /\ d = s_db s')) /\
    (st <> U_ok -> s_crash s' = s_crash s) /\ (st = U_error -> s_db s' = s_db s /\ s_txn s' = None) /\ (st = U_ok -> s_txn s' = None)).
  { intros s1 F r H1 H2. assert (Tx : s_txn s1 = Some (s_db s)) by (rewrite (sf_txn _ _ F); reflexivity).
    assert (Cr : s_crash s1 = s_crash s) by (exact (sf_crash _ _ F ltac:(discriminate))).
    assert (H : done_label r s1 = (st, s')) by (destruct r; [apply H1; reflexivity|apply H2; discriminate|apply H2; discriminate]).
    unfold done_label, commit_transaction, cancel_transaction in H. rewrite Tx in H. destruct r; injection H as <- <-; cbn.
    - rewrite Cr. split; [intros d [<-|Hd]; auto|]. split; [intros X; congruence|]. split; [intros X; discriminate X|reflexivity].
    - rewrite Cr. split; [auto|]. split; [auto|]. split; [auto|intros X; discriminate X].
    - rewrite Cr. split; [auto|]. split; [auto|]. split; intros X; discriminate X. }
  destruct (has _ _ && search_fails); [apply (G s0 (step_frame_refl _) U_error); [discriminate|auto]|].
  assert (Ab0 : forall s1, step_frame s0 s1 -> abort s1 = (st, s') -> (forall d, In d (s_crash s') -> In d (s_crash s) \/ (st = U_ok /\ d = s_db s')) /\
    (st <> U_ok -> s_crash s' = s_crash s) /\ (st = U_error -> s_db s' = s_db s /\ s_txn s' = None) /\ (st = U_ok -> s_txn s' = None)).
  { intros s1 F X. apply (G s1 F U_abort); [discriminate|auto]. }
  destruct (if has _ (N.lor _ _) then _ else _) as [s1|] eqn:E1; [|exact (Ab0 s0 (step_frame_refl _) E)].
  assert (F1 : step_frame s0 s1).
  { destruct (has _ (N.lor _ _)); [now apply messages_frame in E1|injection E1 as <-; apply step_frame_refl]. }
  destruct (if has _ DIRECTORY_DOCS then _ else _) as [s2|] eqn:E2; [|exact (Ab0 s1 F1 E)].
  assert (F2 : step_frame s1 s2).
  { destruct (has _ DIRECTORY_DOCS); [now apply stamps_frame in E2|injection E2 as <-; apply step_frame_refl]. }
  destruct (if has _ GHOSTS then _ else _) as [r s3] eqn:E3.
  assert (F3 : step_frame s2 s3).
  { destruct (has _ GHOSTS); [now apply ghosts_frame in E3|injection E3 as _ <-; apply step_frame_refl]. }
  pose proof (step_frame_trans _ _ _ F1 (step_frame_trans _ _ _ F2 F3)) as F.
  destruct r.
  - eapply (G _ (step_frame_trans _ _ _ F (step_frame_trans _ _ _ (put_frame _ s3) (put_frame _ _))) U_ok); [intros _; exact E|congruence].
  - apply (G s3 F U_error); [discriminate|auto].
  - apply (G s3 F U_abort); [discriminate|auto].
Qed.
Print Assumptions C63_all_or_nothing.

Lemma Forall2_len {A B} (R : A -> B -> Prop) l k : Forall2 R l k -> length l = length k.
Proof. induction 1; cbn; congruence. Qed.

Section C63.
Variable sha1 compress : bytes -> bytes.
Variable rcs : list bytes.
Variable D : list bytes -> Prop.
Variable count_fails search_fails : bool.
Variable lookup_fails : bytes -> bool.
Let root := absolute rcs.
Let up := upgrade sha1 compress root count_fails search_fails lookup_fails.

(** Messages: every one keeps its number and its other terms; its files are those it
    had plus the one its data named; "path:" and "folder:" terms are those of its
    files; ghosts are untouched; the only new documents of this kind are ghosts. *)
Theorem C63_messages s s' :
  names rcs -> rcs <> [] -> old_database sha1 compress root D s ->
  needs_upgrade true (u_version (s_db s)) (s_feat s) = true -> up s = (U_ok, s') ->
  (next_id (u_dirs (s_db s')) <= 2 ^ 32)%N ->
  exists ms gs, u_msgs (s_db s') = ms ++ gs /\ Forall (fun g => is_mail g = false) gs /\
    Forall2 (fun m m' => if is_mail m
                         then is_mail m' = true /\
                              forall F, old_message sha1 root D (s_feat s) (u_dirs (s_db s)) m F ->
                              exists F', upgraded_files root (s_feat s) m F F' /\
                                         new_message root (s_feat s) (u_dirs (s_db s')) m m' F'
                         else m' = m) (u_msgs (s_db s)) ms.
Proof.
  intros Rn Rne HO Hneed E Hn.
  destruct (upgrade_success sha1 compress rcs Rn Rne D count_fails search_fails lookup_fails s s' HO Hneed E)
    as (_ & _ & _ & _ & _ & _ & _ & Hk & _ & (ms & gs & Eq & B1 & _ & G & _) & _).
  exists ms, gs. split; [exact Eq|]. split.
  - clear - G. revert G. generalize (if has (s_feat s) GHOSTS then [] else filter (missing compress (s_db s)) (u_tids (s_db s))). intros l G.
    induction G as [|p g l gs [[_ Hg] _] _ IH]; constructor; [|exact IH]. destruct (is_mail g) eqn:E; [|reflexivity]. apply is_mail_In in E.
    apply Hg in E as [E|[E|E]]; discriminate.
  - eapply Forall2_imp; [|exact B1]. intros m m' H. unfold msg_rel in H. destruct (is_mail m); [|exact H].
    destruct H as (H1 & H2 & H3 & H4 & _). split; [exact H1|]. intros F HF.
    eapply (message_inv_spec sha1 rcs Rn Rne D); eauto. exact (od_directories _ _ _ _ _ HO).
Qed.

(** Modification revisions: a database without them gets, for every message, one above
    all earlier ones, all different; otherwise a message keeps its own or gets a new one. *)
Theorem C63_revisions s s' :
  names rcs -> rcs <> [] -> old_database sha1 compress root D s ->
  needs_upgrade true (u_version (s_db s)) (s_feat s) = true -> up s = (U_ok, s') ->
  exists ms gs, u_msgs (s_db s') = ms ++ gs /\ length ms = length (u_msgs (s_db s)) /\
    (has (s_feat s) LAST_MOD = false ->
       NoDup (map um_lastmod (filter is_mail ms)) /\ Forall (fun m => is_mail m = true -> s_rev s < um_lastmod m <= s_rev s')%N ms) /\
    Forall2 (fun m m' => um_lastmod m' = um_lastmod m \/ (s_rev s < um_lastmod m' <= s_rev s')%N) (u_msgs (s_db s)) ms /\
    Forall (fun g => s_rev s < um_lastmod g <= s_rev s')%N gs.
Proof.
  intros Rn Rne HO Hneed E.
  destruct (upgrade_success sha1 compress rcs Rn Rne D count_fails search_fails lookup_fails s s' HO Hneed E)
    as (_ & _ & _ & _ & _ & _ & _ & Hk & _ & (ms & gs & Eq & B1 & B2 & G & _) & _).
  exists ms, gs. split; [exact Eq|]. split; [symmetry; exact (Forall2_len _ _ _ B1)|]. split; [|split].
  - intros Hl. destruct (B2 Hl) as [S1 S2]. split.
    + clear - S1. induction S1 as [|x l H IH Hf]; constructor; [|exact IH]. intros Hin. rewrite Forall_forall in Hf. apply Hf in Hin. lia.
    + rewrite Forall_map in S2. rewrite Forall_forall in *. intros m Hm Em. apply S2. now apply filter_In.
  - eapply Forall2_imp; [|exact B1]. intros m m' H. unfold msg_rel in H. destruct (is_mail m); [|left; congruence]. tauto.
  - clear - G. revert G. generalize (if has (s_feat s) GHOSTS then [] else filter (missing compress (s_db s)) (u_tids (s_db s))). intros l G.
    induction G as [|p g l gs (_ & Hg & _) _ IH]; constructor; [exact Hg|exact IH].
Qed.

(** Directories: a database with time stamp documents gets, for each directory, the
    time of its stamp; other directories keep theirs, new ones get 0; the old stamps
    are gone. *)
Theorem C63_directories s s' :
  names rcs -> rcs <> [] -> old_database sha1 compress root D s ->
  needs_upgrade true (u_version (s_db s)) (s_feat s) = true -> up s = (U_ok, s') ->
  (if has (s_feat s) DIRECTORY_DOCS then u_stamps (s_db s') = u_stamps (s_db s) else u_stamps (s_db s') = []) /\
  forall cs, D cs ->
    match (if has (s_feat s) DIRECTORY_DOCS then None else last_stamp root (u_stamps (s_db s)) cs) with
    | Some z => mtime_of sha1 (s_db s') cs = Some z
    | None => mtime_of sha1 (s_db s') cs = mtime_of sha1 (s_db s) cs \/
              (mtime_of sha1 (s_db s) cs = None /\ mtime_of sha1 (s_db s') cs = Some 0%Z)
    end.
Proof.
  intros Rn Rne HO Hneed E.
  destruct (upgrade_success sha1 compress rcs Rn Rne D count_fails search_fails lookup_fails s s' HO Hneed E)
    as (_ & _ & _ & _ & _ & St & _ & _ & _ & _ & T).
  split; [rewrite St; now destruct (has (s_feat s) DIRECTORY_DOCS)|exact T].
Qed.

(** Ghosts: a database with stored thread ids gets one ghost, in that thread, for each
    id that has no document, and none for the others; the stored thread ids are gone. *)
Theorem C63_ghosts s s' :
  names rcs -> rcs <> [] -> old_database sha1 compress root D s ->
  needs_upgrade true (u_version (s_db s)) (s_feat s) = true -> up s = (U_ok, s') ->
  exists ms gs, u_msgs (s_db s') = ms ++ gs /\ length ms = length (u_msgs (s_db s)) /\
    (if has (s_feat s) GHOSTS then gs = [] /\ u_tids (s_db s') = u_tids (s_db s)
     else u_tids (s_db s') = [] /\ NoDup (map um_doc gs) /\
          Forall (fun g => next_id (u_dirs (s_db s)) <= um_doc g)%N gs /\
          Forall2 (fun p g => ghost compress (fst p) (snd p) g)
            (filter (fun p => match find_message compress (fst p) (s_db s) with None => true | Some _ => false end) (u_tids (s_db s))) gs).
Proof.
  intros Rn Rne HO Hneed E.
  destruct (upgrade_success sha1 compress rcs Rn Rne D count_fails search_fails lookup_fails s s' HO Hneed E)
    as (_ & _ & _ & _ & _ & _ & Td & Hk & _ & (ms & gs & Eq & B1 & B2 & G & Nd) & _).
  exists ms, gs. split; [exact Eq|]. split; [symmetry; exact (Forall2_len _ _ _ B1)|].
  destruct (has (s_feat s) GHOSTS); [split; [now inversion G|exact Td]|]. split; [exact Td|]. split; [exact Nd|]. split.
  - clear - G. revert G. generalize (filter (missing compress (s_db s)) (u_tids (s_db s))). intros l G.
    induction G as [|p g l gs (_ & _ & Hg) _ IH]; constructor; [apply Hg|exact IH].
  - eapply Forall2_imp; [|exact G]. intros p g (H & _). exact H.
Qed.

(** Afterwards: the stored features and version are those of this version of notmuch,
    reopening the database finds them and no upgrade is needed; on the handle a second
    upgrade does nothing. *)
Theorem C63_done s s' :
  names rcs -> rcs <> [] -> old_database sha1 compress root D s ->
  needs_upgrade true (u_version (s_db s)) (s_feat s) = true -> (s_feat s < 2 ^ N.of_nat (length known_names))%N ->
  up s = (U_ok, s') ->
  (forall rw, check_open (u_version (s_db s')) (u_features (s_db s')) rw = OpenOk (N.lor (s_feat s) FEATURES_CURRENT)) /\
  s_feat s' = N.lor (s_feat s) FEATURES_CURRENT /\
  needs_upgrade true (u_version (s_db s')) (s_feat s') = false /\ up s' = (U_ok, s') /\ hd_error (s_crash s') = Some (s_db s').
Proof.
  intros Rn Rne HO Hneed Hf E.
  destruct (upgrade_success sha1 compress rcs Rn Rne D count_fails search_fails lookup_fails s s' HO Hneed E)
    as (_ & Cr & Sf & Fe & Ve & _).
  pose proof (fun rw => C28_upgrade_then_reopen (s_feat s) rw Hf) as X. unfold upgrade_metadata in X.
  rewrite Fe, Ve, Sf. split; [intros rw; apply (X rw)|]. split; [reflexivity|].
  assert (Nn : needs_upgrade true DATABASE_VERSION (N.lor (s_feat s) FEATURES_CURRENT) = false) by apply (X true).
  split; [exact Nn|]. split; [|rewrite Cr; reflexivity].
  unfold up, upgrade. cbv zeta. now rewrite Ve, Sf, Nn.
Qed.
End C63.
Print Assumptions C63_messages.
Print Assumptions C63_revisions.
Print Assumptions C63_directories.
Print Assumptions C63_ghosts.
Print Assumptions C63_done.

(** A database of the first version: one message whose file is named in its data, one
    directory time stamp, two stored thread ids. *)
Definition ex_message (file : bytes) : umsg :=
  {| um_doc := 1; um_terms := map lit ["Kinbox"; "Qx"; "Tmail"; "XFOLDERold"; "ZXFOLDERold"]%string; um_data := file; um_lastmod := 0 |}.
Definition ex_old (file : bytes) : udb :=
  {| u_msgs := [ex_message file]; u_dirs := {| dl := []; next_id := 3 |};
     u_mtimes := []; u_stamps := [(lit "a", 5%Z)]; u_tids := [(lit "x", lit "t0"); (lit "y", lit "t1")];
     u_features := []; u_version := 0 |}.
Definition ex_state (file : bytes) : ustate :=
  {| s_db := ex_old file; s_txn := None; s_crash := [ex_old file]; s_feat := 0; s_rev := 0 |}.
Definition ex_D (cs : list bytes) : Prop := In cs [[]; [lit "a"]; [lit "a"; lit "cur"]].
Definition ex_up (f : bytes) := upgrade (fun x => x) (fun x => x) (lit "/m") false false (fun _ => false) (ex_state f).

Lemma ex_old_ok b : name_ok b -> old_database (fun x => x) (fun x => x) (absolute [lit "m"]) ex_D (ex_state (lit "/m/a/cur/" ++ b)).
Proof.
  intros Hb.
  assert (Nm : forall cs, ex_D cs -> names cs).
  { intros cs [<-|[<-|[<-|[]]]]; repeat constructor; try (intros X; discriminate X);
      intros X; repeat (destruct X as [X|X]; [discriminate X|]); exact X. }
  constructor; cbn [ex_state ex_old s_db s_txn u_msgs u_dirs u_mtimes u_stamps u_tids s_feat dl].
  - reflexivity.
  - constructor; [exact Nm| |].
    + intros cs b0 [H|[H|[H|[]]]].
      * symmetry in H. now apply app_eq_nil in H as [_ H].
      * change [lit "a"] with ([] ++ [lit "a"]) in H. apply app_inj_tail in H as [<- _]. now left.
      * change [lit "a"; lit "cur"] with ([lit "a"] ++ [lit "cur"]) in H. apply app_inj_tail in H as [<- _]. right; now left.
    + unfold no_collision. intros d1 d2 [<-|[<-|[<-|[]]]] [<-|[<-|[<-|[]]]] E; solve [reflexivity|vm_compute in E; discriminate E].
  - constructor; [intros d []|constructor|intros d []].
  - intros i z [].
  - intros m [<-|[]] _. exists []. constructor; cbn [um_terms um_data ex_message].
    + repeat constructor.
    + intros g [].
    + intros e. split; [|intros (g & i & [] & _)].
      intros H. exfalso. repeat (destruct H as [H|H]; [discriminate H|]). destruct H.
    + intros _. split; [reflexivity|]. right. exists [lit "a"; lit "cur"], b. split; [right; right; now left|]. split; [exact Hb|].
      right. exists 0%nat. reflexivity.
    + cbn [has N.land N.eqb negb BOOL_FOLDER]. intros x. split; intros H; repeat (destruct H as [H|H]; [discriminate H|]); destruct H.
  - intros p z [H|[]]. injection H as <- _. exists [lit "a"]. split; [right; now left|]. left. reflexivity.
  - repeat constructor; [|intros []]. intros [H|[]]. discriminate H.
Qed.

Example C63_example :
  name_ok (lit "f") /\ names [lit "m"] /\
  needs_upgrade true (u_version (ex_old (lit "/m/a/cur/f"))) 0 = true /\
  (0 < 2 ^ N.of_nat (length known_names))%N /\
  exists s', ex_up (lit "/m/a/cur/f") = (U_ok, s') /\ (next_id (u_dirs (s_db s')) <= 2 ^ 32)%N /\
    length (u_msgs (s_db s')) = 2 /\ s_rev s' = 2%N /\
    match u_msgs (s_db s') with
    | m :: g :: _ =>
        get_filenames (lit "/m") (u_dirs (s_db s')) (um_terms m) = [Some (lit "/m/a/cur/f")] /\ is_mail g = false
    | _ => False
    end /\
    mtime_of (fun x => x) (s_db s') [lit "a"] = Some 5%Z /\ mtime_of (fun x => x) (s_db s') [lit "a"; lit "cur"] = Some 0%Z.
Proof.
  split; [split; [discriminate|intros [X|[]]; discriminate X]|].
  split; [repeat constructor; [discriminate|intros [X|[]]; discriminate X]|].
  split; [reflexivity|]. split; [reflexivity|].
  eexists. split; [vm_compute; reflexivity|]. repeat split; vm_compute; try reflexivity; intros X; discriminate X.
Qed.

(** Not so: a message keeps its file.  If the name of the file is too long for a term,
    adding it fails, the failure is not looked at and the data is cleared: afterwards
    the message has no file at all. *)
Theorem C63_long_name_kept_refuted :
  exists b s' m g, name_ok b /\ (length b <= 255)%nat /\
    old_database (fun x => x) (fun x => x) (absolute [lit "m"]) ex_D (ex_state (lit "/m/a/cur/" ++ b)) /\
    ex_up (lit "/m/a/cur/" ++ b) = (U_ok, s') /\ u_msgs (s_db s') = [m; g] /\
    um_data m = [] /\ get_filenames (lit "/m") (u_dirs (s_db s')) (um_terms m) = [].
Proof.
  assert (Hb : name_ok (repeat "f"%char 240)).
  { split; [discriminate|]. intros H. apply repeat_spec in H. discriminate H. }
  exists (repeat "f"%char 240).
  assert (E : let r := ex_up (lit "/m/a/cur/" ++ repeat "f"%char 240) in
              fst r = U_ok /\ exists m g, u_msgs (s_db (snd r)) = [m; g] /\ um_data m = [] /\
                get_filenames (lit "/m") (u_dirs (s_db (snd r))) (um_terms m) = []).
  { split; [vm_compute; reflexivity|]. do 2 eexists. split; [vm_compute; reflexivity|]. split; vm_compute; reflexivity. }
  destruct E as [E1 (m & g & E2 & E3 & E4)].
  exists (snd (ex_up (lit "/m/a/cur/" ++ repeat "f"%char 240))), m, g. split; [exact Hb|].
  split; [apply Nat.leb_le; vm_compute; reflexivity|]. split; [exact (ex_old_ok _ Hb)|].
  split; [rewrite <- E1; now destruct (ex_up _)|]. auto.
Qed.
Print Assumptions C63_long_name_kept_refuted.

(** Not so: after a failed upgrade the handle still knows that one is needed.  The
    features of the handle have been set to the target and are not set back (here the
    version is the current one, so only the features decide). *)
Theorem C63_handle_after_failure_refuted :
  exists s s', s_txn s = None /\ needs_upgrade true (u_version (s_db s)) (s_feat s) = true /\
    upgrade (fun x => x) (fun x => x) (lit "/m") false false (fun _ => true) s = (U_error, s') /\
    s_db s' = s_db s /\ check_open (u_version (s_db s')) (u_features (s_db s')) true = OpenOk (s_feat s) /\
    needs_upgrade true (u_version (s_db s')) (s_feat s') = false.
Proof.
  exists {| s_db := with_meta [] 3 (ex_old (lit "/m/a/cur/f")); s_txn := None; s_crash := []; s_feat := 0; s_rev := 0 |}.
  eexists. split; [reflexivity|]. split; [vm_compute; reflexivity|]. split; [vm_compute; reflexivity|].
  repeat split; vm_compute; reflexivity.
Qed.
Print Assumptions C63_handle_after_failure_refuted.

(** Not so: every failure is reported.  If counting the messages fails, the transaction
    that is cancelled has not been begun, and Xapian throws. *)
Theorem C63_count_failure_reported_refuted :
  exists s', old_database (fun x => x) (fun x => x) (absolute [lit "m"]) ex_D (ex_state (lit "/m/a/cur/f")) /\
    upgrade (fun x => x) (fun x => x) (lit "/m") true false (fun _ => false) (ex_state (lit "/m/a/cur/f")) = (U_abort, s').
Proof.
  eexists. split; [apply (ex_old_ok (lit "f")); split; [discriminate|intros [X|[]]; discriminate X]|vm_compute; reflexivity].
Qed.
Print Assumptions C63_count_failure_reported_refuted.
