From Verif Require Import Bytes Terms DocMap MsgId MsgIdProofs MailStore MailStoreSpec MailStoreProofs MailStoreProofs2 Maildir New NewSpec NewProofs NewProofs2 NewProofs3 NewProofs4 NewProofs5 NewProofs6 NewProofs7 NewProofs8 NewProofs9.
From Coq Require Import Sorted Permutation.

Ltac none := intros; match goal with H : noV _ _ |- _ => destruct H | H : noP _ |- _ => destruct H | H : noM _ _ |- _ => destruct H end.

Section Run.
Variable compressed : bytes -> bytes.
Hypothesis compressed_short : forall s, (length (compressed s) <= 189)%nat.
Variables (full_scan sync : bool) (new_tags ignore_verbatim : list bytes) (ignore_regex : list (bytes -> bool)) (stat_time : bytes -> Z).
Variable A : bytes -> bytes -> Prop.
Notation canon := (canon compressed).
Notation inv := (inv compressed).
Notation ignored := (entry_in_ignore_list ignore_verbatim ignore_regex).
Notation mail s := (n_mail (s_db s)).
Notation isrec s f := (recorded (s_db s) f).
Notation eff := (eff compressed sync new_tags A).
Notation ord := (ord ignore_verbatim ignore_regex).
Notation reg := (reg ignore_verbatim ignore_regex).
Notation present := (present ignore_verbatim ignore_regex).
Notation V2 := (V2 ignore_verbatim ignore_regex).
Notation pass1 := (pass1 ignore_verbatim ignore_regex).
Notation pass2 := (pass2 compressed sync new_tags ignore_verbatim ignore_regex).
Notation add_files := (add_files compressed full_scan sync new_tags ignore_verbatim ignore_regex stat_time).
Notation VT := (VT ignored).
Notation GT := (GT ignored).
Notation GDT := (GDT ignored).
Notation DT := (DT ignored).
Notation MT := (MT ignored stat_time).
Notation trustworthy := (trustworthy ignored).
Notation scanned := (scanned ignored).
Notation entered := (entered ignored).
Notation ordinary := (ordinary ignored).

Notation legal := (legal compressed A).
Notation mkE := (mkE compressed full_scan sync new_tags ignore_verbatim ignore_regex stat_time).
Notation ent := (ent ignore_verbatim ignore_regex).
Notation Sub := (Sub ignore_verbatim ignore_regex).
Notation walk_ok := (walk_ok compressed full_scan sync new_tags ignore_verbatim ignore_regex stat_time A).
Notation eff_weaken := (eff_weaken compressed sync new_tags A).
Notation eff_seq := (eff_seq compressed sync new_tags A).

Notation finish := (finish compressed sync new_tags ignore_verbatim ignore_regex stat_time).
Notation notmuch_new := (notmuch_new compressed full_scan sync new_tags ignore_verbatim ignore_regex stat_time).
Notation gone := (gone ignore_verbatim ignore_regex).
Notation recd db := (rec (n_mail db)).

Definition added (root : node) (db : ndb) (f i : bytes) : Prop :=
  ~ recorded db f /\ exists m keys, visible ignored [] root f (Some (m, keys, true)) /\ i = canon (f_id m).
Record run (root : node) (t : bool) (db : ndb) (e : new_exit) (db' : ndb) : Prop := {
  r_inv : inv (n_mail db');
  r_good : good_ndb db';
  r_sound : forall f i, recd db' f i -> recd db f i \/ added root db f i;
  r_stay : forall f i, recd db f i -> ~ gone [] root f -> recd db' f i;
  r_keeps : keeps (gone [] root) A (n_mail db) (n_mail db');
  r_mtime : forall q m, dir_get q db' = Some m -> dir_get q db = Some m \/ m = 0%Z \/ exists nl es, scanned [] root q (NDir m nl es) /\ m <> stat_time q;
  r_gone : t = true -> e <> ExitFailure -> forall f i, recd db' f i -> ~ gone [] root f;
  r_done : t = true -> e <> ExitFailure -> forall f i, added root db f i -> recd db' f i;
  r_dirs : t = true -> e <> ExitFailure -> forall q, known_dir db' q -> (known_dir db q \/ DT [] root q) /\ ~ (known_dir db q /\ exists d, GDT [] root d /\ beneath d q);
  r_success : t = true -> e = ExitSuccess -> forall f m keys ok, visible ignored [] root f (Some (m, keys, ok)) -> ok = true \/ recorded db f;
  r_tempfail : e = ExitTempfail -> exists f m keys, visible ignored [] root f (Some (m, keys, false)) /\ ~ recorded db f;
  r_moved : t = true -> forall k d f m keys, has (n_mail db) k d -> m_ghost d = false -> visible ignored [] root f (Some (m, keys, true)) -> ~ recorded db f ->
    canon (f_id m) = m_id d -> exists d', has (n_mail db') k d' /\ m_id d' = m_id d /\ m_ghost d' = false /\
    (forall t, ~ flag_tag t -> ~ A (m_id d) t -> (In t (m_tags d') <-> In t (m_tags d))) /\ m_props d' = m_props d }.

Lemma visible_fun root f m keys ok m' keys' ok' : good_tree root ->
  visible ignored [] root f (Some (m, keys, ok)) -> visible ignored [] root f (Some (m', keys', ok')) -> m = m'.
Proof.
  intros Hgt (q & mt & nl & es & n & Hs & Hin & Ho & E2) (q' & mt' & nl' & es' & n' & Hs' & Hin' & Ho' & E2').
  assert (Hn : mem SLASH n = false) by (eapply scanned_entry; [exact Hgt|exact Hs|exact Hin]). assert (Hn' : mem SLASH n' = false) by (eapply scanned_entry; [exact Hgt|exact Hs'|exact Hin']).
  rewrite E2 in E2'. apply child_inj in E2' as [<- <-]; auto. pose proof (scanned_fun ignore_verbatim ignore_regex root Hgt [] q _ _ Hs Hs') as X. injection X as <- <- <-.
  assert (Nd : NoDup (map fst es)) by (apply scanned_good in Hs; [now inversion Hs|exact Hgt]).
  pose proof (good_fun _ _ _ _ Nd Hin Hin') as X. now injection X.
Qed.
Lemma visible_rec_dec db f : inv (n_mail db) -> recorded db f \/ ~ recorded db f.
Proof.
  intros Hi. destruct (in_dec (list_eq_dec ascii_dec) f (all_files (n_mail db))) as [H|H]; [left|right; intros X; apply H]; now apply (all_files_In compressed) in H || apply (all_files_In compressed).
Qed.
Theorem run_spec root ticks t db : inv (n_mail db) -> good_ndb db -> good_tree root -> legal root ->
  (t = true -> full_scan = true \/ trustworthy [] root db) ->
  exists e db', notmuch_new root ticks db = Some (e, db') /\ run root t db e db'.
Proof.
  intros Hi Hg Hgt Hleg Ht. unfold New.notmuch_new.
  set (s := {| s_db := db; s_removed_files := []; s_removed_dirs := []; s_mtimes := []; s_vanished := 0; s_tick := ticks |}).
  assert (Idle : run root t db ExitFailure db).
  { constructor; auto; try congruence; try discriminate.
    - eapply keeps_weaken; [| |apply (keeps_refl (fun _ => False) A)]; [intros ? []|auto].
    - intros _ k d f m keys H1 H2 _ _ _. exists d. intuition. }
  destruct (dirb root) eqn:Hdb.
  2:{ assert (E : add_files root [] s = Some (false, s)) by (destruct root; try discriminate; reflexivity). rewrite E. exists ExitFailure, db. auto. }
  apply dirb_is_dir in Hdb.
  destruct (walk_all compressed compressed_short full_scan sync new_tags ignore_verbatim ignore_regex stat_time A root Hdb [] s t) as (b & s1 & E & F); auto; [now left|].
  rewrite E. assert (F' := F). destruct F' as [e_inv e_good e_sound e_mono e_keeps e_files e_dirs e_dmono e_dsound e_mt e_tick e_done e_van].
  change (s_db s) with db in *.
  assert (Sound : forall f i, recd (s_db s1) f i -> recd db f i \/ added root db f i).
  { intros f i H. apply e_sound in H as [H|(H1 & m & keys & H2 & ->)]; [now left|right]. split; [exact H1|]. eauto. }
  assert (Dsound : forall q m, dir_get q (s_db s1) = Some m -> dir_get q db = Some m \/ m = 0%Z).
  { intros q m H. apply e_dsound in H as [H|(_ & -> & _)]; auto. }
  assert (Keeps : keeps (gone [] root) A (n_mail db) (n_mail (s_db s1))).
  { eapply keeps_weaken; [| |exact e_keeps]; [intros ? []|auto]. }
  assert (Keep1 : forall k d, has (n_mail db) k d -> m_ghost d = false -> exists d', has (mail s1) k d' /\ m_id d' = m_id d /\ m_ghost d' = false /\
    (forall t, ~ flag_tag t -> ~ A (m_id d) t -> (In t (m_tags d') <-> In t (m_tags d))) /\ m_props d' = m_props d).
  { intros k d H1 H2. pose proof (i_files _ _ Hi k d H1) as X. rewrite H2 in X.
    destruct (e_keeps k d H1 H2) as (d' & Y1 & Y2 & Y3 & _ & Y4 & Y5); [destruct (m_files d) as [|g l]; [contradiction|exists g; cbn; auto]|]. exists d'. auto. }
  destruct b.
  2:{ exists ExitFailure, (s_db s1). split; [reflexivity|]. constructor; auto; try congruence; try discriminate.
      intros q m H. apply Dsound in H. tauto. }
  destruct e_files as (qf & Qf1 & Qf2 & Qf3). destruct e_dirs as (qd & Qd1 & Qd2 & Qd3). destruct e_mt as (ql & Ql1 & Ql2). cbn [s s_removed_files s_removed_dirs s_mtimes app] in Qf1, Qd1, Ql1.
  destruct (removal_loop_spec compressed sync (s_removed_files s1) s1 e_inv e_good) as (s2 & El2 & L2). rewrite El2.
  destruct L2 as [A1 A2 A3 A4 A5 A6 A7 A8 A9 A10 A11 A12 A13].
  destruct (directory_loop_spec compressed sync (s_removed_dirs s2) s2 A1 A2) as (s3 & El3 & L3). rewrite El3.
  destruct L3 as [B1 B2 B3 B4 B5 B6 B7 B8 B9 B10 B11 B12 B13].
  destruct (mtime_loop_spec (s_mtimes s3) s3 B2) as (C1 & C2 & C3 & C4 & C5 & C6).
  set (s4 := mtime_loop (s_mtimes s3) s3) in *.
  destruct (interrupted_spec s4) as (i & s5 & -> & Edb & _ & _ & _ & Evn & _ & Ei).
  rewrite Edb, Evn. rewrite A10, Qd1 in *. rewrite B11, A11, Ql1 in C4.
  assert (Live : i = false -> live s3 /\ live s2 /\ live s1).
  { intros ->. assert (L4 : live s4) by now apply Ei. assert (L3 := C6 L4). assert (L2 := B13 L3). auto. }
  assert (Rf : forall g, In g (s_removed_files s1) -> gone [] root g) by (intros g H; rewrite Qf1 in H; left; now apply Qf2).
  assert (Rd : forall g, (exists p, In p qd /\ below p g) -> gone [] root g) by (intros g (p & H & B); right; exists p; split; [now apply Qd2|exact B]).
  set (e := if i then ExitFailure else if Nat.eqb (s_vanished s4) 0 then ExitSuccess else ExitTempfail).
  assert (Ne : e <> ExitFailure -> i = false) by (unfold e; destruct i; congruence).
  assert (Van : s_vanished s4 = s_vanished s1) by congruence.
  exists e, (s_db s4). split; [reflexivity|]. constructor.
  - rewrite C1. exact B1.
  - exact C2.
  - intros f j H. rewrite C1 in H. apply Sound, A3, B3, H.
  - intros f j H N. rewrite C1. apply B4; [apply A4; [now apply e_mono|]|]; auto.
  - rewrite C1. eapply keeps_trans; [exact Keeps|]. eapply keeps_trans.
    + refine (keeps_weaken _ _ A A _ _ _ (fun i t X => X) (A9 A)). exact Rf.
    + refine (keeps_weaken _ _ A A _ _ _ (fun i t X => X) (B9 A)). exact Rd.
  - intros q m H. apply C4 in H as [H|H].
    + apply B6, A6, Dsound in H. tauto.
    + right. right. now apply Ql2.
  - intros T N f j H Hgone. destruct (Live (Ne N)) as (L3 & L2 & L1). rewrite C1 in H. assert (H1 := B3 f j H). assert (H2 := A3 f j H1).
    assert (Hr : recd db f j).
    { destruct (e_sound f j H2) as [X|(_ & m & keys & X & _)]; [exact X|]. exfalso. eapply visible_not_gone; eassumption. }
    destruct Hgone as [X|(d & X & Y)].
    + apply (A5 L2 f j H1). rewrite Qf1. apply Qf3; [exact L1|now rewrite T|now exists j|exact X].
    + apply (B5 L3 f j H). exists d. split; [|exact Y]. apply Qd3; [exact L1|now rewrite T| |exact X]. eapply file_up; [exact Hg|exists j; exact Hr|exact Y].
  - intros T N f j (H1 & m & keys & H2 & ->). destruct (Live (Ne N)) as (L3 & L2 & L1).
    destruct (e_done L1 T f m keys H2 H1) as (j & Hj).
    assert (j = canon (f_id m)).
    { assert (Hj' := Hj). apply e_sound in Hj as [Hj|(_ & m' & keys' & Hv & ->)]; [exfalso; apply H1; now exists j|].
      f_equal. f_equal. eapply visible_fun; eassumption. }
    subst j. rewrite C1. assert (Ng : ~ gone [] root f) by (eapply visible_not_gone; eassumption). apply B4; [apply A4|]; auto.
  - intros T N q K. destruct (Live (Ne N)) as (L3 & L2 & L1). apply C3 in K as (m & Hm). assert (Hm' := Hm). apply B6, A6 in Hm'. split.
    + apply e_dsound in Hm' as [X|(_ & _ & X)]; [left; now exists m|now right].
    + intros [Kq (d & Hd & Hb)]. rewrite B8 in Hm; [discriminate|exact L3|]. exists d. split; [|exact Hb]. apply Qd3; [exact L1|now rewrite T| |exact Hd]. eapply known_up; eassumption.
  - intros T E' f m keys ok H. destruct ok; [now left|right]. assert (Ie : i = false) by (apply Ne; congruence). destruct (Live Ie) as (L3 & L2 & L1).
    unfold e in E'. rewrite Ie in E'. destruct (Nat.eqb_spec (s_vanished s4) 0) as [Z|Z]; [|discriminate].
    destruct (visible_rec_dec db f Hi) as [X|X]; [exact X|]. exfalso. destruct e_van as (_ & V & _).
    assert (s_vanished s < s_vanished s1) by (apply (V L1 T f m keys H X)). lia.
  - intros E'. unfold e in E'. destruct i; [discriminate|]. destruct (Nat.eqb_spec (s_vanished s4) 0) as [Z|Z]; [discriminate|]. destruct e_van as (_ & _ & V).
    destruct V as (g & f & keys & X & Y); [cbn; lia|]. exists g, f, keys. auto.
  - intros T k d f m keys H1 H2 H3 H4 H5. destruct (Keep1 k d H1 H2) as (d1 & Y1 & Y2 & Y3 & Y4 & Y5).
    destruct (interrupted_cases s1) as [[_ NL]|(s0 & _ & L1 & _)].
    + (* nothing removed *)
      assert (Same : n_mail (s_db s4) = mail s1).
      { rewrite C1. assert (E2 : s2 = s1) by (destruct (dead_loops compressed sync s1 NL) as (D1 & _); congruence).
        assert (E3 : s3 = s2) by (rewrite E2 in *; destruct (dead_loops compressed sync s1 NL) as (_ & D2 & _); congruence). congruence. }
      rewrite Same. exists d1. auto.
    + destruct (e_done L1 T f m keys H3 H4) as (j & Hj).
      assert (Hf : In f (m_files d1)).
      { assert (Hj0 := Hj). apply e_sound in Hj0 as [Hj0|(_ & m' & keys' & Hv & Ej)]; [exfalso; apply H4; now exists j|].
        assert (Em : canon (f_id m') = canon (f_id m)) by (f_equal; f_equal; eapply visible_fun; eassumption).
        destruct Hj as (k2 & d2 & Z1 & Z2 & Z3). assert (k2 = k) by (eapply (i_unique _ _ e_inv); [exact Z1|exact Y1|congruence]). subst k2.
        unfold has in Z1, Y1. rewrite Y1 in Z1. injection Z1 as <-. exact Z2. }
      assert (Ng : ~ gone [] root f) by (eapply visible_not_gone; eassumption).
      assert (K : keeps (gone [] root) A (mail s1) (n_mail (s_db s4))).
      { rewrite C1. eapply keeps_trans.
        - refine (keeps_weaken _ _ A A _ _ _ (fun i t X => X) (A9 A)). exact Rf.
        - refine (keeps_weaken _ _ A A _ _ _ (fun i t X => X) (B9 A)). exact Rd. }
      destruct (K k d1 Y1 Y3) as (d2 & W1 & W2 & W3 & _ & W4 & W5); [eauto|]. exists d2. split; [exact W1|]. split; [congruence|]. split; [exact W3|]. split; [|congruence].
      intros tg X1 X2. rewrite W4; [now apply Y4|exact X1|congruence].
Qed.
End Run.
