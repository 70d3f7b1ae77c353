(** What a run of "notmuch new" leaves wherever it stops. *)
From Verif Require Import Bytes Terms DocMap MsgId MsgIdProofs MailStore MailStoreSpec MailStoreProofs MailStoreProofs2 Maildir New NewSpec NewProofs NewProofs2 NewProofs3 NewProofs4 NewProofs5 NewProofs6 NewProofs7 NewProofs8 NewProofs9 NewProofs10 NewProofs12 NewCrash NewHistoryProofs.
From Coq Require Import Sorted Permutation.

Section Stop.
Variable compressed : bytes -> bytes.
Hypothesis compressed_short : forall s, (length (compressed s) <= 189)%nat.
Variables (full_scan sync : bool) (new_tags ignore_verbatim : list bytes) (ignore_regex : list (bytes -> bool)) (stat_time : bytes -> Z).
Variable A : bytes -> bytes -> Prop.
Notation canon := (canon compressed).
Notation inv := (inv compressed).
Notation ignored := (entry_in_ignore_list ignore_verbatim ignore_regex).
Notation add_files := (add_files compressed full_scan sync new_tags ignore_verbatim ignore_regex stat_time).
Notation notmuch_new := (notmuch_new compressed full_scan sync new_tags ignore_verbatim ignore_regex stat_time).
Notation GDT := (GDT ignored).
Notation DT := (DT ignored).
Notation trustworthy := (trustworthy ignored).
Notation scanned := (scanned ignored).
Notation ordinary := (ordinary ignored).
Notation legal := (legal compressed A).
Notation gone := (gone ignore_verbatim ignore_regex).
Notation recd db := (rec (n_mail db)).
Notation added := (added compressed ignore_verbatim ignore_regex).

(** The database agrees with the listing [es] of the directory [p]. *)
Definition trust (p : bytes) (es : list (bytes * node)) (db : ndb) : Prop :=
  (forall n, mem SLASH n = false -> recorded db (child p n) -> ordinary p n /\ exists c, In (n, NReg c) es) /\
  (forall n f keys ok, In (n, NReg (Some (f, keys, ok))) es -> ordinary p n -> recorded db (child p n)) /\
  (forall n, mem SLASH n = false -> known_dir db (child p n) -> ordinary p n /\ exists nd, In (n, nd) es).
(** The scan and the removals are complete. *)
Record finished (root : node) (db db' : ndb) : Prop := {
  fi_gone : forall f i, recd db' f i -> ~ gone [] root f;
  fi_done : forall f i, added root db f i -> recd db' f i;
  fi_dirs : forall q, known_dir db' q -> (known_dir db q \/ DT [] root q) /\ ~ (known_dir db q /\ exists d, GDT [] root d /\ beneath d q) }.
Record stop (root : node) (db db' : ndb) : Prop := {
  st_inv : inv (n_mail db');
  st_good : good_ndb db';
  st_sound : forall f i, recd db' f i -> recd db f i \/ added root db f i;
  st_stay : forall f i, recd db f i -> ~ gone [] root f -> recd db' f i;
  st_keeps : keeps (gone [] root) A (n_mail db) (n_mail db');
  st_known : forall q, known_dir db' q -> known_dir db q \/ DT [] root q;
  st_mtime : (forall q m, dir_get q db' = Some m -> dir_get q db = Some m \/ m = 0%Z) \/
    (finished root db db' /\ forall q m, dir_get q db' = Some m -> dir_get q db = Some m \/ m = 0%Z \/ exists nl es, scanned [] root q (NDir m nl es) /\ m <> stat_time q) }.

Lemma stop_nothing root db : inv (n_mail db) -> good_ndb db -> stop root db db.
Proof.
  intros Hi Hg. constructor; auto.
  eapply keeps_weaken; [| |apply (keeps_refl (fun _ => False) A)]; [intros ? []|auto].
Qed.
(** Up to the end of the directory loop. *)
Lemma stop_spec root ticks db : inv (n_mail db) -> good_ndb db -> good_tree root -> legal root -> full_scan = true \/ trustworthy [] root db ->
  (exists e db', notmuch_new root ticks db = Some (e, db') /\ stop root db db') /\
  forall s1 s2 db', add_files root [] (start ticks db) = Some (true, s1) -> removal_loop compressed sync (s_removed_files s1) s1 = Some s2 ->
    In db' (directory_loop_log compressed sync (s_removed_dirs s2) s2) -> stop root db db'.
Proof.
  intros Hi Hg Hgt Hleg Ht. unfold New.notmuch_new. fold (start ticks db). set (s := start ticks db).
  destruct (dirb root) eqn:Hdb.
  2:{ assert (E : add_files root [] s = Some (false, s)) by (destruct root; try discriminate; reflexivity). rewrite E. split; [|intros; discriminate].
      exists ExitFailure, db. split; [reflexivity|]. now apply stop_nothing. }
  apply dirb_is_dir in Hdb.
  destruct (walk_all compressed compressed_short full_scan sync new_tags ignore_verbatim ignore_regex stat_time A root Hdb [] s true) as (b & s1 & E & F); auto; [now left|].
  rewrite E. assert (F' := F). destruct F' as [e_inv e_good e_sound e_mono e_keeps e_files e_dirs e_dmono e_dsound e_mt e_tick e_done e_van].
  change (s_db s) with db in *.
  assert (Sound : forall f i, recd (s_db s1) f i -> recd db f i \/ added root db f i).
  { intros f i H. apply e_sound in H as [H|(H1 & m & keys & H2 & ->)]; [now left|right]. split; [exact H1|]. eauto. }
  assert (Dsound : forall q m, dir_get q (s_db s1) = Some m -> dir_get q db = Some m \/ m = 0%Z).
  { intros q m H. apply e_dsound in H as [H|(_ & -> & _)]; auto. }
  assert (Known : forall q, known_dir (s_db s1) q -> known_dir db q \/ DT [] root q).
  { intros q (m & H). apply e_dsound in H as [H|(_ & _ & H)]; [left; now exists m|now right]. }
  assert (Keeps : keeps (gone [] root) A (n_mail db) (n_mail (s_db s1))).
  { eapply keeps_weaken; [| |exact e_keeps]; [intros ? []|auto]. }
  destruct b.
  2:{ split; [|intros; discriminate]. exists ExitFailure, (s_db s1). split; [reflexivity|]. constructor; auto. }
  destruct e_files as (qf & Qf1 & Qf2 & Qf3). destruct e_dirs as (qd & Qd1 & Qd2 & Qd3). destruct e_mt as (ql & Ql1 & Ql2). cbn [s start s_removed_files s_removed_dirs s_mtimes app] in Qf1, Qd1, Ql1.
  destruct (removal_loop_spec compressed sync (s_removed_files s1) s1 e_inv e_good) as (s2 & El2 & L2). rewrite El2.
  destruct L2 as [A1 A2 A3 A4 A5 A6 A7 A8 A9 A10 A11 A12 A13].
  assert (Rf : forall g, In g (s_removed_files s1) -> gone [] root g) by (intros g H; rewrite Qf1 in H; left; now apply Qf2).
  assert (Rd : forall g, (exists p, In p qd /\ below p g) -> gone [] root g) by (intros g (p & H & B); right; exists p; split; [now apply Qd2|exact B]).
  rewrite A10, Qd1. split.
  - destruct (directory_loop_spec compressed sync qd s2 A1 A2) as (s3 & El3 & L3). rewrite El3.
    destruct L3 as [B1 B2 B3 B4 B5 B6 B7 B8 B9 B10 B11 B12 B13].
    destruct (mtime_loop_spec (s_mtimes s3) s3 B2) as (C1 & C2 & C3 & C4 & C5 & C6).
    assert (Dead : ~ live s3 -> mtime_loop (s_mtimes s3) s3 = s3) by (intros X; now apply (dead_loops compressed sync s3 X)).
    set (s4 := mtime_loop (s_mtimes s3) s3) in *.
    destruct (interrupted_spec s4) as (i & s5 & -> & Edb & _ & _ & _ & Evn & _ & Ei).
    rewrite Edb. rewrite B11, A11, Ql1 in C4.
    eexists _, (s_db s4). split; [reflexivity|]. constructor.
    + rewrite C1. exact B1.
    + exact C2.
    + intros f j H. rewrite C1 in H. apply Sound, A3, B3, H.
    + intros f j H N. rewrite C1. apply B4; [apply A4; [now apply e_mono|]|]; auto.
    + rewrite C1. eapply keeps_trans; [exact Keeps|]. eapply keeps_trans.
      * refine (keeps_weaken _ _ A A _ _ _ (fun i t X => X) (A9 A)). exact Rf.
      * refine (keeps_weaken _ _ A A _ _ _ (fun i t X => X) (B9 A)). exact Rd.
    + intros q K. apply C3 in K as (m & Hm). apply B6, A6 in Hm. apply Known. now exists m.
    + assert (D : live s3 \/ ~ live s3) by (unfold live; destruct (s_tick s3) as [[|]|]; [right; intros X; now apply X|left; discriminate|left; discriminate]).
      destruct D as [L3|NL].
      2:{ left. intros q m H. rewrite (Dead NL) in H. apply B6, A6, Dsound in H. exact H. }
      right. assert (L2 := B13 L3). assert (L1 := A13 L2). split.
      * constructor.
        -- intros f j H Hgone. rewrite C1 in H. assert (H1 := B3 f j H). assert (H2 := A3 f j H1).
           assert (Hr : recd db f j).
           { destruct (e_sound f j H2) as [X|(_ & m & keys & X & _)]; [exact X|]. exfalso. eapply visible_not_gone; eassumption. }
           destruct Hgone as [X|(d & X & Y)].
           ++ apply (A5 L2 f j H1). rewrite Qf1. apply Qf3; [exact L1|reflexivity|now exists j|exact X].
           ++ apply (B5 L3 f j H). exists d. split; [|exact Y]. apply Qd3; [exact L1|reflexivity| |exact X]. eapply file_up; [exact Hg|exists j; exact Hr|exact Y].
        -- intros f j (H1 & m & keys & H2 & ->). destruct (e_done L1 eq_refl f m keys H2 H1) as (j & Hj).
           assert (j = canon (f_id m)).
           { assert (Hj' := Hj). apply e_sound in Hj as [Hj|(_ & m' & keys' & Hv & ->)]; [exfalso; apply H1; now exists j|].
             f_equal. f_equal. eapply visible_fun; eassumption. }
           subst j. rewrite C1. assert (Ng : ~ gone [] root f) by (eapply visible_not_gone; eassumption). apply B4; [apply A4|]; auto.
        -- intros q K. apply C3 in K as (m & Hm). assert (Hm' := Hm). apply B6, A6 in Hm'. split.
           ++ apply e_dsound in Hm' as [X|(_ & _ & X)]; [left; now exists m|now right].
           ++ intros [Kq (d & Hd & Hb)]. rewrite B8 in Hm; [discriminate|exact L3|]. exists d. split; [|exact Hb]. apply Qd3; [exact L1|reflexivity| |exact Hd]. eapply known_up; eassumption.
      * intros q m H. apply C4 in H as [H|H].
        -- apply B6, A6, Dsound in H. tauto.
        -- right. right. now apply Ql2.
  - intros s1' s2' db' [= <-] E2 Hin. assert (E3 : s2' = s2) by congruence. subst s2'. rewrite A10, Qd1 in Hin.
    destruct (directory_loop_log_spec compressed sync qd s2 A1 A2 db' Hin) as (P1 & P2 & P3 & P4 & P5 & P6). constructor; auto.
    + intros f j H N. apply P4; [apply A4; [now apply e_mono|]|]; auto.
    + eapply keeps_trans; [exact Keeps|]. eapply keeps_trans.
      * refine (keeps_weaken _ _ A A _ _ _ (fun i t X => X) (A9 A)). exact Rf.
      * refine (keeps_weaken _ _ A A _ _ _ (fun i t X => X) (P6 A)). exact Rd.
    + intros q (m & Hm). apply P5, A6 in Hm. apply Known. now exists m.
Qed.

Section Root.
Variable root : node.
Hypothesis Hgt : good_tree root.
Hypothesis Hok : forall f keys ok, mail_in root f keys ok -> ok = true.

Lemma in_names (es : list (bytes * node)) n : In n (map fst es) <-> exists nd, In (n, nd) es.
Proof.
  rewrite in_map_iff. split; [intros ([x nd] & <- & H); eauto|]. intros (nd & H). exists (n, nd). auto.
Qed.
Lemma scanned_mail p mt nl es n f keys ok : scanned [] root p (NDir mt nl es) -> In (n, NReg (Some (f, keys, ok))) es -> mail_in root f keys ok.
Proof.
  intros Hs Hin. assert (X : forall nd, scanned [] root p nd -> forall g k o, mail_in nd g k o -> mail_in root g k o).
  { clear. intros nd H. induction H as [|p mt nl es n sub _ IH Hin _ _]; intros g k o M; [exact M|]. apply IH. econstructor; eassumption. }
  apply (X _ Hs). eapply mail_below; [exact Hin|]. constructor.
Qed.
(** After a finished scan the database agrees with every scanned directory. *)
Lemma finished_trust db db' : inv (n_mail db) -> stop root db db' -> finished root db db' ->
  forall p mt nl es, scanned [] root p (NDir mt nl es) -> trust p es db'.
Proof.
  intros Hi R Fi p mt nl es Hs.
  assert (Nd : NoDup (map fst es)) by (apply scanned_good in Hs; [now inversion Hs|exact Hgt]).
  split; [|split].
  - intros n Hn (i & Hr). assert (X := fi_gone _ _ _ Fi _ _ Hr).
    destruct (ordinary_dec ignore_verbatim ignore_regex p n) as [Ho|Ho].
    + destruct (look n es) as [[c| | | |]|] eqn:E; try (exfalso; apply X; left; exists p, n, mt, nl, es; split; [exact Hs|]; split; [reflexivity|]; split; [exact Hn|]; intros [_ (c & Hc)];
        first [now apply (look_None n es _ E) in Hc | apply look_Some in E; pose proof (good_fun _ _ _ _ Nd E Hc) as Y; discriminate Y]; fail).
      apply look_Some in E. split; [exact Ho|]. now exists c.
    + exfalso. apply X. left. exists p, n, mt, nl, es. split; [exact Hs|]. split; [reflexivity|]. split; [exact Hn|]. tauto.
  - intros n f keys ok Hin Ho. assert (ok = true) by (eapply Hok, scanned_mail; eassumption). subst ok.
    assert (Hv : visible ignored [] root (child p n) (Some (f, keys, true))) by (exists p, mt, nl, es, n; auto).
    destruct (visible_rec_dec compressed db (child p n) Hi) as [(i & Hr)|Hr].
    + exists i. apply (st_stay _ _ _ R); [exact Hr|]. eapply visible_not_gone; eassumption.
    + exists (canon (f_id f)). apply (fi_done _ _ _ Fi). split; [exact Hr|]. exists f, keys. auto.
  - intros n Hn Hk. destruct (fi_dirs _ _ _ Fi _ Hk) as [[H|H] X].
    + assert (Y : ~ GDT [] root (child p n)). { intros Y. apply X. split; [exact H|]. exists (child p n). split; [exact Y|now left]. }
      destruct (ordinary_dec ignore_verbatim ignore_regex p n) as [Ho|Ho].
      * split; [exact Ho|]. destruct (look n es) as [sub|] eqn:E; [apply look_Some in E; eauto|].
        exfalso. apply Y. exists p, n, mt, nl, es. split; [exact Hs|]. split; [reflexivity|]. split; [exact Hn|]. intros [_ (c & Hc)]. now apply (look_None n es _ E) in Hc.
      * exfalso. apply Y. exists p, n, mt, nl, es. split; [exact Hs|]. split; [reflexivity|]. split; [exact Hn|]. intros [Z _]. now apply Ho.
    + destruct H as (q & x & Hq & Hu). destruct (scanned_chain ignore_verbatim ignore_regex root Hgt [] p mt nl es q x n Hs Hq Hn Hu) as (sub & H1 & _ & H2 & _). eauto.
Qed.
(** A directory the database agreed with before the run is one it still agrees with. *)
Lemma stop_trust db db' p mt nl es : stop root db db' -> scanned [] root p (NDir mt nl es) -> trust p es db -> trust p es db'.
Proof.
  intros R Hs (T1 & T2 & T3). split; [|split].
  - intros n Hn (i & Hr). destruct (st_sound _ _ _ R _ _ Hr) as [H|(H & m & keys & (q & mt' & nl' & es' & n' & Hs' & Hin & Ho & E) & _)]; [apply T1; [exact Hn|now exists i]|].
    assert (Hn' : mem SLASH n' = false) by (eapply scanned_entry; eassumption). apply child_inj in E as [<- <-]; auto.
    assert (E := scanned_fun ignore_verbatim ignore_regex root Hgt [] p _ _ Hs Hs'). injection E as <- <- <-. eauto.
  - intros n f keys ok Hin Ho. destruct (T2 n f keys ok Hin Ho) as (i & Hr). exists i. apply (st_stay _ _ _ R); [exact Hr|].
    eapply visible_not_gone; [exact Hgt|]. exists p, mt, nl, es, n. eauto.
  - intros n Hn Hk. destruct (st_known _ _ _ R _ Hk) as [H|(q & x & Hq & Hu)]; [now apply T3|].
    destruct (scanned_chain ignore_verbatim ignore_regex root Hgt [] p mt nl es q x n Hs Hq Hn Hu) as (sub & H1 & _ & H2 & _). eauto.
Qed.
End Root.
End Stop.
