(** The states inside [_remove_directory]. *)
From Verif Require Import Bytes Terms DocMap MsgId MsgIdProofs MailStore MailStoreSpec MailStoreProofs MailStoreProofs2 Maildir New NewSpec NewProofs NewProofs2 NewProofs4 NewProofs8 NewCrash.
From Coq Require Import Sorted Permutation.

Section Clean.
Variable compressed : bytes -> bytes.
Hypothesis compressed_short : forall s, (length (compressed s) <= 189)%nat.
Variable sync : bool.
Notation inv := (inv compressed).
Notation remove_directory := (remove_directory compressed sync).
Notation remove_directory_log := (remove_directory_log compressed sync).
Notation recd db := (rec (n_mail db)).

(** Part of the tree below [p] has gone from the database, and nothing else. *)
Record pcut (p : bytes) (db db' : ndb) : Prop := {
  pc_inv : inv (n_mail db');
  pc_good : good_ndb db';
  pc_rec : forall g i, recd db' g i -> recd db g i;
  pc_stay : forall g i, recd db g i -> ~ below p g -> recd db' g i;
  pc_dir : forall q m, dir_get q db' = Some m -> dir_get q db = Some m;
  pc_out : forall q, ~ beneath p q -> dir_get q db' = dir_get q db;
  pc_keeps : forall A, keeps (below p) A (n_mail db) (n_mail db') }.
Lemma pcut_trans p q r db db1 db2 : beneath r p -> beneath r q -> pcut p db db1 -> pcut q db1 db2 -> pcut r db db2.
Proof.
  intros Hp Hq [A1 A2 A3 A4 A5 A6 A7] [B1 B2 B3 B4 B5 B6 B7].
  assert (Tp : forall g, below p g -> below r g) by (intros g; now apply below_trans).
  assert (Tq : forall g, below q g -> below r g) by (intros g; now apply below_trans).
  constructor; auto.
  - intros g i H N. apply B4; [apply A4; [exact H|]|]; intros X; apply N; auto.
  - intros x N. rewrite B6, A6; [reflexivity| |]; intros X; apply N; [apply (beneath_trans r p x)|apply (beneath_trans r q x)]; assumption.
  - intros A. eapply keeps_trans.
    + exact (keeps_weaken _ _ A A _ _ Tp (fun i t X => X) (A7 A)).
    + exact (keeps_weaken _ _ A A _ _ Tq (fun i t X => X) (B7 A)).
Qed.
Lemma cut_pcut p db db' : cut compressed p db db' -> pcut p db db'.
Proof.
  intros [C1 C2 C3 C4 C5 C6]. constructor; auto.
  - intros g i H. now apply C3 in H.
  - intros g i H N. apply C3. auto.
  - intros q m H. destruct (beneath_dec p q) as [B|B]; [rewrite C4 in H by exact B; discriminate|]. now rewrite <- C5.
Qed.
Lemma remove_filenames_log_spec names : forall m, inv m -> (forall f i j, rec m f i -> rec m f j -> i = j) ->
  forall m', In m' (remove_filenames_log compressed sync names m) -> inv m' /\ (forall g i, rec m' g i -> rec m g i) /\
    (forall g i, rec m g i -> ~ In g names -> rec m' g i) /\ forall A, keeps (fun g => In g names) A m m'.
Proof.
  induction names as [|n names IH]; intros m Hi Ho m' Hin; cbn [remove_filenames_log] in Hin; [destruct Hin|].
  destruct (remove_filename_spec compressed sync n m Hi (Ho n)) as (m1 & E & I1 & R1 & K1). rewrite E in Hin. destruct Hin as [<-|Hin].
  - split; [exact I1|]. split; [intros g i H; now apply R1 in H|]. split.
    + intros g i H N. apply R1. split; [exact H|]. intros ->. apply N. now left.
    + intros A. refine (keeps_weaken _ _ A A _ _ _ (fun i t X => X) (K1 A)). intros g ->. now left.
  - destruct (IH m1 I1) with (m' := m') as (I2 & R2 & S2 & K2); [|exact Hin|].
    { intros f i j H H'. apply R1 in H, H'. eapply Ho; [apply H|apply H']. }
    split; [exact I2|]. split; [intros g i H; apply R2, R1 in H; apply H|]. split.
    + intros g i H N. apply S2; [|intros X; apply N; now right]. apply R1. split; [exact H|]. intros ->. apply N. now left.
    + intros A. eapply keeps_trans.
      * refine (keeps_weaken _ _ A A _ _ _ (fun i t X => X) (K1 A)). intros g ->. now left.
      * refine (keeps_weaken _ _ A A _ _ _ (fun i t X => X) (K2 A)). intros g X. now right.
Qed.
Lemma remove_directory_log_spec : forall fuel p db, inv (n_mail db) -> good_ndb db -> fuel > 0 ->
  (forall q, known_dir db q -> length q < fuel + length p) -> forall db', In db' (remove_directory_log fuel p db) -> pcut p db db'.
Proof.
  induction fuel as [|fuel IH]; intros p db Hi Hg Hf Hlen db' Hin; [lia|].
  assert (Whole : exists dbx, remove_directory (S fuel) p db = Some dbx /\ cut compressed p db dbx) by (apply remove_directory_spec; auto).
  cbn [NewCrash.remove_directory_log] in Hin. cbn [New.remove_directory] in Whole.
  destruct (dir_get p db) as [mp|] eqn:Ed; [|destruct Hin].
  assert (Bel : forall g, In g (map (child p) (child_files p db)) -> below p g) by (intros g X; apply in_map_iff in X as (n & <- & _); now exists n).
  apply in_app_or in Hin as [Hin|Hin].
  { apply in_map_iff in Hin as (m & <- & Hm). destruct (remove_filenames_log_spec _ _ Hi (g_owner _ Hg) m Hm) as (I1 & R1 & S1 & K1). constructor; auto.
    - apply (good_fewer db); auto. apply Hg.
    - intros A. exact (keeps_weaken _ _ A A _ _ Bel (fun i t X => X) (K1 A)). }
  destruct (remove_filenames_spec compressed sync (map (child p) (child_files p db)) (n_mail db) Hi (g_owner _ Hg)) as (m1 & E1 & I1 & R1 & K1). rewrite E1 in Hin, Whole.
  set (db1 := {| n_mail := m1; n_dirs := n_dirs db |}) in *.
  assert (P1 : pcut p db db1).
  { constructor; auto.
    - apply (good_fewer db); auto; [intros g i H; now apply R1 in H|apply Hg].
    - intros g i H. now apply R1 in H.
    - intros g i H N. apply R1. split; [exact H|]. intros X. apply N. now apply Bel.
    - intros A. exact (keeps_weaken _ _ A A _ _ Bel (fun i t X => X) (K1 A)). }
  assert (Fu : child_dirs p db1 <> [] -> fuel > 0).
  { intros H. assert (X : exists n, In n (child_dirs p db1)) by (destruct (child_dirs p db1) as [|n L]; [contradiction|exists n; now left]).
    destruct X as (n & X). apply child_dirs_In in X as [X _]. apply Hlen in X. rewrite length_child in X. lia. }
  destruct Whole as (dbx & Ew & Cx).
  revert Hin Ew Fu P1. generalize (child_dirs p db1) as L. generalize db1 as d1. clear db1 R1 K1 E1 I1. intros d1 L. revert d1. induction L as [|n L IHL]; intros d1 Hin Ew Fu P1.
  - injection Ew as Ew. destruct Hin as [<-|[]]. rewrite Ew. now apply cut_pcut.
  - assert (B : beneath p (child p n)) by exact (proj1 (beneath_child p n [])).
    assert (Kd : forall q, known_dir d1 q -> length q < fuel + length (child p n)).
    { intros q (m & Hm). apply (pc_dir _ _ _ P1) in Hm. assert (X := Hlen q (ex_intro _ m Hm)). rewrite length_child. lia. }
    assert (Fu' : fuel > 0) by (apply Fu; discriminate).
    apply in_app_or in Hin as [Hin|Hin].
    + eapply (pcut_trans p (child p n) p); [now left|exact B|exact P1|]. eapply (IH (child p n) d1); [apply P1|apply P1|exact Fu'|exact Kd|exact Hin].
    + destruct (remove_directory_spec compressed sync fuel (child p n) d1) as (d2 & E2 & C2); [apply P1|apply P1|exact Fu'|exact Kd|]. rewrite E2 in Hin, Ew.
      apply (IHL d2 Hin Ew); [auto|]. eapply (pcut_trans p (child p n) p); [now left|exact B|exact P1|]. now apply cut_pcut.
Qed.
(** The same for the loop over the removed directories. *)
Lemma directory_loop_log_spec paths : forall s, inv (n_mail (s_db s)) -> good_ndb (s_db s) -> forall db', In db' (directory_loop_log compressed sync paths s) ->
  inv (n_mail db') /\ good_ndb db' /\ (forall g i, recd db' g i -> recd (s_db s) g i) /\
  (forall g i, recd (s_db s) g i -> ~ (exists p, In p paths /\ below p g) -> recd db' g i) /\
  (forall q m, dir_get q db' = Some m -> dir_get q (s_db s) = Some m) /\ forall A, keeps (fun g => exists p, In p paths /\ below p g) A (n_mail (s_db s)) (n_mail db').
Proof.
  induction paths as [|p paths IH]; intros s Hi Hg db' Hin; cbn [directory_loop_log] in Hin; [destruct Hin|].
  destruct (interrupted_spec s) as (i & s1 & Es & Edb & _). rewrite Es in Hin. destruct i; [destruct Hin|]. rewrite Edb in Hin.
  apply in_app_or in Hin as [Hin|Hin].
  - assert (P : pcut p (s_db s) db').
    { eapply remove_directory_log_spec; [exact Hi|exact Hg| | |exact Hin]; [unfold depth_bound; lia|]. intros q Hq. apply depth_enough in Hq. lia. }
    destruct P as [P1 P2 P3 P4 P5 P6 P7]. split; [exact P1|]. split; [exact P2|]. split; [exact P3|]. split; [|split; [exact P5|]].
    + intros g j H N. apply P4; [exact H|]. intros B. apply N. exists p. split; [now left|exact B].
    + intros A. refine (keeps_weaken _ _ A A _ _ _ (fun i t X => X) (P7 A)). intros g B. exists p. split; [now left|exact B].
  - destruct (remove_directory_ok compressed sync p (s_db s) Hi Hg) as (db1 & E & C). rewrite E in Hin. assert (Q := cut_pcut _ _ _ C). destruct Q as [P1 P2 P3 P4 P5 P6 P7].
    destruct (IH (with_db db1 s1) P1 P2 db' Hin) as (Q1 & Q2 & Q3 & Q4 & Q5 & Q6). cbn [with_db s_db] in *.
    split; [exact Q1|]. split; [exact Q2|]. split; [auto|]. split; [|split; [auto|]].
    + intros g j H N. apply Q4; [apply P4; [exact H|]|].
      * intros B. apply N. exists p. split; [now left|exact B].
      * intros (x & Hx & B). apply N. exists x. split; [now right|exact B].
    + intros A. eapply keeps_trans.
      * refine (keeps_weaken _ _ A A _ _ _ (fun i t X => X) (P7 A)). intros g B. exists p. split; [now left|exact B].
      * refine (keeps_weaken _ _ A A _ _ _ (fun i t X => X) (Q6 A)). intros g (x & Hx & B). exists x. split; [now right|exact B].
Qed.
End Clean.
