(** After the scan: removing files and directories, recording mtimes. *)
From Verif Require Import Bytes Terms DocMap MsgId MsgIdProofs MailStore MailStoreSpec MailStoreProofs MailStoreProofs2 Maildir New NewSpec NewProofs NewProofs2 NewProofs4.
From Coq Require Import Sorted Permutation.

Lemma split_last s : mem SLASH s = true -> exists a n, s = a ++ SLASH :: n /\ mem SLASH n = false.
Proof.
  induction s as [|c s IH]; intros H; [discriminate|]. destruct (mem SLASH s) eqn:Es.
  - destruct (IH eq_refl) as (a & n & -> & Hn). exists (c :: a), n. auto.
  - exists [], s. split; [|exact Es]. cbn [mem] in H. unfold mem in H, Es. cbn [existsb] in H. rewrite Es, orb_false_r in H. apply beq_eq in H. subst c. reflexivity.
Qed.
Lemma split_first s : mem SLASH s = true -> exists n r, s = n ++ SLASH :: r /\ mem SLASH n = false.
Proof.
  induction s as [|c s IH]; intros H; [discriminate|]. destruct (beq SLASH c) eqn:Ec.
  - apply beq_eq in Ec. subst c. exists [], s. auto.
  - unfold mem in H. cbn [existsb] in H. rewrite Ec in H. destruct (IH H) as (n & r & -> & Hn). exists (c :: n), r. split; [reflexivity|]. unfold mem. cbn [existsb]. now rewrite Ec.
Qed.
Definition below (p g : bytes) : Prop := exists r, g = child p r.
Lemma beneath_below p q : beneath p q <-> p = q \/ below p q.
Proof. reflexivity. Qed.
Lemma beneath_dec p q : beneath p q \/ ~ beneath p q.
Proof.
  destruct (list_eq_dec ascii_dec p q) as [->|Ne]; [left; now left|].
  destruct (strip_prefix (p ++ [SLASH]) q) as [r|] eqn:E.
  - left. right. exists r. apply strip_prefix_Some in E. rewrite E. unfold child. now rewrite <- app_assoc.
  - right. intros [X|(r & ->)]; [contradiction|]. assert (S : strip_prefix (p ++ [SLASH]) (child p r) = Some r); [|congruence].
    apply strip_prefix_Some. unfold child. now rewrite <- app_assoc.
Qed.
Lemma below_trans p q r : beneath p q -> below q r -> below p r.
Proof. intros [->|(x & ->)] (y & ->); [now exists y|]. exists (x ++ SLASH :: y). now rewrite child_child. Qed.
(** The parent of something below [p] is [p] or below it. *)
Lemma below_parent p q n : mem SLASH n = false -> below p (child q n) -> beneath p q.
Proof.
  intros Hn (r & E). destruct (mem SLASH r) eqn:Er.
  - apply split_last in Er as (a & n' & -> & Hn'). rewrite <- child_child in E. apply child_inj in E as [-> _]; auto. right. now exists a.
  - apply child_inj in E as [-> _]; auto. now left.
Qed.
Lemma length_child p n : length (child p n) = S (length p + length n).
Proof. unfold child. rewrite app_length. cbn. lia. Qed.
Lemma known_up db : good_ndb db -> forall q p, known_dir db q -> beneath p q -> known_dir db p.
Proof.
  intros Hg q. remember (length q) as k eqn:Ek. revert q Ek. induction k as [k IH] using lt_wf_ind. intros q -> p Hk [->|Hb]; [exact Hk|].
  destruct (g_dir _ Hg q Hk) as [->|(q' & n & -> & Hn & Hk')]; [destruct Hb as (r & E); symmetry in E; now apply child_not_nil in E|].
  apply below_parent in Hb; [|exact Hn]. eapply (IH (length q')); [rewrite length_child; lia|reflexivity|exact Hk'|exact Hb].
Qed.
Lemma file_up db : good_ndb db -> forall f p, recorded db f -> below p f -> known_dir db p.
Proof.
  intros Hg f p Hr Hb. destruct (g_file _ Hg f Hr) as (q & n & -> & Hn & Hk). apply below_parent in Hb; [|exact Hn]. eapply known_up; eassumption.
Qed.
(** Something below [p] that is not directly in it is below an entry of [p]. *)
Lemma below_cases p g : below p g -> (exists n, g = child p n /\ mem SLASH n = false) \/ exists n, mem SLASH n = false /\ below (child p n) g.
Proof.
  intros (r & ->). destruct (mem SLASH r) eqn:E; [right|left; now exists r]. apply split_first in E as (n & r' & -> & Hn). exists n. split; [exact Hn|].
  exists r'. now rewrite child_child.
Qed.

Section Clean.
Variable compressed : bytes -> bytes.
Hypothesis compressed_short : forall s, (length (compressed s) <= 189)%nat.
Variable sync : bool.
Notation inv := (inv compressed).
Notation remove_directory := (remove_directory compressed sync).
Notation recd db := (rec (n_mail db)).

(** The tree below [p] has gone from the database, and nothing else. *)
Record cut (p : bytes) (db db' : ndb) : Prop := {
  cut_inv : inv (n_mail db');
  cut_good : good_ndb db';
  cut_rec : forall g i, recd db' g i <-> recd db g i /\ ~ below p g;
  cut_in : forall q, beneath p q -> dir_get q db' = None;
  cut_out : forall q, ~ beneath p q -> dir_get q db' = dir_get q db;
  cut_keeps : forall A, keeps (below p) A (n_mail db) (n_mail db') }.

Lemma good_fewer db db' : good_ndb db -> (forall g i, recd db' g i -> recd db g i) -> (forall p, known_dir db' p -> known_dir db p) -> NoDup (map fst (n_dirs db')) ->
  (forall f p n, recorded db' f -> f = child p n -> mem SLASH n = false -> known_dir db p -> known_dir db' p) ->
  (forall p n, known_dir db' (child p n) -> mem SLASH n = false -> known_dir db p -> known_dir db' p) -> good_ndb db'.
Proof.
  intros Hg H1 H2 H3 H4 H5. constructor.
  - intros f i j Hi Hj. eapply (g_owner _ Hg f); apply H1; assumption.
  - intros f Hf. assert (Hf' := Hf). destruct Hf' as (i & Hi). apply H1 in Hi. destruct (g_file _ Hg f (ex_intro _ i Hi)) as (p & n & -> & Hn & Hk). exists p, n. split; [reflexivity|]. split; [exact Hn|]. eauto.
  - intros p Hp. destruct (g_dir _ Hg p (H2 p Hp)) as [->|(q & n & -> & Hn & Hk)]; [now left|right]. exists q, n. split; [reflexivity|]. split; [exact Hn|]. eauto.
  - exact H3.
Qed.
Lemma dir_get_del p q ds : dget_dirs q (del_dir p ds) = if bseq p q then None else dget_dirs q ds.
Proof.
  unfold dget_dirs, del_dir. induction ds as [|[x m] ds IH]; cbn; [now destruct (bseq p q)|].
  destruct (bseq_spec p x) as [->|Ne]; cbn.
  - rewrite IH. destruct (bseq_spec x q) as [->|Nq]; [reflexivity|]. destruct (bseq_spec q x) as [->|]; [contradiction|reflexivity].
  - destruct (bseq_spec q x) as [->|Nq]; cbn.
    + destruct (bseq_spec p x) as [->|]; [contradiction|reflexivity].
    + exact IH.
Qed.
Lemma del_dir_nodup p ds : NoDup (map fst ds) -> NoDup (map fst (del_dir p ds)).
Proof.
  induction ds as [|[x m] ds IH]; cbn; [auto|]. intros H. apply NoDup_cons_iff in H as [H1 H2]. destruct (negb (bseq p x)); cbn; [|auto].
  constructor; [|auto]. intros X. apply H1. apply in_map_iff in X as (y & Ey & Hy). apply filter_In in Hy as [Hy _]. apply in_map_iff. now exists y.
Qed.

Lemma remove_directory_spec : forall fuel p db, inv (n_mail db) -> good_ndb db -> fuel > 0 ->
  (forall q, known_dir db q -> length q < fuel + length p) -> exists db', remove_directory fuel p db = Some db' /\ cut p db db'.
Proof.
  induction fuel as [|fuel IH]; intros p db Hi Hg Hf Hlen; [lia|]. cbn [New.remove_directory].
  destruct (dir_get p db) as [mp|] eqn:Ed.
  2:{ exists db. split; [reflexivity|]. assert (Nk : ~ known_dir db p) by (intros (m & X); congruence).
      constructor; auto.
      - intros g i. split; [|tauto]. intros H. split; [exact H|]. intros Hb. apply Nk. eapply file_up; [exact Hg|exists i; exact H|exact Hb].
      - intros q Hb. destruct (dir_get q db) eqn:E; [|reflexivity]. exfalso. apply Nk. eapply known_up; [exact Hg|eexists; exact E|exact Hb].
      - intros A. eapply keeps_weaken; [| |apply (keeps_refl (fun _ => False) A)]; [intros ? []|auto]. }
  destruct (remove_filenames_spec compressed sync (map (child p) (child_files p db)) (n_mail db) Hi (g_owner _ Hg)) as (m1 & -> & I1 & R1 & K1).
  set (db1 := {| n_mail := m1; n_dirs := n_dirs db |}).
  assert (G1 : good_ndb db1).
  { apply (good_fewer db); auto; [intros g i H; now apply R1 in H|apply Hg]. }
  assert (C1 : child_dirs p db1 = child_dirs p db) by reflexivity.
  assert (Go : forall L db2, inv (n_mail db2) -> good_ndb db2 -> (L <> [] -> fuel > 0) -> (forall q, known_dir db2 q -> known_dir db q) ->
     exists db3, (fix go subdirs db := match subdirs with
                                          | [] => Some db
                                          | q :: subdirs => match remove_directory fuel (child p q) db with
                                                            | Some db => go subdirs db
                                                            | None => None
                                                            end
                                          end) L db2 = Some db3 /\ inv (n_mail db3) /\ good_ndb db3 /\
       (forall g i, recd db3 g i <-> recd db2 g i /\ ~ exists n, In n L /\ below (child p n) g) /\
       (forall q n, In n L -> beneath (child p n) q -> dir_get q db3 = None) /\
       (forall q, (forall n, In n L -> ~ beneath (child p n) q) -> dir_get q db3 = dir_get q db2) /\
       forall A, keeps (below p) A (n_mail db2) (n_mail db3)).
  { induction L as [|n L IHL]; intros db2 Hi2 Hg2 Hf2 Hk2.
    - exists db2. split; [reflexivity|]. split; [exact Hi2|]. split; [exact Hg2|]. split; [|split; [|split; [auto|intros; apply keeps_refl]]].
      + intros g i. split; [|tauto]. intros H. split; [exact H|]. intros (n & [] & _).
      + intros q n [].
    - destruct (IH (child p n) db2 Hi2 Hg2) as (db3 & -> & C); [apply Hf2; discriminate| |].
      { intros q Hq. apply Hk2, Hlen in Hq. rewrite length_child. lia. }
      destruct C as [Ci Cg Cr Cin Cout Ck].
      assert (Hk3 : forall q, known_dir db3 q -> known_dir db2 q).
      { intros q (m & Hm). destruct (beneath_dec (child p n) q) as [B|B]; [rewrite Cin in Hm by exact B; discriminate|]. rewrite Cout in Hm by exact B. now exists m. }
      destruct (IHL db3 Ci Cg) as (db4 & -> & Hi4 & Hg4 & Hr4 & Hd4 & Ho4 & Hk4); [intros _; apply Hf2; discriminate|auto|].
      exists db4. split; [reflexivity|]. split; [exact Hi4|]. split; [exact Hg4|]. split; [|split; [|split]].
      + intros g i. rewrite Hr4, Cr. split.
        * intros [[X Y] Z]. split; [exact X|]. intros (x & [<-|Hx] & B); [now apply Y|]. apply Z. eauto.
        * intros [X Y]. split; [split; [exact X|]|].
          -- intros B. apply Y. exists n. split; [now left|exact B].
          -- intros (x & Hx & B). apply Y. exists x. split; [now right|exact B].
      + intros q x Hx B. destruct (dir_get q db4) eqn:E; [|reflexivity]. exfalso. destruct Hx as [<-|Hx]; [|rewrite (Hd4 q x Hx B) in E; discriminate].
        assert (X : forall y, In y L -> ~ beneath (child p y) q) by (intros y Hy By; rewrite (Hd4 q y Hy By) in E; discriminate).
        rewrite (Ho4 q X), (Cin q B) in E. discriminate.
      + intros q H. rewrite Ho4 by (intros y Hy; apply H; now right). apply Cout. apply H. now left.
      + intros A. eapply keeps_trans; [|apply Hk4]. refine (keeps_weaken _ _ A A _ _ _ (fun i t X => X) (Ck A)). intros g B. eapply below_trans; [|exact B]. exact (proj1 (beneath_child p n [])). }
  assert (Fu : child_dirs p db <> [] -> fuel > 0).
  { intros H. assert (X : exists n, In n (child_dirs p db)) by (destruct (child_dirs p db) as [|n L]; [contradiction|exists n; now left]).
    destruct X as (n & X). apply child_dirs_In in X as [X _]. apply Hlen in X. rewrite length_child in X. lia. }
  rewrite C1. destruct (Go (child_dirs p db) db1 I1 G1 Fu (fun q X => X)) as (db3 & E & I3 & G3 & R3 & D3 & O3 & K3). rewrite E. clear Go.
  assert (Sub : forall q, known_dir db q -> below p q -> dir_get q db3 = None).
  { intros q Hk Hb. destruct (below_cases p q Hb) as [(n & -> & Hn)|(n & Hn & Hb')].
    - apply (D3 _ n); [apply child_dirs_In; auto|now left].
    - apply (D3 _ n); [|right; exact Hb']. apply child_dirs_In. split; [|exact Hn]. eapply known_up; [exact Hg|exact Hk|right; exact Hb']. }
  assert (Kn : forall q, known_dir db3 q -> known_dir db q /\ ~ below p q).
  { intros q (m & Hm). assert (K : known_dir db q).
    { exists m. rewrite <- Hm. symmetry. apply O3. intros n Hn B. rewrite (D3 q n Hn B) in Hm. discriminate. }
    split; [exact K|]. intros B. rewrite (Sub q K B) in Hm. discriminate. }
  assert (Rec : forall g i, recd db3 g i <-> recd db g i /\ ~ below p g).
  { intros g i. rewrite R3. cbn [n_mail db1]. rewrite R1. split.
    - intros [[H1 H2] H3]. split; [exact H1|]. intros B. destruct (below_cases p g B) as [(n & -> & Hn)|(n & Hn & Hb)].
      + apply H2. apply in_map. unfold child_files. apply tset_of_In, names_in_In. split; [|exact Hn]. apply (all_files_In compressed); [exact Hi|]. now exists i.
      + apply H3. exists n. split; [|exact Hb]. apply child_dirs_In. split; [|exact Hn]. eapply file_up; [exact Hg|exists i; exact H1|exact Hb].
    - intros [H1 H2]. split; [split; [exact H1|]|].
      + intros X. apply in_map_iff in X as (n & <- & _). apply H2. now exists n.
      + intros (n & _ & B). apply H2. eapply below_trans; [|exact B]. exact (proj1 (beneath_child p n [])). }
  eexists. split; [reflexivity|].
  assert (DG : forall q, dir_get q {| n_mail := n_mail db3; n_dirs := del_dir p (n_dirs db3) |} = if bseq p q then None else dir_get q db3).
  { intros q. rewrite !dir_get_dirs. cbn [n_dirs]. apply dir_get_del. }
  constructor.
  - exact I3.
  - apply (good_fewer db3); auto.
    + intros q (m & Hm). rewrite DG in Hm. destruct (bseq p q); [discriminate|]. now exists m.
    + cbn. apply del_dir_nodup. apply G3.
    + intros f q n (i & Hr) -> Hn (m & Hm). exists m. rewrite DG. destruct (bseq_spec p q) as [->|]; [|exact Hm].
      exfalso. apply (Rec (child q n) i) in Hr as [_ X]. apply X. now exists n.
    + intros q n (m & Hm) Hn (m' & Hm'). exists m'. rewrite DG. destruct (bseq_spec p q) as [->|]; [|exact Hm'].
      exfalso. rewrite DG in Hm. destruct (bseq q (child q n)); [discriminate|]. destruct (Kn (child q n)) as [_ X]; [now exists m|]. apply X. now exists n.
  - exact Rec.
  - intros q B. rewrite DG. destruct (bseq_spec p q) as [->|Ne]; [reflexivity|]. destruct B as [X|B]; [contradiction|].
    destruct (dir_get q db3) eqn:X; [|reflexivity]. exfalso. destruct (Kn q) as [_ Y]; [eexists; exact X|]. now apply Y.
  - intros q B. rewrite DG. destruct (bseq_spec p q) as [->|Ne]; [exfalso; apply B; now left|].
    rewrite O3; [reflexivity|]. intros n _ X. apply B. eapply beneath_trans; [exact (proj1 (beneath_child p n []))|exact X].
  - intros A. eapply keeps_trans; [|apply K3]. refine (keeps_weaken _ _ A A _ _ _ (fun i t X => X) (K1 A)). intros g X. apply in_map_iff in X as (n & <- & _). now exists n.
Qed.

Lemma depth_enough db q : known_dir db q -> length q < depth_bound db.
Proof.
  intros H. apply dir_get_In in H. unfold depth_bound. induction (n_dirs db) as [|d ds IH]; cbn in *; [destruct H|].
  destruct H as [<-|H]; [lia|]. specialize (IH H). lia.
Qed.
Lemma remove_directory_ok p db : inv (n_mail db) -> good_ndb db -> exists db', remove_directory (depth_bound db) p db = Some db' /\ cut p db db'.
Proof.
  intros Hi Hg. apply remove_directory_spec; auto; [unfold depth_bound; lia|]. intros q Hq. apply depth_enough in Hq. lia.
Qed.

(** The database after a loop that may remove the files satisfying [R] and the directories
    satisfying [RD], and does so completely if it was not interrupted. *)
Record loop (R RD : bytes -> Prop) (s s' : nstate) : Prop := {
  l_inv : inv (n_mail (s_db s'));
  l_good : good_ndb (s_db s');
  l_rec : forall g i, recd (s_db s') g i -> recd (s_db s) g i;
  l_stay : forall g i, recd (s_db s) g i -> ~ R g -> recd (s_db s') g i;
  l_gone : live s' -> forall g i, recd (s_db s') g i -> ~ R g;
  l_dir : forall q m, dir_get q (s_db s') = Some m -> dir_get q (s_db s) = Some m;
  l_dstay : forall q, ~ RD q -> dir_get q (s_db s') = dir_get q (s_db s);
  l_dgone : live s' -> forall q, RD q -> dir_get q (s_db s') = None;
  l_keeps : forall A, keeps R A (n_mail (s_db s)) (n_mail (s_db s'));
  l_rd : s_removed_dirs s' = s_removed_dirs s;
  l_mt : s_mtimes s' = s_mtimes s;
  l_van : s_vanished s' = s_vanished s;
  l_tick : live s' -> live s }.

Lemma removal_loop_spec names : forall s, inv (n_mail (s_db s)) -> good_ndb (s_db s) ->
  exists s', removal_loop compressed sync names s = Some s' /\ loop (fun g => In g names) (fun _ => False) s s'.
Proof.
  induction names as [|n names IH]; intros s Hi Hg; cbn [removal_loop].
  { exists s. split; [reflexivity|]. constructor; auto; try tauto; try (intros; tauto). intros; apply keeps_refl. }
  destruct (interrupted_spec s) as (i & s1 & -> & Edb & Erf & Erd & Emt & Evn & Elive & Ei). destruct i.
  { exists s1. split; [reflexivity|]. assert (NL : ~ live s1) by (intros L; destruct (Elive L); discriminate).
    constructor; rewrite ?Edb; auto; try tauto. intros; apply keeps_refl. }
  destruct (remove_filename_spec compressed sync n (n_mail (s_db s1))) as (m1 & -> & I1 & R1 & K1); [rewrite Edb; exact Hi|rewrite Edb; apply (g_owner _ Hg)|].
  assert (G1 : good_ndb (s_db (with_mail m1 s1))).
  { rewrite Edb in R1. apply (good_fewer (s_db s)); unfold known_dir, dir_get; cbn; rewrite ?Edb; auto; [|apply Hg].
    intros g j X. apply R1 in X. apply X. }
  destruct (IH (with_mail m1 s1) I1 G1) as (s' & -> & L). exists s'. split; [reflexivity|]. destruct L.
  assert (DG : forall q, dir_get q (s_db (with_mail m1 s1)) = dir_get q (s_db s)) by (intros q; unfold dir_get; cbn; now rewrite Edb).
  constructor; auto; cbn in *; try congruence.
  - intros g j X. apply l_rec0, R1 in X. rewrite Edb in X. apply X.
  - intros g j X N. apply l_stay0; [|tauto]. apply R1. rewrite Edb. split; [exact X|]. intros ->. apply N. now left.
  - intros L g j X [<-|Y]; [|eapply l_gone0; eassumption]. apply l_rec0, R1 in X. now destruct X.
  - intros q m X. apply l_dir0 in X. now rewrite DG in X.
  - intros q _. rewrite l_dstay0 by tauto. apply DG.
  - intros A. rewrite Edb in K1. eapply keeps_trans; [|refine (keeps_weaken _ _ A A _ _ _ (fun i t X => X) (l_keeps0 A)); cbn; auto].
    refine (keeps_weaken _ _ A A _ _ _ (fun i t X => X) (K1 A)). intros g ->. now left.
  - intros L. apply Elive. apply l_tick0 in L. exact L.
Qed.

Lemma directory_loop_spec paths : forall s, inv (n_mail (s_db s)) -> good_ndb (s_db s) ->
  exists s', directory_loop compressed sync paths s = Some s' /\ loop (fun g => exists p, In p paths /\ below p g) (fun q => exists p, In p paths /\ beneath p q) s s'.
Proof.
  induction paths as [|p paths IH]; intros s Hi Hg; cbn [directory_loop].
  { exists s. split; [reflexivity|]. constructor; auto; try tauto.
    - intros _ g i _ (p & [] & _).
    - intros _ q (p & [] & _).
    - intros; apply keeps_refl. }
  destruct (interrupted_spec s) as (i & s1 & -> & Edb & Erf & Erd & Emt & Evn & Elive & Ei). destruct i.
  { exists s1. split; [reflexivity|]. assert (NL : ~ live s1) by (intros L; destruct (Elive L); discriminate).
    constructor; rewrite ?Edb; auto; try tauto. intros; apply keeps_refl. }
  destruct (remove_directory_ok p (s_db s1)) as (db1 & -> & C); [rewrite Edb; exact Hi|rewrite Edb; exact Hg|]. rewrite Edb in C. destruct C.
  destruct (IH (with_db db1 s1) cut_inv0 cut_good0) as (s' & -> & L). exists s'. split; [reflexivity|]. destruct L.
  constructor; auto; cbn in *; try congruence.
  - intros g j X. apply l_rec0, cut_rec0 in X. apply X.
  - intros g j X N. apply l_stay0.
    + apply cut_rec0. split; [exact X|]. intros B. apply N. exists p. auto.
    + intros (x & Hx & B). apply N. exists x. auto.
  - intros L g j X (x & [<-|Hx] & B).
    + apply l_rec0, cut_rec0 in X. now destruct X.
    + eapply l_gone0; [exact L|exact X|eauto].
  - intros q m X. apply l_dir0 in X. destruct (beneath_dec p q) as [B|B]; [rewrite cut_in0 in X by exact B; discriminate|]. now rewrite cut_out0 in X.
  - intros q N. rewrite l_dstay0; [apply cut_out0|]; [intros B; apply N; exists p; auto|]. intros (x & Hx & B). apply N. exists x. auto.
  - intros L q (x & [<-|Hx] & B); [|apply l_dgone0; [exact L|eauto]]. destruct (dir_get q (s_db s')) eqn:X; [|reflexivity]. apply l_dir0 in X. rewrite cut_in0 in X by exact B. discriminate.
  - intros A. eapply keeps_trans; [|refine (keeps_weaken _ _ A A _ _ _ (fun i t X => X) (l_keeps0 A))].
    + refine (keeps_weaken _ _ A A _ _ _ (fun i t X => X) (cut_keeps0 A)). intros g B. exists p. auto.
    + intros g (x & Hx & B). exists x. auto.
  - intros L. apply Elive. apply l_tick0 in L. exact L.
Qed.

Lemma dir_get_set p m q ds : dget_dirs q (set_mtime p m ds) = match dget_dirs q ds with Some x => Some (if bseq p q then m else x) | None => None end.
Proof.
  unfold dget_dirs, set_mtime. induction ds as [|[x y] ds IH]; cbn; [reflexivity|].
  destruct (bseq_spec p x) as [->|Ne]; cbn.
  - destruct (bseq_spec q x) as [->|Nq]; cbn; [now rewrite bseq_refl|exact IH].
  - destruct (bseq_spec q x) as [->|Nq]; cbn; [|exact IH]. rewrite (proj2 (bseq_neq p x) Ne). reflexivity.
Qed.
Lemma set_mtime_fst p m ds : map fst (set_mtime p m ds) = map fst ds.
Proof. unfold set_mtime. rewrite map_map. apply map_ext. intros d. now destruct (bseq p (fst d)). Qed.
Lemma mtime_loop_spec l : forall s, good_ndb (s_db s) ->
  n_mail (s_db (mtime_loop l s)) = n_mail (s_db s) /\ good_ndb (s_db (mtime_loop l s)) /\
  (forall q, known_dir (s_db (mtime_loop l s)) q <-> known_dir (s_db s) q) /\
  (forall q m, dir_get q (s_db (mtime_loop l s)) = Some m -> dir_get q (s_db s) = Some m \/ In (q, m) l) /\
  s_vanished (mtime_loop l s) = s_vanished s /\ (live (mtime_loop l s) -> live s).
Proof.
  induction l as [|[p m] l IH]; intros s Hg; cbn [mtime_loop]; [intuition|].
  destruct (interrupted_spec s) as (i & s1 & -> & Edb & Erf & Erd & Emt & Evn & Elive & Ei). destruct i.
  { rewrite Edb. split; [reflexivity|]. split; [exact Hg|]. split; [tauto|]. split; [auto|]. split; [exact Evn|]. intros L. now apply Elive. }
  set (s2 := with_db _ s1).
  assert (DG : forall q, dir_get q (s_db s2) = match dir_get q (s_db s) with Some x => Some (if bseq p q then m else x) | None => None end).
  { intros q. rewrite !dir_get_dirs. cbn [s_db s2 with_db n_dirs]. rewrite Edb. apply dir_get_set. }
  assert (KD : forall q, known_dir (s_db s2) q <-> known_dir (s_db s) q).
  { intros q. unfold known_dir. rewrite DG. destruct (dir_get q (s_db s)); split; intros (x & X); try discriminate; eauto. }
  assert (G2 : good_ndb (s_db s2)).
  { apply (good_fewer (s_db s)); auto.
    - cbn. now rewrite Edb.
    - intros q. apply KD.
    - cbn. rewrite set_mtime_fst, Edb. apply Hg.
    - intros f q n _ _ _. apply KD.
    - intros q n _ _. apply KD. }
  destruct (IH s2 G2) as (H1 & H2 & H3 & H4 & H5 & H6). split; [rewrite H1; cbn; now rewrite Edb|]. split; [exact H2|]. split; [intros q; rewrite H3; apply KD|]. split; [|split].
  - intros q x X. apply H4 in X as [X|X]; [|right; now right]. rewrite DG in X. destruct (dir_get q (s_db s)); [|discriminate]. injection X as <-.
    destruct (bseq_spec p q) as [->|]; [right; now left|now left].
  - rewrite H5. exact Evn.
  - intros L. apply H6 in L. apply Elive. exact L.
Qed.
Lemma interrupted_cases s : (interrupted s = (true, s) /\ ~ live s) \/ exists s1, interrupted s = (false, s1) /\ live s /\ s_db s1 = s_db s.
Proof.
  unfold interrupted, live. destruct (s_tick s) as [[|n]|] eqn:E.
  - left. split; [reflexivity|]. intros X. apply X. reflexivity.
  - right. eexists. split; [reflexivity|]. split; [congruence|reflexivity].
  - right. exists s. split; [reflexivity|]. split; [congruence|reflexivity].
Qed.
Lemma dead_loops s : ~ live s -> (forall l, removal_loop compressed sync l s = Some s) /\ (forall l, directory_loop compressed sync l s = Some s) /\ forall l, mtime_loop l s = s.
Proof.
  intros NL. destruct (interrupted_cases s) as [[E _]|(s1 & _ & L & _)]; [|contradiction]. split; [|split]; intros l; destruct l as [|x l]; cbn; try reflexivity; try destruct x; now rewrite E.
Qed.
End Clean.
