From Verif Require Import Bytes Terms DocMap MsgId MsgIdProofs MailStore MailStoreSpec MailStoreProofs MailStoreProofs2 Maildir New NewSpec NewProofs NewProofs2 NewProofs3 NewProofs4 NewProofs5 NewProofs6.
From Coq Require Import Sorted Permutation.
Local Open Scope N_scope.

Ltac none := intros; match goal with H : noV _ _ |- _ => destruct H | H : noP _ |- _ => destruct H | H : noM _ _ |- _ => destruct H end.

Section Walk3.
Variable compressed : bytes -> bytes.
Hypothesis compressed_short : forall s, (length (compressed s) <= 189)%nat.
Variables (full_scan sync : bool) (new_tags ignore_verbatim : list bytes) (ignore_regex : list (bytes -> bool)) (stat_time : bytes -> Z).
Variable A : bytes -> bytes -> Prop.
Notation canon := (canon compressed).
Notation inv := (inv compressed).
Notation ignored := (entry_in_ignore_list ignore_verbatim ignore_regex).
Notation mail s := (n_mail (s_db s)).
Notation isrec s f := (recorded (s_db s) f).
Notation eff := (eff compressed sync new_tags A).
Notation ord := (ord ignore_verbatim ignore_regex).
Notation reg := (reg ignore_verbatim ignore_regex).
Notation present := (present ignore_verbatim ignore_regex).
Notation V2 := (V2 ignore_verbatim ignore_regex).
Notation pass1 := (pass1 ignore_verbatim ignore_regex).
Notation pass2 := (pass2 compressed sync new_tags ignore_verbatim ignore_regex).
Notation add_files := (add_files compressed full_scan sync new_tags ignore_verbatim ignore_regex stat_time).
Notation VT := (VT ignored).
Notation GT := (GT ignored).
Notation GDT := (GDT ignored).
Notation DT := (DT ignored).
Notation MT := (MT ignored stat_time).
Notation trustworthy := (trustworthy ignored).
Notation scanned := (scanned ignored).
Notation entered := (entered ignored).
Notation ordinary := (ordinary ignored).

Notation legal := (legal compressed A).
Notation mkE := (mkE compressed full_scan sync new_tags ignore_verbatim ignore_regex stat_time).
Notation ent := (ent ignore_verbatim ignore_regex).
Notation Sub := (Sub ignore_verbatim ignore_regex).
Notation walk_ok := (walk_ok compressed full_scan sync new_tags ignore_verbatim ignore_regex stat_time A).
Notation eff_weaken := (eff_weaken compressed sync new_tags A).
Notation eff_seq := (eff_seq compressed sync new_tags A).

Notation finish := (finish compressed sync new_tags ignore_verbatim ignore_regex stat_time).

Lemma ent_entered md p l n : (md = true <-> maildir l) -> (ent md p n = true <-> entered p l n).
Proof.
  intros Hm. unfold NewProofs5.ent, never_entered, NewSpec.entered. rewrite andb_true_iff, negb_true_iff, orb_false_iff, !andb_false_iff, (ord_ordinary _ _ stat_time A), !bseq_neq.
  destruct md; split.
  - intros (H1 & [X|H2] & H3); [discriminate|]. split; [exact H1|]. split; [tauto|tauto].
  - intros (H1 & H2 & H3). split; [exact H1|]. split; [right; intros ->; apply H2; split; [now apply Hm|reflexivity]|].
    destruct (bseq_spec n (lit ".notmuch")) as [->|N]; [right; intros ->; tauto|now left].
  - intros (H1 & H2 & H3). split; [exact H1|]. split; [intros [X _]; apply Hm in X; discriminate|tauto].
  - intros (H1 & H2 & H3). split; [exact H1|]. split; [now left|].
    destruct (bseq_spec n (lit ".notmuch")) as [->|N]; [right; intros ->; tauto|now left].
Qed.

Section Dir.
Variables (mt : Z) (nl : N) (l l' : list (bytes * node)) (p : bytes) (md : bool).
Hypothesis Perm : Permutation l l'.
Hypothesis Hmd : md = true <-> maildir l.
Notation nd := (NDir mt nl l).
Notation es := (map mkE l').
Definition local_reg (x : bytes) : Prop := ordinary p x /\ exists c, In (x, NReg c) l.
Definition local_present (x : bytes) : Prop := ordinary p x /\ exists n, In (x, n) l.

Lemma Sub_entered Q : Sub md p l' Q <-> exists n sub, In (n, sub) l /\ is_dir sub /\ entered p l n /\ Q (child p n) sub.
Proof.
  unfold NewProofs5.Sub. split; intros (n & sub & H1 & H2 & H3 & H4); exists n, sub; (split; [|split; [exact H2|split; [|exact H4]]]).
  - eapply Permutation_in; [apply Permutation_sym; exact Perm|exact H1].
  - now apply (ent_entered md p l n Hmd).
  - eapply Permutation_in; [exact Perm|exact H1].
  - now apply (ent_entered md p l n Hmd).
Qed.
Lemma In_es n k w : In (n, (k, w)) es <-> exists sub, In (n, sub) l /\ k = dirent_type sub /\ w = add_files sub.
Proof.
  rewrite in_map_iff. split.
  - intros ([x sub] & [= <- <- <-] & H). exists sub. split; [|auto]. eapply Permutation_in; [apply Permutation_sym; exact Perm|exact H].
  - intros (sub & H & -> & ->). exists (n, sub). split; [reflexivity|]. eapply Permutation_in; [exact Perm|exact H].
Qed.
Lemma reg_local x : reg p es x <-> local_reg x.
Proof.
  unfold NewProofs3.reg, local_reg. rewrite (ord_ordinary _ _ stat_time A). split; intros [H1 (c & H2)]; (split; [exact H1|]); exists c.
  - destruct H2 as (w & H2). apply In_es in H2 as (sub & H2 & E & _). destruct sub; try discriminate. injection E as ->. exact H2.
  - exists (add_files (NReg c)). apply In_es. exists (NReg c). auto.
Qed.
Lemma present_local x : present p es x <-> local_present x.
Proof.
  unfold NewProofs3.present, local_present. rewrite (ord_ordinary _ _ stat_time A). split.
  - intros [H1 (k & w & H2)]. apply In_es in H2 as (sub & H2 & E & _). split; [exact H1|]. eauto.
  - intros [H1 (sub & H2)]. split; [exact H1|]. exists (dirent_type sub), (add_files sub). apply In_es. eauto.
Qed.
Lemma V2_local g c : V2 p es g c <-> exists n, In (n, NReg c) l /\ ordinary p n /\ g = child p n.
Proof.
  unfold NewProofs3.V2. split.
  - intros (n & w & H1 & H2 & ->). apply In_es in H1 as (sub & H1 & E & _). destruct sub; try discriminate. injection E as ->. exists n. split; [exact H1|]. split; [now apply (ord_ordinary _ _ stat_time A)|reflexivity].
  - intros (n & H1 & H2 & ->). exists n, (add_files (NReg c)). split; [apply In_es; exists (NReg c); auto|]. split; [now apply (ord_ordinary _ _ stat_time A)|reflexivity].
Qed.
Lemma VT_dir g c : VT p nd g c <-> V2 p es g c \/ Sub md p l' (fun q sub => VT q sub g c).
Proof.
  rewrite V2_local, Sub_entered. unfold NewProofs4.VT, visible. split.
  - intros (q & m & n' & e & n & Hs & H1 & H2 & ->). apply scanned_dir in Hs as [[-> [= -> -> ->]]|(x & sub & X1 & X2 & X3 & X4)].
    + left. exists n. auto.
    + right. exists x, sub. split; [exact X1|]. split; [exact X2|]. split; [exact X3|]. exists q, m, n', e, n. auto.
  - intros [(n & H1 & H2 & ->)|(x & sub & X1 & X2 & X3 & (q & m & n' & e & n & Hs & H1 & H2 & ->))].
    + exists p, mt, nl, l, n. split; [constructor|auto].
    + exists q, m, n', e, n. split; [|auto]. apply scanned_dir. right. exists x, sub. auto.
Qed.
Lemma GT_dir f : GT p nd f <-> (exists x, f = child p x /\ mem SLASH x = false /\ ~ local_reg x) \/ Sub md p l' (fun q sub => GT q sub f).
Proof.
  rewrite Sub_entered. unfold NewProofs4.GT. split.
  - intros (q & x & m & n' & e & Hs & -> & H1 & H2). apply scanned_dir in Hs as [[-> [= -> -> ->]]|(y & sub & X1 & X2 & X3 & X4)].
    + left. exists x. auto.
    + right. exists y, sub. split; [exact X1|]. split; [exact X2|]. split; [exact X3|]. exists q, x, m, n', e. auto.
  - intros [(x & -> & H1 & H2)|(y & sub & X1 & X2 & X3 & (q & x & m & n' & e & Hs & -> & H1 & H2))].
    + exists p, x, mt, nl, l. split; [constructor|auto].
    + exists q, x, m, n', e. split; [|auto]. apply scanned_dir. right. exists y, sub. auto.
Qed.
Lemma GDT_dir f : GDT p nd f <-> (exists x, f = child p x /\ mem SLASH x = false /\ ~ local_present x) \/ Sub md p l' (fun q sub => GDT q sub f).
Proof.
  rewrite Sub_entered. unfold NewProofs4.GDT. split.
  - intros (q & x & m & n' & e & Hs & -> & H1 & H2). apply scanned_dir in Hs as [[-> [= -> -> ->]]|(y & sub & X1 & X2 & X3 & X4)].
    + left. exists x. auto.
    + right. exists y, sub. split; [exact X1|]. split; [exact X2|]. split; [exact X3|]. exists q, x, m, n', e. auto.
  - intros [(x & -> & H1 & H2)|(y & sub & X1 & X2 & X3 & (q & x & m & n' & e & Hs & -> & H1 & H2))].
    + exists p, x, mt, nl, l. split; [constructor|auto].
    + exists q, x, m, n', e. split; [|auto]. apply scanned_dir. right. exists y, sub. auto.
Qed.
Lemma DT_dir f : upto p f \/ Sub md p l' (fun q sub => DT q sub f) -> DT p nd f.
Proof.
  rewrite Sub_entered. intros [H|(y & sub & X1 & X2 & X3 & (q & x & Hs & H1))].
  - exists p, nd. split; [constructor|exact H].
  - exists q, x. split; [|exact H1]. apply scanned_dir. right. exists y, sub. auto.
Qed.
Lemma MT_dir q m : (q = p /\ m = mt /\ mt <> stat_time p) \/ Sub md p l' (fun r sub => MT r sub q m) -> MT p nd q m.
Proof.
  rewrite Sub_entered. intros [(-> & -> & H)|(y & sub & X1 & X2 & X3 & (n' & e & Hs & H1))].
  - exists nl, l. split; [constructor|exact H].
  - exists n', e. split; [|exact H1]. apply scanned_dir. right. exists y, sub. auto.
Qed.
(** Nothing to do in a directory whose recorded mtime can be trusted. *)
Lemma trusted_dir s : trustworthy p nd (s_db s) -> dir_get p (s_db s) = Some mt ->
  (forall g f keys ok, V2 p es g (Some (f, keys, ok)) -> isrec s g) /\
  (forall x, mem SLASH x = false -> ~ local_reg x -> ~ isrec s (child p x)) /\
  (forall x, mem SLASH x = false -> ~ local_present x -> ~ known_dir (s_db s) (child p x)) /\
  (nl = 2 -> child_dirs p (s_db s) = [] -> forall Q, ~ Sub md p l' Q).
Proof.
  intros T Hm. destruct (T p mt nl l) as (T1 & T2 & T3 & T4); [constructor|exact Hm|]. split; [|split; [|split]].
  - intros g f keys ok H. apply V2_local in H as (n & H1 & H2 & ->). eapply T2; eassumption.
  - intros x Hx Hn Hr. apply Hn. now apply T1.
  - intros x Hx Hn Hr. apply Hn. now apply T3.
  - intros E Hc Q H. apply Sub_entered in H as (n & sub & H1 & H2 & H3 & _). refine (T4 E _ n sub H1 H2 H3).
    intros x Hx Hk. assert (X : In x (child_dirs p (s_db s))) by (apply child_dirs_In; auto). now rewrite Hc in X.
Qed.
End Dir.

Lemma child_files_In p s n : inv (mail s) -> (In n (child_files p (s_db s)) <-> isrec s (child p n) /\ mem SLASH n = false).
Proof.
  intros Hi. unfold child_files. rewrite tset_of_In, names_in_In, (all_files_In compressed) by exact Hi. reflexivity.
Qed.

Lemma VT_strict q sub g c : VT q sub g c -> exists r, g = child q r.
Proof.
  intros (q' & m & n' & e & y & Hs & _ & _ & ->). apply scanned_upto in Hs as [<-|(r & ->)]; [eauto|]. rewrite child_child. eauto.
Qed.

Theorem walk_all nd : walk_ok nd.
Proof.
  induction nd as [c|mt nl l IH|mt nl| |] using node_ind'; intros Hdir p s t Hp Hgt Hleg Hi Hg Ht; try (destruct Hdir; fail).
  - rewrite add_files_dir. unfold scan_dir.
    set (unchanged := match dir_get p (s_db s) with Some db_mtime => negb full_scan && Z.eqb mt db_mtime | None => false end).
    assert (Un : unchanged = true -> full_scan = false /\ dir_get p (s_db s) = Some mt).
    { unfold unchanged. destruct (dir_get p (s_db s)) as [m|]; [|discriminate]. rewrite andb_true_iff, negb_true_iff, Z.eqb_eq. intros [-> ->]. auto. }
    assert (Tr : unchanged = true -> t = true -> trustworthy p (NDir mt nl l) (s_db s)).
    { intros U T. destruct (Ht T) as [X|X]; [destruct (Un U); congruence|exact X]. }
    inversion Hgt as [? ? ? Nd Hch| | | |]; subst.
    assert (Hno : forall n sub, In (n, sub) l -> mem SLASH n = false) by (intros n sub H; now apply (Hch n sub)).
    set (es := match dir_get p (s_db s) with Some _ => sort_entries (map mkE l) | None => map mkE l end).
    assert (Es : exists l', Permutation l l' /\ es = map mkE l').
    { unfold es. destruct (dir_get p (s_db s)); [|exists l; auto]. exists (sort_entries l). split; [apply sort_perm|]. apply sort_map. reflexivity. }
    destruct Es as (l' & Perm & Es).
    assert (Nd' : NoDup (map fst l')) by (eapply Permutation_NoDup; [|exact Nd]; now apply Permutation_map).
    set (md := entries_resemble_maildir (map (fun e => (fst e, fst (snd e))) es)).
    assert (Hmd : md = true <-> maildir l).
    { unfold md. rewrite Es, map_map. cbn [NewProofs5.mkE fst snd]. rewrite resemble_maildir by exact Nd'. split; apply maildir_perm; [now apply Permutation_sym|exact Perm]. }
    destruct (unchanged && N.eqb nl 2 && match child_dirs p (s_db s) with [] => true | _ => false end) eqn:Early.
    { exists true, s. split; [reflexivity|]. apply andb_true_iff in Early as [Early Ec]. apply andb_true_iff in Early as [U En]. apply N.eqb_eq in En.
      assert (Ec' : child_dirs p (s_db s) = []) by (destruct (child_dirs p (s_db s)); [reflexivity|discriminate]).
      eapply eff_weaken; [| | | | | |apply (eff_nothing compressed sync new_tags A _ s Hi Hg)]; try none.
      intros T _. cbn [andb] in T. destruct (trusted_dir mt nl l l' p md Perm Hmd s (Tr U T) (proj2 (Un U))) as (X1 & X2 & X3 & X4).
      split; [|split].
      - intros g f keys ok H. right. apply (VT_dir mt nl l l' p md Perm Hmd) in H as [H|H]; [eapply X1; exact H|]. destruct (X4 En Ec' _ H).
      - intros f H. right. apply (GT_dir mt nl l l' p md Perm Hmd) in H as [(x & -> & H1 & H2)|H]; [now apply X2|]. destruct (X4 En Ec' _ H).
      - intros f H. right. apply (GDT_dir mt nl l l' p md Perm Hmd) in H as [(x & -> & H1 & H2)|H]; [now apply X3|]. destruct (X4 En Ec' _ H). }
    clear Early.
    assert (Hl' : forall n sub, In (n, sub) l' -> mem SLASH n = false /\ good_tree sub /\ legal sub).
    { intros n sub H. apply (Permutation_in _ (Permutation_sym Perm)) in H. destruct (Hch n sub H) as [[_ X] Y]. split; [exact X|]. split; [exact Y|].
      intros f keys ok Hm. apply (Hleg f keys ok). eapply mail_below; eassumption. }
    destruct (pass1_eff compressed full_scan sync new_tags ignore_verbatim ignore_regex stat_time A md p Hp l' s t) as (b1 & s1 & E1 & F1); auto.
    { intros n sub H. apply (IH n). eapply Permutation_in; [apply Permutation_sym; exact Perm|exact H]. }
    { intros T. destruct (Ht T) as [X|X]; [now left|right]. intros n sub H1 H2 H3. eapply trust_sub; [exact X| |exact H2|now apply (ent_entered md p l n Hmd)].
      eapply Permutation_in; [apply Permutation_sym; exact Perm|exact H1]. }
    rewrite Es in *. rewrite E1.
    assert (S1 : forall g c, Sub md p l' (fun q sub => VT q sub g c) -> VT p (NDir mt nl l) g c) by (intros g c H; apply (VT_dir mt nl l l' p md Perm Hmd); now right).
    assert (S2 : forall f, Sub md p l' (fun q sub => GT q sub f) -> GT p (NDir mt nl l) f) by (intros f H; apply (GT_dir mt nl l l' p md Perm Hmd); now right).
    assert (S3 : forall f, Sub md p l' (fun q sub => GDT q sub f) -> GDT p (NDir mt nl l) f) by (intros f H; apply (GDT_dir mt nl l l' p md Perm Hmd); now right).
    assert (S4 : forall f, Sub md p l' (fun q sub => DT q sub f) -> DT p (NDir mt nl l) f) by (intros f H; apply (DT_dir mt nl l l' p md Perm Hmd); now right).
    assert (S5 : forall f m, Sub md p l' (fun q sub => MT q sub f m) -> MT p (NDir mt nl l) f m) by (intros f m H; apply (MT_dir mt nl l l' p md Perm Hmd); now right).
    destruct b1.
    2:{ exists false, s1. split; [reflexivity|]. eapply eff_weaken; [exact S1|exact S2|exact S3|exact S4|exact S5| |exact F1]. discriminate. }
    destruct unchanged eqn:U.
    { exists true, s1. split; [reflexivity|]. eapply eff_weaken; [exact S1|exact S2|exact S3|exact S4|exact S5| |exact F1].
      intros T _. cbn [andb] in T. destruct (trusted_dir mt nl l l' p md Perm Hmd s (Tr eq_refl T) (proj2 (Un eq_refl))) as (X1 & X2 & X3 & X4).
      split; [|split].
      - intros g f keys ok H. apply (VT_dir mt nl l l' p md Perm Hmd) in H as [H|H]; [right; eapply X1; exact H|now left].
      - intros f H. apply (GT_dir mt nl l l' p md Perm Hmd) in H as [(x & -> & H1 & H2)|H]; [right; now apply X2|now left].
      - intros f H. apply (GDT_dir mt nl l l' p md Perm Hmd) in H as [(x & -> & H1 & H2)|H]; [right; now apply X3|now left]. }
    destruct (eff_inv _ _ _ _ _ _ _ _ _ _ _ _ F1) as [I1 G1].
    set (dbf := match dir_get p (s_db s) with Some _ => child_files p (s_db s1) | None => [] end).
    set (dbd := match dir_get p (s_db s) with Some _ => child_dirs p (s_db s1) | None => [] end).
    (* what pass 1 added is further down *)
    assert (P1 : forall x, mem SLASH x = false -> (isrec s1 (child p x) <-> isrec s (child p x))).
    { intros x Hx. split; intros (j & Hj); [|exists j; now apply (e_mono _ _ _ _ _ _ _ _ _ _ _ _ F1)].
      apply (e_sound _ _ _ _ _ _ _ _ _ _ _ _ F1) in Hj as [Hj|(_ & f & keys & (n & sub & _ & _ & _ & (q & m & n' & e & y & Hs & _ & _ & Ey)) & _)]; [now exists j|].
      exfalso. apply scanned_upto in Hs as [<-|(r & ->)]; revert Ey; [now apply child_below|]. rewrite child_child. now apply child_below. }
    assert (P2 : forall x, mem SLASH x = false -> isrec s1 (child p x) -> In x dbf).
    { intros x Hx H. unfold dbf. destruct (dir_get p (s_db s)) eqn:Ed; [now apply child_files_In|]. exfalso. apply P1 in H; [|exact Hx].
      destruct (g_file _ Hg _ H) as (q & n & E & Hn & (m & Hm)). apply child_inj in E as [<- <-]; auto. congruence. }
    assert (P3 : forall x, mem SLASH x = false -> known_dir (s_db s) (child p x) -> In x dbd).
    { intros x Hx (m & Hm). unfold dbd. destruct (dir_get p (s_db s)) eqn:Ed.
      - apply child_dirs_In. split; [|exact Hx]. exists m. now apply (e_dmono _ _ _ _ _ _ _ _ _ _ _ _ F1).
      - exfalso. destruct (g_dir _ Hg (child p x)) as [E|(q & n & E & Hn & (m' & Hm'))]; [now exists m|now apply child_not_nil in E|]. apply child_inj in E as [<- <-]; auto. congruence. }
    destruct (finish_eff compressed compressed_short sync new_tags ignore_verbatim ignore_regex stat_time A mt p (map mkE l') dbf dbd s1 Hp I1 G1) as (b & s' & E & F).
    { unfold dbf. destruct (dir_get p (s_db s)); [apply tset_of_sorted|constructor]. }
    { unfold dbd. destruct (dir_get p (s_db s)); [apply tset_of_sorted|constructor]. }
    { unfold dbf, dbd, es in *. destruct (dir_get p (s_db s)); [left|now right]. rewrite <- Es. apply sort_sorted. rewrite map_map. exact Nd. }
    { rewrite map_map. exact Nd'. }
    { intros n H. rewrite map_map in H. apply in_map_iff in H as ([x sub] & <- & H). now apply (Hl' x sub). }
    { intros n f keys ok w H. apply (In_es l l' Perm) in H as (sub & H & Ek & _). destruct sub as [c0| | | |]; try discriminate. injection Ek as <-.
      apply (Hleg f keys ok). eapply mail_below; [exact H|constructor]. }
    { intros n H. unfold dbf in H. destruct (dir_get p (s_db s)); [|destruct H]. now apply child_files_In in H. }
    { intros n H. rewrite map_map in H. apply in_map_iff in H as ([x sub] & <- & H). apply P2. now apply (Hl' x sub). }
    { intros n H. unfold dbd in H. destruct (dir_get p (s_db s)); [|destruct H]. now apply child_dirs_In in H. }
    exists b, s'. split; [exact E|].
    apply (eff_bool compressed sync new_tags A _ _ _ _ _ ((true && t) && (b && t))); [destruct b, t; reflexivity|].
    assert (Below : forall n sub x, In (n, sub) l' -> mem SLASH x = false -> beneath (child p n) (child p x) -> n = x).
    { intros n sub x H Hx Hb. destruct (Hl' n sub H) as [Hn _]. eapply (beneath_two p n x); [exact Hn|exact Hx|exact Hb|now left]. }
    assert (F' : eff (V2 p (map mkE l')) (fun f => exists n, f = child p n /\ In n dbf /\ ~ reg p (map mkE l') n)
        (fun f => exists n, f = child p n /\ In n dbd /\ ~ present p (map mkE l') n) (upto p) (fun q m => q = p /\ m = mt /\ mt <> stat_time p) (b && t) s1 s').
    { destruct t; [rewrite andb_true_r; exact F|]. rewrite andb_false_r. destruct F. constructor; auto; try discriminate.
      - destruct e_files as (q & Q1 & Q2 & Q3). exists q. split; [exact Q1|]. split; [exact Q2|]. discriminate.
      - destruct e_dirs as (q & Q1 & Q2 & Q3). exists q. split; [exact Q1|]. split; [exact Q2|]. discriminate.
      - destruct e_van as (W1 & W2 & W3). split; [exact W1|]. split; [discriminate|exact W3]. }
    assert (Nd1 : forall n, In n dbf -> mem SLASH n = false).
    { intros n H. unfold dbf in H. destruct (dir_get p (s_db s)); [|destruct H]. now apply child_files_In in H. }
    assert (Nd2 : forall n, In n dbd -> mem SLASH n = false).
    { intros n H. unfold dbd in H. destruct (dir_get p (s_db s)); [|destruct H]. now apply child_dirs_In in H. }
    eapply eff_weaken; [| | | | | |eapply eff_seq; [| | |exact F1|exact F']].
    + intros f c [H|H]; [now apply S1|]. apply (VT_dir mt nl l l' p md Perm Hmd). now left.
    + intros f [H|(n & -> & H1 & H2)]; [now apply S2|]. apply (GT_dir mt nl l l' p md Perm Hmd). left. exists n. split; [reflexivity|]. split; [now apply Nd1|].
      intros X. apply H2. now apply (reg_local l l' p Perm).
    + intros f [H|(n & -> & H1 & H2)]; [now apply S3|]. apply (GDT_dir mt nl l l' p md Perm Hmd). left. exists n. split; [reflexivity|]. split; [now apply Nd2|].
      intros X. apply H2. now apply (present_local l l' p Perm).
    + intros f [H|H]; [now apply S4|]. apply (DT_dir mt nl l l' p md Perm Hmd). now left.
    + intros f m [H|H]; [now apply S5|]. apply (MT_dir mt nl l l' p md Perm Hmd). now left.
    + intros _ _. split; [|split].
      * intros g f keys ok H. left. apply (VT_dir mt nl l l' p md Perm Hmd) in H. tauto.
      * intros f H. apply (GT_dir mt nl l l' p md Perm Hmd) in H as [(x & -> & H1 & H2)|H]; [|left; now left].
        destruct (in_dec (list_eq_dec ascii_dec) x dbf) as [Y|Y]; [left; right|right].
        -- exists x. split; [reflexivity|]. split; [exact Y|]. intros X. apply H2. now apply (reg_local l l' p Perm).
        -- intros X. apply Y. apply P2; [exact H1|]. now apply P1.
      * intros f H. apply (GDT_dir mt nl l l' p md Perm Hmd) in H as [(x & -> & H1 & H2)|H]; [|left; now left].
        destruct (in_dec (list_eq_dec ascii_dec) x dbd) as [Y|Y]; [left; right|right].
        -- exists x. split; [reflexivity|]. split; [exact Y|]. intros X. apply H2. now apply (present_local l l' p Perm).
        -- intros X. apply Y. now apply P3.
    + intros f c c' (n & sub & H1 & _ & _ & H2) (x & w & H3 & _ & ->). apply VT_strict in H2 as (r & H2). revert H2. apply child_below.
      apply (In_es l l' Perm) in H3 as (sub' & H3 & _). eapply Hno; exact H3.
    + intros f c (n & sub & H1 & _ & _ & H2) (x & -> & H3 & _). apply VT_strict in H2 as (r & H2). revert H2. apply child_below. now apply Nd1.
    + intros f (n & sub & H1 & _ & He & H2) (x & -> & H3 & H4).
      assert (n = x). { eapply DT_other; [| |exact H2|now left]; [now apply (Hl' n sub)|now apply Nd2]. } subst x.
      apply H4. apply (present_local l l' p Perm). split; [now apply (ent_entered md p l n Hmd) in He as [? _]|]. exists sub. eapply Permutation_in; [apply Permutation_sym; exact Perm|exact H1].
  - cbn [New.add_files].
    assert (Sc : forall q x, scanned p (NUnreadable mt nl) q x -> x = NUnreadable mt nl) by (intros q x H; now apply scanned_leaf in H).
    assert (F : forall b, eff (VT p (NUnreadable mt nl)) (GT p (NUnreadable mt nl)) (GDT p (NUnreadable mt nl)) (DT p (NUnreadable mt nl)) (MT p (NUnreadable mt nl)) b s s).
    { intros b. eapply eff_weaken; [| | | | | |apply (eff_nothing compressed sync new_tags A b s Hi Hg)]; try none. intros _ _. split; [|split].
      - intros g f keys ok (q & m & n' & e & n & Hs & _). apply Sc in Hs. discriminate.
      - intros f (q & x & m & n' & e & Hs & _). apply Sc in Hs. discriminate.
      - intros f (q & x & m & n' & e & Hs & _). apply Sc in Hs. discriminate. }
    match goal with |- context [if ?b then _ else _] => destruct b end; eexists _, s; (split; [reflexivity|apply F]).
Qed.
End Walk3.
