(** Proofs about the reply tree (C22, C23). *)
From Verif Require Import Bytes ThreadTree ThreadTreeSpec.
From Coq Require Import Permutation Sorted.
Local Open Scope nat_scope.

(** * Levels of a graph *)
Fixpoint lev (r : replies) (k : nat) (l : list nat) : list nat :=
  match k with O => l | S k' => flat_map r (lev r k' l) end.

Lemma lev_S r k l : lev r (S k) l = lev r k (flat_map r l).
Proof. induction k as [|k IH]; [reflexivity|]. cbn [lev] in *. now rewrite IH. Qed.
Lemma lev_nil r k : lev r k [] = [].
Proof. induction k as [|k IH]; [reflexivity|]. cbn [lev]. now rewrite IH. Qed.
Lemma lev_empty_mono r k l : lev r k l = [] -> forall k', k <= k' -> lev r k' l = [].
Proof. intros H k' L. induction L; [exact H|]. cbn [lev]. now rewrite IHL. Qed.

Lemma flat_map_incl {A B} (f : A -> list B) l l' : incl l l' -> incl (flat_map f l) (flat_map f l').
Proof. intros I x. rewrite !in_flat_map. intros (y & Hy & Hx). exists y. auto. Qed.
Lemma lev_incl r k l l' : incl l l' -> incl (lev r k l) (lev r k l').
Proof. intros I. induction k as [|k IH]; [exact I|]. cbn [lev]. now apply flat_map_incl. Qed.
Lemma lev_empty_incl r k l l' : incl l l' -> lev r k l' = [] -> lev r k l = [].
Proof.
  intros I E. pose proof (lev_incl r k l l' I) as J. rewrite E in J.
  destruct (lev r k l) as [|x t]; [reflexivity|]. destruct (J x); now left.
Qed.

Lemma lev_perm r r' k l l' :
  (forall m, Permutation (r m) (r' m)) -> Permutation l l' -> Permutation (lev r k l) (lev r' k l').
Proof.
  intros Hr Hl. induction k as [|k IH]; [exact Hl|]. cbn [lev].
  transitivity (flat_map r (lev r' k l')).
  - now apply Permutation_flat_map.
  - clear IH. induction (lev r' k l') as [|x t IH]; [constructor|]. cbn. now apply Permutation_app.
Qed.

(** * Forests *)
Definition forest (n : nat) (r : replies) (top : list nat) : Prop :=
  Permutation (flat_map r (seq 0 n) ++ top) (seq 0 n).

Lemma seq_In n i : In i (seq 0 n) <-> i < n.
Proof. rewrite in_seq. lia. Qed.

Lemma NoDup_app_inv {A} (a b : list A) : NoDup (a ++ b) -> NoDup a /\ NoDup b /\ (forall x, In x a -> In x b -> False).
Proof.
  induction a as [|x a IH]; cbn; intros H.
  - split; [constructor|]. split; [exact H|]. intros y [].
  - inversion H as [|? ? Hx Ha]; subst. destruct (IH Ha) as (H1 & H2 & H3). split; [|split].
    + constructor; [|exact H1]. intros Hi. apply Hx, in_or_app. now left.
    + exact H2.
    + intros y [->|Hy] Hb; [apply Hx, in_or_app; now right|eauto].
Qed.
Lemma NoDup_app_intro {A} (a b : list A) :
  NoDup a -> NoDup b -> (forall x, In x a -> In x b -> False) -> NoDup (a ++ b).
Proof.
  induction 1 as [|x a Hx Ha IH]; cbn; intros Hb D; [exact Hb|]. constructor.
  - intros Hi. apply in_app_or in Hi as [Hi|Hi]; [auto|]. apply (D x); [now left|exact Hi].
  - apply IH; [exact Hb|]. intros y H1 H2. apply (D y); [now right|exact H2].
Qed.

Lemma complement (l : list nat) n : NoDup l -> (forall x, In x l -> x < n) -> exists l2, Permutation (l ++ l2) (seq 0 n).
Proof.
  intros N I. exists (filter (fun x => if in_dec Nat.eq_dec x l then false else true) (seq 0 n)).
  apply NoDup_Permutation.
  - apply NoDup_app_intro; [exact N|apply NoDup_filter, seq_NoDup|].
    intros x Hx H. apply filter_In in H as [_ H]. destruct (in_dec Nat.eq_dec x l); [discriminate|contradiction].
  - apply seq_NoDup.
  - intros x. rewrite in_app_iff, filter_In, seq_In. destruct (in_dec Nat.eq_dec x l); intuition auto; discriminate.
Qed.

Section Forest.
  Variables (n : nat) (r : replies) (top : list nat).
  Hypothesis F : forest n r top.

  Lemma forest_nodup : NoDup (flat_map r (seq 0 n) ++ top).
  Proof using F. eapply Permutation_NoDup; [apply Permutation_sym, F|apply seq_NoDup]. Qed.
  Lemma forest_top_range i : In i top -> i < n.
  Proof using F. intros H. apply seq_In. eapply Permutation_in; [exact F|]. apply in_or_app. now right. Qed.
  Lemma forest_child_range i j : i < n -> In j (r i) -> j < n.
  Proof using F.
    intros Hi H. apply seq_In. eapply Permutation_in; [exact F|]. apply in_or_app. left.
    apply in_flat_map. exists i. split; [now apply seq_In|exact H].
  Qed.
  Lemma lev_range k i : In i (lev r k top) -> i < n.
  Proof using F.
    revert i. induction k as [|k IH]; cbn [lev]; intros i H; [now apply forest_top_range|].
    apply in_flat_map in H as (p & Hp & H). eapply forest_child_range; eauto.
  Qed.
  Lemma top_not_child i p : p < n -> In i top -> In i (r p) -> False.
  Proof using F.
    intros Hp Ht Hc. destruct (NoDup_app_inv _ _ forest_nodup) as (_ & _ & D). apply (D i); [|exact Ht].
    apply in_flat_map. exists p. split; [now apply seq_In|exact Hc].
  Qed.
  Lemma nodup_flat_parent (l : list nat) p q i :
    NoDup (flat_map r l) -> In p l -> In q l -> In i (r p) -> In i (r q) -> p = q.
  Proof.
    clear F. induction l as [|x l IH]; cbn; intros N Hp Hq Ip Iq; [contradiction|].
    apply NoDup_app_inv in N as (N1 & N2 & D).
    assert (Z : forall y, In y l -> In i (r y) -> In i (flat_map r l)) by (intros y H1 H2; apply in_flat_map; eauto).
    destruct Hp as [->|Hp], Hq as [->|Hq]; auto.
    - exfalso. eapply D; eauto.
    - exfalso. eapply D; eauto.
  Qed.
  Lemma one_parent p q i : p < n -> q < n -> In i (r p) -> In i (r q) -> p = q.
  Proof using F.
    intros Hp Hq. apply nodup_flat_parent with (l := seq 0 n).
    - apply (NoDup_app_inv _ _ forest_nodup).
    - now apply seq_In.
    - now apply seq_In.
  Qed.
  Lemma lev_disjoint i j v : i < j -> In v (lev r i top) -> In v (lev r j top) -> False.
  Proof using F.
    revert j v. induction i as [|i IH]; intros j v L Hi Hj.
    - destruct j as [|j]; [lia|]. cbn [lev] in *. apply in_flat_map in Hj as (p & Hp & Hv).
      eapply top_not_child; [eapply lev_range; exact Hp|exact Hi|exact Hv].
    - destruct j as [|j]; [lia|]. cbn [lev] in *.
      apply in_flat_map in Hi as (p & Hp & Hv). apply in_flat_map in Hj as (q & Hq & Hw).
      assert (p = q) by (eapply one_parent; eauto using lev_range). subst q.
      eapply (IH j p); eauto. lia.
  Qed.
  Lemma lev_nodup k : NoDup (lev r k top).
  Proof using F.
    induction k as [|k IH]; cbn [lev]; [apply (NoDup_app_inv _ _ forest_nodup)|].
    destruct (complement (lev r k top) n IH (lev_range k)) as (l2 & P).
    apply NoDup_app_inv with (b := flat_map r l2). rewrite <- flat_map_app.
    eapply Permutation_NoDup; [apply Permutation_flat_map, Permutation_sym, P|].
    apply (NoDup_app_inv _ _ forest_nodup).
  Qed.
  Definition levels (k : nat) := flat_map (fun i => lev r i top) (seq 0 k).
  Lemma levels_S k : levels (S k) = levels k ++ lev r k top.
  Proof. clear F. unfold levels. rewrite seq_S, flat_map_app. cbn. now rewrite app_nil_r. Qed.
  Lemma levels_nodup k : NoDup (levels k).
  Proof using F.
    induction k as [|k IH]; [constructor|]. rewrite levels_S. apply NoDup_app_intro; [exact IH|apply lev_nodup|].
    intros v H1 H2. unfold levels in H1. apply in_flat_map in H1 as (i & Hi & Hv). apply seq_In in Hi.
    eapply lev_disjoint; eauto.
  Qed.
  Lemma levels_range k v : In v (levels k) -> v < n.
  Proof using F. intros H. apply in_flat_map in H as (i & _ & H). eapply lev_range; eauto. Qed.
  Lemma levels_length k : lev r k top <> [] -> S k <= length (levels (S k)).
  Proof using.
    clear F. induction k as [|k IH]; intros H; rewrite levels_S, app_length.
    - destruct (lev r 0 top); [contradiction|cbn; lia].
    - assert (lev r k top <> []) by (intros E; apply H; cbn [lev]; now rewrite E).
      specialize (IH H0). destruct (lev r (S k) top); [contradiction|cbn [length]; lia].
  Qed.
  Lemma lev_n_empty : lev r n top = [].
  Proof using F.
    destruct (lev r n top) eqn:E; [reflexivity|exfalso].
    assert (NE : lev r n top <> []) by (rewrite E; discriminate).
    apply levels_length in NE.
    assert (length (levels (S n)) <= length (seq 0 n)).
    { apply NoDup_incl_length; [apply levels_nodup|]. intros v H. apply seq_In. eapply levels_range; eauto. }
    rewrite seq_length in H. lia.
  Qed.
End Forest.

(** * The walk *)
Fixpoint pre (r : replies) (f : nat) (l : list nat) : list nat :=
  match f with O => [] | S f' => flat_map (fun m => m :: pre r f' (r m)) l end.

Lemma pre_flat r f l : pre r f l = flat_map (fun m => pre r f [m]) l.
Proof.
  destruct f as [|f]; [cbn; now induction l|]. cbn [pre]. induction l as [|m l IH]; [reflexivity|].
  cbn [flat_map]. rewrite IH. cbn. now rewrite app_nil_r.
Qed.
Lemma pre_flat_flat r f (g : nat -> list nat) l : pre r f (flat_map g l) = flat_map (fun m => pre r f (g m)) l.
Proof.
  induction l as [|m l IH]; [destruct f; reflexivity|]. cbn [flat_map]. rewrite <- IH.
  rewrite (pre_flat r f (g m ++ _)), flat_map_app, <- !pre_flat. reflexivity.
Qed.
Lemma pre_step r f l : Permutation (pre r (S f) l) (l ++ pre r f (flat_map r l)).
Proof.
  rewrite pre_flat_flat. cbn [pre]. induction l as [|m l IH]; [constructor|]. cbn [flat_map].
  rewrite IH. cbn [app]. apply perm_skip. rewrite !app_assoc. apply Permutation_app_tail, Permutation_app_comm.
Qed.
Lemma pre_levels r f l : Permutation (pre r f l) (levels r l f).
Proof.
  revert l. induction f as [|f IH]; intros l; [constructor|]. rewrite pre_step, IH.
  unfold levels. cbn [seq flat_map]. change (lev r 0 l) with l. apply Permutation_app_head.
  rewrite <- seq_shift, flat_map_concat_map, (flat_map_concat_map _ (map S _)), map_map.
  erewrite (map_ext (fun x => lev r (S x) l)); [reflexivity|]. intros k. apply lev_S.
Qed.

Lemma flat_map_nil_all {A B} (f : A -> list B) l m : flat_map f l = [] -> In m l -> f m = [].
Proof.
  induction l as [|x l IH]; cbn; intros E H; [contradiction|]. apply app_eq_nil in E as (E1 & E2).
  destruct H as [->|H]; auto.
Qed.
Lemma child_incl (r : replies) l m : In m l -> incl (r m) (flat_map r l).
Proof. intros H x Hx. apply in_flat_map. eauto. Qed.

Lemma show_ok shown r f : forall l ind, lev r f l = [] ->
  exists out, show_messages shown (S f) r ind l = Some out /\ map fst out = pre r (S f) l.
Proof.
  induction f as [|f IH]; intros l ind E.
  - cbn in E. subst l. now exists [].
  - rewrite lev_S in E.
    assert (C : forall m, In m l -> lev r f (r m) = [])
      by (intros m Hm; eapply lev_empty_incl; [apply child_incl, Hm|exact E]).
    clear E. remember (S f) as sf eqn:Esf. cbn [show_messages pre].
    induction l as [|m l IHl]; [now exists []|].
    destruct (IH (r m) (if shown m then S ind else ind)) as (sub & Es & Hs); [apply C; now left|].
    rewrite Es. destruct IHl as (rest & Er & Hr); [intros; apply C; now right|].
    rewrite Er. eexists. split; [reflexivity|]. cbn [map fst flat_map]. rewrite map_app, Hs, Hr. reflexivity.
Qed.

Lemma walks_ok r f : forall l, lev r f l = [] -> walks r l (pre r (S f) l).
Proof.
  induction f as [|f IH]; intros l E.
  - cbn in E. subst l. constructor.
  - rewrite lev_S in E.
    assert (C : forall m, In m l -> lev r f (r m) = [])
      by (intros m Hm; eapply lev_empty_incl; [apply child_incl, Hm|exact E]).
    clear E. remember (S f) as sf eqn:Esf. cbn [pre]. induction l as [|m l IHl]; [constructor|].
    cbn [flat_map]. cbn [app]. constructor.
    + apply IH, C. now left.
    + apply IHl. intros; apply C; now right.
Qed.

Lemma label_ok r f : forall m d dep, lev r f [m] = [] -> exists dep', label_depths f r d dep m = Some dep'.
Proof.
  induction f as [|f IH]; intros m d dep E; [discriminate|]. cbn [label_depths].
  rewrite lev_S in E. cbn [flat_map] in E. rewrite app_nil_r in E.
  assert (C : forall c, In c (r m) -> lev r f [c] = [])
    by (intros c Hc; eapply lev_empty_incl; [|exact E]; intros x [->|[]]; exact Hc).
  clear E. generalize (upd dep m d). induction (r m) as [|c l IHl]; intros dep0; [now exists dep0|].
  cbn [fold_left]. destruct (IH c (S d) dep0) as (dep1 & E1); [apply C; now left|]. rewrite E1.
  apply IHl. intros; apply C; now right.
Qed.
Lemma label_all_ok r f roots dep : lev r f roots = [] -> exists dep', label_all f r roots dep = Some dep'.
Proof.
  intros E. unfold label_all.
  assert (C : forall c, In c roots -> lev r f [c] = [])
    by (intros c Hc; eapply lev_empty_incl; [|exact E]; intros x [->|[]]; exact Hc).
  clear E. revert dep. induction roots as [|c l IHl]; intros dep0; [now exists dep0|].
  cbn [fold_left]. destruct (label_ok r f c 0 dep0) as (dep1 & E1); [apply C; now left|]. rewrite E1.
  apply IHl. intros; apply C; now right.
Qed.

(** * Sorting *)
Section Sort.
  Variable qsort : list nat -> list nat.
  Variable P : list nat -> Prop.
  Hypothesis Q : forall l, Permutation (qsort l) l /\ P (qsort l).

  Definition same (r r' : replies) := forall m, Permutation (r m) (r' m).
  Lemma same_refl r : same r r.
  Proof. intros m. reflexivity. Qed.
  Lemma same_trans a b c : same a b -> same b c -> same a c.
  Proof. intros H1 H2 m. etransitivity; eauto. Qed.
  Lemma same_sym a b : same a b -> same b a.
  Proof. intros H m. symmetry. apply H. Qed.

  Definition keeps (r r' : replies) := forall m, P (r m) -> P (r' m).

  Lemma sort_ok f : forall r l, lev r f l = [] ->
    exists r' l', sort_subtrees qsort (S f) r l = Some (r', l') /\ same r r' /\ Permutation l' l /\ P l' /\
      keeps r r' /\ (forall k m, In m (lev r k l) -> P (r' m)).
  Proof using Q.
    induction f as [|f IH]; intros r l E.
    - cbn in E. subst l. exists r, (qsort []). cbn. destruct (Q []) as (Q1 & Q2). repeat split; auto using same_refl.
      + intros m. auto.
      + intros k m H. rewrite lev_nil in H. destruct H.
    - rewrite lev_S in E.
      assert (C : forall m, In m l -> lev r f (r m) = [])
        by (intros m Hm; eapply lev_empty_incl; [apply child_incl, Hm|exact E]).
      clear E. remember (S f) as sf eqn:Esf. cbn [sort_subtrees].
      assert (G : forall l0 r0, same r r0 -> (forall m, In m l0 -> lev r f (r m) = []) ->
        exists r', fold_left (fun acc root =>
               match acc with
               | None => None
               | Some r1 => match sort_subtrees qsort sf r1 (r1 root) with
                            | None => None
                            | Some (r2, l2) => Some (upd r2 root l2)
                            end
               end) l0 (Some r0) = Some r' /\ same r0 r' /\ keeps r0 r' /\
            (forall k m, In m (lev r k l0) -> P (r' m))).
      { clear C. induction l0 as [|m l0 IHl]; intros r0 S0 C.
        - exists r0. repeat split; [apply same_refl|intros m; auto|]. intros k m H. rewrite lev_nil in H. destruct H.
        - cbn [fold_left]. destruct (IH r0 (r0 m)) as (r1 & l1 & E1 & S1 & P1 & PP1 & K1 & D1).
          { eapply Permutation_nil. rewrite <- (C m) by now left. apply lev_perm; [exact S0|apply S0]. }
          rewrite E1. destruct (IHl (upd r1 m l1)) as (r2 & E2 & S2 & K2 & D2).
          { intros x. unfold upd. destruct (Nat.eqb_spec x m) as [->|]; [|eapply same_trans; eauto].
            rewrite P1. apply S0. }
          { intros x Hx. apply C. now right. }
          exists r2. split; [exact E2|]. repeat split.
          + eapply same_trans; [|exact S2]. intros x. unfold upd.
            destruct (Nat.eqb_spec x m) as [->|]; [now rewrite P1|apply S1].
          + intros x Hx. apply K2. unfold upd. destruct (Nat.eqb_spec x m); auto.
          + intros k x Hx. destruct k as [|k].
            * cbn [lev] in Hx. destruct Hx as [<-|Hx]; [|now apply (D2 0)]. apply K2. unfold upd. now rewrite Nat.eqb_refl.
            * rewrite lev_S in Hx. cbn [flat_map] in Hx.
              assert (Hx' : In x (lev r k (r m)) \/ In x (lev r k (flat_map r l0))).
              { clear - Hx. revert x Hx. induction k as [|k IHk]; cbn [lev]; intros x Hx; [now apply in_app_or|].
                apply in_flat_map in Hx as (p & Hp & Hx). destruct (IHk _ Hp) as [H|H]; [left|right]; apply in_flat_map; eauto. }
              destruct Hx' as [Hx'|Hx'].
              -- apply K2. unfold upd. destruct (Nat.eqb_spec x m); [auto|]. apply (D1 k).
                 eapply Permutation_in; [|exact Hx']. apply lev_perm; [exact S0|apply S0].
              -- apply (D2 (S k)). rewrite lev_S. exact Hx'. }
      destruct (G l r (same_refl r) C) as (r' & E' & S' & K' & D'). rewrite E'.
      destruct (Q l) as (Q1 & Q2). exists r', (qsort l). auto 10.
  Qed.
End Sort.

(** * The passes keep the forest *)
Lemma hash_lookup_from_range ms id : forall k j, hash_lookup_from k ms id = Some j ->
  k <= j < k + length ms /\ tm_mid (nth (j - k) ms no_msg) = id.
Proof.
  induction ms as [|m ms IH]; intros k j; cbn [hash_lookup_from length]; [discriminate|].
  destruct (hash_lookup_from (S k) ms id) as [j'|] eqn:E.
  - intros H. injection H as <-. apply IH in E as (L & E). split; [lia|].
    replace (j' - k) with (S (j' - S k)) by lia. exact E.
  - destruct (bseq (tm_mid m) id) eqn:B; [|discriminate]. intros H. injection H as <-.
    split; [lia|]. rewrite Nat.sub_diag. now apply bseq_eq.
Qed.
Lemma hash_lookup_range ms id j : hash_lookup ms id = Some j -> j < length ms /\ tm_mid (get ms j) = id.
Proof.
  intros H. apply hash_lookup_from_range in H as (L & E). rewrite Nat.sub_0_r in E. split; [lia|exact E].
Qed.

Lemma add_reply_flat_out r p i l : ~ In p l -> flat_map (add_reply r p i) l = flat_map r l.
Proof.
  induction l as [|x l IH]; cbn; intros H; [reflexivity|]. unfold add_reply at 1, upd.
  destruct (Nat.eqb_spec x p) as [->|]; [destruct H; now left|]. f_equal. apply IH. tauto.
Qed.
Lemma add_reply_flat r p i l : NoDup l -> In p l ->
  Permutation (flat_map (add_reply r p i) l) (i :: flat_map r l).
Proof.
  induction 1 as [|x l Hx Hl IH]; cbn; intros H; [contradiction|]. unfold add_reply at 1, upd.
  destruct (Nat.eqb_spec x p) as [->|Hn].
  - rewrite add_reply_flat_out by exact Hx. unfold list_add. rewrite <- app_assoc. symmetry. apply Permutation_middle.
  - destruct H as [->|H]; [congruence|]. rewrite IH by exact H. symmetry. apply Permutation_middle.
Qed.

Section Passes.
  Variable ms : list tmsg.
  Let n := length ms.

  (** [slots r tops pending]: every message is exactly once in a reply list, in [tops],
      or still [pending]. *)
  Definition slots (r : replies) (tops pending : list nat) : Prop :=
    Permutation (flat_map r (seq 0 n) ++ tops ++ pending) (seq 0 n).

  Lemma slots_reply r tops i pending p : p < n ->
    slots r tops (i :: pending) -> slots (add_reply r p i) tops pending.
  Proof.
    intros Hp H. unfold slots in *. rewrite add_reply_flat by (try apply seq_NoDup; now apply seq_In).
    etransitivity; [|exact H]. cbn [app]. rewrite !app_assoc, <- Permutation_middle. reflexivity.
  Qed.
  Lemma slots_top r tops i pending : slots r tops (i :: pending) -> slots r (list_add tops i) pending.
  Proof.
    intros H. unfold slots, list_add in *. rewrite <- app_assoc. exact H.
  Qed.

  (** every reply edge leads to a message that the reply names. *)
  Definition irt_is (i p : nat) : Prop := tm_irt (get ms i) = Some (tm_mid (get ms p)) /\ tm_mid (get ms p) <> [].
  Definition edge_ok (r : replies) : Prop := forall p i, In i (r p) ->
    p < n /\ (irt_is i p \/ In (tm_mid (get ms p)) (tm_refs (get ms i))).

  Lemma edge_add r p i : edge_ok r -> p < n ->
    (irt_is i p \/ In (tm_mid (get ms p)) (tm_refs (get ms i))) ->
    edge_ok (add_reply r p i).
  Proof.
    intros H Hp Hi q j. unfold add_reply, upd, list_add. destruct (Nat.eqb_spec q p) as [->|]; [|apply H].
    rewrite in_app_iff. intros [Hj|[<-|[]]]; [now apply H|auto].
  Qed.

  Lemma via_irt r i r' : parent_via_in_reply_to ms r i = Some r' ->
    exists p, p < n /\ r' = add_reply r p i /\ irt_is i p.
  Proof.
    unfold parent_via_in_reply_to. destruct (tm_irt (get ms i)) as [[|c irt]|] eqn:E; [discriminate| |discriminate].
    destruct (hash_lookup ms (c :: irt)) as [p|] eqn:L; [|discriminate].
    intros H. injection H as <-. apply hash_lookup_range in L as (L & M). exists p. unfold irt_is. rewrite M, E. split; [exact L|]. split; [reflexivity|]. split; [reflexivity|discriminate].
  Qed.

  Lemma first_pass_ok is : forall r maybe pending r' maybe',
    first_pass ms is r maybe = (r', maybe') -> edge_ok r -> slots r maybe (is ++ pending) ->
    edge_ok r' /\ slots r' maybe' pending.
  Proof.
    induction is as [|i is IH]; intros r maybe pending r' maybe'; cbn [first_pass app].
    - intros H. injection H as <- <-. auto.
    - destruct (parent_via_in_reply_to ms r i) as [r1|] eqn:V; intros H E S.
      + apply via_irt in V as (p & Hp & -> & M). eapply IH; [exact H| |].
        * apply edge_add; auto.
        * now apply slots_reply.
      + eapply IH; [exact H|exact E|]. now apply slots_top.
  Qed.

  Lemma best_parent_in dep refs : forall d par p, best_parent ms dep refs d par = Some p ->
    par = Some p \/ (p < n /\ In (tm_mid (get ms p)) refs).
  Proof.
    induction refs as [|ref refs IH]; intros d par p; cbn [best_parent]; [auto|].
    destruct (hash_lookup ms ref) as [np|] eqn:L.
    - destruct (_ || _); intros H; apply IH in H as [H|(H1 & H2)]; try (right; split; [exact H1|now right]).
      + injection H as <-. apply hash_lookup_range in L as (L & M). right. split; [exact L|]. left. auto.
      + now left.
    - intros H; apply IH in H as [H|(H1 & H2)]; [now left|right; split; [exact H1|now right]].
  Qed.

  Lemma second_pass_ok dep roots : forall r top r' top',
    second_pass ms dep roots r top = (r', top') -> edge_ok r -> slots r top roots ->
    edge_ok r' /\ slots r' top' [] /\ (roots ++ top <> [] -> top' <> []).
  Proof.
    induction roots as [|i rest IH]; intros r top r' top' H E S; cbn [second_pass] in H.
    - injection H as <- <-. auto.
    - assert (D : (rest = [] /\ top = [] /\ second_pass ms dep rest r (list_add top i) = (r', top')) \/
                  ((rest ++ top <> []) /\ (let (r1, top1) := parent_or_toplevel ms dep r top i in
                     second_pass ms dep rest r1 top1) = (r', top'))).
      { destruct rest; [destruct top|]; [left|right|right]; try (split; [discriminate|]); auto. }
      clear H. destruct D as [(-> & -> & H)|(NE & H)].
      + cbn in H. injection H as <- <-. split; [exact E|]. split; [apply (slots_top _ [] i []), S|discriminate].
      + unfold parent_or_toplevel in H. destruct (best_parent ms dep _ 0 None) as [p|] eqn:B.
        * apply best_parent_in in B as [B|(Hp & M)]; [discriminate|].
          apply IH in H as (H1 & H2 & H3); [|apply edge_add; auto|now apply slots_reply].
          split; [exact H1|]. split; [exact H2|]. intros _. apply H3. exact NE.
        * apply IH in H as (H1 & H2 & H3); [|exact E|now apply slots_top].
          split; [exact H1|]. split; [exact H2|]. intros _. apply H3. unfold list_add.
          destruct rest; [destruct top|]; discriminate.
  Qed.
End Passes.

Lemma slots_forest ms r tops : slots ms r tops [] <-> forest (length ms) r tops.
Proof. unfold slots, forest. rewrite app_nil_r. reflexivity. Qed.

Lemma forest_perm n r r' top top' : forest n r top -> same r r' -> Permutation top' top -> forest n r' top'.
Proof.
  intros F S P. unfold forest in *. etransitivity; [|exact F]. apply Permutation_app; [|exact P].
  symmetry. apply (lev_perm r r' 1 (seq 0 n) (seq 0 n)); [exact S|reflexivity].
Qed.

(** The whole of _resolve_thread_relationships. *)
Lemma resolve_ok qsort ms fuel :
  sorts_by_date ms qsort -> length ms < fuel ->
  exists r top, resolve qsort fuel ms = Some (r, top) /\ forest (length ms) r top /\ edge_ok ms r /\
    (ms <> [] -> top <> []) /\
    Sorted (fun i j => (tm_date (get ms i) <= tm_date (get ms j))%Z) top /\
    (forall k m, In m (lev r k top) -> Sorted (fun i j => (tm_date (get ms i) <= tm_date (get ms j))%Z) (r m)).
Proof.
  intros Q L. destruct ms as [|m0 rest].
  - exists (fun _ => []), []. repeat split; [constructor|destruct H|destruct H|congruence|constructor|constructor].
  - unfold resolve. remember (m0 :: rest) as ms eqn:Ems.
    assert (Len : length ms = S (length rest)) by now subst.
    destruct (first_pass ms (seq 1 (length rest)) (fun _ => []) []) as [r1 maybe1] eqn:P1.
    assert (F1 : edge_ok ms r1 /\ slots ms r1 maybe1 [0]).
    { eapply first_pass_ok; [exact P1|intros p i []|]. unfold slots.
      assert (Z : forall l : list nat, flat_map (fun _ => [] : list nat) l = []) by (induction l; auto).
      rewrite Z, Len. cbn [app seq]. apply Permutation_sym, Permutation_cons_append. }
    destruct F1 as (E1 & S1).
    destruct (first_message ms r1 maybe1) as [r2 maybe2] eqn:P2.
    assert (F2 : edge_ok ms r2 /\ slots ms r2 maybe2 [] /\ maybe2 <> []).
    { unfold first_message in P2. destruct maybe1 as [|x maybe1].
      - injection P2 as <- <-. split; [exact E1|]. split; [now apply slots_top|discriminate].
      - destruct (parent_via_in_reply_to ms r1 0) as [r|] eqn:V; injection P2 as <- <-.
        + apply via_irt in V as (p & Hp & -> & M). split; [apply edge_add; auto|].
          split; [now apply slots_reply|discriminate].
        + split; [exact E1|]. split; [now apply slots_top|discriminate]. }
    destruct F2 as (E2 & S2 & NE). pose proof (proj1 (slots_forest _ _ _) S2) as F2.
    destruct (label_all_ok r2 fuel maybe2 (fun _ => 0)) as (dep & Ed).
    { eapply lev_empty_mono; [apply lev_n_empty, F2|]. lia. }
    rewrite Ed. destruct (second_pass ms dep maybe2 r2 []) as [r3 top] eqn:P3.
    eapply second_pass_ok in P3 as (E3 & S3 & T3); [|exact E2|unfold slots in *; rewrite app_nil_r in S2; exact S2].
    apply (proj1 (slots_forest _ _ _)) in S3. destruct fuel as [|f]; [lia|].
    destruct (sort_ok qsort (Sorted (fun i j => (tm_date (get ms i) <= tm_date (get ms j))%Z)) Q f r3 top)
      as (r4 & top4 & E4 & S4 & P4 & O4 & _ & D4).
    { eapply lev_empty_mono; [apply lev_n_empty, S3|]. lia. }
    exists r4, top4. split; [exact E4|]. split; [eapply forest_perm; eauto|]. split; [|split; [|split]].
    + intros p i H. apply E3. eapply Permutation_in; [apply Permutation_sym, S4|exact H].
    + intros _ ->. apply Permutation_nil in P4. apply T3; [|exact P4]. rewrite app_nil_r. exact NE.
    + exact O4.
    + intros k m H. apply (D4 k). eapply Permutation_in; [|exact H].
      apply lev_perm; [|exact P4]. apply same_sym, S4.
Qed.

(** * Walking the resolved tree *)
Lemma walk_ok n r top shown fuel : forest n r top -> n < fuel ->
  exists vs out, walks r top vs /\ NoDup vs /\ (forall i, In i vs -> i < n) /\
    (forall i, In i vs <-> exists k, In i (lev r k top)) /\
    show_messages shown fuel r 0 top = Some out /\ map fst out = vs.
Proof.
  intros F L. destruct fuel as [|f]; [lia|].
  assert (E : lev r f top = []) by (eapply lev_empty_mono; [apply lev_n_empty, F|lia]).
  destruct (show_ok shown r f top 0 E) as (out & Es & Hs).
  exists (pre r (S f) top), out. split; [now apply walks_ok|].
  pose proof (pre_levels r (S f) top) as P. split; [|split; [|split]].
  - eapply Permutation_NoDup; [apply Permutation_sym, P|]. eapply levels_nodup, F.
  - intros i Hi. eapply levels_range; [exact F|]. eapply Permutation_in; [exact P|exact Hi].
  - intros i. rewrite (Permutation_in' (eq_refl i) P). unfold levels. rewrite in_flat_map. split.
    + intros (k & _ & H). eauto.
    + intros (k & H). exists k. split; [|exact H]. apply seq_In.
      destruct (Nat.lt_ge_cases k (S f)) as [|G]; [assumption|].
      rewrite (lev_empty_mono r f top E k) in H by lia. destruct H.
  - auto.
Qed.

Lemma lev_reachable r top i : (exists k, In i (lev r k top)) <-> reachable r top i.
Proof.
  split.
  - intros (k & H). revert i H. induction k as [|k IH]; cbn [lev]; intros i H; [now constructor|].
    apply in_flat_map in H as (p & Hp & H). econstructor 2; eauto.
  - induction 1 as [i H|i j _ (k & H) Hj]; [now exists 0|]. exists (S k). cbn [lev]. apply in_flat_map. eauto.
Qed.

Lemma nth_error_get ms i : i < length ms -> nth_error ms i = Some (get ms i).
Proof. intros H. unfold get. now apply nth_error_nth'. Qed.
Lemma edge_names ms i p : i < length ms -> p < length ms ->
  irt_is ms i p \/ In (tm_mid (get ms p)) (tm_refs (get ms i)) -> names ms i p.
Proof.
  intros Hi Hp [(H1 & H2)|H]; [left|right]; exists (get ms i), (get ms p); auto using nth_error_get.
Qed.

(** every message is under the top level when references go down a rank. *)
Lemma acyclic_reachable ms r top :
  forest (length ms) r top -> edge_ok ms r -> acyclic ms -> forall i, i < length ms -> reachable r top i.
Proof.
  intros F E (rank & R) i. remember (rank i) as k eqn:Ek. revert i Ek.
  induction k as [k IH] using (well_founded_induction lt_wf). intros i -> Hi.
  assert (H : In i (flat_map r (seq 0 (length ms)) ++ top))
    by (eapply Permutation_in; [apply Permutation_sym, F|now apply seq_In]).
  apply in_app_or in H as [H|H]; [|now constructor].
  apply in_flat_map in H as (p & Hp & H). destruct (E p i H) as (Lp & M).
  econstructor 2; [|exact H]. eapply (IH (rank p)); [|reflexivity|exact Lp].
  apply R. now apply edge_names.
Qed.

Lemma isort_ins_perm ms i l : Permutation (isort_ins ms i l) (i :: l).
Proof.
  induction l as [|j l IH]; cbn; [reflexivity|]. destruct (_ <=? _)%Z; [reflexivity|].
  rewrite IH. constructor.
Qed.
Lemma isort_sorts ms : sorts_by_date ms (isort ms).
Proof.
  intros l. split.
  - induction l as [|i l IH]; cbn; [reflexivity|]. rewrite isort_ins_perm. now constructor.
  - induction l as [|i l IH]; cbn; [constructor|]. induction IH as [|j t Hl IHl Hj]; cbn.
    + repeat constructor.
    + destruct (Z.leb_spec (tm_date (get ms i)) (tm_date (get ms j))) as [L|L].
      * constructor; [constructor; assumption|]. constructor. exact L.
      * constructor; [exact IHl|]. destruct t as [|k t]; cbn; [constructor; lia|].
        inversion Hj; subst. destruct (_ <=? _)%Z; constructor; lia.
Qed.

(** * Exactly which tree: direct replies first, then the deepest reference *)
Lemma hash_lookup_from_None ms id : forall k, hash_lookup_from k ms id = None -> forall m, In m ms -> tm_mid m <> id.
Proof.
  induction ms as [|m ms IH]; intros k; cbn [hash_lookup_from]; [intros _ m []|].
  destruct (hash_lookup_from (S k) ms id) eqn:E; [discriminate|].
  destruct (bseq (tm_mid m) id) eqn:B; [discriminate|]. intros _ x [<-|Hx]; [now apply bseq_neq|eapply IH; eauto].
Qed.
Lemma hash_lookup_Some ms i mi : nth_error ms i = Some mi -> exists j, hash_lookup ms (tm_mid mi) = Some j.
Proof.
  intros H. destruct (hash_lookup ms (tm_mid mi)) eqn:E; [eauto|exfalso].
  eapply hash_lookup_from_None; [exact E|eapply nth_error_In; exact H|reflexivity].
Qed.

Lemma via_irt_None ms r i : i < length ms -> parent_via_in_reply_to ms r i = None <-> (forall p, ~ replies_to ms i p).
Proof.
  intros Hi. split.
  - intros H p (mi & mp & Ei & Ep & E & NE). rewrite nth_error_get in Ei by exact Hi. injection Ei as <-.
    unfold parent_via_in_reply_to in H. rewrite E in H. destruct (tm_mid mp) as [|c t] eqn:M; [congruence|].
    rewrite <- M in H. destruct (hash_lookup_Some ms p mp Ep) as (j & J). rewrite J in H. discriminate.
  - intros H. destruct (parent_via_in_reply_to ms r i) as [r'|] eqn:V; [exfalso|reflexivity].
    apply via_irt in V as (p & Hp & _ & (M1 & M2)). apply (H p). exists (get ms i), (get ms p).
    auto using nth_error_get.
Qed.

(** edges of the first pass: direct replies; candidates: messages that are none. *)
Definition irt_edges ms (r : replies) := forall p i, In i (r p) -> p < length ms /\ irt_is ms i p.
Lemma irt_edges_add ms r p i : irt_edges ms r -> p < length ms -> irt_is ms i p -> irt_edges ms (add_reply r p i).
Proof.
  intros H Hp Hi q j. unfold add_reply, upd, list_add. destruct (Nat.eqb_spec q p) as [->|]; [|apply H].
  rewrite in_app_iff. intros [Hj|[<-|[]]]; auto.
Qed.
Lemma first_pass_irt ms is : forall r maybe r' maybe',
  first_pass ms is r maybe = (r', maybe') -> irt_edges ms r -> (forall i, In i is -> i < length ms) ->
  (forall i, In i maybe -> forall p, ~ replies_to ms i p) ->
  irt_edges ms r' /\ (forall i, In i maybe' -> forall p, ~ replies_to ms i p).
Proof.
  induction is as [|i is IH]; intros r maybe r' maybe'; cbn [first_pass].
  - intros H. injection H as <- <-. auto.
  - destruct (parent_via_in_reply_to ms r i) as [r1|] eqn:V; intros H E R M.
    + apply via_irt in V as (p & Hp & -> & I). eapply IH; [exact H|now apply irt_edges_add| |exact M].
      intros; apply R; now right.
    + eapply IH; [exact H|exact E|intros; apply R; now right|].
      intros j Hj. apply in_app_or in Hj as [Hj|[<-|[]]]; [now apply M|].
      apply (proj1 (via_irt_None ms r i (R i (or_introl eq_refl)))). exact V.
Qed.

(** labels. *)
Lemma lev_app r k a b : lev r k (a ++ b) = lev r k a ++ lev r k b.
Proof. revert a b. induction k as [|k IH]; intros a b; [reflexivity|]. cbn [lev]. now rewrite IH, flat_map_app. Qed.
Lemma label_spec r f : forall m d dep dep', label_depths f r d dep m = Some dep' ->
  forall v, (exists k, In v (lev r k [m]) /\ dep' v = d + k) \/ ((forall k, ~ In v (lev r k [m])) /\ dep' v = dep v).
Proof.
  induction f as [|f IH]; intros m d dep dep' H v; [discriminate|]. cbn [label_depths] in H.
  assert (G : forall l dep0 dep1,
    fold_left (fun acc child => match acc with None => None | Some dep' => label_depths f r (S d) dep' child end) l (Some dep0) = Some dep1 ->
    (exists k, In v (lev r k l) /\ dep1 v = d + S k) \/ ((forall k, ~ In v (lev r k l)) /\ dep1 v = dep0 v)).
  { clear H. induction l as [|c l IHl]; intros dep0 dep1 H; cbn [fold_left] in H.
    - injection H as <-. right. split; [|reflexivity]. intros k. rewrite lev_nil. tauto.
    - destruct (label_depths f r (S d) dep0 c) as [dep2|] eqn:E.
      2:{ exfalso. clear - H. induction l; cbn in H; [discriminate|auto]. }
      apply IHl in H as [(k & H1 & H2)|(H1 & H2)].
      + left. exists k. split; [|exact H2]. change (c :: l) with ([c] ++ l). rewrite lev_app. apply in_or_app. now right.
      + rewrite H2. apply IH with (v := v) in E as [(k & E1 & E2)|(E1 & E2)].
        * left. exists k. split; [|lia]. change (c :: l) with ([c] ++ l). rewrite lev_app. apply in_or_app. now left.
        * right. split; [|exact E2]. intros k. change (c :: l) with ([c] ++ l). rewrite lev_app, in_app_iff. intros [X|X]; [now apply (E1 k)|now apply (H1 k)]. }
  destruct (G _ _ _ H) as [(k & H1 & H2)|(H1 & H2)].
  - left. exists (S k). rewrite lev_S. cbn [flat_map]. rewrite app_nil_r. auto.
  - unfold upd in H2. destruct (Nat.eqb_spec v m) as [->|NE].
    + left. exists 0. split; [now left|]. lia.
    + right. split; [|exact H2]. intros [|k]; [cbn; intuition|]. rewrite lev_S. cbn [flat_map]. rewrite app_nil_r. apply H1.
Qed.
Lemma label_all_spec r f roots : forall dep dep', label_all f r roots dep = Some dep' ->
  forall v, (exists k, In v (lev r k roots) /\ dep' v = k) \/ ((forall k, ~ In v (lev r k roots)) /\ dep' v = dep v).
Proof.
  unfold label_all. induction roots as [|c l IHl]; intros dep0 dep1 H v; cbn [fold_left] in H.
  - injection H as <-. right. split; [|reflexivity]. intros k. rewrite lev_nil. tauto.
  - destruct (label_depths f r 0 dep0 c) as [dep2|] eqn:E.
    2:{ exfalso. clear - H. induction l; cbn in H; [discriminate|auto]. }
    destruct (IHl _ _ H v) as [(k & H1 & H2)|(H1 & H2)].
    + left. exists k. split; [|exact H2]. change (c :: l) with ([c] ++ l). rewrite lev_app. apply in_or_app. now right.
    + rewrite H2. destruct (label_spec _ _ _ _ _ _ E v) as [(k & E1 & E2)|(E1 & E2)].
      * left. exists k. split; [|lia]. change (c :: l) with ([c] ++ l). rewrite lev_app. apply in_or_app. now left.
      * right. split; [|exact E2]. intros k. change (c :: l) with ([c] ++ l). rewrite lev_app, in_app_iff. intros [X|X]; [now apply (E1 k)|now apply (H1 k)].
Qed.

(** the chosen reference. *)
Lemma best_parent_max ms dep refs : forall d par p,
  (match par with Some q => d = dep q | None => True end) ->
  best_parent ms dep refs d par = Some p ->
  (forall q, par = Some q -> dep q <= dep p) /\
  (forall ref q, In ref refs -> hash_lookup ms ref = Some q -> dep q <= dep p).
Proof.
  induction refs as [|ref refs IH]; intros d par p I; cbn [best_parent].
  - intros ->. split; [intros q H; injection H as <-; lia|intros ? ? []].
  - destruct (hash_lookup ms ref) as [np|] eqn:L.
    + destruct (Nat.ltb d (dep np)) eqn:LT; cbn [orb].
      * intros H. apply IH in H as (H1 & H2); [|reflexivity]. apply Nat.ltb_lt in LT.
        specialize (H1 np eq_refl). split.
        -- intros q ->. lia.
        -- intros x q [<-|Hx] E; [|eauto]. rewrite L in E. injection E as <-. exact H1.
      * apply Nat.ltb_ge in LT. destruct par as [q0|].
        -- intros H. apply IH in H as (H1 & H2); [|exact I]. split; [exact H1|]. specialize (H1 q0 eq_refl).
           intros x q [<-|Hx] E; [|eauto]. rewrite L in E. injection E as <-. lia.
        -- intros H. apply IH in H as (H1 & H2); [|reflexivity]. specialize (H1 np eq_refl). split; [discriminate|].
           intros x q [<-|Hx] E; [|eauto]. rewrite L in E. injection E as <-. exact H1.
    + intros H. apply IH in H as (H1 & H2); [|exact I]. split; [exact H1|].
      intros x q [<-|Hx] E; [congruence|eauto].
Qed.
Lemma best_parent_None ms dep refs : forall d par, best_parent ms dep refs d par = None ->
  par = None /\ forall ref, In ref refs -> hash_lookup ms ref = None.
Proof.
  induction refs as [|ref refs IH]; intros d par; cbn [best_parent]; [intros ->; split; [reflexivity|intros ? []]|].
  destruct (hash_lookup ms ref) as [np|] eqn:L.
  - destruct (_ || _) eqn:B; intros H; apply IH in H as (H1 & H2); [discriminate|]. subst par.
    rewrite orb_true_r in B. discriminate.
  - intros H; apply IH in H as (H1 & H2). split; [exact H1|]. intros x [<-|Hx]; auto.
Qed.

Lemma second_pass_edges ms dep roots : forall r top r' top',
  second_pass ms dep roots r top = (r', top') ->
  (forall p i, In i (r' p) -> In i (r p) \/ (In i roots /\ best_parent ms dep (tm_refs (get ms i)) 0 None = Some p)) /\
  (forall i, In i top' -> In i top \/ (In i roots /\ (best_parent ms dep (tm_refs (get ms i)) 0 None = None \/ top' = [i]))).
Proof.
  induction roots as [|i rest IH]; intros r top r' top' H; cbn [second_pass] in H.
  - injection H as <- <-. auto.
  - assert (D : (rest = [] /\ top = [] /\ second_pass ms dep rest r (list_add top i) = (r', top')) \/
                ((let (r1, top1) := parent_or_toplevel ms dep r top i in
                     second_pass ms dep rest r1 top1) = (r', top'))).
    { destruct rest; [destruct top|]; [left|right|right]; auto. }
    clear H. destruct D as [(-> & -> & H)|H].
    + cbn in H. injection H as <- <-. split; [auto|]. intros j [<-|[]]. right. split; [now left|now right].
    + unfold parent_or_toplevel in H. destruct (best_parent ms dep (tm_refs (get ms i)) 0 None) as [p|] eqn:B.
      * apply IH in H as (H1 & H2). split.
        -- intros q j Hj. destruct (H1 q j Hj) as [X|(X & Y)]; [|right; split; [now right|exact Y]].
           unfold add_reply, upd, list_add in X. destruct (Nat.eqb_spec q p) as [->|]; [|now left].
           apply in_app_or in X as [X|[<-|[]]]; [now left|]. right. split; [now left|exact B].
        -- intros j Hj. destruct (H2 j Hj) as [X|(X & Y)]; [now left|]. right. split; [now right|exact Y].
      * apply IH in H as (H1 & H2). split.
        -- intros q j Hj. destruct (H1 q j Hj) as [X|(X & Y)]; [now left|right; split; [now right|exact Y]].
        -- intros j Hj. destruct (H2 j Hj) as [X|(X & Y)]; [|right; split; [now right|exact Y]].
           apply in_app_or in X as [X|[<-|[]]]; [now left|]. right. split; [now left|now left].
Qed.

Lemma get_refers ms i j : i < length ms -> refers_to ms i j -> In (tm_mid (get ms j)) (tm_refs (get ms i)) /\ j < length ms.
Proof.
  intros Hi (mi & mj & Ei & Ej & H). assert (Hj : j < length ms) by (apply nth_error_Some; congruence).
  rewrite nth_error_get in Ei, Ej by assumption. injection Ei as <-. injection Ej as <-. auto.
Qed.
Lemma unique_lookup ms j : NoDup (map tm_mid ms) -> j < length ms -> hash_lookup ms (tm_mid (get ms j)) = Some j.
Proof.
  intros N Hj. destruct (hash_lookup_Some ms j _ (nth_error_get ms j Hj)) as (k & E). rewrite E. f_equal.
  apply hash_lookup_range in E as (Hk & M).
  rewrite (NoDup_nth _ []) in N. apply N; rewrite ?map_length; auto.
  unfold get in M. change (nth k (map tm_mid ms) (tm_mid no_msg) = nth j (map tm_mid ms) (tm_mid no_msg)).
  rewrite !map_nth. exact M.
Qed.

Lemma resolve_shape qsort ms fuel r top :
  sorts_by_date ms qsort -> length ms < fuel -> NoDup (map tm_mid ms) -> acyclic ms ->
  resolve qsort fuel ms = Some (r, top) ->
  (forall p i, In i (r p) ->
     replies_to ms i p \/
     ((forall q, ~ replies_to ms i q) /\ refers_to ms i p /\
      forall q d d', refers_to ms i q -> reply_depth ms q d -> reply_depth ms p d' -> d <= d')) /\
  (forall i, In i top <-> i < length ms /\ forall p, ~ names ms i p).
Proof.
  intros Q L N A R.
  assert (FE : forest (length ms) r top /\ edge_ok ms r).
  { destruct (resolve_ok qsort ms fuel Q L) as (r' & top' & E & F & Ed & _). rewrite R in E. injection E as <- <-. auto. }
  destruct FE as (F & Ed).
  (* a message of least rank names nothing *)
  destruct ms as [|m0 rest].
  { injection R as <- <-. split; [intros p i []|]. intros i. cbn. split; [tauto|intros (X & _); lia]. }
  unfold resolve in R. remember (m0 :: rest) as ms eqn:Ems.
  assert (Len : length ms = S (length rest)) by now subst.
  destruct (first_pass ms (seq 1 (length rest)) (fun _ => []) []) as [r1 maybe1] eqn:P1.
  assert (S1 : edge_ok ms r1 /\ slots ms r1 maybe1 [0]).
  { eapply first_pass_ok; [exact P1|intros p i []|]. unfold slots.
    assert (Z : forall l : list nat, flat_map (fun _ => [] : list nat) l = []) by (induction l; auto).
    rewrite Z, Len. cbn [app seq]. apply Permutation_sym, Permutation_cons_append. }
  destruct S1 as (E1 & S1).
  apply first_pass_irt in P1 as (I1 & M1); [|intros ? ? []|intros i Hi; apply in_seq in Hi; lia|intros ? []].
  destruct (first_message ms r1 maybe1) as [r2 maybe2] eqn:P2.
  assert (S2 : edge_ok ms r2 /\ slots ms r2 maybe2 [] /\ irt_edges ms r2 /\ (forall i, In i maybe2 -> forall p, ~ replies_to ms i p)).
  { unfold first_message in P2. destruct maybe1 as [|x maybe1].
    - injection P2 as <- <-. split; [exact E1|]. split; [now apply slots_top|]. split; [exact I1|].
      intros i [<-|[]] p Hp. unfold list_add in *.
      (* every other message is a direct reply: the least message would be 0 *)
      destruct A as (rank & A).
      assert (G : forall k i, i < length ms -> rank i = k -> False).
      { induction k as [k IH] using (well_founded_induction lt_wf). intros i Hi Ek.
        assert (exists q, replies_to ms i q /\ q < length ms) as (q & Hq & Lq).
        { destruct i as [|i].
          - exists p. split; [exact Hp|]. destruct Hp as (? & ? & _ & X & _). apply nth_error_Some. congruence.
          - unfold slots in S1. rewrite app_nil_l in S1.
            assert (In (S i) (flat_map r1 (seq 0 (length ms)) ++ [0])) as X
              by (eapply Permutation_in; [apply Permutation_sym, S1|apply seq_In; exact Hi]).
            apply in_app_or in X as [X|[X|[]]]; [|discriminate]. apply in_flat_map in X as (q & _ & X).
            destruct (I1 q _ X) as (Lq & (Q1 & Q2)). exists q. split; [|exact Lq].
            exists (get ms (S i)), (get ms q). auto using nth_error_get. }
        eapply (IH (rank q)); [|exact Lq|reflexivity]. rewrite <- Ek. apply A. now left. }
      eapply (G (rank 0) 0); [lia|reflexivity].
    - destruct (parent_via_in_reply_to ms r1 0) as [r'|] eqn:V; injection P2 as <- <-.
      + apply via_irt in V as (p & Hp & -> & M). split; [apply edge_add; auto|].
        split; [now apply slots_reply|]. split; [now apply irt_edges_add|exact M1].
      + split; [exact E1|]. split; [now apply slots_top|]. split; [exact I1|].
        intros i Hi. apply in_app_or in Hi as [Hi|[<-|[]]]; [now apply M1|].
        apply (proj1 (via_irt_None ms r1 0 ltac:(lia))). exact V. }
  destruct S2 as (E2 & S2 & I2 & M2).
  destruct (label_all fuel r2 maybe2 (fun _ => 0)) as [dep|] eqn:Ed'; [|discriminate].
  pose proof (label_all_spec _ _ _ _ _ Ed') as LS.
  destruct (second_pass ms dep maybe2 r2 []) as [r3 top3] eqn:P3.
  pose proof P3 as P3'.
  eapply second_pass_ok in P3' as (E3 & S3 & T3); [|exact E2|unfold slots in *; rewrite app_nil_r in S2; exact S2].
  apply second_pass_edges in P3 as (G1 & G2).
  apply (proj1 (slots_forest _ _ _)) in S2. apply (proj1 (slots_forest _ _ _)) in S3.
  destruct fuel as [|f]; [lia|].
  destruct (sort_ok qsort (Sorted (fun i j => (tm_date (get ms i) <= tm_date (get ms j))%Z)) Q f r3 top3)
    as (r4 & top4 & E4 & S4 & P4 & _).
  { eapply lev_empty_mono; [apply lev_n_empty, S3|]. lia. }
  rewrite E4 in R. injection R as <- <-.
  (* labels are depths *)
  assert (LD : forall k v, In v (lev r2 k maybe2) -> reply_depth ms v k).
  { induction k as [|k IH]; cbn [lev]; intros v Hv.
    - apply depth_0; [exact (forest_top_range _ _ _ S2 _ Hv)|now apply M2].
    - apply in_flat_map in Hv as (p & Hp & Hv). apply depth_S with p; [|now apply IH].
      destruct (I2 p v Hv) as (Lp & X & Y). exists (get ms v), (get ms p). split; [|split; [|auto]]; apply nth_error_get; [|exact Lp].
      eapply forest_child_range; [exact S2| |exact Hv]. exact Lp. }
  assert (UP : forall i p q, replies_to ms i p -> replies_to ms i q -> p = q).
  { intros i p q (mi & mp & Ei & Ep & Hp & _) (mi' & mq & Ei' & Eq & Hq & _).
    rewrite Ei in Ei'. injection Ei' as <-. rewrite Hp in Hq. injection Hq as Hq.
    assert (Lp : p < length ms) by (apply nth_error_Some; congruence).
    assert (Lq : q < length ms) by (apply nth_error_Some; congruence).
    pose proof (unique_lookup ms p N Lp) as U1. pose proof (unique_lookup ms q N Lq) as U2.
    rewrite nth_error_get in Ep, Eq by assumption. injection Ep as <-. injection Eq as <-. rewrite Hq, U2 in U1. congruence. }
  assert (UD : forall v k k', reply_depth ms v k -> reply_depth ms v k' -> k = k').
  { intros v k k' H. revert k'. induction H as [v Lv NR|v p d Rv Hd IH]; intros k' H'; inversion H' as [? Lv' NR'|? p' d' Rv' Hd']; subst.
    - reflexivity.
    - exfalso. exact (NR _ Rv').
    - exfalso. exact (NR' _ Rv).
    - f_equal. apply IH. now rewrite (UP _ _ _ Rv Rv'). }
  assert (ALL : forall v, v < length ms -> exists k, In v (lev r2 k maybe2)).
  { intros v Hv. apply lev_reachable. eapply acyclic_reachable; eauto. }
  assert (DEP : forall v k, v < length ms -> reply_depth ms v k -> dep v = k).
  { intros v k Lv Hk. destruct (LS v) as [(k' & H1 & H2)|(H1 & _)].
    - rewrite H2. eapply UD; eauto.
    - destruct (ALL v Lv) as (k' & H'). destruct (H1 k' H'). }
  split.
  - intros p i Hi. assert (Hi3 : In i (r3 p)) by (eapply Permutation_in; [apply Permutation_sym, S4|exact Hi]).
    assert (Lp : p < length ms) by (apply (Ed p i Hi)).
    assert (Li : i < length ms) by (eapply forest_child_range; eauto).
    destruct (G1 p i Hi3) as [X|(X & B)].
    + left. destruct (I2 p i X) as (_ & Y & Z). exists (get ms i), (get ms p). auto using nth_error_get.
    + right. split; [now apply M2|]. pose proof (best_parent_in _ _ _ _ _ _ B) as [Y|(_ & Y)]; [discriminate|].
      split; [exists (get ms i), (get ms p); auto using nth_error_get|].
      intros q d d' Hq Dq Dp. apply get_refers in Hq as (Hq & Lq); [|exact Li].
      apply best_parent_max in B as (_ & B); [|exact I].
      rewrite <- (DEP q d Lq Dq), <- (DEP p d' Lp Dp). eapply B; [exact Hq|]. now apply unique_lookup.
  - assert (NAM : forall i, i < length ms -> In i maybe2 -> best_parent ms dep (tm_refs (get ms i)) 0 None = None ->
              forall p, ~ names ms i p).
    { intros i Li Hi B p [Hp|Hp]; [eapply M2; eauto|]. apply get_refers in Hp as (Hp & Lp); [|exact Li].
      apply best_parent_None in B as (_ & B). specialize (B _ Hp).
      rewrite unique_lookup in B by assumption. discriminate. }
    assert (CH : forall i, i < length ms -> (forall p, ~ names ms i p) -> In i top4).
    { intros i Li NN. assert (X : In i (flat_map r4 (seq 0 (length ms)) ++ top4))
        by (eapply Permutation_in; [apply Permutation_sym, F|now apply seq_In]).
      apply in_app_or in X as [X|X]; [|exact X]. apply in_flat_map in X as (p & Hp & X).
      exfalso. apply (NN p). destruct (Ed p i X) as (Lp & Y). now apply edge_names. }
    intros i. split; [|intros (Li & NN); now apply CH].
    intros Hi. assert (Li : i < length ms) by exact (forest_top_range _ _ _ F _ Hi). split; [exact Li|].
    assert (Hi3 : In i top3) by (eapply Permutation_in; [exact P4|exact Hi]).
    destruct (G2 i Hi3) as [[]|(Hm & [B|B])]; [now apply NAM|].
    (* the last root: the least message is top too, so it is this one *)
    destruct A as (rank & A).
    assert (MIN : exists v, v < length ms /\ forall p, ~ names ms v p).
    { assert (exists v, v < length ms /\ forall w, w < length ms -> rank v <= rank w) as (v & Lv & Hv).
      { clear - Len. assert (0 < length ms) as H by lia. revert H. generalize (length ms). clear.
        induction n as [|n IH]; intros H; [lia|]. destruct n as [|n].
        - exists 0. split; [lia|]. intros w Hw. replace w with 0 by lia. lia.
        - destruct IH as (v & Lv & Hv); [lia|]. destruct (Nat.le_gt_cases (rank v) (rank (S n))) as [C|C].
          + exists v. split; [lia|]. intros w Hw. destruct (Nat.eq_dec w (S n)) as [->|]; [exact C|apply Hv; lia].
          + exists (S n). split; [lia|]. intros w Hw. destruct (Nat.eq_dec w (S n)) as [->|]; [lia|].
            specialize (Hv w ltac:(lia)). lia. }
      exists v. split; [exact Lv|]. intros p Hp. pose proof (A _ _ Hp) as X.
      assert (Lp : p < length ms).
      { destruct Hp as [(? & ? & _ & Y & _)|(? & ? & _ & Y & _)]; apply nth_error_Some; congruence. }
      specialize (Hv p Lp). lia. }
    destruct MIN as (v & Lv & NV). pose proof (CH v Lv NV) as Hv.
    assert (Hv3 : In v top3) by (eapply Permutation_in; [exact P4|exact Hv]).
    rewrite B in Hv3. destruct Hv3 as [<-|[]]. exact NV.
Qed.
