(** For C95, continued: every operation of a tidy program. *)
From Verif Require Import RbLife RbLifeSpec RbLifeProofs RbLifeProofs2.
From Coq Require Import Arith Bool List Lia.
Import ListNotations.
Local Open Scope nat_scope.

Definition good (x : result) : Prop := match x with Returns s | Raises s => D s | Undefined => False end.
Definition heir (s : state) (rn : obj) (c : cls) (o : nat) (r : obj) : Prop :=
  o_cls rn = c /\ o_parent rn = Some o /\ o_db rn = o_db r /\ o_thread rn = match o_cls r with Thread => Some o | _ => o_thread r end.

Lemma access_D s o k : D s -> (forall r w, live s o r -> o_data r = Some w -> good (k r w (o_of r))) -> good (access s o k).
Proof.
  intros HD H. unfold access. destruct (objs s o) as [r|] eqn:Eo; [|exact HD]. destruct (o_gone r) eqn:Eg; [exact HD|].
  destruct (o_data r) as [w|] eqn:Ew; [|exact HD]. assert (L : live s o r) by (split; [auto|]; split; [auto|congruence]).
  destruct (d_live _ HD _ _ L) as (w' & A & B & _). rewrite Ew in A. injection A as <-. rewrite B. simpl. apply H; auto.
Qed.
Lemma deref_D s o r k : D s -> live s o r -> o_cls r <> Messages ->
  (forall b w kd, o_of r = Some b -> mem s b = Some {| parent := Some w; what := kd |} -> fits s o r kd -> good (k b kd)) -> good (deref s (o_of r) k).
Proof.
  intros HD L N H. destruct (d_live _ HD _ _ L) as (w & A & B & C). destruct (o_of r) as [p|] eqn:Ep; [|destruct C; contradiction].
  destruct C as (kd & C & F). simpl. rewrite C. simpl. eapply H; eauto.
Qed.
Lemma dbof_mem s r d : D s -> dbof s r d -> exists pa op pe, mem s d = Some {| parent := pa; what := KDb op pe |}.
Proof.
  intros HD (rd & A & B & C). destruct (d_live _ HD _ _ A) as (w & E & F & G). rewrite C in G. destruct G as (k & G & Ft).
  unfold fits in Ft. rewrite B in Ft. destruct k; try contradiction. eauto.
Qed.
(** The database of a live object of the library is there. *)
Lemma with_db_D s o r b w kd k : D s -> live s o r -> o_of r = Some b -> mem s b = Some {| parent := Some w; what := kd |} -> fits s o r kd ->
  match kd with KList _ _ | KWrap _ => False | _ => True end ->
  (forall d op pe pa, mem s d = Some {| parent := pa; what := KDb op pe |} -> dbof s r d -> good (k d op pe)) -> good (with_db s b kd k).
Proof.
  intros HD L Ho Hm Hf Hk H.
  assert (GO : forall d, dbof s r d -> good (match mem s d with Some {| what := KDb op pe |} => k d op pe | _ => Undefined end)).
  { intros d Hd. destruct (dbof_mem _ _ _ HD Hd) as (pa & op & pe & E). rewrite E. eapply H; eauto. }
  unfold fits in Hf. unfold with_db. destruct (o_cls r) eqn:Ec, kd; try contradiction; try (apply GO; tauto).
  - apply GO. exists r. rewrite Hf. auto.
  - destruct Hf as (y & ry & A & B & C & E & F). destruct (d_live _ HD _ _ B) as (wy & _ & _ & G). rewrite E in G. destruct G as (ky & G & Fy). rewrite G.
    unfold fits in Fy. rewrite C in Fy. destruct ky; try contradiction. apply GO. destruct Fy as (rd & X & Y). exists rd. rewrite F in X. auto.
Qed.

(** *** New objects *)
Lemma wrap_fresh s c k o r par : D s -> live s o r ->
  exists s' rn, wrap (alloc s par k) c (Some (next_block s)) (Some o) = Returns s' /\
                added s s' (next_obj s) rn (S (next_block s)) k /\ heir s rn c o r /\ o_of rn = Some (next_block s).
Proof.
  intros HD L. unfold wrap. simpl. unfold in_use. rewrite upd_same. simpl.
  destruct L as (L & Lg & Ld). rewrite L.
  eexists. exists {| o_cls := c; o_data := Some (S (next_block s)); o_gone := false; o_of := Some (next_block s); o_parent := Some o; o_db := o_db r;
                     o_thread := match o_cls r with Thread => Some o | _ => o_thread r end |}.
  split; [reflexivity|]. split; [|split; [split; [auto|]; split; auto|auto]].
  assert (NB : next_block s <> S (next_block s)) by lia.
  constructor; simpl; auto.
  - intros b Hb Hn. rewrite upd_other by lia. rewrite upd_other by lia. rewrite upd_other by lia. auto.
  - apply upd_same.
  - split; [lia|]. split; [rewrite upd_other by lia; rewrite upd_same; auto|].
    split; [intros x rx Hx E|intros x rx (Hx & _) E]; destruct (d_bound _ HD _ _ Hx) as (_ & A & B); [apply A in E|apply B in E]; lia.
  - left. exists o, r. split; [split; auto|auto].
  - intros t Ht. destruct (o_cls r) eqn:Ec; try solve [apply (d_thread _ HD o r); [split; auto|assumption]]. injection Ht as <-. exists r. split; [split; auto|auto].
  - intros b ch tb Hb E Hp. unfold upd in E. destruct (Nat.eqb_spec b (S (next_block s))); [injection E as <-; discriminate|].
    destruct (Nat.eqb_spec b (next_block s)); [injection E as <-; simpl in Hp; injection Hp as <-; lia|].
    rewrite (d_mem _ HD) in E by lia. discriminate.
  - intros b Hb. rewrite upd_other by lia. rewrite upd_other by lia. rewrite upd_other by lia. apply (d_mem _ HD). lia.
  - intros b ch tb E Hp. unfold upd in E. destruct (Nat.eqb_spec b (S (next_block s))); [injection E as <-; discriminate|].
    destruct (Nat.eqb_spec b (next_block s)); [injection E as <-; simpl in Hp; injection Hp as <-; lia|].
    pose proof (d_par _ HD _ _ _ E Hp). lia.
Qed.
(** An object without messages of a thread of its own. *)
Lemma wrap_fresh_D s c k o r par : D s -> live s o r -> c <> Thread ->
  (forall s' rn, added s s' (next_obj s) rn (S (next_block s)) k -> heir s rn c o r -> o_of rn = Some (next_block s) -> fits s' (next_obj s) rn k) ->
  good (wrap (alloc s par k) c (Some (next_block s)) (Some o)).
Proof.
  intros HD L N H. destruct (wrap_fresh s c k o r par HD L) as (s' & rn & E & A & B & C). rewrite E. simpl.
  eapply added_D; eauto.
  - rewrite C. eauto.
  - intros tb m d reps Hc. destruct B as (B & _). congruence.
Qed.
Lemma heir_dbof s s' o r rn w k c d : D s -> added s s' (next_obj s) rn w k -> heir s rn c o r -> dbof s r d -> dbof s' rn d.
Proof. intros HD A (_ & _ & E & _) (rd & B & C). exists rd. rewrite E. split; [eapply ad_live; eauto|auto]. Qed.
(** A message of a thread. *)
Lemma wrap_member_D s o r m : D s -> live s o r -> member s (o_thread r) m -> o_cls r = Messages -> (forall x rx, objs s x = Some rx -> o_of rx <> Some m) ->
  good (wrap s Message (Some m) (Some o)).
Proof.
  intros HD L (Lm & M) Hc Hn. destruct M as [(x & rx & A & B)|(t & rt & tb & d & reps & A & B & C & E & F)]; [destruct (Hn _ _ A B)|].
  unfold wrap, in_use. rewrite F. simpl.
  assert (Hlo : forall x rx, objs s x = Some rx -> o_of rx <> Some m) by exact Hn.
  destruct (d_thread _ HD _ _ _ L A) as (rt' & B' & _ & Edb). assert (rt' = rt) by (destruct B', B; congruence). subst rt'.
  destruct (d_family _ HD _ _ _ _ _ _ B C E F) as (G1 & G2).
  destruct L as (L & Lg & Ld). rewrite L.
  match goal with |- D ?S => set (s' := S) end.
  set (rn := {| o_cls := Message; o_data := Some (next_block s); o_gone := false; o_of := Some m; o_parent := Some o; o_db := o_db r;
                o_thread := match o_cls r with Thread => Some o | _ => o_thread r end |}).
  assert (AD : added s s' (next_obj s) rn (next_block s) (KMsg d reps)).
  { constructor; simpl; auto.
    - intros b Hb Hne. rewrite upd_other by lia. apply upd_other. intros ->. apply Hne. reflexivity.
    - apply upd_same.
    - split; [lia|]. split; [rewrite upd_other by lia; apply upd_same|].
      split; [auto|]. intros x rx Lx Ex. destruct (d_live _ HD _ _ Lx) as (wx & X & Y & _). rewrite Ex in X. injection X as <-. congruence.
    - left. exists o, r. split; [split; auto|auto].
    - intros t0 Ht. rewrite Hc in Ht. apply (d_thread _ HD o r); [split; auto|auto].
    - intros b ch tb0 Hb Ech Hp. unfold upd in Ech. destruct (Nat.eqb_spec b (next_block s)); [injection Ech as <-; discriminate|].
      destruct (Nat.eqb_spec b m); [lia|]. rewrite (d_mem _ HD) in Ech by lia. discriminate.
    - intros b Hb. rewrite upd_other by lia. rewrite upd_other by lia. apply (d_mem _ HD). lia.
    - intros b ch tb0 Ech Hp. unfold upd in Ech. destruct (Nat.eqb_spec b (next_block s)); [injection Ech as <-; discriminate|].
      destruct (Nat.eqb_spec b m); [injection Ech as <-; simpl in Hp; injection Hp as <-; lia|]. pose proof (d_par _ HD _ _ _ Ech Hp). lia. }
  eapply added_D; eauto.
  - simpl. unfold fits. simpl. split.
    + destruct G1 as (rd & X & Y). exists rd. simpl. rewrite <- Edb. split; [eapply ad_live; eauto|auto].
    + intros m' Hm'. rewrite Hc, A. eapply ad_member; eauto.
  - intros tb0 m0 d0 reps0 Hc0. discriminate.
Qed.
