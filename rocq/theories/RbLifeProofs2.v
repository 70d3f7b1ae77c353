(** For C95, continued: objects that go, assignments, and every operation. *)
From Verif Require Import RbLife RbLifeSpec RbLifeProofs.
From Coq Require Import Arith Bool List Lia.
Import ListNotations.
Local Open Scope nat_scope.

(** *** An object that goes *)
Record dropped (s s' : state) (o : nat) (r r' : obj) : Prop := {
  p_live : live s o r;
  p_go : may_go s o;
  p_obj : objs s' = upd (objs s) o (Some r');
  p_next : next_obj s' = next_obj s;
  p_nb : next_block s' = next_block s;
  p_loops : loops s' = loops s;
  p_of : o_of r' = o_of r;
  p_cls : o_cls r' = o_cls r;
  p_data : forall w, o_data r' = Some w -> o_data r = Some w;
  p_dead : o_gone r' = true \/ o_data r' = None;
  p_mem : forall b, mem s' b = mem s b \/ mem s' b = None;
  p_w : forall x rx w, live s x rx -> x <> o -> o_data rx = Some w -> mem s' w = mem s w;
  p_p : forall x rx p, live s x rx -> x <> o -> o_of rx = Some p -> mem s' p = mem s p;
  p_m : forall t rt tb m d reps, live s t rt -> t <> o -> o_cls rt = Thread -> o_of rt = Some tb ->
        mem s m = Some {| parent := Some tb; what := KMsg d reps |} -> mem s' m = mem s m
}.
Section Dropped.
Variables (s s' : state) (o : nat) (r r' : obj).
Hypothesis HD : D s.
Hypothesis HP : dropped s s' o r r'.
Lemma dr_go : match o_cls r with
  | Database => forall x rx, live s x rx -> o_db rx = o -> x = o
  | Query => forall x rx, live s x rx -> o_cls rx = Threads -> o_parent rx <> Some o
  | Thread => forall x rx, live s x rx -> o_thread rx <> Some o
  | Message => forall x rx, live s x rx -> o_parent rx <> Some o
  | Threads | Messages => ~ In o (map fst (loops s))
  | Directory => True
  end.
Proof. destruct HP as [(L & _) G]. apply (G _ L). Qed.
Lemma dr_case x rx : objs s' x = Some rx -> (x = o /\ rx = r') \/ (x <> o /\ objs s x = Some rx).
Proof. rewrite (p_obj _ _ _ _ _ HP). unfold upd. destruct (Nat.eqb_spec x o); intros E; [left; split; congruence|right; auto]. Qed.
Lemma dr_livecase x rx : live s' x rx -> x <> o /\ live s x rx.
Proof.
  intros (A & B & C). apply dr_case in A. destruct A as [[-> ->]|[N A]].
  - destruct (p_dead _ _ _ _ _ HP); congruence.
  - split; [auto|]. split; auto.
Qed.
Lemma dr_live x rx : live s x rx -> x <> o -> live s' x rx.
Proof. intros (A & B) N. split; [|auto]. rewrite (p_obj _ _ _ _ _ HP), upd_other; auto. Qed.
Lemma dr_same rx : live s o rx -> rx = r.
Proof. destruct HP as [(L & _) ? ?]. intros (A & _). congruence. Qed.
Lemma dr_dbof x rx d : live s x rx -> x <> o -> dbof s rx d -> dbof s' rx d.
Proof.
  intros L N (rd & A & B & C). exists rd. split; [|auto]. apply dr_live; auto. intros E. rewrite E in A. apply dr_same in A. subst rd.
  pose proof dr_go as G. rewrite B in G. apply N. eapply G; eauto.
Qed.
Lemma dr_member th m : th <> Some o -> member s th m -> member s' th m.
Proof.
  intros N (A & M). split; [rewrite (p_nb _ _ _ _ _ HP); auto|]. destruct M as [(x & rx & B & C)|(t & rt & tb & d & reps & B & C & E & F & G)].
  - left. destruct (Nat.eq_dec x o) as [->|Nx].
    + exists o, r'. split; [rewrite (p_obj _ _ _ _ _ HP); apply upd_same|]. rewrite (p_of _ _ _ _ _ HP). destruct (p_live _ _ _ _ _ HP) as (L & _). congruence.
    + exists x, rx. split; [rewrite (p_obj _ _ _ _ _ HP), upd_other; auto|auto].
  - right. assert (t <> o) by congruence. exists t, rt, tb, d, reps. split; [auto|]. split; [now apply dr_live|]. split; [auto|]. split; [auto|].
    rewrite (p_m _ _ _ _ _ HP _ _ _ _ _ _ C H E F G). auto.
Qed.
Lemma dr_thread x rx : live s x rx -> o_thread rx <> Some o.
Proof.
  intros L E. destruct (d_thread _ HD _ _ _ L E) as (rt & A & B & _). apply dr_same in A. subst rt. pose proof dr_go as G. rewrite B in G.
  apply (G _ _ L E).
Qed.
Lemma dr_fits x rx k : live s x rx -> x <> o -> fits s x rx k -> fits s' x rx k.
Proof.
  intros L N. pose proof (dr_thread _ _ L) as T. unfold fits. pose proof dr_go as G.
  destruct (o_cls rx) eqn:Ec, k; auto; try (now apply dr_dbof with x).
  - intros (y & ry & A & B & C & E). exists y, ry. split; [auto|]. split; [|auto]. apply dr_live; auto. intros ->.
    apply dr_same in B. subst ry. rewrite C in G. apply (G _ _ L Ec A).
  - intros (A & B). split; [now apply dr_dbof with x|]. intros m Hm. apply dr_member; auto. congruence.
  - intros ((y & ry & A & B & C & E) & F). split.
    + exists y, ry. split; [auto|]. split; [|auto]. apply dr_live; auto. intros ->. apply dr_same in B. subst ry.
      destruct C as [[C C']|C]; rewrite C in G; [apply (G _ _ L C')|apply (G _ _ L A)].
    + intros m Hm. apply dr_member; auto.
  - intros (A & B). split; [now apply dr_dbof with x|]. intros m Hm. apply dr_member; auto.
Qed.
Lemma dr_null rx : o_cls rx = Messages /\ (exists y ry, o_parent rx = Some y /\ objs s y = Some ry /\ o_cls ry <> Query) ->
  o_cls rx = Messages /\ (exists y ry, o_parent rx = Some y /\ objs s' y = Some ry /\ o_cls ry <> Query).
Proof.
  intros (A & y & ry & B & C & E). split; [auto|]. rewrite (p_obj _ _ _ _ _ HP). destruct (Nat.eq_dec y o) as [->|N].
  - exists o, r'. rewrite upd_same, (p_cls _ _ _ _ _ HP). destruct (p_live _ _ _ _ _ HP) as (L & _). split; [auto|]. split; [auto|]. congruence.
  - exists y, ry. rewrite upd_other; auto.
Qed.
Lemma dropped_D : D s'.
Proof.
  constructor.
  - intros x rx H. rewrite (p_next _ _ _ _ _ HP), (p_nb _ _ _ _ _ HP). apply dr_case in H. destruct H as [[-> ->]|[N H]].
    + destruct (p_live _ _ _ _ _ HP) as (L & _). destruct (d_bound _ HD _ _ L) as (A & B & C). split; [auto|]. split.
      * intros p Hp. rewrite (p_of _ _ _ _ _ HP) in Hp. auto.
      * intros w Hw. apply (p_data _ _ _ _ _ HP) in Hw. auto.
    + apply (d_bound _ HD _ _ H).
  - intros x rx H. apply dr_livecase in H. destruct H as [N H]. destruct (d_live _ HD _ _ H) as (w & A & B & C). exists w. split; [auto|].
    rewrite (p_w _ _ _ _ _ HP _ _ _ H N A). split; [auto|]. destruct (o_of rx) as [p|] eqn:Ep; [|now apply dr_null]. destruct C as (k & C & F). exists k.
    rewrite (p_p _ _ _ _ _ HP _ _ _ H N Ep). split; [auto|]. now apply dr_fits.
  - intros x y r1 r2 p Hx Hy Ox Oy. destruct (p_live _ _ _ _ _ HP) as (L & _).
    apply dr_case in Hx. apply dr_case in Hy. destruct Hx as [[-> ->]|[Nx Hx]], Hy as [[-> ->]|[Ny Hy]]; auto; try rewrite (p_of _ _ _ _ _ HP) in *.
    + apply (d_uniq _ HD _ _ _ _ _ L Hy Ox Oy).
    + apply (d_uniq _ HD _ _ _ _ _ Hx L Ox Oy).
    + apply (d_uniq _ HD _ _ _ _ _ Hx Hy Ox Oy).
  - intros x y r1 r2 p Hx Hy Ox Oy. destruct (p_live _ _ _ _ _ HP) as (L & _).
    apply dr_case in Hx. apply dr_case in Hy. destruct Hx as [[-> ->]|[Nx Hx]], Hy as [[-> ->]|[Ny Hy]]; auto.
    + apply (p_data _ _ _ _ _ HP) in Ox. apply (d_uniqw _ HD _ _ _ _ _ L Hy Ox Oy).
    + apply (p_data _ _ _ _ _ HP) in Oy. apply (d_uniqw _ HD _ _ _ _ _ Hx L Ox Oy).
    + apply (d_uniqw _ HD _ _ _ _ _ Hx Hy Ox Oy).
  - intros x rx H. apply dr_livecase in H. destruct H as [N H]. destruct (d_db _ HD _ _ H) as (rd & A & B). exists rd. split; [|auto].
    apply dr_live; auto. intros E. rewrite E in A. apply dr_same in A. subst rd. pose proof dr_go as G. rewrite B in G. apply N. eapply G; eauto.
  - intros x rx t H Ht. apply dr_livecase in H. destruct H as [N H]. destruct (d_thread _ HD _ _ _ H Ht) as (rt & A & B). exists rt. split; [|auto].
    apply dr_live; auto. intros ->. apply (dr_thread _ _ H Ht).
  - intros t rt tb m d reps H Hc Ho Hm. apply dr_livecase in H. destruct H as [N H].
    destruct (p_mem _ _ _ _ _ HP m) as [E|E]; rewrite E in Hm; [|discriminate].
    destruct (d_family _ HD _ _ _ _ _ _ H Hc Ho Hm) as (A & B). split; [now apply dr_dbof with t|]. intros m' Hm'. apply dr_member; auto. congruence.
  - intros x p H. rewrite (p_loops _ _ _ _ _ HP) in H. destruct (d_loops _ HD _ _ H) as (rx & A & B & C). exists rx. split; [|auto].
    apply dr_live; auto. intros ->. apply dr_same in A. subst rx. pose proof dr_go as G. apply (in_map fst) in H. simpl in H.
    destruct C as [C|C]; rewrite C in G; auto.
  - intros b Hb. rewrite (p_nb _ _ _ _ _ HP) in Hb. destruct (p_mem _ _ _ _ _ HP b) as [E|E]; rewrite E; auto. apply (d_mem _ HD _ Hb).
  - intros b ch tb Hb. rewrite (p_nb _ _ _ _ _ HP). destruct (p_mem _ _ _ _ _ HP b) as [E|E]; rewrite E in Hb; [|discriminate]. apply (d_par _ HD _ _ _ Hb).
Qed.
End Dropped.

(** *** Assignments *)
Lemma same_D s s' :
  D s -> (forall x r, objs s x = Some r -> exists r', objs s' x = Some r' /\ o_of r' = o_of r /\ o_data r' = o_data r /\ o_cls r' = o_cls r) ->
  (forall x r', objs s' x = Some r' -> exists r, objs s x = Some r /\ o_of r' = o_of r /\ o_data r' = o_data r) ->
  (forall x r, live s' x r <-> live s x r) ->
  next_obj s' = next_obj s -> next_block s' = next_block s -> mem s' = mem s ->
  (forall o p, In (o, p) (loops s') -> exists r, live s o r /\ o_of r = p /\ (o_cls r = Threads \/ o_cls r = Messages)) -> D s'.
Proof.
  intros HD Ho Ho' LV Hn Hb Hm Hl.
  assert (DB : forall r d, dbof s r d -> dbof s' r d) by (intros r d (rd & A & B); exists rd; rewrite LV; auto).
  assert (MB : forall th m, member s th m -> member s' th m).
  { intros th m (A & B). split; [now rewrite Hb|]. rewrite Hm. destruct B as [(x & r & B1 & B2)|(t & rt & tb & d & reps & B1 & B2 & B3)].
    - left. destruct (Ho _ _ B1) as (r' & C1 & C2 & _). exists x, r'. split; [auto|congruence].
    - right. exists t, rt, tb, d, reps. rewrite LV. auto. }
  assert (FT : forall x r k, fits s x r k -> fits s' x r k).
  { intros x r k. unfold fits. destruct (o_cls r), k; auto.
    - intros (y & ry & A & B & C). exists y, ry. rewrite LV. auto.
    - intros (A & B). auto.
    - intros ((y & ry & A & B & C) & E). split; [exists y, ry; rewrite LV; auto|auto].
    - intros (A & B). auto. }
  constructor.
  - rewrite Hn, Hb. intros x r H. destruct (Ho' _ _ H) as (r0 & A & B & C). rewrite B, C. apply (d_bound _ HD _ _ A).
  - intros x r H. rewrite LV in H. destruct (d_live _ HD _ _ H) as (w & A & B & C). exists w. rewrite Hm. split; [auto|]. split; [auto|].
    destruct (o_of r); [destruct C as (k & C & E); exists k; auto|]. destruct C as (P1 & y & ry & P2 & P3 & P4). split; [auto|].
    destruct (Ho _ _ P3) as (r' & C1 & C2 & C3 & C4). exists y, r'. split; [auto|]. split; [auto|congruence].
  - intros x y r r' p Hx Hy Ox Oy. destruct (Ho' _ _ Hx) as (r0 & A & B & _). destruct (Ho' _ _ Hy) as (r1 & A' & B' & _).
    apply (d_uniq _ HD _ _ _ _ p A A'); congruence.
  - intros x y r r' p Hx Hy Ox Oy. destruct (Ho' _ _ Hx) as (r0 & A & _ & B). destruct (Ho' _ _ Hy) as (r1 & A' & _ & B').
    apply (d_uniqw _ HD _ _ _ _ p A A'); congruence.
  - intros x r H. rewrite LV in H. destruct (d_db _ HD _ _ H) as (rd & A & B). exists rd. rewrite LV. auto.
  - intros x r t H Ht. rewrite LV in H. destruct (d_thread _ HD _ _ _ H Ht) as (rt & A & B). exists rt. rewrite LV. auto.
  - intros t rt tb m d reps H Hc Hof E. rewrite LV in H. rewrite Hm in E. destruct (d_family _ HD _ _ _ _ _ _ H Hc Hof E) as (A & B). split; auto.
  - intros o p H. destruct (Hl _ _ H) as (r & A & B). exists r. rewrite LV. auto.
  - intros b. rewrite Hb, Hm. apply (d_mem _ HD).
  - rewrite Hb, Hm. apply (d_par _ HD).
Qed.
Definition plain (k : kind) : Prop := match k with KWrap _ | KMsg _ _ => False | _ => True end.
Lemma set_what_D s b pa k0 k : D s -> mem s b = Some {| parent := pa; what := k0 |} -> plain k0 -> plain k ->
  (forall x r, fits s x r k0 -> fits s x r k) -> D (set_what s b k).
Proof.
  intros HD Hb P0 P1 Hf. unfold set_what. rewrite Hb. simpl.
  set (s' := set_mem s (upd (mem s) b (Some {| parent := pa; what := k |}))).
  assert (MM : forall m pm km, ~ plain km -> mem s m = Some {| parent := pm; what := km |} -> mem s' m = mem s m).
  { intros m pm km Nk E. simpl. apply upd_other. intros ->. rewrite Hb in E. injection E as _ <-. auto. }
  assert (MB : forall th m, member s th m -> member s' th m).
  { intros th m (A & B). split; [auto|]. destruct B as [B|(t & rt & tb & d & reps & B1 & B2 & B3 & B4 & B5)]; [now left|right].
    exists t, rt, tb, d, reps. split; [auto|]. split; [auto|]. split; [auto|]. split; [auto|]. rewrite (MM m (Some tb) (KMsg d reps) (fun X => X) B5). auto. }
  assert (FT : forall x r k1, fits s x r k1 -> fits s' x r k1).
  { intros x r k1. unfold fits. destruct (o_cls r), k1; auto.
    - intros (A & B). split; [auto|]. intros m Hm. apply MB. auto.
    - intros (A & B). split; [auto|]. intros m Hm. apply MB. auto.
    - intros (A & B). split; [auto|]. intros m Hm. apply MB. auto. }
  constructor.
  - apply (d_bound _ HD).
  - intros x r H. destruct (d_live _ HD _ _ H) as (w & A & B & C). exists w. split; [auto|]. rewrite (MM w None (KWrap (o_of r)) (fun X => X) B). split; [auto|].
    destruct (o_of r) as [p|]; [|auto]. destruct C as (k1 & C & E). destruct (Nat.eq_dec p b) as [->|Np].
    + exists k. simpl. rewrite upd_same. rewrite Hb in C. injection C as -> ->. split; [auto|]. apply FT. auto.
    + exists k1. simpl. rewrite upd_other by auto. split; [auto|]. apply FT. auto.
  - apply (d_uniq _ HD).
  - apply (d_uniqw _ HD).
  - apply (d_db _ HD).
  - apply (d_thread _ HD).
  - intros t rt tb m d reps H Hc Ho E. simpl in E. unfold upd in E. destruct (Nat.eqb_spec m b) as [->|N].
    + injection E as _ ->. contradiction.
    + destruct (d_family _ HD _ _ _ _ _ _ H Hc Ho E) as (A & B). split; [auto|]. intros m' Hm'. apply MB. auto.
  - apply (d_loops _ HD).
  - intros b' Hb'. simpl. destruct (Nat.eq_dec b' b) as [->|N]; [|rewrite upd_other; auto; apply (d_mem _ HD _ Hb')].
    rewrite (d_mem _ HD _ Hb') in Hb. discriminate.
  - intros b' ch tb E Hp. simpl in *. unfold upd in E. destruct (Nat.eqb_spec b' b) as [->|N].
    + injection E as <-. simpl in Hp. apply (d_par _ HD _ _ tb Hb). auto.
    + apply (d_par _ HD _ _ _ E Hp).
Qed.
