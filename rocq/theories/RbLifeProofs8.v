(** For C95, continued: what holds in every program, tidy or not. *)
From Verif Require Import RbLife RbLifeSpec RbLifeProofs RbLifeProofs5 RbLifeProofs6 RbLifeProofs7.
From Coq Require Import Arith Bool List Lia.
Import ListNotations.
Local Open Scope nat_scope.

Definition is_wrap (k : kind) : Prop := match k with KWrap _ => True | _ => False end.
Definition is_msg (k : kind) : Prop := match k with KMsg _ _ => True | _ => False end.
Definition is_db (k : kind) : Prop := match k with KDb _ _ => True | _ => False end.
Definition elems (k : kind) : list block := match k with KThread _ a t => a ++ t | KList _ r => r | KMsg _ r => r | _ => [] end.
(** [ex]: an object that is just being destroyed. *)
Record G (ex : option nat) (s : state) : Prop := {
  g_bound : bounded s;
  g_nb : forall x r, objs s x = Some r -> (forall w, o_data r = Some w -> w < next_block s) /\ (forall p, o_of r = Some p -> p < next_block s);
  g_live : forall x r, live s x r -> exists w, o_data r = Some w /\ mem s w = Some {| parent := None; what := KWrap (o_of r) |};
  g_uniqw : forall x y r r' w, objs s x = Some r -> objs s y = Some r' -> o_data r = Some w -> o_data r' = Some w -> x = y;
  g_mem : forall b, next_block s <= b -> mem s b = None;
  g_root : forall b k, mem s b = Some {| parent := None; what := k |} -> exists p, k = KWrap p /\ (p = None \/ exists x r, live s x r /\ o_data r = Some b);
  g_par : forall b p k, mem s b = Some {| parent := Some p; what := k |} -> ~ is_wrap k /\
          exists pa kp, mem s p = Some {| parent := pa; what := kp |} /\ (pa = None \/ exists w kw, pa = Some w /\ mem s w = Some {| parent := None; what := kw |});
  g_nul : forall b p k, mem s b = Some {| parent := Some p; what := k |} -> mem s p <> Some {| parent := None; what := KWrap None |};
  g_of : forall x r p pa k, objs s x = Some r -> o_of r = Some p -> mem s p = Some {| parent := pa; what := k |} -> pa <> None /\ (o_cls r = Database <-> is_db k);
  g_elem : forall b pa k m, mem s b = Some {| parent := pa; what := k |} -> In m (elems k) ->
           m < next_block s /\ forall pm km, mem s m = Some {| parent := pm; what := km |} -> is_msg km;
  g_db : forall x r, live s x r -> ex <> Some x -> o_cls r = Database -> exists p op pe, o_of r = Some p /\ mem s p = Some {| parent := o_data r; what := KDb op pe |}
}.
Lemma G_empty : G None empty.
Proof. constructor; unfold live, bounded; simpl; intros; try discriminate; try (destruct H; discriminate); auto. Qed.
(** Changes are not forgotten while the database is there. *)
Definition R (s s' : state) : Prop :=
  (forall c, In c (disk s) -> In c (disk s')) /\
  forall x r p pa op pe, live s x r -> live s' x r -> o_cls r = Database -> o_of r = Some p -> mem s p = Some {| parent := pa; what := KDb op pe |} ->
  exists op' pe', mem s' p = Some {| parent := pa; what := KDb op' pe' |} /\ forall c, In c pe -> In c pe' \/ In c (disk s').
Lemma R_refl s : R s s.
Proof. split; [auto|]. intros. exists op, pe. auto. Qed.

(** *** Freeing *)
Lemma chunk_eta (c : chunk) : c = {| parent := parent c; what := what c |}.
Proof. destruct c; auto. Qed.
Lemma free_some s c b ch : mem (free s c) b = Some ch ->
  mem s b = Some ch /\ b <> c /\ (forall p, parent ch = Some p -> p <> c /\ forall chp q, mem s p = Some chp -> parent chp = Some q -> q <> c).
Proof.
  unfold free. simpl. unfold talloc_free. destruct (above (S (S (next_block s))) (mem s) b c) eqn:E; [discriminate|]. intros H. split; [auto|].
  simpl in E. rewrite H in E. apply orb_false_iff in E. destruct E as (E1 & E2). apply Nat.eqb_neq in E1. split; [auto|]. intros p Hp.
  rewrite Hp in E2. apply orb_false_iff in E2. destruct E2 as (E2 & E3). apply Nat.eqb_neq in E2. split; [auto|]. intros chp q Hc Hq.
  rewrite Hc, Hq in E3. destruct (next_block s); simpl in E3; apply orb_false_iff in E3; destruct E3 as (E3 & _); apply Nat.eqb_neq in E3; auto.
Qed.
Lemma free_keep0 s b c k : b <> c -> mem s b = Some {| parent := None; what := k |} -> mem (free s c) b = Some {| parent := None; what := k |}.
Proof. intros N E. unfold free. simpl. rewrite <- E. eapply keep1; eauto. Qed.
Lemma free_keep1 s b b1 c k k1 : b <> c -> b1 <> c -> mem s b = Some {| parent := Some b1; what := k |} -> mem s b1 = Some {| parent := None; what := k1 |} ->
  mem (free s c) b = Some {| parent := Some b1; what := k |}.
Proof. intros N N1 E E1. unfold free. simpl. rewrite <- E. exact (keep2 (S (next_block s)) (mem s) b b1 c k k1 N N1 E E1). Qed.
Lemma live_free s c x r : live (free s c) x r <-> live s x r.
Proof. reflexivity. Qed.

(** A block that is no wrapper. *)
Lemma G_free ex s c pa k : G ex s -> mem s c = Some {| parent := Some pa; what := k |} ->
  (forall x r, live s x r -> ex <> Some x -> o_cls r = Database -> o_of r <> Some c) -> G ex (free s c).
Proof.
  intros HG Hc Hdb. constructor.
  - apply (g_bound _ _ HG).
  - apply (g_nb _ _ HG).
  - intros x r L. destruct (g_live _ _ HG _ _ L) as (w & A & B). exists w. split; [auto|]. apply free_keep0; auto. intros ->. congruence.
  - apply (g_uniqw _ _ HG).
  - intros b Hb. destruct (mem (free s c) b) eqn:E; auto. apply free_some in E. destruct E as (E & _). rewrite (g_mem _ _ HG) in E by auto. discriminate.
  - intros b k0 E. apply free_some in E. destruct E as (E & N & _). apply (g_root _ _ HG _ _ E).
  - intros b p k0 E. apply free_some in E. destruct E as (E & N & M). destruct (M p eq_refl) as (M1 & M2).
    destruct (g_par _ _ HG _ _ _ E) as (A & pa0 & kp & B & C). split; [auto|]. destruct C as [->|(w & kw & -> & C)].
    + exists None, kp. split; [apply free_keep0; auto|auto].
    + pose proof (M2 _ w B eq_refl) as M3. exists (Some w), kp. split; [eapply free_keep1; eauto|]. right. exists w, kw. split; [auto|]. apply free_keep0; auto.
  - intros b p k0 E E1. apply free_some in E. destruct E as (E & _). apply free_some in E1. destruct E1 as (E1 & _). apply (g_nul _ _ HG _ _ _ E E1).
  - intros x r p pa0 k0 Hx Hp E. apply free_some in E. destruct E as (E & _). eapply (g_of _ _ HG); eauto.
  - intros b pa0 k0 m E Hm. apply free_some in E. destruct E as (E & _). destruct (g_elem _ _ HG _ _ _ _ E Hm) as (A & B). split; [auto|].
    intros pm km E1. apply free_some in E1. destruct E1 as (E1 & _). eauto.
  - intros x r L N Hcl. destruct (g_db _ _ HG _ _ L N Hcl) as (p & op & pe & A & B). exists p, op, pe. split; [auto|].
    destruct (g_live _ _ HG _ _ L) as (w & C & E). rewrite C in *. apply free_keep1 with (k1 := KWrap (o_of r)); auto.
    + intros ->. apply (Hdb _ _ L N Hcl A).
    + intros ->. congruence.
Qed.
Lemma R_free s c pa k : G None s -> mem s c = Some {| parent := Some pa; what := k |} -> ~ is_db k -> R s (free s c).
Proof.
  intros HG Hc Hk. split; [auto|]. intros x r p pa0 op pe L _ Hcl Hp E. exists op, pe. split; [|auto].
  destruct (g_db _ _ HG _ _ L ltac:(discriminate) Hcl) as (p' & op' & pe' & A & B). assert (p' = p) by congruence. subst p'.
  assert (pa0 = o_data r) by congruence. subst pa0. destruct (g_live _ _ HG _ _ L) as (w & C & F). rewrite C in *.
  eapply free_keep1; eauto; intros ->.
  - rewrite Hc in E. injection E as _ ->. apply Hk. exact I.
  - congruence.
Qed.
(** The wrapper of an object that goes. *)
Lemma G_drop ex s o r d w dk : G ex s -> (ex = None \/ ex = Some o) -> live s o r -> o_data r = Some w -> o_of d = o_of r -> o_cls d = o_cls r ->
  (forall w0, o_data d = Some w0 -> o_data r = Some w0) -> (o_gone d = true \/ o_data d = None) ->
  let s' := {| mem := mem (free s w); next_block := next_block s; objs := upd (objs s) o (Some d); next_obj := next_obj s; loops := loops s; disk := dk |} in
  G None s'.
Proof.
  intros HG Hex L Hw D1 D2 D3 D4 s'. destruct (g_live _ _ HG _ _ L) as (w' & X & Mw). rewrite Hw in X. injection X as <-.
  assert (OC : forall x rx, objs s' x = Some rx -> (x = o /\ rx = d) \/ (x <> o /\ objs s x = Some rx)).
  { intros x rx. simpl. unfold upd. destruct (Nat.eqb_spec x o); intros E; [left; split; congruence|right; auto]. }
  assert (LC : forall x rx, live s' x rx -> x <> o /\ live s x rx).
  { intros x rx (A & B & C). apply OC in A. destruct A as [(-> & ->)|(N & A)]; [destruct D4; congruence|]. split; [auto|]. split; auto. }
  assert (NW : forall x rx w0, live s x rx -> x <> o -> o_data rx = Some w0 -> w0 <> w).
  { intros x rx w0 Lx N E ->. apply N. destruct L as (L & _), Lx as (Lx & _). apply (g_uniqw _ _ HG _ _ _ _ _ Lx L E Hw). }
  destruct L as (L & L').
  constructor.
  - intros x rx H. apply OC in H. destruct H as [(-> & ->)|(N & H)]; [apply (g_bound _ _ HG _ _ L)|apply (g_bound _ _ HG _ _ H)].
  - intros x rx H. apply OC in H. destruct H as [(-> & ->)|(N & H)]; [|apply (g_nb _ _ HG _ _ H)].
    destruct (g_nb _ _ HG _ _ L) as (A & B). split; [intros w0 E; apply A; auto|intros p E; apply B; congruence].
  - intros x rx H. apply LC in H. destruct H as (N & H). destruct (g_live _ _ HG _ _ H) as (w0 & A & B). exists w0. split; [auto|]. apply free_keep0; eauto.
  - intros x y r1 r2 w0 Hx Hy E1 E2. apply OC in Hx. apply OC in Hy. destruct Hx as [(-> & ->)|(Nx & Hx)], Hy as [(-> & ->)|(Ny & Hy)]; auto.
    + apply D3 in E1. apply (g_uniqw _ _ HG _ _ _ _ _ L Hy E1 E2).
    + apply D3 in E2. apply (g_uniqw _ _ HG _ _ _ _ _ Hx L E1 E2).
    + apply (g_uniqw _ _ HG _ _ _ _ _ Hx Hy E1 E2).
  - intros b Hb. destruct (mem s' b) eqn:E; auto. apply free_some in E. destruct E as (E & _). rewrite (g_mem _ _ HG) in E by auto. discriminate.
  - intros b k0 E. apply free_some in E. destruct E as (E & N & _). destruct (g_root _ _ HG _ _ E) as (p & A & B). exists p. split; [auto|].
    destruct B as [B|(x & rx & B & C)]; [auto|]. right. exists x, rx. split; [|auto]. destruct B as (B & B'). split; [|auto]. simpl. rewrite upd_other; auto.
    intros ->. congruence.
  - intros b p k0 E. apply free_some in E. destruct E as (E & N & M). destruct (M p eq_refl) as (M1 & M2).
    destruct (g_par _ _ HG _ _ _ E) as (A & pa0 & kp & B & C). split; [auto|]. destruct C as [->|(w0 & kw & -> & C)].
    + exists None, kp. split; [apply free_keep0; auto|auto].
    + pose proof (M2 _ w0 B eq_refl) as M3. exists (Some w0), kp. split; [eapply free_keep1; eauto|]. right. exists w0, kw. split; [auto|]. apply free_keep0; auto.
  - intros b p k0 E E1. apply free_some in E. destruct E as (E & _). apply free_some in E1. destruct E1 as (E1 & _). apply (g_nul _ _ HG _ _ _ E E1).
  - intros x rx p pa0 k0 Hx Hp E. apply free_some in E. destruct E as (E & _). apply OC in Hx. destruct Hx as [(-> & ->)|(N & Hx)].
    + rewrite D2. eapply (g_of _ _ HG); eauto. congruence.
    + eapply (g_of _ _ HG); eauto.
  - intros b pa0 k0 m E Hm. apply free_some in E. destruct E as (E & _). destruct (g_elem _ _ HG _ _ _ _ E Hm) as (A & B). split; [auto|].
    intros pm km E1. apply free_some in E1. destruct E1 as (E1 & _). eauto.
  - intros x rx H _ Hcl. apply LC in H. destruct H as (N & H).
    destruct (g_db _ _ HG _ _ H ltac:(destruct Hex; congruence) Hcl) as (p & op & pe & A & B). exists p, op, pe. split; [auto|].
    destruct (g_live _ _ HG _ _ H) as (w0 & C & E). rewrite C in *. pose proof (NW _ _ _ H N C) as N0.
    apply free_keep1 with (k1 := KWrap (o_of rx)); auto. intros ->. congruence.
Qed.

(** *** Assignments *)
Definition alike (k k' : kind) : Prop := ~ is_wrap k /\ ~ is_wrap k' /\ (is_db k <-> is_db k') /\ (is_msg k <-> is_msg k') /\ incl (elems k') (elems k).
Lemma set_what_mem s b pa k0 k : mem s b = Some {| parent := pa; what := k0 |} -> forall b' ch, mem (set_what s b k) b' = Some ch ->
  (b' = b /\ ch = {| parent := pa; what := k |}) \/ (b' <> b /\ mem s b' = Some ch).
Proof. intros H b' ch. unfold set_what. rewrite H. simpl. unfold upd. destruct (Nat.eqb_spec b' b); intros E; [left; split; congruence|auto]. Qed.
Lemma set_what_mem' s b pa k0 k b' ch : mem s b = Some {| parent := pa; what := k0 |} -> mem s b' = Some ch ->
  exists k', mem (set_what s b k) b' = Some {| parent := parent ch; what := k' |} /\ (k' = what ch \/ (b' = b /\ k' = k)).
Proof.
  intros H E. unfold set_what. rewrite H. simpl. unfold upd. destruct (Nat.eqb_spec b' b) as [->|N].
  - rewrite H in E. injection E as <-. eauto.
  - exists (what ch). rewrite E. split; [destruct ch|]; auto.
Qed.
Lemma live_set_what s b k x r : live (set_what s b k) x r <-> live s x r.
Proof. unfold live. destruct (set_what_frame s b k) as (_ & E & _). rewrite E. reflexivity. Qed.
Lemma G_set_what s b pa k0 k : G None s -> mem s b = Some {| parent := pa; what := k0 |} -> alike k0 k -> G None (set_what s b k).
Proof.
  intros HG Hb (A1 & A2 & A3 & A4 & A5). destruct (set_what_frame s b k) as (F1 & F2 & F3 & F4).
  assert (Hpa : pa <> None).
  { intros ->. destruct (g_root _ _ HG _ _ Hb) as (p & E & _). subst k0. apply A1. exact I. }
  assert (Keep0 : forall b' k', mem s b' = Some {| parent := None; what := k' |} -> mem (set_what s b k) b' = Some {| parent := None; what := k' |}).
  { intros b' k' E. unfold set_what. rewrite Hb. simpl. rewrite upd_other; auto. intros ->. congruence. }
  constructor.
  - unfold bounded. rewrite F2, F3. apply (g_bound _ _ HG).
  - rewrite F1, F2. apply (g_nb _ _ HG).
  - intros x r L. rewrite live_set_what in L. destruct (g_live _ _ HG _ _ L) as (w & A & B). exists w. split; auto.
  - rewrite F2. apply (g_uniqw _ _ HG).
  - intros b' H. rewrite F1 in H. destruct (mem (set_what s b k) b') eqn:E; auto. eapply set_what_mem in E; eauto.
    pose proof (g_mem _ _ HG _ H). destruct E as [(-> & _)|(_ & E)]; congruence.
  - intros b' k' E. eapply set_what_mem in E; eauto. destruct E as [(-> & E)|(N & E)]; [injection E as <- _; congruence|].
    destruct (g_root _ _ HG _ _ E) as (p & B & C). exists p. split; [auto|]. destruct C as [C|(x & r & C1 & C2)]; [auto|right]. exists x, r. rewrite live_set_what. auto.
  - intros b' p k' E. assert (E' : exists k1, mem s b' = Some {| parent := Some p; what := k1 |} /\ ~ is_wrap k').
    { eapply set_what_mem in E; eauto. destruct E as [(-> & E)|(N & E)]; [injection E as -> ->; eauto|].
      exists k'. split; [auto|]. apply (g_par _ _ HG _ _ _ E). }
    destruct E' as (k1 & E1 & E2). split; [auto|]. destruct (g_par _ _ HG _ _ _ E1) as (_ & pa0 & kp & B & C).
    destruct (set_what_mem' _ _ _ _ k _ _ Hb B) as (kq & Q & _). simpl in Q. exists pa0, kq. split; [auto|].
    destruct C as [C|(w & kw & -> & C)]; [auto|right]. exists w, kw. auto.
  - intros b' p k' E E1. eapply set_what_mem in E1; eauto. destruct E1 as [(-> & E1)|(N1 & E1)]; [injection E1 as <- _; congruence|].
    eapply set_what_mem in E; eauto. destruct E as [(-> & E)|(N & E)]; [injection E as <- _; apply (g_nul _ _ HG _ _ _ Hb E1)|apply (g_nul _ _ HG _ _ _ E E1)].
  - intros x r p pa0 k' Hx Hp E. rewrite F2 in Hx. eapply set_what_mem in E; eauto. destruct E as [(-> & E)|(N & E)].
    + injection E as -> ->. destruct (g_of _ _ HG _ _ _ _ _ Hx Hp Hb). tauto.
    + eapply (g_of _ _ HG); eauto.
  - intros b' pa0 k' m E Hm. rewrite F1.
    assert (X : m < next_block s /\ forall pm km, mem s m = Some {| parent := pm; what := km |} -> is_msg km).
    { eapply set_what_mem in E; eauto. destruct E as [(-> & E)|(N & E)]; [injection E as -> ->; apply (g_elem _ _ HG _ _ _ m Hb); auto|].
      apply (g_elem _ _ HG _ _ _ _ E Hm). }
    destruct X as (X1 & X2). split; [auto|]. intros pm km E1. eapply set_what_mem in E1; eauto. destruct E1 as [(-> & E1)|(N & E1)]; [|eauto].
    injection E1 as -> ->. apply A4. eauto.
  - intros x r L N Hcl. rewrite live_set_what in L. destruct (g_db _ _ HG _ _ L N Hcl) as (p & op & pe & A & B).
    destruct (set_what_mem' _ _ _ _ k _ _ Hb B) as (kq & Q & [E|(-> & E)]); simpl in *.
    + subst kq. exists p, op, pe. auto.
    + subst kq. assert (k0 = KDb op pe) by congruence. subst k0. simpl in A3. destruct k; simpl in A3; try tauto. exists b, is_open, pending. auto.
Qed.

(** *** New objects *)
Record plus (s s' : state) (rn : obj) (w : block) : Prop := {
  q_obj : objs s' = upd (objs s) (next_obj s) (Some rn);
  q_next : next_obj s' = S (next_obj s);
  q_disk : disk s' = disk s;
  q_w : next_block s <= w < next_block s';
  q_data : o_data rn = Some w;
  q_gone : o_gone rn = false;
  q_mw : mem s' w = Some {| parent := None; what := KWrap (o_of rn) |};
  q_old : forall b, b < next_block s -> mem s' b = mem s b \/
          (o_of rn = Some b /\ exists pa k, mem s b = Some {| parent := Some pa; what := k |} /\ mem s' b = Some {| parent := Some w; what := k |} /\ is_msg k);
  q_new : forall b ch, next_block s <= b -> b <> w -> mem s' b = Some ch ->
          (o_of rn = Some b /\ parent ch = Some w /\ ~ is_wrap (what ch)) \/
          (exists t kt, o_of rn = Some t /\ parent ch = Some t /\ is_msg (what ch) /\ mem s' t = Some {| parent := Some w; what := kt |}) \/
          ch = {| parent := None; what := KWrap None |};
  q_nb : forall b, next_block s' <= b -> mem s' b = None;
  q_of : forall p, o_of rn = Some p -> p < next_block s' /\ exists k, mem s' p = Some {| parent := Some w; what := k |} /\ (o_cls rn = Database <-> is_db k);
  q_dbof : o_cls rn = Database -> o_of rn <> None;
  q_elems : forall b pa k m, next_block s <= b -> mem s' b = Some {| parent := pa; what := k |} -> In m (elems k) ->
            m < next_block s' /\ forall pm km, mem s' m = Some {| parent := pm; what := km |} -> is_msg km
}.
Lemma plus_G s s' rn w : G None s -> plus s s' rn w -> G None s' /\ R s s'.
Proof.
  intros HG HP. pose proof (q_w _ _ _ _ HP) as Hw.
  assert (OC : forall x rx, objs s' x = Some rx -> (x = next_obj s /\ rx = rn) \/ (x <> next_obj s /\ objs s x = Some rx)).
  { intros x rx. rewrite (q_obj _ _ _ _ HP). unfold upd. destruct (Nat.eqb_spec x (next_obj s)); intros E; [left; split; congruence|right; auto]. }
  assert (OLD : forall x rx, objs s x = Some rx -> objs s' x = Some rx).
  { intros x rx H. rewrite (q_obj _ _ _ _ HP), upd_other; auto. apply (g_bound _ _ HG) in H. lia. }
  assert (K0 : forall b k, mem s b = Some {| parent := None; what := k |} -> mem s' b = Some {| parent := None; what := k |}).
  { intros b k E. assert (b < next_block s) by (destruct (le_lt_dec (next_block s) b) as [Hl|]; [rewrite (g_mem _ _ HG _ Hl) in E; discriminate|auto]).
    destruct (q_old _ _ _ _ HP b H) as [Q|(_ & pa & k1 & Q & _)]; [congruence|]. rewrite E in Q. discriminate. }
  assert (LT : forall b ch, mem s b = Some ch -> b < next_block s).
  { intros b ch E. destruct (le_lt_dec (next_block s) b) as [Hl|]; [rewrite (g_mem _ _ HG _ Hl) in E; discriminate|auto]. }
  assert (KK : forall b pa k, mem s b = Some {| parent := pa; what := k |} -> mem s' b = Some {| parent := pa; what := k |} \/ (mem s' b = Some {| parent := Some w; what := k |} /\ is_msg k)).
  { intros b pa k E. destruct (q_old _ _ _ _ HP b (LT _ _ E)) as [Q|(_ & pa1 & k1 & Q & Q1 & Q2)]; [left; congruence|right]. rewrite E in Q. injection Q as -> ->. auto. }
  assert (BK : forall b pa k, b < next_block s -> mem s' b = Some {| parent := pa; what := k |} -> exists pa0, mem s b = Some {| parent := pa0; what := k |} /\ (pa0 = pa \/ (pa = Some w /\ is_msg k /\ pa0 <> None))).
  { intros b pa k Hb E. destruct (q_old _ _ _ _ HP b Hb) as [Q|(_ & pa1 & k1 & Q & Q1 & Q2)]; [exists pa; rewrite Q in E; auto|].
    rewrite E in Q1. injection Q1 as -> ->. exists (Some pa1). split; [auto|]. right. split; [auto|]. split; [auto|discriminate]. }
  split.
  2:{ split; [rewrite (q_disk _ _ _ _ HP); auto|]. intros x r p pa op pe L _ Hcl Hp E. exists op, pe. split; [|auto].
      destruct (KK _ _ _ E) as [Q|(_ & [])]; auto. }
  constructor.
  - intros x rx H. rewrite (q_next _ _ _ _ HP). apply OC in H. destruct H as [(-> & _)|(N & H)]; [lia|]. apply (g_bound _ _ HG) in H. lia.
  - intros x rx H. apply OC in H. destruct H as [(-> & ->)|(N & H)].
    + split; [intros w0 E; rewrite (q_data _ _ _ _ HP) in E; injection E as <-; lia|]. intros p E. apply (q_of _ _ _ _ HP _ E).
    + destruct (g_nb _ _ HG _ _ H) as (A & B). split; intros; [specialize (A _ H0)|specialize (B _ H0)]; lia.
  - intros x rx (H & H'). apply OC in H. destruct H as [(-> & ->)|(N & H)].
    + exists w. split; [apply (q_data _ _ _ _ HP)|apply (q_mw _ _ _ _ HP)].
    + destruct (g_live _ _ HG x rx) as (w0 & A & B); [split; auto|]. exists w0. auto.
  - intros x y r1 r2 w0 Hx Hy E1 E2. apply OC in Hx. apply OC in Hy. pose proof (q_data _ _ _ _ HP) as Q.
    destruct Hx as [(-> & ->)|(Nx & Hx)], Hy as [(-> & ->)|(Ny & Hy)]; auto.
    + destruct (g_nb _ _ HG _ _ Hy) as (A & _). specialize (A _ E2). assert (w0 = w) by congruence. lia.
    + destruct (g_nb _ _ HG _ _ Hx) as (A & _). specialize (A _ E1). assert (w0 = w) by congruence. lia.
    + apply (g_uniqw _ _ HG _ _ _ _ _ Hx Hy E1 E2).
  - apply (q_nb _ _ _ _ HP).
  - intros b k E. destruct (le_lt_dec (next_block s) b) as [Hl|Hl].
    + destruct (Nat.eq_dec b w) as [->|N].
      * rewrite (q_mw _ _ _ _ HP) in E. injection E as <-. destruct (o_of rn) eqn:Eo; [|eauto]. exists (Some b). split; [auto|right].
        exists (next_obj s), rn. split; [|apply (q_data _ _ _ _ HP)]. split; [rewrite (q_obj _ _ _ _ HP); apply upd_same|]. rewrite (q_gone _ _ _ _ HP), (q_data _ _ _ _ HP). split; [auto|discriminate].
      * destruct (q_new _ _ _ _ HP b _ Hl N E) as [(_ & Q & _)|[(t & kt & _ & Q & _)|Q]]; try discriminate. injection Q as ->. eauto.
    + destruct (BK _ _ _ Hl E) as (pa0 & B & [->|(C & _)]); [|discriminate]. destruct (g_root _ _ HG _ _ B) as (p & C & F). exists p. split; [auto|].
      destruct F as [F|(x & rx & F & F')]; [auto|right]. exists x, rx. split; [|auto]. destruct F as (F1 & F2). split; auto.
  - intros b p k E. destruct (le_lt_dec (next_block s) b) as [Hl|Hl].
    + destruct (Nat.eq_dec b w) as [->|N]; [rewrite (q_mw _ _ _ _ HP) in E; discriminate|].
      destruct (q_new _ _ _ _ HP b _ Hl N E) as [(_ & Q & Q')|[(t & kt & _ & Q & Q' & Q'')|Q]]; [| |discriminate].
      * injection Q as ->. split; [auto|]. exists None, (KWrap (o_of rn)). split; [apply (q_mw _ _ _ _ HP)|auto].
      * injection Q as ->. split; [simpl in Q'; destruct k; auto|]. exists (Some w), kt. split; [auto|right]. exists w, (KWrap (o_of rn)). split; [auto|apply (q_mw _ _ _ _ HP)].
    + destruct (BK _ _ _ Hl E) as (pa0 & B & C). destruct pa0 as [p0|]; [|destruct C as [C|(_ & _ & C)]; congruence].
      destruct (g_par _ _ HG _ _ _ B) as (B1 & pa1 & kp & B2 & B3). split; [auto|]. destruct C as [C|(C & _)].
      * injection C as ->. destruct (KK _ _ _ B2) as [Q|(Q & _)].
        -- exists pa1, kp. split; [auto|]. destruct B3 as [->|(w1 & kw & -> & B3)]; [auto|right; exists w1, kw; auto].
        -- exists (Some w), kp. split; [auto|right]. exists w, (KWrap (o_of rn)). split; [auto|apply (q_mw _ _ _ _ HP)].
      * injection C as ->. exists None, (KWrap (o_of rn)). split; [apply (q_mw _ _ _ _ HP)|auto].
  - intros b p k E E1. destruct (le_lt_dec (next_block s) b) as [Hl|Hl].
    + destruct (Nat.eq_dec b w) as [->|N]; [rewrite (q_mw _ _ _ _ HP) in E; discriminate|].
      destruct (q_new _ _ _ _ HP b _ Hl N E) as [(Q0 & Q & Q')|[(t & kt & _ & Q & Q' & Q'')|Q]]; [| |discriminate].
      * injection Q as ->. rewrite (q_mw _ _ _ _ HP) in E1. congruence.
      * injection Q as ->. congruence.
    + destruct (q_old _ _ _ _ HP b Hl) as [Q|(Q0 & pa1 & k1 & Q & Q1 & Q2)].
      * rewrite Q in E. destruct (g_par _ _ HG _ _ _ E) as (_ & pa1 & kp & B2 & _). pose proof (LT _ _ B2) as Hp.
        destruct (BK _ _ _ Hp E1) as (pa0 & B & [->|(C & _)]); [|discriminate]. apply (g_nul _ _ HG _ _ _ E B).
      * rewrite E in Q1. injection Q1 as -> ->. rewrite (q_mw _ _ _ _ HP) in E1. congruence.
  - intros x rx p pa k Hx Hp E. apply OC in Hx. destruct Hx as [(-> & ->)|(N & Hx)].
    + destruct (q_of _ _ _ _ HP _ Hp) as (_ & k1 & Q1 & Q2). rewrite E in Q1. injection Q1 as -> ->. split; [discriminate|auto].
    + assert (Hl : p < next_block s) by (apply (proj2 (g_nb _ _ HG _ _ Hx) _ Hp)). destruct (BK _ _ _ Hl E) as (pa0 & B & C).
      destruct (g_of _ _ HG _ _ _ _ _ Hx Hp B) as (B1 & B2). split; [|auto]. destruct C as [->|(-> & _)]; [auto|discriminate].
  - intros b pa k m E Hm. destruct (le_lt_dec (next_block s) b) as [Hl|Hl]; [apply (q_elems _ _ _ _ HP _ _ _ _ Hl E Hm)|].
    destruct (BK _ _ _ Hl E) as (pa0 & B & _). destruct (g_elem _ _ HG _ _ _ _ B Hm) as (C1 & C2). split; [lia|]. intros pm km E1.
    destruct (BK _ _ _ C1 E1) as (pa1 & B1 & _). eauto.
  - intros x rx (H & H') _ Hcl. apply OC in H. destruct H as [(-> & ->)|(N & H)].
    + destruct (o_of rn) as [p|] eqn:Eo; [|destruct (q_dbof _ _ _ _ HP Hcl Eo)]. destruct (q_of _ _ _ _ HP _ Eo) as (_ & k & Q1 & Q2).
      destruct k; simpl in Q2; try tauto. exists p, is_open, pending. rewrite (q_data _ _ _ _ HP). auto.
    + destruct (g_db _ _ HG x rx) as (p & op & pe & A & B); auto; [split; auto|discriminate|]. exists p, op, pe. split; [auto|].
      destruct (KK _ _ _ B) as [Q|(_ & [])]; auto.
Qed.
