(** For C95, continued: every operation of a tidy program. *)
From Verif Require Import RbLife RbLifeSpec RbLifeProofs RbLifeProofs2 RbLifeProofs3 RbLifeProofs4.
From Coq Require Import Arith Bool List Lia.
Import ListNotations.
Local Open Scope nat_scope.

Lemma set_loops_D s l : D s ->
  (forall o p, In (o, p) l -> exists r, live s o r /\ o_of r = p /\ (o_cls r = Threads \/ o_cls r = Messages)) -> D (set_loops s l).
Proof. intros HD H. apply same_D with s; auto; simpl; intros; eauto. reflexivity. Qed.

(** "each" *)
Lemma visit_D s more : D s ->
  (forall o b r w rest m, hd_error (loops s) = Some (o, Some b) -> live s o r -> mem s b = Some {| parent := w; what := KList rest m |} ->
     forall m0, hd_error m = Some m0 -> forall x rx, objs s x = Some rx -> o_of rx <> Some m0) ->
  good (visit s more).
Proof.
  intros HD Hm. unfold visit. destruct (loops s) as [|[o p] ls] eqn:El; [exact HD|].
  assert (POP : D (set_loops s ls)) by (apply set_loops_D; [auto|]; intros; apply (d_loops _ HD); rewrite El; right; auto).
  destruct p as [b|]; [|exact POP].
  destruct (d_loops _ HD o (Some b)) as (r & L & Ho & Hc); [rewrite El; left; auto|].
  destruct (d_live _ HD _ _ L) as (w & A & B & C). rewrite Ho in C. destruct C as (kd & C & F). simpl. rewrite C. simpl.
  destruct kd; try (unfold fits in F; destruct Hc as [Hc|Hc]; rewrite Hc in F; contradiction).
  - destruct more as [sh|]; [|exact POP]. refine (with_db_D s o r b w (KMset db) _ HD L Ho C F I _).
    intros d op pe pa Hd Hdb. apply wrap_fresh_D with r; auto; [discriminate|]. intros s' rn AD HE Hof. unfold fits. pose proof (proj1 HE) as E1.
    rewrite E1. split; [|intros m []]. exact (heir_dbof _ _ _ _ _ _ _ _ _ HD AD HE Hdb).
  - destruct more as [sh|]; [|exact POP]. refine (with_db_D s o r b w (KThreads query) _ HD L Ho C F I _).
    intros d op pe pa Hd Hdb. apply wrap_thread_D with r; auto. unfold fits in F. destruct Hc as [Hc|Hc]; [auto|]. rewrite Hc in F. contradiction.
  - assert (Hcm : o_cls r = Messages) by (unfold fits in F; destruct Hc as [Hc|Hc]; [rewrite Hc in F; contradiction|auto]).
    destruct rest as [|m rest]; [exact POP|]. unfold fits in F. rewrite Hcm in F. destruct F as ((y & ry & F1 & F2 & F3 & F4) & F5).
    destruct (d_live _ HD _ _ F2) as (wy & _ & _ & G). rewrite F4 in G. destruct G as (ky & G & _). unfold in_use. rewrite G.
    apply wrap_member_D with r; auto; [apply F5; left; auto|]. intros x rx Hx. exact (Hm o b r _ _ _ eq_refl L C m eq_refl x rx Hx).
Qed.

Lemma continue_D s more : D s -> tidy s (Continue more) -> good (continue s more).
Proof.
  intros HD HT. unfold continue. destruct (loops s) as [|[o [b|]] ls] eqn:El; try exact HD.
  destruct (d_loops _ HD o (Some b)) as (r & L & Ho & Hc); [rewrite El; left; auto|].
  destruct (d_live _ HD _ _ L) as (w & A & B & C). rewrite Ho in C. destruct C as (kd & C & F). simpl. rewrite C. simpl.
  unfold tidy, fetches in HT. rewrite El in HT. unfold contents in HT. rewrite C in HT. simpl in HT.
  destruct kd; try (apply visit_D; [auto|]; rewrite El; intros o0 b0 r0 w0 rs m0 E1 L0 E2; injection E1 as <- <-; rewrite C in E2; discriminate).
  destruct rest as [|m rest].
  - apply visit_D; [auto|]. rewrite El. intros o0 b0 r0 w0 rs m0 E1 L0 E2; injection E1 as <- <-; rewrite C in E2. injection E2 as _ _ <-. discriminate.
  - assert (Hcm : o_cls r = Messages) by (unfold fits in F; destruct Hc as [Hc|Hc]; [rewrite Hc in F; contradiction|auto]).
    pose proof F as F'. unfold fits in F. rewrite Hcm in F. destruct F as ((y & ry & F1 & F2 & F3 & F4) & F5).
    destruct (d_live _ HD _ _ F2) as (wy & _ & _ & G). rewrite F4 in G. destruct G as (ky & G & _). unfold in_use. rewrite G.
    apply visit_D.
    + eapply set_what_D; eauto; simpl; auto. intros x rx. unfold fits. destruct (o_cls rx); auto. intros (X & Y). split; [auto|]. intros m1 H1. apply Y. right. auto.
    + unfold set_what. rewrite C. simpl. rewrite El. intros o0 b0 r0 w0 rs m0 E1 L0 E2; injection E1 as <- <-.
      rewrite upd_same in E2. injection E2 as _ _ <-. intros m1 H1. destruct rest as [|m2 rest]; [discriminate|]. injection H1 as <-. apply HT. reflexivity.
Qed.

(** *** Freeing *)
Lemma keep1 f h b c k : b <> c -> h b = Some {| parent := None; what := k |} -> talloc_free f h c b = h b.
Proof. intros N E. unfold talloc_free, above. apply Nat.eqb_neq in N. destruct f; rewrite N, ?E; simpl; auto. Qed.
Lemma keep2 f h b b1 c k k1 : b <> c -> b1 <> c -> h b = Some {| parent := Some b1; what := k |} -> h b1 = Some {| parent := None; what := k1 |} ->
  talloc_free (S f) h c b = h b.
Proof.
  intros N N1 E E1. unfold talloc_free. simpl. apply Nat.eqb_neq in N, N1. rewrite N, E. simpl. destruct f; simpl; rewrite N1, ?E1; simpl; auto.
Qed.
Lemma keep3 f h b b1 b2 c k k1 k2 : b <> c -> b1 <> c -> b2 <> c -> h b = Some {| parent := Some b1; what := k |} -> h b1 = Some {| parent := Some b2; what := k1 |} ->
  h b2 = Some {| parent := None; what := k2 |} -> talloc_free (S (S f)) h c b = h b.
Proof.
  intros N N1 N2 E E1 E2. unfold talloc_free. simpl. apply Nat.eqb_neq in N, N1, N2. rewrite N, E. simpl. rewrite N1, E1. simpl.
  destruct f; simpl; rewrite N2, ?E2; simpl; auto.
Qed.
Lemma free_less f h c b : talloc_free f h c b = h b \/ talloc_free f h c b = None.
Proof. unfold talloc_free. destruct (above f h b c); auto. Qed.

(** What is kept when [c] is freed, [c] a block of the object [o]. *)
Definition own (s : state) (o : nat) (c : block) : Prop := exists r, live s o r /\ (o_data r = Some c \/ o_of r = Some c).
Lemma own_w s o c x rx w : D s -> own s o c -> live s x rx -> x <> o -> o_data rx = Some w -> w <> c.
Proof.
  intros HD (r & L & H) Lx N Hw ->. destruct (d_live _ HD _ _ Lx) as (w & A & B & _). rewrite Hw in A. injection A as <-.
  destruct H as [H|H].
  - apply N. destruct L as (L & _), Lx as (Lx & _). apply (d_uniqw _ HD _ _ _ _ _ Lx L Hw H).
  - destruct (d_live _ HD _ _ L) as (wo & _ & _ & C). rewrite H in C. destruct C as (k & C & _). rewrite B in C. discriminate.
Qed.
Lemma own_p s o c x rx p : D s -> own s o c -> live s x rx -> x <> o -> o_of rx = Some p -> p <> c.
Proof.
  intros HD (r & L & H) Lx N Hw ->. destruct (d_live _ HD _ _ Lx) as (w & A & B & C). rewrite Hw in C. destruct C as (k & C & _).
  destruct H as [H|H].
  - destruct (d_live _ HD _ _ L) as (wo & A' & B' & _). rewrite H in A'. injection A' as <-. rewrite B' in C. discriminate.
  - apply N. destruct L as (L & _), Lx as (Lx & _). apply (d_uniq _ HD _ _ _ _ _ Lx L Hw H).
Qed.
Lemma own_m s o c t rt tb m d reps : D s -> own s o c -> live s t rt -> t <> o -> o_cls rt = Thread -> o_of rt = Some tb ->
  mem s m = Some {| parent := Some tb; what := KMsg d reps |} -> m <> c.
Proof.
  intros HD (r & L & H) Lx N Hc Hw Hm ->.
  destruct (d_live _ HD _ _ L) as (wo & A' & B' & C').
  destruct H as [H|H].
  - rewrite H in A'. injection A' as <-. rewrite B' in Hm. discriminate.
  - rewrite H in C'. destruct C' as (k & C' & _). rewrite Hm in C'. injection C' as E _.
    destruct (d_live _ HD _ _ Lx) as (w & A & B & C). rewrite Hw in C. destruct C as (k' & C & _). rewrite E, B' in C. discriminate.
Qed.
Record kept (s : state) (h : heap) (o : nat) : Prop := {
  k_less : forall b, h b = mem s b \/ h b = None;
  k_w : forall x rx w, live s x rx -> x <> o -> o_data rx = Some w -> h w = mem s w;
  k_p : forall x rx p, live s x rx -> x <> o -> o_of rx = Some p -> h p = mem s p;
  k_m : forall t rt tb m d reps, live s t rt -> t <> o -> o_cls rt = Thread -> o_of rt = Some tb ->
        mem s m = Some {| parent := Some tb; what := KMsg d reps |} -> h m = mem s m
}.
Lemma kept_refl s o : kept s (mem s) o.
Proof. constructor; auto. Qed.
Lemma kept_free s h o c f : D s -> own s o c -> kept s h o -> kept s (talloc_free (S (S f)) h c) o.
Proof.
  intros HD HO K. constructor.
  - intros b. destruct (free_less (S (S f)) h c b) as [E|E]; rewrite E; [apply (k_less _ _ _ K)|auto].
  - intros x rx w Lx N Hw. pose proof (own_w _ _ _ _ _ _ HD HO Lx N Hw) as Nw. pose proof (k_w _ _ _ K _ _ _ Lx N Hw) as E.
    destruct (d_live _ HD _ _ Lx) as (w' & A & B & C). rewrite Hw in A. injection A as <-. rewrite <- E in B. rewrite <- E. eapply keep1; eauto.
  - intros x rx p Lx N Hp. pose proof (own_p _ _ _ _ _ _ HD HO Lx N Hp) as Np. pose proof (k_p _ _ _ K _ _ _ Lx N Hp) as E.
    destruct (d_live _ HD _ _ Lx) as (w & A & B & C). rewrite Hp in C. destruct C as (k & C & _). pose proof (own_w _ _ _ _ _ _ HD HO Lx N A) as Nw.
    pose proof (k_w _ _ _ K _ _ _ Lx N A) as E1. rewrite <- E1 in B. rewrite <- E in C |- *. exact (keep2 (S f) h p w c _ _ Np Nw C B).
  - intros t rt tb m d reps Lx N Hc Hp Hm. pose proof (own_p _ _ _ _ _ _ HD HO Lx N Hp) as Np. pose proof (k_p _ _ _ K _ _ _ Lx N Hp) as E.
    destruct (d_live _ HD _ _ Lx) as (w & A & B & C). rewrite Hp in C. destruct C as (k & C & _). pose proof (own_w _ _ _ _ _ _ HD HO Lx N A) as Nw.
    pose proof (k_w _ _ _ K _ _ _ Lx N A) as E1. pose proof (k_m _ _ _ K _ _ _ _ _ _ Lx N Hc Hp Hm) as E2.
    pose proof (own_m _ _ _ _ _ _ _ _ _ HD HO Lx N Hc Hp Hm) as Nm. rewrite <- E1 in B. rewrite <- E in C. rewrite <- E2 in Hm |- *. exact (keep3 f h m tb w c _ _ _ Nm Np Nw Hm C B).
Qed.
Lemma go_D s o r r' h dk : D s -> live s o r -> may_go s o -> kept s h o -> o_of r' = o_of r -> o_cls r' = o_cls r -> (forall w, o_data r' = Some w -> o_data r = Some w) ->
  o_gone r' = true \/ o_data r' = None ->
  D {| mem := h; next_block := next_block s; objs := upd (objs s) o (Some r'); next_obj := next_obj s; loops := loops s; disk := dk |}.
Proof.
  intros HD L G K E1 E0 E2 E3. apply dropped_D with s o r r'; auto. destruct K. constructor; simpl; auto.
Qed.
