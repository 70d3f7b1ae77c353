(** For C95, continued: every operation of any program. *)
From Verif Require Import RbLife RbLifeSpec RbLifeProofs RbLifeProofs5 RbLifeProofs6 RbLifeProofs7 RbLifeProofs8 RbLifeProofs9.
From Coq Require Import Arith Bool List Lia.
Import ListNotations.
Local Open Scope nat_scope.

Lemma G_loops s l : G None s -> G None (set_loops s l).
Proof. intros H. destruct H. constructor; auto. Qed.
Lemma R_same s s' : mem s' = mem s -> disk s' = disk s -> R s s'.
Proof. intros A B. split; [rewrite B; auto|]. intros. exists op, pe. rewrite A. auto. Qed.
Lemma good2_loops s l x : good2 (set_loops s l) x -> good2 s x.
Proof. apply good2_trans; [auto|apply R_same; auto]. Qed.
Lemma good2_set_loops s l : G None s -> good2 s (Returns (set_loops s l)).
Proof. intros H. split; [apply G_loops; auto|apply R_same; auto]. Qed.
Lemma with_db_cases s b kd k : with_db s b kd k = Undefined \/ exists d pa op pe, mem s d = Some {| parent := pa; what := KDb op pe |} /\ with_db s b kd k = k d op pe.
Proof.
  unfold with_db.
  assert (X : forall d, match mem s d with Some {| what := KDb op pe |} => k d op pe | _ => Undefined end = Undefined \/
     exists d0 pa op pe, mem s d0 = Some {| parent := pa; what := KDb op pe |} /\ match mem s d with Some {| what := KDb op pe |} => k d op pe | _ => Undefined end = k d0 op pe).
  { intros d. destruct (mem s d) as [[pa kk]|] eqn:E; [|auto]. destruct kk; auto. right. exists d, pa, is_open, pending. auto. }
  destruct kd; auto. destruct (mem s query) as [[pa kk]|]; auto. destruct kk; auto.
Qed.
Lemma good2_with_db s s0 b kd k : (forall d pa op pe, mem s0 d = Some {| parent := pa; what := KDb op pe |} -> good2 s (k d op pe)) -> good2 s (with_db s0 b kd k).
Proof. intros H. destruct (with_db_cases s0 b kd k) as [->|(d & pa & op & pe & E & ->)]; [exact I|eauto]. Qed.
Lemma good2_deref s s0 p k : (forall b pa kd, p = Some b -> mem s0 b = Some {| parent := pa; what := kd |} -> good2 s (k b kd)) -> good2 s (deref s0 p k).
Proof. intros H. unfold deref. destruct p as [b|]; [|exact I]. destruct (mem s0 b) as [[pa kd]|] eqn:E; [|exact I]. eapply H; eauto. Qed.
Lemma good2_access s o k : G None s -> (forall r w, live s o r -> o_data r = Some w -> good2 s (k r w (o_of r))) -> good2 s (access s o k).
Proof.
  intros HG H. unfold access. destruct (objs s o) as [r|] eqn:Eo; [|apply good2_refl; auto]. destruct (o_gone r) eqn:Eg; [apply good2_refl; auto|].
  destruct (o_data r) as [w|] eqn:Ew; [|apply good2_refl; auto]. assert (L : live s o r) by (split; [auto|split; [auto|congruence]]).
  destruct (g_live _ _ HG _ _ L) as (w' & A & B). rewrite Ew in A. injection A as <-. rewrite B. apply H; auto.
Qed.

Lemma visit_G s more : G None s -> good2 s (visit s more).
Proof.
  intros HG. unfold visit. destruct (loops s) as [|[o p] ls]; [apply good2_refl; auto|]. destruct p as [b|]; [|apply good2_set_loops; auto].
  apply good2_deref. intros b' pa kd Eb Em. injection Eb as <-. destruct kd; try exact I.
  - destruct more; [|apply good2_set_loops; auto]. apply good2_with_db. intros d pa' op pe E. apply wrap_fresh2; auto; try discriminate. simpl. contradiction.
  - destruct more; [|apply good2_set_loops; auto]. apply good2_with_db. intros d pa' op pe E. apply wrap_thread2; auto.
  - destruct rest as [|m rest]; [apply good2_set_loops; auto|]. destruct (in_use (mem s) owner); [|exact I].
    destruct (g_elem _ _ HG _ _ _ m Em) as (A & B); [left; auto|]. apply wrap_msg2; auto.
Qed.
Lemma R_set_what s b pa k0 k : mem s b = Some {| parent := pa; what := k0 |} ->
  (forall op pe, k0 = KDb op pe -> exists op' pe', k = KDb op' pe' /\ incl pe pe') -> R s (set_what s b k).
Proof.
  intros Hb H. split; [unfold set_what; rewrite Hb; auto|]. intros x r p pa0 op pe _ _ _ _ E. unfold set_what. rewrite Hb. simpl. unfold upd.
  destruct (Nat.eqb_spec p b) as [->|N]; [|exists op, pe; auto]. rewrite Hb in E. injection E as -> ->. destruct (H _ _ eq_refl) as (op' & pe' & -> & I). exists op', pe'. auto.
Qed.
Lemma set_what_objs s b k : objs (set_what s b k) = objs s.
Proof. apply set_what_frame. Qed.
Lemma continue_G s more : G None s -> good2 s (continue s more).
Proof.
  intros HG. unfold continue. destruct (loops s) as [|[o [b|]] ls]; try (apply good2_refl; auto).
  apply good2_deref. intros b' pa kd Eb Em. injection Eb as <-. destruct kd; try (apply visit_G; auto). destruct rest as [|m rest]; [apply visit_G; auto|].
  destruct (in_use (mem s) owner); [|exact I]. eapply good2_trans; [apply set_what_objs| |apply visit_G].
  - eapply R_set_what; eauto. discriminate.
  - eapply G_set_what; eauto. repeat split; simpl; try tauto. intros x; simpl; auto.
Qed.
Lemma collect_G ms : forall s owner, G None s -> (forall m, In m ms -> m < next_block s /\ forall pm km, mem s m = Some {| parent := pm; what := km |} -> is_msg km) ->
  good2 s (collect_list s owner ms).
Proof.
  induction ms as [|m ms IH]; intros s owner HG H; simpl; [split; [auto|apply R_refl]|].
  destruct (in_use (mem s) owner); [|exact I]. destruct (mem s m) as [[pm km]|] eqn:Em; [|exact I]. simpl.
  destruct (H m ltac:(left; auto)) as (_ & Hm). specialize (Hm _ _ Em).
  destruct pm as [q|]; [|destruct (g_root _ _ HG _ _ Em) as (p & -> & _); contradiction].
  apply good2_with_db. intros d pa op pe _. apply good2_trans with (free s m); [auto| |apply IH].
  - eapply R_free; eauto. destruct km; auto.
  - eapply G_free; eauto. intros x r L _ Hc E. destruct (g_of _ _ HG _ _ _ _ _ (proj1 L) E Em) as (_ & F). destruct km; simpl in *; tauto.
  - intros m' Hm'. destruct (H m' ltac:(right; auto)) as (A & B). split; [exact A|]. intros pm' km' E. apply free_some in E. destruct E as (E & _). eauto.
Qed.
Lemma G_disk ex s dk : G ex s -> G ex {| mem := mem s; next_block := next_block s; objs := objs s; next_obj := next_obj s; loops := loops s; disk := dk |}.
Proof. intros H. destruct H. constructor; auto. Qed.
Lemma alike_db op pe op' pe' : alike (KDb op pe) (KDb op' pe').
Proof. repeat split; simpl; try tauto. intros x; simpl; auto. Qed.
Lemma close_G s d : G None s -> G None (close s d).
Proof.
  intros HG. unfold close. destruct (mem s d) as [[pa k]|] eqn:E; [|auto]. destruct k; auto. apply G_disk. eapply G_set_what; eauto. apply alike_db.
Qed.
Lemma close_disk s d c : In c (disk s) -> In c (disk (close s d)).
Proof.
  intros H. unfold close. destruct (mem s d) as [[pa k]|] eqn:E; [|auto]. destruct k; auto. simpl. apply in_or_app. right. unfold set_what. rewrite E. auto.
Qed.
Lemma close_other s d b : b <> d -> mem (close s d) b = mem s b.
Proof. intros N. unfold close. destruct (mem s d) as [[pa k]|] eqn:E; [|auto]. destruct k; auto. simpl. unfold set_what. rewrite E. simpl. apply upd_other; auto. Qed.
Lemma close_db s d pa op pe : mem s d = Some {| parent := pa; what := KDb op pe |} ->
  mem (close s d) d = Some {| parent := pa; what := KDb false [] |} /\ disk (close s d) = pe ++ disk s.
Proof. intros E. unfold close. rewrite E. simpl. unfold set_what. rewrite E. simpl. rewrite upd_same. auto. Qed.
Lemma close_R s d : R s (close s d).
Proof.
  split; [intros c; apply close_disk|]. intros x r p pa op pe _ _ _ _ E. destruct (Nat.eq_dec p d) as [->|N].
  - destruct (close_db _ _ _ _ _ E) as (A & B). exists false, []. split; [auto|]. intros c H. right. rewrite B. apply in_or_app. auto.
  - exists op, pe. rewrite close_other by auto. auto.
Qed.
Lemma close_parent s d b ch : mem s b = Some ch -> exists k, mem (close s d) b = Some {| parent := parent ch; what := k |}.
Proof.
  intros E. destruct (Nat.eq_dec b d) as [->|N]; [|exists (what ch); rewrite close_other by auto; rewrite E; destruct ch; auto].
  unfold close. rewrite E. destruct ch as [pa k]. simpl. destruct k; eauto. simpl. unfold set_what. rewrite E. simpl. rewrite upd_same. eauto.
Qed.
Lemma G_weaken s o : G None s -> G (Some o) s.
Proof. intros H. pose proof (g_db _ _ H) as X. destruct H. constructor; auto. intros x r L _ Hc. apply (X x r L); [discriminate|auto]. Qed.
(** Other databases when something goes. *)
Lemma R_gone s s1 s' o d w : G None s -> (exists r, live s o r /\ o_data r = Some w) -> objs s1 = objs s ->
  (forall c, In c (disk s) -> In c (disk s1)) ->
  (forall x r p pa op pe, live s x r -> x <> o -> o_cls r = Database -> o_of r = Some p -> mem s p = Some {| parent := pa; what := KDb op pe |} -> mem s1 p = mem s p) ->
  (forall b k, mem s b = Some {| parent := None; what := k |} -> mem s1 b = mem s b) ->
  mem s' = mem (free s1 w) -> objs s' = upd (objs s) o (Some d) -> disk s' = disk s1 -> (o_gone d = true \/ o_data d = None) -> R s s'.
Proof.
  intros HG (r & L & W) HO HDk HP HR HM HO' HDk' Hd. split; [rewrite HDk'; auto|]. intros x rx p pa op pe Lx Lx' Hc Hp E.
  assert (N : x <> o).
  { intros ->. destruct Lx' as (A & B & C). rewrite HO', upd_same in A. injection A as <-. destruct Hd; congruence. }
  exists op, pe. split; [|auto]. rewrite HM.
  destruct (g_db _ _ HG _ _ Lx ltac:(discriminate) Hc) as (p' & op' & pe' & A & B). assert (p' = p) by congruence. subst p'. assert (pa = o_data rx) by congruence. subst pa.
  destruct (g_live _ _ HG _ _ Lx) as (w0 & C & F). rewrite C in *.
  assert (Nw : w0 <> w).
  { intros ->. apply N. apply (g_uniqw _ _ HG _ _ _ _ _ (proj1 Lx) (proj1 L) C W). }
  destruct (g_live _ _ HG _ _ L) as (w1 & C1 & F1). assert (w1 = w) by congruence. subst w1.
  apply free_keep1 with (k1 := KWrap (o_of rx)); auto.
  - intros ->. congruence.
  - rewrite <- E. eauto.
  - rewrite <- F. eauto.
Qed.
Lemma destroy_G s o : G None s -> good2 s (step s (Destroy o)).
Proof.
  intros HG. apply good2_access; [auto|]. intros r w L W. set (d := {| o_cls := o_cls r; o_data := None; o_gone := o_gone r; o_of := o_of r; o_parent := o_parent r; o_db := o_db r; o_thread := o_thread r |}).
  destruct (g_live _ _ HG _ _ L) as (w' & W' & Mw). assert (w' = w) by congruence. subst w'.
  destruct (o_of r) as [b|] eqn:Eo.
  2:{ split.
      - apply (G_drop None s o r d w (disk s)); auto; simpl; discriminate.
      - apply (R_gone s s _ o d w); eauto; simpl; auto. }
  unfold in_use. destruct (mem s b) as [[pb k]|] eqn:Eb; [|exact I].
  destruct (g_of _ _ HG _ _ _ _ _ (proj1 L) Eo Eb) as (Npb & Hk). destruct pb as [q|]; [|congruence].
  set (s1 := match o_cls r with Database => close s b | _ => s end).
  assert (G1 : G None s1) by (unfold s1; destruct (o_cls r); auto; apply close_G; auto).
  assert (O1 : objs s1 = objs s) by (unfold s1; destruct (o_cls r); auto; apply close_frame).
  assert (P1 : exists k1, mem s1 b = Some {| parent := Some q; what := k1 |}).
  { unfold s1. destruct (o_cls r); eauto. apply (close_parent s b b _ Eb). }
  assert (D1 : forall c, In c (disk s) -> In c (disk s1)) by (unfold s1; intros c Hc; destruct (o_cls r); auto; apply close_disk; auto).
  assert (M1 : forall b', b' <> b -> mem s1 b' = mem s b') by (intros b' N; unfold s1; destruct (o_cls r); auto; apply close_other; auto).
  assert (NB : forall x rx, live s x rx -> x <> o -> o_cls rx = Database -> o_of rx <> Some b).
  { intros x rx Lx N Hc E. destruct (g_db _ _ HG _ _ Lx ltac:(discriminate) Hc) as (p' & op & pe & A & B). assert (p' = b) by congruence. subst p'.
    assert (Hc' : o_cls r = Database) by (apply Hk; rewrite Eb in B; injection B as _ ->; exact I).
    destruct (g_db _ _ HG _ _ L ltac:(discriminate) Hc') as (p' & op' & pe' & A' & B'). assert (p' = b) by congruence. subst p'.
    apply N. apply (g_uniqw _ _ HG _ _ _ _ q (proj1 Lx) (proj1 L)); congruence. }
  destruct P1 as (k1 & P1).
  assert (L1 : live s1 o r) by (unfold live; rewrite O1; auto).
  split.
  - apply (G_drop (Some o) (free s1 b) o r d w (disk s1)); auto; try (simpl; congruence).
    eapply G_free; [apply G_weaken; auto|eauto|]. intros x rx Lx N Hc. apply (NB x); [unfold live in *; simpl in Lx; rewrite O1 in Lx; auto|congruence|auto].
  - apply (R_gone s (free s1 b) _ o d w); eauto; simpl; auto.
    + intros x rx p pa op pe Lx N Hc Hp E.
      destruct (g_db _ _ HG _ _ Lx ltac:(discriminate) Hc) as (p' & op' & pe' & A & B). assert (p' = p) by congruence. subst p'. assert (pa = o_data rx) by congruence. subst pa.
      destruct (g_live _ _ HG _ _ Lx) as (w0 & C & F). rewrite C in *. assert (Np : p <> b) by (intros ->; eapply NB; eauto). assert (Nw : w0 <> b) by (intros ->; congruence).
      rewrite E. apply (free_keep1 s1 p w0 b _ (KWrap (o_of rx))); auto; rewrite M1; auto.
    + intros b' k' E. assert (N : b' <> b) by (intros ->; congruence). rewrite E. apply (free_keep0 s1); auto. rewrite M1; auto.
    + rewrite O1. auto.
Qed.
Lemma collect_never s o : G None s -> step s (Collect o) <> Undefined /\ good2 s (step s (Collect o)).
Proof.
  intros HG. simpl. destruct (objs s o) as [r|] eqn:Eo; [|split; [discriminate|apply good2_refl; auto]].
  destruct (o_gone r || existsb (fun l => fst l =? o) (loops s)) eqn:Eg; [split; [discriminate|apply good2_refl; auto]|]. apply orb_false_iff in Eg. destruct Eg as (Eg & _).
  set (d := {| o_cls := o_cls r; o_data := o_data r; o_gone := true; o_of := o_of r; o_parent := o_parent r; o_db := o_db r; o_thread := o_thread r |}).
  destruct (o_data r) as [w|] eqn:Ew.
  - assert (L : live s o r) by (split; [auto|split; [auto|congruence]]). destruct (g_live _ _ HG _ _ L) as (w' & A & B). assert (w' = w) by congruence. subst w'.
    unfold in_use. rewrite B. split; [discriminate|]. split.
    + apply (G_drop None s o r d w (disk s)); auto. unfold d; simpl. congruence.
    + apply (R_gone s s _ o d w); eauto; simpl; auto.
  - split; [discriminate|].
    assert (OC : forall x rx, objs (set_obj s o d) x = Some rx -> (x = o /\ rx = d) \/ (x <> o /\ objs s x = Some rx)).
    { intros x rx. simpl. unfold upd. destruct (Nat.eqb_spec x o); intros E; [left; split; congruence|right; auto]. }
    assert (LC : forall x rx, live (set_obj s o d) x rx -> live s x rx).
    { intros x rx (A & B & C). apply OC in A. destruct A as [(-> & ->)|(N & A)]; [discriminate|]. split; auto. }
    assert (LC' : forall x rx, live s x rx -> live (set_obj s o d) x rx).
    { intros x rx (A & B & C). split; [|auto]. simpl. rewrite upd_other; auto. intros ->. congruence. }
    split.
    + constructor.
      * intros x rx H. apply OC in H. destruct H as [(-> & ->)|(N & H)]; [apply (g_bound _ _ HG _ _ Eo)|apply (g_bound _ _ HG _ _ H)].
      * intros x rx H. apply OC in H. destruct H as [(-> & ->)|(N & H)]; [split; [discriminate|apply (g_nb _ _ HG _ _ Eo)]|apply (g_nb _ _ HG _ _ H)].
      * intros x rx H. apply (g_live _ _ HG _ _ (LC _ _ H)).
      * intros x y r1 r2 w Hx Hy E1 E2. apply OC in Hx. apply OC in Hy. destruct Hx as [(-> & ->)|(Nx & Hx)], Hy as [(-> & ->)|(Ny & Hy)]; auto; try (unfold d in *; simpl in *; congruence).
        apply (g_uniqw _ _ HG _ _ _ _ _ Hx Hy E1 E2).
      * apply (g_mem _ _ HG).
      * intros b k E. destruct (g_root _ _ HG _ _ E) as (p & A & B). exists p. split; [auto|]. destruct B as [B|(x & rx & B & C)]; [auto|right; exists x, rx; auto].
      * apply (g_par _ _ HG).
      * apply (g_nul _ _ HG).
      * intros x rx p pa k Hx Hp E. apply OC in Hx. destruct Hx as [(-> & ->)|(N & Hx)]; [apply (g_of _ _ HG _ _ _ _ _ Eo Hp E)|apply (g_of _ _ HG _ _ _ _ _ Hx Hp E)].
      * apply (g_elem _ _ HG).
      * intros x rx H _ Hc. apply (g_db _ _ HG _ _ (LC _ _ H)); [discriminate|auto].
    + apply R_same; auto.
Qed.
Lemma step_G s e : G None s -> good2 s (step s e).
Proof.
  intros HG. destruct e.
  - apply wrap_new2; auto.
  - apply good2_access; [auto|]. intros r w L W. destruct (makes (o_cls r) m) as [c|] eqn:Em; [|apply good2_refl; auto].
    apply good2_deref. intros b pa kd _ _. apply good2_with_db. intros d pa' op pe _.
    apply wrap_fresh2; auto; try (destruct m; simpl; tauto). destruct (o_cls r), m; simpl in Em; congruence.
  - apply good2_access; [auto|]. intros r w L W. destruct (o_cls r); try (apply good2_refl; auto). apply good2_deref. intros b pa kd _ Eb. destruct kd; try exact I.
    assert (X : forall l, incl l (all ++ top0) -> good2 s (wrap (alloc s (Some b) (KList b l)) Messages (Some (next_block s)) (Some o))).
    { intros l Hl. apply wrap_fresh2; auto; try discriminate. intros m Hm. apply (g_elem _ _ HG _ _ _ m Eb). apply Hl. auto. }
    destruct (if top then top0 else all) as [|m l] eqn:El; [apply good2_refl; auto|]. apply X. rewrite <- El. destruct top; intros x Hx; apply in_or_app; auto.
  - apply good2_access; [auto|]. intros r w L W. destruct (o_cls r); try (apply good2_refl; auto). apply good2_deref. intros b pa kd _ Eb. destruct kd; try exact I.
    destruct replies as [|m l]; [apply wrap_null2; auto|]. apply wrap_fresh2; auto; try discriminate. intros m' Hm. apply (g_elem _ _ HG _ _ _ m' Eb). auto.
  - apply good2_access; [auto|]. intros r w L W. destruct (o_cls r); try (apply good2_refl; auto); apply good2_loops with ((o, o_of r) :: loops s); apply visit_G; apply G_loops; auto.
  - apply continue_G; auto.
  - apply good2_set_loops; auto.
  - apply good2_access; [auto|]. intros r w L W. destruct (o_cls r); try (apply good2_refl; auto). apply good2_deref. intros b pa kd _ Eb. destruct kd; try exact I.
    + apply good2_with_db. intros. split; [auto|apply R_refl].
    + eapply good2_trans; [apply set_what_objs| |apply collect_G].
      * eapply R_set_what; eauto. discriminate.
      * eapply G_set_what; eauto. repeat split; simpl; try tauto. intros x; simpl; contradiction.
      * intros m Hm. destruct (g_elem _ _ HG _ _ _ m Eb) as (A & B); [auto|]. destruct (set_what_frame s b (KList owner [])) as (F & _). rewrite F. split; [auto|].
        intros pm km E. eapply set_what_mem in E; eauto. destruct E as [(-> & E)|(_ & E)]; [|eauto]. exact (match B _ _ Eb with end).
  - apply good2_access; [auto|]. intros r w L W. destruct (o_cls r); try (apply good2_refl; auto);
      (apply good2_deref; intros b pa kd _ _; destruct reads_db; [apply good2_with_db; intros|]; (split; [auto|apply R_refl])).
  - apply good2_access; [auto|]. intros r w L W.
    assert (X : good2 s (deref s (o_of r) (fun b kd => with_db s b kd (fun d op pe => if op then Returns (set_what s d (KDb op (change :: pe))) else Raises s)))).
    { apply good2_deref. intros b pa kd _ _. apply good2_with_db. intros d pa' op pe E. destruct op; [|apply good2_refl; auto].
      split; [eapply G_set_what; eauto; apply alike_db|eapply R_set_what; eauto]. intros op pe0 X. injection X as <- <-. exists true, (change :: pe). split; [auto|]. intros y; simpl; auto. }
    destruct (o_cls r); try (apply good2_refl; auto); exact X.
  - apply good2_access; [auto|]. intros r w L W. destruct (o_cls r); try (apply good2_refl; auto). apply good2_deref. intros b pa kd _ _. split; [apply close_G; auto|apply close_R].
  - apply destroy_G; auto.
  - apply collect_never; auto.
Qed.
Lemma step_G' s e s' : G None s -> result_state (step s e) = Some s' -> G None s' /\ R s s'.
Proof. intros HG E. pose proof (step_G s e HG) as H. destruct (step s e); simpl in E, H; try discriminate; injection E as <-; auto. Qed.
Lemma run_G es : forall s s', G None s -> run s es = Some s' -> G None s'.
Proof.
  induction es as [|e es IH]; intros s s' HG H; [injection H as <-; auto|]. rewrite run_step in H.
  destruct (result_state (step s e)) eqn:E; [|discriminate]. apply (IH s0 s'); auto. eapply step_G'; eauto.
Qed.
(** Without objects only the wrappers of "alloc" are left. *)
Lemma no_leak s : G None s -> (forall x r, ~ live s x r) -> forall b ch, mem s b = Some ch -> ch = {| parent := None; what := KWrap None |}.
Proof.
  intros HG H.
  assert (RT : forall b k, mem s b = Some {| parent := None; what := k |} -> k = KWrap None).
  { intros b k E. destruct (g_root _ _ HG _ _ E) as (p & -> & [->|(x & r & L & _)]); [auto|destruct (H _ _ L)]. }
  intros b [[p|] k] E; [|rewrite (RT _ _ E); auto]. exfalso. pose proof (g_nul _ _ HG _ _ _ E) as N. destruct (g_par _ _ HG _ _ _ E) as (_ & pa & kp & A & [->|(w & kw & -> & B)]).
  - rewrite (RT _ _ A) in A. auto.
  - rewrite (RT _ _ B) in B. apply (g_nul _ _ HG _ _ _ A B).
Qed.
