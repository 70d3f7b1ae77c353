(** For C95, continued: every operation of a tidy program. *)
From Verif Require Import RbLife RbLifeSpec RbLifeProofs RbLifeProofs2 RbLifeProofs3 RbLifeProofs4 RbLifeProofs5.
From Coq Require Import Arith Bool List Lia.
Import ListNotations.
Local Open Scope nat_scope.

Lemma set_db_D s d pa op pe op' pe' : D s -> mem s d = Some {| parent := pa; what := KDb op pe |} -> D (set_what s d (KDb op' pe')).
Proof.
  intros HD E. eapply set_what_D; eauto; simpl; auto.
Qed.
Lemma set_disk_D s dk : D s -> D {| mem := mem s; next_block := next_block s; objs := objs s; next_obj := next_obj s; loops := loops s; disk := dk |}.
Proof. intros HD. apply same_D with s; auto; simpl; intros; eauto; [reflexivity|]. apply (d_loops _ HD); auto. Qed.
Lemma close_D s d pa op pe : D s -> mem s d = Some {| parent := pa; what := KDb op pe |} -> D (close s d).
Proof. intros HD E. unfold close. rewrite E. apply set_disk_D. eapply set_db_D; eauto. Qed.
Lemma set_what_frame s b k : next_block (set_what s b k) = next_block s /\ objs (set_what s b k) = objs s /\ next_obj (set_what s b k) = next_obj s /\ loops (set_what s b k) = loops s.
Proof. unfold set_what. destruct (mem s b); auto. Qed.
Lemma close_frame s d : next_block (close s d) = next_block s /\ objs (close s d) = objs s /\ next_obj (close s d) = next_obj s /\ loops (close s d) = loops s.
Proof.
  unfold close. destruct (mem s d) as [[pa k]|]; auto. destruct k; simpl; auto. apply set_what_frame.
Qed.
Lemma step_new s : D s -> good (step s New).
Proof.
  intros HD. simpl. unfold wrap, in_use. simpl. rewrite upd_same. simpl.
  set (nb := next_block s).
  match goal with |- D ?S => set (s' := S) end.
  set (rn := {| o_cls := Database; o_data := Some (S (S nb)); o_gone := false; o_of := Some (S nb); o_parent := None; o_db := next_obj s; o_thread := None |}).
  assert (MO : forall b, b <> nb -> b <> S nb -> b <> S (S nb) -> mem s' b = mem s b).
  { intros b N1 N2 N3. unfold s'. simpl. rewrite !upd_other by auto. auto. }
  assert (M0 : mem s' nb = Some {| parent := None; what := KWrap None |}) by (unfold s'; simpl; rewrite !upd_other by lia; apply upd_same).
  assert (M1 : mem s' (S nb) = Some {| parent := Some (S (S nb)); what := KDb true [] |}) by (unfold s'; simpl; rewrite upd_other by lia; apply upd_same).
  assert (M2 : mem s' (S (S nb)) = Some {| parent := None; what := KWrap (Some (S nb)) |}) by (unfold s'; simpl; apply upd_same).
  assert (AD : added s s' (next_obj s) rn (S (S nb)) (KDb true [])).
  { constructor; simpl; auto; try (unfold nb; lia).
    - intros b Hb _. change (mem s' b = mem s b). apply MO; unfold nb; lia.
    - split; [unfold nb; lia|]. split; [exact M1|]. unfold nb.
      split; [intros x rx Hx E|intros x rx (Hx & _) E]; destruct (d_bound _ HD _ _ Hx) as (_ & A & B); [apply A in E|apply B in E]; lia.
    - intros t; discriminate.
    - intros b ch tb Hb E Hp. change (mem s' b = Some ch) in E. fold nb in Hb.
      destruct (Nat.eq_dec b nb) as [->|N0]; [rewrite M0 in E; injection E as <-; discriminate|].
      destruct (Nat.eq_dec b (S nb)) as [->|N1]; [rewrite M1 in E; injection E as <-; injection Hp as <-; unfold nb; lia|].
      destruct (Nat.eq_dec b (S (S nb))) as [->|N2]; [rewrite M2 in E; injection E as <-; discriminate|].
      rewrite MO, (d_mem _ HD) in E by (unfold nb in *; lia). discriminate.
    - intros b Hb. change (mem s' b = None). fold nb in Hb. rewrite MO, (d_mem _ HD) by (unfold nb in *; lia). auto.
    - intros b ch tb E Hp. change (mem s' b = Some ch) in E. fold nb.
      destruct (Nat.eq_dec b nb) as [->|N0]; [rewrite M0 in E; injection E as <-; discriminate|].
      destruct (Nat.eq_dec b (S nb)) as [->|N1]; [rewrite M1 in E; injection E as <-; injection Hp as <-; lia|].
      destruct (Nat.eq_dec b (S (S nb))) as [->|N2]; [rewrite M2 in E; injection E as <-; discriminate|].
      rewrite MO in E by auto. pose proof (d_par _ HD _ _ _ E Hp). unfold nb. lia. }
  eapply added_D; eauto.
  - reflexivity.
  - intros tb m d reps Hc. discriminate.
Qed.
Lemma wrap_null_D s o r : D s -> live s o r -> o_cls r <> Query -> good (wrap s Messages None (Some o)).
Proof.
  intros HD (L & Lg & Ld) NQ. unfold wrap. simpl. rewrite L.
  match goal with |- D ?S => set (s' := S) end.
  set (rn := {| o_cls := Messages; o_data := Some (next_block s); o_gone := false; o_of := None; o_parent := Some o; o_db := o_db r;
                o_thread := match o_cls r with Thread => Some o | _ => o_thread r end |}).
  assert (AD : added s s' (next_obj s) rn (next_block s) (KWrap None)).
  { constructor; simpl; auto.
    - intros b Hb _. apply upd_other. lia.
    - apply upd_same.
    - split; [auto|]. exists o, r. auto.
    - left. exists o, r. split; [split; auto|auto].
    - intros t Ht. destruct (o_cls r) eqn:Ec; try solve [apply (d_thread _ HD o r); [split; auto|assumption]]. injection Ht as <-. exists r. split; [split; auto|auto].
    - intros b ch tb Hb E Hp. unfold upd in E. destruct (Nat.eqb_spec b (next_block s)); [injection E as <-; discriminate|].
      rewrite (d_mem _ HD) in E by lia. discriminate.
    - intros b Hb. rewrite upd_other by lia. apply (d_mem _ HD). lia.
    - intros b ch tb E Hp. unfold upd in E. destruct (Nat.eqb_spec b (next_block s)); [injection E as <-; discriminate|].
      pose proof (d_par _ HD _ _ _ E Hp). lia. }
  eapply added_D; eauto; simpl; auto. intros tb m d reps Hc. discriminate.
Qed.
Lemma fits_not_list s o r k : fits s o r k -> o_cls r <> Messages -> match k with KList _ _ | KWrap _ => False | _ => True end.
Proof. unfold fits. destruct (o_cls r) eqn:E, k; auto; intros; congruence. Qed.
Ltac nomsg E := rewrite E; discriminate.

Lemma step_D s e : D s -> tidy s e -> good (step s e).
Proof.
  intros HD HT. destruct e as [|o m|o top|o|o more|more| |o|o rd|o c|o|o|o].
  - apply step_new; auto.
  - (* Make *) simpl. apply access_D; [auto|]. intros r w L Hw. destruct (makes (o_cls r) m) as [c|] eqn:Em; [|exact HD].
    assert (NM : o_cls r <> Messages) by (intros E; rewrite E in Em; destruct m; discriminate).
    apply deref_D with o; auto. intros b wb kd Hb Hm Hf. eapply with_db_D; eauto; [eapply fits_not_list; eauto|].
    intros d op pe pa Hd Hdb. apply wrap_fresh_D with r; auto; [destruct (o_cls r), m; simpl in Em; congruence|].
    intros s' rn AD HE Hof. pose proof (heir_dbof _ _ _ _ _ _ _ _ _ HD AD HE Hdb) as DB.
    destruct HE as (E1 & E2 & E3 & E4).
    unfold fits. rewrite E1. destruct (o_cls r) eqn:Ec, m; simpl in Em; try discriminate; injection Em as <-; simpl; auto.
    { split; [auto|]. intros m0 []. }
    exists o, r. split; [auto|]. split; [eapply ad_live; eauto|auto].
  - (* ThreadMessages *) simpl. apply access_D; [auto|]. intros r w L Hw. destruct (o_cls r) eqn:Ec; try exact HD.
    apply deref_D with o; auto; [nomsg Ec|]. intros b wb kd Hb Hm Hf. unfold fits in Hf. rewrite Ec in Hf. destruct kd; try contradiction.
    assert (X : forall l, (forall m0, In m0 l -> In m0 all \/ In m0 top0) -> good (match l with [] => Raises s | _ => wrap (alloc s (Some b) (KList b l)) Messages (Some (next_block s)) (Some o) end)).
    { intros l Hl. destruct l as [|m0 l]; [exact HD|]. apply wrap_fresh_D with r; auto; [discriminate|]. intros s' rn AD (E1 & E2 & E3 & E4) Hof.
      unfold fits. rewrite E1. rewrite Ec in E4. split.
      - exists o, r. split; [auto|]. split; [eapply ad_live; eauto|]. split; [left; auto|auto].
      - intros m1 H1. rewrite E4. eapply ad_member; eauto. apply Hf. apply Hl. auto. }
    destruct top; [specialize (X top0 ltac:(auto)); destruct top0; exact X|specialize (X all ltac:(auto)); destruct all; exact X].
  - (* Replies *) simpl. apply access_D; [auto|]. intros r w L Hw. destruct (o_cls r) eqn:Ec; try exact HD.
    apply deref_D with o; auto; [nomsg Ec|]. intros b wb kd Hb Hm Hf. unfold fits in Hf. rewrite Ec in Hf. destruct kd; try contradiction.
    destruct replies as [|m0 l]; [apply wrap_null_D with r; auto; nomsg Ec|]. apply wrap_fresh_D with r; auto; [discriminate|]. intros s' rn AD (E1 & E2 & E3 & E4) Hof.
    unfold fits. rewrite E1. rewrite Ec in E4. split.
    + exists o, r. split; [auto|]. split; [eapply ad_live; eauto|auto].
    + intros m1 H1. rewrite E4. eapply ad_member; eauto. apply Hf. auto.
  - (* Each *) simpl. apply access_D; [auto|]. intros r w L Hw.
    assert (X : o_cls r = Threads \/ o_cls r = Messages -> good (visit (set_loops s ((o, o_of r) :: loops s)) more)).
    { intros Hc. apply visit_D.
      - apply set_loops_D; auto. intros o0 p [E|E]; [injection E as <- <-; exists r; auto|apply (d_loops _ HD); auto].
      - simpl. intros o0 b r0 w0 rs m E1 L0 E2 m0 Hm0 x rx Hx. injection E1 as <- E1. apply HT with x; auto.
        unfold fetches. destruct L as (L & _). rewrite L, E1. unfold contents. rewrite E2. simpl. destruct m; [discriminate|]. injection Hm0 as <-. auto. }
    destruct (o_cls r); try exact HD; apply X; auto.
  - apply continue_D; auto.
  - (* Break *) simpl. apply set_loops_D; auto. intros o p H. apply (d_loops _ HD). destruct (loops s); [contradiction|right; auto].
  - (* Tags *) simpl. apply access_D; [auto|]. intros r w L Hw. destruct (o_cls r) eqn:Ec; try exact HD.
    destruct (HT r (proj1 L)) as (q & rq & T1 & T2 & T3).
    destruct (d_live _ HD _ _ L) as (w' & A & B & C). destruct (o_of r) as [p|] eqn:Ep; [|].
    + destruct C as (kd & C & F). simpl. rewrite C. simpl. pose proof F as F'. unfold fits in F. rewrite Ec in F. destruct kd; try contradiction.
      * refine (with_db_D s o r p w' (KMset db) _ HD L Ep C F' I _). intros. exact HD.
      * destruct F as ((y & ry & F1 & F2 & F3 & F4) & _). assert (y = q) by congruence. subst y. destruct F2 as (F2 & _). assert (ry = rq) by congruence. subst ry.
        destruct F3 as [[F3 _]|F3]; congruence.
    + destruct C as (_ & y & ry & C1 & C2 & C3). congruence.
  - (* Use *) simpl. apply access_D; [auto|]. intros r w L Hw.
    assert (X : o_cls r <> Messages -> good (deref s (o_of r) (fun b kd => if rd then with_db s b kd (fun _ _ _ => Returns s) else Returns s))).
    { intros NM. apply deref_D with o; auto. intros b wb kd Hb Hm Hf. destruct rd; [|exact HD]. eapply with_db_D; eauto; eapply fits_not_list; eauto. }
    destruct (o_cls r) eqn:Ec; try exact HD; apply X; discriminate.
  - (* Write *) simpl. apply access_D; [auto|]. intros r w L Hw.
    assert (X : o_cls r <> Messages -> good (deref s (o_of r) (fun b kd => with_db s b kd (fun d op pe => if op then Returns (set_what s d (KDb op (c :: pe))) else Raises s)))).
    { intros NM. apply deref_D with o; auto. intros b wb kd Hb Hm Hf. eapply with_db_D; eauto; [eapply fits_not_list; eauto|].
      intros d op pe pa Hd _. destruct op; [|exact HD]. eapply set_db_D; eauto. }
    destruct (o_cls r) eqn:Ec; try exact HD; apply X; discriminate.
  - (* Close *) simpl. apply access_D; [auto|]. intros r w L Hw. destruct (o_cls r) eqn:Ec; try exact HD.
    apply deref_D with o; auto; [nomsg Ec|]. intros b wb kd Hb Hm Hf. unfold fits in Hf. rewrite Ec in Hf. destruct kd; try contradiction.
    eapply close_D; eauto.
  - (* Destroy *) simpl. apply access_D; [auto|]. intros r w L Hw. simpl in HT.
    assert (OW : forall c, o_data r = Some c \/ o_of r = Some c -> own s o c) by (intros c H; exists r; auto).
    destruct (o_of r) as [b|] eqn:Ep.
    + destruct (d_live _ HD _ _ L) as (w' & A & B & C). rewrite Hw in A. injection A as <-. rewrite Ep in C. destruct C as (kd & C & F). unfold in_use. rewrite C.
      set (s0 := match o_cls r with Database => close s b | _ => s end).
      assert (HD0 : D s0 /\ next_block s0 = next_block s /\ objs s0 = objs s /\ next_obj s0 = next_obj s /\ loops s0 = loops s).
      { unfold s0. destruct (o_cls r) eqn:Ec; auto. unfold fits in F. rewrite Ec in F. destruct kd; try contradiction.
        split; [eapply close_D; eauto|]. apply close_frame. }
      destruct HD0 as (HD0 & E1 & E2 & E3 & E4).
      assert (L0 : live s0 o r) by (unfold live; rewrite E2; exact L).
      assert (HT0 : may_go s0 o) by (unfold may_go, live in *; rewrite E2, E4; exact HT).
      assert (OW0 : forall c, o_data r = Some c \/ o_of r = Some c -> own s0 o c) by (intros c H; exists r; auto).
      unfold set_obj, free, set_mem. simpl. eapply go_D; eauto; simpl; auto.
      * apply kept_free; auto. apply kept_free; auto. apply kept_refl.
      * discriminate.
    + unfold set_obj, free, set_mem. simpl. eapply go_D; eauto; simpl; auto.
      * apply kept_free; auto. apply kept_refl.
      * discriminate.
  - (* Collect *) simpl. destruct (objs s o) as [r|] eqn:Eo; [|exact HD]. destruct (o_gone r) eqn:Eg; [exact HD|]. simpl.
    destruct (existsb (fun l => fst l =? o) (loops s)); [exact HD|]. simpl in HT.
    destruct (o_data r) as [w|] eqn:Ew.
    + assert (L : live s o r) by (split; [auto|]; split; [auto|congruence]).
      destruct (d_live _ HD _ _ L) as (w' & A & B & _). rewrite Ew in A. injection A as <-. unfold in_use. rewrite B.
      unfold set_obj, free, set_mem. simpl. eapply go_D; eauto; simpl; auto.
      * apply kept_free; auto; [exists r; auto|]. apply kept_refl.
      * rewrite Ew. auto.
    + assert (NL : forall rx, objs s o = Some rx -> o_data rx = None) by (intros; congruence).
      apply same_D with s; auto; simpl; unfold upd.
      * intros x rx Hx. destruct (Nat.eqb_spec x o) as [->|N]; [|eauto]. eexists. split; [reflexivity|]. simpl. assert (rx = r) by congruence. subst rx. auto.
      * intros x rx Hx. destruct (Nat.eqb_spec x o) as [->|N]; [|eauto]. injection Hx as <-. exists r. simpl. auto.
      * intros x rx. unfold live, upd. simpl. unfold upd. destruct (Nat.eqb_spec x o) as [->|N]; [|reflexivity]. split; intros (A & B & C).
        -- injection A as <-. discriminate.
        -- rewrite Eo in A. injection A as <-. congruence.
      * apply (d_loops _ HD).
Qed.
