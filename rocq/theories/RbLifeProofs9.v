(** For C95, continued: every operation of any program. *)
From Verif Require Import RbLife RbLifeSpec RbLifeProofs RbLifeProofs4 RbLifeProofs5 RbLifeProofs6 RbLifeProofs7 RbLifeProofs8.
From Coq Require Import Arith Bool List Lia.
Import ListNotations.
Local Open Scope nat_scope.

Definition good2 (s : state) (x : result) : Prop := match x with Returns s' | Raises s' => G None s' /\ R s s' | Undefined => True end.
Lemma good2_refl s : G None s -> good2 s (Raises s). Proof. intros H. split; [auto|apply R_refl]. Qed.
Lemma R_trans s s1 s2 : objs s1 = objs s -> R s s1 -> R s1 s2 -> R s s2.
Proof.
  intros Ho (A1 & A2) (B1 & B2). split; [auto|]. intros x r p pa op pe L L2 Hc Hp E.
  assert (L1 : live s1 x r) by (unfold live; rewrite Ho; exact L).
  destruct (A2 _ _ _ _ _ _ L L1 Hc Hp E) as (op1 & pe1 & E1 & F1). destruct (B2 _ _ _ _ _ _ L1 L2 Hc Hp E1) as (op2 & pe2 & E2 & F2).
  exists op2, pe2. split; [auto|]. intros c Hcn. destruct (F1 _ Hcn) as [H|H]; auto.
Qed.
Lemma good2_trans s s1 x : objs s1 = objs s -> R s s1 -> good2 s1 x -> good2 s x.
Proof. intros Ho HR. destruct x; simpl; auto; intros (A & B); (split; [auto|eapply R_trans; eauto]). Qed.

Lemma wrap_fresh2 s c k o par : G None s -> ~ is_wrap k -> ~ is_db k -> c <> Database ->
  (forall m, In m (elems k) -> m < next_block s /\ forall pm km, mem s m = Some {| parent := pm; what := km |} -> is_msg km) ->
  good2 s (wrap (alloc s par k) c (Some (next_block s)) (Some o)).
Proof.
  intros HG Hk Hd Hc He. unfold wrap. simpl. unfold in_use. rewrite upd_same. simpl.
  match goal with |- G None ?S /\ _ => set (s' := S) end.
  match goal with s' := {| objs := upd _ _ (Some ?r) |} |- _ => set (rn := r) in * end.
  assert (Mo : forall b, b <> next_block s -> b <> S (next_block s) -> mem s' b = mem s b) by (intros b N1 N2; unfold s'; simpl; rewrite !upd_other by auto; auto).
  assert (Mp : mem s' (next_block s) = Some {| parent := Some (S (next_block s)); what := k |}) by (unfold s'; simpl; rewrite upd_other by lia; apply upd_same).
  assert (Mw : mem s' (S (next_block s)) = Some {| parent := None; what := KWrap (Some (next_block s)) |}) by (unfold s'; simpl; apply upd_same).
  apply plus_G with rn (S (next_block s)); auto. constructor; try reflexivity; auto; try (unfold s'; simpl; lia); try discriminate.
  - intros b Hb. left. apply Mo; lia.
  - intros b ch Hb N E. destruct (Nat.eq_dec b (next_block s)) as [->|N1].
    + rewrite Mp in E. injection E as <-. left. auto.
    + rewrite Mo, (g_mem _ _ HG) in E by lia. discriminate.
  - intros b Hb. unfold s' in Hb; simpl in Hb. rewrite Mo, (g_mem _ _ HG) by lia. auto.
  - intros p E. unfold rn in E; simpl in E. injection E as <-. split; [unfold s'; simpl; lia|]. exists k. split; [auto|]. unfold rn; simpl. tauto.
  - intros b pa k0 m Hb E Hm. destruct (Nat.eq_dec b (next_block s)) as [->|N1].
    + rewrite Mp in E. injection E as <- <-. destruct (He _ Hm) as (A & B). split; [unfold s'; simpl; lia|]. intros pm km. rewrite Mo by lia. apply B.
    + destruct (Nat.eq_dec b (S (next_block s))) as [->|N2].
      * rewrite Mw in E. injection E as <- <-. contradiction.
      * rewrite Mo, (g_mem _ _ HG) in E by lia. discriminate.
Qed.
Lemma wrap_new2 s : G None s -> good2 s (step s New).
Proof.
  intros HG. simpl. unfold wrap, in_use. simpl. rewrite upd_same. simpl. set (nb := next_block s).
  match goal with |- G None ?S /\ _ => set (s' := S) end.
  match goal with s' := {| objs := upd _ _ (Some ?r) |} |- _ => set (rn := r) in * end.
  assert (MO : forall b, b <> nb -> b <> S nb -> b <> S (S nb) -> mem s' b = mem s b).
  { intros b N1 N2 N3. unfold s'. simpl. rewrite !upd_other by auto. auto. }
  assert (M0 : mem s' nb = Some {| parent := None; what := KWrap None |}) by (unfold s'; simpl; rewrite !upd_other by lia; apply upd_same).
  assert (M1 : mem s' (S nb) = Some {| parent := Some (S (S nb)); what := KDb true [] |}) by (unfold s'; simpl; rewrite upd_other by lia; apply upd_same).
  assert (M2 : mem s' (S (S nb)) = Some {| parent := None; what := KWrap (Some (S nb)) |}) by (unfold s'; simpl; apply upd_same).
  apply plus_G with rn (S (S nb)); auto. constructor; try reflexivity; auto; try (unfold s'; simpl; lia); try discriminate.
  - intros b Hb. left. apply MO; unfold nb; lia.
  - intros b ch Hb N E. destruct (Nat.eq_dec b nb) as [->|N0]; [rewrite M0 in E; injection E as <-; auto|].
    destruct (Nat.eq_dec b (S nb)) as [->|N1]; [rewrite M1 in E; injection E as <-; left; simpl; auto|].
    rewrite MO, (g_mem _ _ HG) in E by (unfold nb in *; lia). discriminate.
  - intros b Hb. unfold s' in Hb; simpl in Hb. rewrite MO, (g_mem _ _ HG) by (unfold nb in *; lia). auto.
  - intros p E. unfold rn in E; simpl in E. injection E as <-. split; [unfold s'; simpl; lia|]. exists (KDb true []). split; [auto|]. simpl. tauto.
  - intros b pa k0 m Hb E Hm. destruct (Nat.eq_dec b nb) as [->|N0]; [rewrite M0 in E; injection E as <- <-; contradiction|].
    destruct (Nat.eq_dec b (S nb)) as [->|N1]; [rewrite M1 in E; injection E as <- <-; contradiction|].
    destruct (Nat.eq_dec b (S (S nb))) as [->|N2]; [rewrite M2 in E; injection E as <- <-; contradiction|].
    rewrite MO, (g_mem _ _ HG) in E by (unfold nb in *; lia). discriminate.
Qed.
Lemma wrap_null2 s o : G None s -> good2 s (wrap s Messages None (Some o)).
Proof.
  intros HG. unfold wrap. simpl.
  match goal with |- G None ?S /\ _ => set (s' := S) end.
  match goal with s' := {| objs := upd _ _ (Some ?r) |} |- _ => set (rn := r) in * end.
  assert (MO : forall b, b <> next_block s -> mem s' b = mem s b) by (intros b N; unfold s'; simpl; apply upd_other; auto).
  assert (M0 : mem s' (next_block s) = Some {| parent := None; what := KWrap None |}) by (unfold s'; simpl; apply upd_same).
  apply plus_G with rn (next_block s); auto. constructor; try reflexivity; auto; try (unfold s'; simpl; lia); try discriminate.
  - intros b Hb. left. apply MO; lia.
  - intros b ch Hb N E. rewrite MO, (g_mem _ _ HG) in E by lia. discriminate.
  - intros b Hb. unfold s' in Hb; simpl in Hb. rewrite MO, (g_mem _ _ HG) by lia. auto.
  - intros b pa k0 m Hb E Hm. destruct (Nat.eq_dec b (next_block s)) as [->|N0]; [rewrite M0 in E; injection E as <- <-; contradiction|].
    rewrite MO, (g_mem _ _ HG) in E by lia. discriminate.
Qed.
Lemma wrap_msg2 s o m : G None s -> m < next_block s -> (forall pm km, mem s m = Some {| parent := pm; what := km |} -> is_msg km) ->
  good2 s (wrap s Message (Some m) (Some o)).
Proof.
  intros HG Hm Hk. unfold wrap, in_use. destruct (mem s m) as [[pa k]|] eqn:Em; [|exact I]. simpl. specialize (Hk _ _ eq_refl).
  assert (Hpa : exists q, pa = Some q).
  { destruct pa as [q|]; [eauto|]. destruct (g_root _ _ HG _ _ Em) as (p & -> & _). contradiction. }
  destruct Hpa as (q & ->).
  match goal with |- G None ?S /\ _ => set (s' := S) end.
  match goal with s' := {| objs := upd _ _ (Some ?r) |} |- _ => set (rn := r) in * end.
  assert (MO : forall b, b <> next_block s -> b <> m -> mem s' b = mem s b) by (intros b N N'; unfold s'; simpl; rewrite !upd_other; auto).
  assert (Mm : mem s' m = Some {| parent := Some (next_block s); what := k |}) by (unfold s'; simpl; rewrite upd_other by lia; apply upd_same).
  assert (M0 : mem s' (next_block s) = Some {| parent := None; what := KWrap (Some m) |}) by (unfold s'; simpl; apply upd_same).
  apply plus_G with rn (next_block s); auto. constructor; try reflexivity; auto; try (unfold s'; simpl; lia); try discriminate.
  - intros b Hb. destruct (Nat.eq_dec b m) as [->|N]; [right; split; [auto|]; exists q, k; auto|left; apply MO; lia].
  - intros b ch Hb N E. rewrite MO, (g_mem _ _ HG) in E by lia. discriminate.
  - intros b Hb. unfold s' in Hb; simpl in Hb. rewrite MO, (g_mem _ _ HG) by lia. auto.
  - intros p E. unfold rn in E; simpl in E. injection E as <-. split; [unfold s'; simpl; lia|]. exists k. split; [auto|]. unfold rn; simpl. destruct k; simpl in *; try contradiction. split; [discriminate|contradiction].
  - intros b pa k0 m0 Hb E Hm0. destruct (Nat.eq_dec b (next_block s)) as [->|N0]; [rewrite M0 in E; injection E as <- <-; contradiction|].
    rewrite MO, (g_mem _ _ HG) in E by lia. discriminate.
Qed.
Lemma wrap_thread2 s o d par sh : G None s -> good2 s (wrap (new_thread s par d sh) Thread (Some (next_block s)) (Some o)).
Proof.
  intros HG. unfold wrap, in_use. simpl. rewrite Nat.eqb_refl. simpl.
  set (n := length (sh_replies sh)). set (t := next_block s).
  match goal with |- G None ?S /\ _ => set (s' := S) end.
  match goal with s' := {| objs := upd _ _ (Some ?r) |} |- _ => set (rn := r) in * end.
  set (k := KThread d (seq (t + 1) n) (blocks_of t n (sh_top sh))).
  assert (Mt : mem s' t = Some {| parent := Some (t + 1 + n); what := k |}).
  { unfold s'. simpl. rewrite upd_other by lia. apply upd_same. }
  assert (Mm : forall m, t < m <= t + n -> mem s' m = Some {| parent := Some t; what := KMsg d (blocks_of t n (nth (m - t - 1) (sh_replies sh) [])) |}).
  { intros m Hm. unfold s'. simpl. rewrite upd_other by lia. rewrite upd_other by lia. destruct (Nat.eqb_spec m t); [lia|].
    destruct (Nat.ltb_spec t m); [|lia]. destruct (Nat.leb_spec m (t + n)); [|lia]. reflexivity. }
  assert (Mo : forall b, b < t \/ t + 1 + n < b -> mem s' b = mem s b).
  { intros b Hb. unfold s'. simpl. rewrite upd_other by lia. rewrite upd_other by lia. destruct (Nat.eqb_spec b t); [lia|].
    destruct (Nat.ltb_spec t b), (Nat.leb_spec b (t + n)); simpl; auto; lia. }
  assert (Mw : mem s' (t + 1 + n) = Some {| parent := None; what := KWrap (Some t) |}) by (unfold s'; simpl; apply upd_same).
  assert (NB : next_block s' = S (t + 1 + n)) by reflexivity.
  assert (EL : forall m, t < m <= t + n -> m < next_block s' /\ forall pm km, mem s' m = Some {| parent := pm; what := km |} -> is_msg km).
  { intros m Hm. split; [lia|]. intros pm km E. rewrite Mm in E by auto. injection E as _ <-. exact I. }
  apply plus_G with rn (t + 1 + n); auto. constructor; try reflexivity; auto; try (unfold s'; simpl; lia); try discriminate.
  - intros b ch Hb N E. fold t in Hb. destruct (Nat.eq_dec b t) as [->|N1]; [rewrite Mt in E; injection E as <-; left; simpl; auto|].
    destruct (le_lt_dec b (t + n)); [|rewrite Mo, (g_mem _ _ HG) in E by (unfold t in *; lia); discriminate].
    rewrite Mm in E by lia. injection E as <-. right. left. exists t, k. simpl. auto.
  - intros b Hb. rewrite NB in Hb. rewrite Mo, (g_mem _ _ HG) by (unfold t in *; lia). auto.
  - intros p E. unfold rn in E; simpl in E. injection E as <-. split; [rewrite NB; lia|]. exists k. split; [auto|]. simpl. split; [discriminate|contradiction].
  - intros b pa k0 m Hb E Hm. fold t in Hb. destruct (Nat.eq_dec b t) as [->|N1].
    + rewrite Mt in E. injection E as <- <-. simpl in Hm. apply EL. apply in_app_iff in Hm. destruct Hm as [Hm|Hm]; [apply in_seq in Hm; lia|apply in_blocks_of in Hm; lia].
    + destruct (Nat.eq_dec b (t + 1 + n)) as [->|N2]; [rewrite Mw in E; injection E as <- <-; contradiction|].
      destruct (le_lt_dec b (t + n)); [|rewrite Mo, (g_mem _ _ HG) in E by (unfold t in *; lia); discriminate].
      rewrite Mm in E by lia. injection E as <- <-. apply EL. simpl in Hm. apply in_blocks_of in Hm. lia.
Qed.
