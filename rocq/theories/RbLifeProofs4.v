(** For C95, continued: every operation of a tidy program. *)
From Verif Require Import RbLife RbLifeSpec RbLifeProofs RbLifeProofs2 RbLifeProofs3.
From Coq Require Import Arith Bool List Lia.
Import ListNotations.
Local Open Scope nat_scope.

Lemma in_blocks_of t n l m : In m (blocks_of t n l) -> t < m <= t + n.
Proof. unfold blocks_of. rewrite in_map_iff. intros (i & <- & H). rewrite filter_In in H. destruct H as (_ & H). apply Nat.ltb_lt in H. lia. Qed.
Lemma wrap_thread_D s o r d par sh : D s -> live s o r -> o_cls r = Threads -> dbof s r d ->
  good (wrap (new_thread s par d sh) Thread (Some (next_block s)) (Some o)).
Proof.
  intros HD L Hc Hdb. unfold wrap, in_use. simpl. rewrite Nat.eqb_refl. simpl.
  destruct L as (L & Lg & Ld). rewrite L. rewrite Hc.
  set (n := length (sh_replies sh)). set (t := next_block s).
  match goal with |- D ?S => set (s' := S) end.
  set (rn := {| o_cls := Thread; o_data := Some (t + 1 + n); o_gone := false; o_of := Some t; o_parent := Some o; o_db := o_db r; o_thread := o_thread r |}).
  set (k := KThread d (seq (t + 1) n) (blocks_of t n (sh_top sh))).
  assert (Mt : mem s' t = Some {| parent := Some (t + 1 + n); what := k |}).
  { unfold s'. simpl. rewrite upd_other by lia. apply upd_same. }
  assert (Mm : forall m, t < m <= t + n -> mem s' m = Some {| parent := Some t; what := KMsg d (blocks_of t n (nth (m - t - 1) (sh_replies sh) [])) |}).
  { intros m Hm. unfold s'. simpl. rewrite upd_other by lia. rewrite upd_other by lia. destruct (Nat.eqb_spec m t); [lia|].
    destruct (Nat.ltb_spec t m); [|lia]. destruct (Nat.leb_spec m (t + n)); [|lia]. reflexivity. }
  assert (Mo : forall b, b < t \/ t + 1 + n < b -> mem s' b = mem s b).
  { intros b Hb. unfold s'. simpl. rewrite upd_other by lia. rewrite upd_other by lia. destruct (Nat.eqb_spec b t); [lia|].
    destruct (Nat.ltb_spec t b), (Nat.leb_spec b (t + n)); simpl; auto; lia. }
  assert (Mw : mem s' (t + 1 + n) = Some {| parent := None; what := KWrap (Some t) |}) by (unfold s'; simpl; apply upd_same).
  assert (AD : added s s' (next_obj s) rn (t + 1 + n) k).
  { constructor; simpl; auto; try (unfold t; lia).
    - intros b Hb _. apply Mo. left. exact Hb.
    - split; [unfold t; lia|]. split; [exact Mt|]. unfold t.
      split; [intros x rx Hx E|intros x rx (Hx & _) E]; destruct (d_bound _ HD _ _ Hx) as (_ & A & B); [apply A in E|apply B in E]; lia.
    - left. exists o, r. split; [split; auto|auto].
    - intros t0 Ht. apply (d_thread _ HD o r); [split; auto|auto].
    - intros b ch tb Hb E Hp. fold t in Hb. change (mem s' b = Some ch) in E. destruct (Nat.eq_dec b t) as [->|N1]; [rewrite Mt in E; injection E as <-; injection Hp as <-; unfold t; lia|].
      destruct (Nat.eq_dec b (t + 1 + n)) as [->|N2]; [rewrite Mw in E; injection E as <-; discriminate|].
      destruct (le_lt_dec b (t + n)); [rewrite Mm in E by lia; injection E as <-; injection Hp as <-; unfold t; lia|].
      rewrite Mo, (d_mem _ HD) in E by (unfold t in *; lia). discriminate.
    - intros b Hb. fold t n in Hb. change (mem s' b = None). rewrite Mo by lia. apply (d_mem _ HD). unfold t in *. lia.
    - intros b ch tb E Hp. fold n t. change (mem s' b = Some ch) in E. destruct (Nat.eq_dec b t) as [->|N1]; [rewrite Mt in E; injection E as <-; injection Hp as <-; lia|].
      destruct (Nat.eq_dec b (t + 1 + n)) as [->|N2]; [rewrite Mw in E; injection E as <-; discriminate|].
      destruct (le_lt_dec b t); [rewrite Mo in E by lia; pose proof (d_par _ HD _ _ _ E Hp); unfold t in *; lia|].
      destruct (le_lt_dec b (t + n)); [rewrite Mm in E by lia; injection E as <-; injection Hp as <-; lia|].
      rewrite Mo, (d_mem _ HD) in E by (unfold t in *; lia). discriminate. }
  assert (MB : forall m, t < m <= t + n -> member s' (Some (next_obj s)) m).
  { intros m Hm. split; [simpl; fold t n; lia|]. right. exists (next_obj s), rn, t, d. eexists. split; [auto|]. split; [eapply ad_newlive; eauto|].
    split; [auto|]. split; [auto|]. apply (Mm _ Hm). }
  assert (DB : dbof s' rn d).
  { destruct Hdb as (rd & X & Y). exists rd. split; [eapply ad_live; eauto|auto]. }
  eapply added_D; eauto.
  - simpl. unfold fits. simpl. split; [exact DB|]. intros m [Hm|Hm]; apply MB.
    + apply in_seq in Hm. lia.
    + apply in_blocks_of in Hm. lia.
  - intros tb m d0 reps _ Ho E. simpl in Ho. injection Ho as <-.
    destruct (le_lt_dec m t) as [Le|Gt].
    + destruct (Nat.eq_dec m t) as [->|N]; [rewrite Mt in E; discriminate|]. rewrite Mo in E by lia.
      pose proof (d_par _ HD _ _ _ E eq_refl). unfold t in *. lia.
    + destruct (le_lt_dec m (t + n)); [|destruct (Nat.eq_dec m (t + 1 + n)) as [->|N]; [rewrite Mw in E; discriminate|rewrite Mo, (d_mem _ HD) in E by (unfold t in *; lia); discriminate]].
      rewrite Mm in E by lia. injection E as <- <-. split; [exact DB|]. intros m' Hm'. apply MB. apply in_blocks_of in Hm'. lia.
Qed.
