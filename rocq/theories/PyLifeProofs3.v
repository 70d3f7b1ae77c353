(** Programs that leave the lifetimes to the interpreter. *)
From Verif Require Import PyLife PyLifeSpec PyLifeProofs PyLifeProofs2.
From Coq Require Import Arith Bool List Lia.
Import ListNotations.
Local Open Scope nat_scope.

(** What came out of a finalized object is finalized. *)
Definition order (s : state) : Prop := forall x r p rp, objs s x = Some r -> o_parent r = Some p -> objs s p = Some rp -> o_final rp = true -> o_final r = true.
(** What is in hand has its memory. *)
Definition kept (s : state) : Prop := forall x r b, objs s x = Some r -> o_final r = false -> o_ptr r = Some b -> memory s b <> None.

Lemma ancestor_in_hand s x o : wf s -> order s -> in_hand s x -> descends (objs s) x o -> in_hand s o.
Proof.
  intros W R H D. induction D as [|x r p o E P D IH]; [exact H|]. apply IH. pose proof (wf_parent s W x r E) as Q. rewrite P in Q. destruct Q as (_ & _ & rp & Ep).
  exists rp. split; [exact Ep|]. destruct H as (r' & E' & F). destruct (o_final rp) eqn:Fp; [|reflexivity]. pose proof (R x r p rp E P Ep Fp). congruence.
Qed.
Lemma descends_child s x o : wf s -> descends (objs s) x o -> x = o \/ exists y, child_of s y o /\ descends (objs s) x y.
Proof.
  intros W D. induction D as [|x r p o E P D IH]; [now left|]. right. destruct IH as [->|(y & C & Dy)].
  - exists x. split; [exists r; auto|constructor].
  - exists y. split; [exact C|]. eapply d_up; eauto.
Qed.
(** If the children are finalized, everything that came out is. *)
Lemma all_final s o x : wf s -> order s -> (forall y, child_of s y o -> is_final s y) -> x <> o -> descends (objs s) x o -> ~ in_hand s x.
Proof.
  intros W R H N D X. destruct (descends_child s x o W D) as [->|(y & C & Dy)]; [contradiction|]. pose proof (ancestor_in_hand s x y W R X Dy) as (r & E & F). destruct (H y C) as (r' & E' & F'). congruence.
Qed.
Lemma pointer_kept s o b : wf s -> order s -> kept s -> in_hand s o -> pointer (objs s) o = Some b -> memory s b <> None.
Proof.
  intros W R K H P. destruct (pointer_object s o b W P) as (q & rq & E & B & _ & D & _). destruct (ancestor_in_hand s o q W R H D) as (rq' & E' & F). apply (K q rq b E); congruence.
Qed.
Lemma access_kept s o k : wf s -> order s -> kept s -> in_hand s o -> access s o k = Raises s \/ exists b, pointer (objs s) o = Some b /\ memory s b <> None /\ access s o k = k b.
Proof.
  intros W R L A. unfold access. destruct (pointer (objs s) o) as [b|] eqn:P; [|auto]. pose proof (pointer_kept s o b W R L A P) as H. right. exists b. unfold in_use. destruct (memory s b); [auto|easy].
Qed.
(** Destroying an object in hand. *)
Lemma destroy_kept s o : wf s -> order s -> kept s -> in_hand s o ->
  ((exists r, objs s o = Some r /\ shelters (o_cls r) = false) \/ forall x, x <> o -> descends (objs s) x o -> ~ in_hand s x) ->
  exists s1, destroy s o = Returns s1 /\ order s1 /\ kept s1 /\ wf s1.
Proof.
  intros W R K (r & E & F) H.
  assert (H0 : forall r b, objs s o = Some r -> o_ptr r = Some b -> keeps_nothing (o_cls r) = false -> alive (objs s) o || match o_cls r with Database => true | _ => false end = true -> memory s b <> None).
  { intros r' b E' B _ _. apply (K o r' b E'); [congruence|exact B]. }
  pose proof (destroy_safe s o W H0) as S1. destruct (destroy s o) as [s1|s1|] eqn:D; [| |contradiction].
  2:{ unfold destroy in D. rewrite E in D. destruct (keeps_nothing _); [discriminate|]. destruct (_ || _); [destruct (o_ptr r); [destruct (in_use _ _)|]|]; discriminate D. }
  exists s1. split; [reflexivity|]. destruct (destroy_objs s o s1 D) as (_ & _ & Oth & r0 & r1 & E0 & E1 & C1 & P1 & F1 & Ptr). assert (r0 = r) by congruence. subst r0.
  assert (G : forall x rx, objs s1 x = Some rx -> exists rx0, objs s x = Some rx0 /\ o_parent rx = o_parent rx0 /\ o_final rx = o_final rx0 /\ (forall b, o_ptr rx = Some b -> o_ptr rx0 = Some b)).
  { intros x rx Ex. destruct (Nat.eq_dec x o) as [->|N]; [|rewrite Oth in Ex by exact N; eauto]. exists r. assert (rx = r1) by congruence. subst rx. split; [exact E|]. split; [exact P1|]. split; [exact F1|]. intros b B. destruct Ptr as [Ptr|[_ Ptr]]; congruence. }
  split; [|split].
  - intros x rx p rp Ex Px Ep Fp. destruct (G x rx Ex) as (x0 & X1 & X2 & X3 & _). destruct (G p rp Ep) as (p0 & Y1 & Y2 & Y3 & _). rewrite X3. apply (R x x0 p p0); congruence.
  - intros x rx b Ex Fx Bx. destruct (G x rx Ex) as (x0 & X1 & X2 & X3 & X4). assert (Mb : memory s b <> None) by (apply (K x x0 b); [exact X1|congruence|auto]).
    destruct (S1 x rx b Ex Bx Mb) as [M|(N & Dd & ro & Eo & _ & Sh)]; [exact M|]. exfalso. destruct H as [(r' & E' & H)|H]; [congruence|]. apply (H x N Dd). exists x0. split; [exact X1|congruence].
  - apply (destroy_wf s o); auto.
Qed.
Definition fine (s : state) : Prop := wf s /\ order s /\ kept s.
Lemma new_fine s c o owner : fine s -> in_hand s o -> wf (new_obj s c (Some o) owner) -> fine (new_obj s c (Some o) owner).
Proof.
  intros (W & R & K) (ro & Eo & Fo) W1. split; [exact W1|]. assert (N : objs s (next_obj s) = None) by (destruct (objs s (next_obj s)) eqn:Q; [apply (wf_obj s W) in Q; lia|reflexivity]). split.
  - intros x r p rp Ex Px Ep Fp. cbn [new_obj objs] in *. apply upd_inv in Ex as [[-> ->]|[X Ex]].
    + cbn in Px. injection Px as <-. rewrite upd_other in Ep by congruence. congruence.
    + pose proof (wf_parent s W x r Ex) as Q. rewrite Px in Q. destruct Q as (_ & _ & rq & Q). rewrite upd_other in Ep by congruence. exact (R x r p rp Ex Px Ep Fp).
  - intros x r b Ex Fx Bx. cbn [new_obj objs memory] in *. unfold talloc. destruct (Nat.eqb_spec b (next_block s)) as [|Nb]; [discriminate|]. apply upd_inv in Ex as [[-> ->]|[X Ex]]; [cbn in Bx; congruence|].
    eapply K; eauto.
Qed.
Lemma counted_step s e : fine s -> counted s e -> match step s e with Returns s1 | Raises s1 => fine s1 | Undefined => False end.
Proof.
  intros (W & R & K) O.
  assert (Wn : match step s e with Returns s1 | Raises s1 => wf s1 | Undefined => True end) by (destruct (step s e) eqn:E; [eapply step_wf; eauto|eapply step_wf; eauto|exact Logic.I]).
  assert (Same : fine s) by exact (conj W (conj R K)).
  destruct e as [|o m|o|o|o|o|o|o found]; cbn [step counted] in *.
  - split; [exact Wn|]. assert (N : objs s (next_obj s) = None) by (destruct (objs s (next_obj s)) eqn:Q; [apply (wf_obj s W) in Q; lia|reflexivity]). split.
    + intros x r p rp Ex Px Ep Fp. cbn [new_obj objs] in *. apply upd_inv in Ex as [[-> ->]|[X Ex]]; [discriminate Px|].
      pose proof (wf_parent s W x r Ex) as Q. rewrite Px in Q. destruct Q as (_ & _ & rq & Q). rewrite upd_other in Ep by congruence. exact (R x r p rp Ex Px Ep Fp).
    + intros x r b Ex Fx Bx. cbn [new_obj objs memory] in *. unfold talloc. destruct (Nat.eqb_spec b (next_block s)) as [|Nb]; [discriminate|]. apply upd_inv in Ex as [[-> ->]|[X Ex]]; [cbn in Bx; congruence|].
      eapply K; eauto.
  - revert Wn. unfold call. destruct (objs s o) as [r|] eqn:E; [|auto]. destruct (makes (o_cls r) m) as [[c n]|] eqn:M; [|auto].
    destruct (access_kept s o (fun b => match up n (memory s) b with Some owner => Returns (new_obj s c (Some o) (Some owner)) | None => Undefined end) W R K O) as [->|(b & P & Lb & ->)]; [auto|].
    destruct (up n (memory s) b) as [B|] eqn:U; [intros W1; now apply new_fine|]. intros _. destruct (pointer_object s o b W P) as (q & rq & Eq & Pq & Cq & D & T). rewrite E in T.
    pose proof (wf_depth s W q rq b Eq Pq Lb) as Dp. destruct (o_cls r) eqn:C; cbn in T; try (subst q; assert (rq = r) by congruence; subst rq; rewrite C in Dp; now apply (depth_up _ _ _ _ _ _ Dp M)).
    destruct m; try discriminate M. injection M as <- <-. discriminate U.
  - assert (N : objs s (next_obj s) = None) by (destruct (objs s (next_obj s)) eqn:Q; [apply (wf_obj s W) in Q; lia|reflexivity]).
    assert (V : match objs s o with Some r => viewable (o_cls r) = true -> fine {| memory := memory s; next_block := next_block s; objs := upd (objs s) (next_obj s) {| o_cls := View; o_parent := Some o; o_ptr := None; o_final := false |}; next_obj := S (next_obj s) |} | None => True end).
    { destruct (objs s o) as [r|] eqn:E; [|exact Logic.I]. intros V. split; [now apply (view_wf s o r)|]. destruct O as (ro & Eo & Fo). split.
      - intros x rx p rp Ex Px Ep Fp. cbn [objs] in *. apply upd_inv in Ex as [[-> ->]|[X Ex]].
        + cbn in Px. injection Px as <-. rewrite upd_other in Ep by congruence. congruence.
        + pose proof (wf_parent s W x rx Ex) as Q. rewrite Px in Q. destruct Q as (_ & _ & rq & Q). rewrite upd_other in Ep by congruence. exact (R x rx p rp Ex Px Ep Fp).
      - intros x rx b Ex Fx Bx. cbn [objs memory] in *. apply upd_inv in Ex as [[-> ->]|[X Ex]]; [discriminate Bx|]. eapply K; eauto. }
    destruct (objs s o) as [r|]; [|exact Same]. destruct (o_cls r); auto; try (apply V; reflexivity).
  - destruct (access_kept s o (fun _ => Returns s) W R K O) as [->|(b & _ & _ & ->)]; exact Same.
  - destruct O as [O Fin]. destruct (objs s o) as [r|] eqn:E; [|exact Same].
    assert (G : (o_cls r = Messages \/ shelters (o_cls r) = false) -> match access s o (fun _ => match destroy s o with Returns s1 => Raises s1 | x => x end) with Returns s1 | Raises s1 => fine s1 | Undefined => False end).
    { intros C. destruct (access_kept s o (fun _ => match destroy s o with Returns s1 => Raises s1 | x => x end) W R K O) as [->|(b & _ & _ & ->)]; [exact Same|].
      destruct (destroy_kept s o W R K O) as (s1 & -> & R1 & K1 & W1); [|exact (conj W1 (conj R1 K1))]. destruct C as [C|C]; [right|left; eauto].
      intros x N D. apply (all_final s o x W R); auto. apply Fin. exists r. auto. }
    destruct (o_cls r) eqn:C; try exact Same; apply G; auto.
  - contradiction.
  - destruct O as [O Fin]. destruct (objs s o) as [r|] eqn:E; [|exact Same].
    destruct (destroy_kept s o W R K O) as (s1 & D & R1 & K1 & W1); [right; intros x N Dx; now apply (all_final s o x W R)|].
    rewrite D in *. destruct (destroy_objs s o s1 D) as (_ & _ & Oth & r0 & r1 & E0 & E1 & C1 & P1 & F1 & Ptr). rewrite E1 in *. split; [exact Wn|]. split.
    + intros x rx p rp Ex Px Ep Fp. cbn [set_obj objs] in *. apply upd_inv in Ex as [[-> ->]|[X Ex]]; [reflexivity|]. apply upd_inv in Ep as [[-> ->]|[Y Ep]]; [|exact (R1 x rx p rp Ex Px Ep Fp)].
      rewrite Oth in Ex by exact X. destruct (Fin x) as (rf & Ef & Ff); [exists rx; auto|congruence].
    + intros x rx b Ex Fx Bx. cbn [set_obj objs memory] in *. apply upd_inv in Ex as [[-> ->]|[X Ex]]; [discriminate Fx|]. eapply K1; eauto.
  - destruct O as [O Fin]. revert Wn. unfold rollback. destruct (objs s o) as [r|] eqn:E; [|auto].
    match goal with |- context [access s o ?f] => set (k := f) end.
    assert (G : (o_cls r = Message \/ o_cls r = Owned) -> match access s o k with Returns s1 | Raises s1 => wf s1 | Undefined => True end -> match access s o k with Returns s1 | Raises s1 => fine s1 | Undefined => False end).
    2:{ destruct (o_cls r) eqn:CL; try exact (fun _ => Same); apply G; auto. }
    intros C. destruct (access_kept s o k W R K O) as [->|(b & _ & _ & ->)]; [auto|]. subst k. cbv beta.
    assert (NH : forall x, x <> o -> descends (objs s) x o -> ~ in_hand s x). { intros x N D (rx & Ex & Fx). destruct (Fin x N D) as (rx' & Ex' & Fx'). congruence. }
    destruct (destroy_kept s o W R K O (or_intror NH)) as (s1 & D & R1 & K1 & W1). rewrite D.
    destruct (destroy_objs s o s1 D) as (_ & _ & Oth & r0 & r1 & E0 & E1 & C1 & P1 & F1 & Ptr). assert (r0 = r) by congruence. subst r0. rewrite E1.
    assert (S1 : fine s1) by exact (conj W1 (conj R1 K1)).
    destruct (root_spec s1 o r1 W1 E1) as (rR & ER & PR & DR). pose proof (not_view_root s1 _ rR W1 ER PR) as PP. rewrite PP. destruct (o_ptr rR) as [d|] eqn:Pd; [|auto].
    assert (H1 : in_hand s1 o). { destruct O as (ro & Eo & Fo). exists r1. split; [exact E1|congruence]. }
    assert (Ld : memory s1 d <> None). { destruct (ancestor_in_hand s1 o _ W1 R1 H1 DR) as (rR' & ER' & FR). apply (K1 _ rR d ER); congruence. }
    unfold in_use. destruct (memory s1 d) eqn:Md; [|easy]. destruct found; [|auto]. intros W2. split; [exact W2|]. split.
    + intros x rx p rp Ex Px Ep Fp. cbn [objs] in *.
      assert (G : forall y ry, upd (objs s1) o (with_ptr r1 (Some (next_block s1))) y = Some ry -> exists r0, objs s1 y = Some r0 /\ o_parent ry = o_parent r0 /\ o_final ry = o_final r0).
      { intros y ry Ey. apply upd_inv in Ey as [[-> ->]|[Y Ey]]; [exists r1; auto|eauto]. }
      destruct (G x rx Ex) as (x0 & X1 & X2 & X3). destruct (G p rp Ep) as (p0 & Y1 & Y2 & Y3). rewrite X3. apply (R1 x x0 p p0); congruence.
    + intros x rx c Ex Fx Px. cbn [objs memory] in *. unfold talloc. destruct (Nat.eqb_spec c (next_block s1)) as [|Nc]; [discriminate|]. apply upd_inv in Ex as [[-> ->]|[X Ex]]; [cbn in Px; congruence|]. eapply K1; eauto.
Qed.
Theorem counted_safe es : follows counted empty es -> run empty es <> None.
Proof.
  apply (run_safe counted fine counted_step). split; [apply empty_wf|]. split; [intros x r p rp E; discriminate E|intros x r b E; discriminate E].
Qed.

(** Reachable states are well formed. *)
Lemma run_wf es : forall s s1, wf s -> run s es = Some s1 -> wf s1.
Proof.
  induction es as [|e es IH]; cbn [run]; intros s s1 W E; [congruence|]. destruct (step s e) as [s2|s2|] eqn:Q; [| |discriminate E]; apply (IH s2); auto; eapply step_wf; eauto.
Qed.
Lemma destroyed s o s1 : destroy s o = Returns s1 -> match objs s o with Some r => keeps_nothing (o_cls r) = false | None => True end -> pointer (objs s1) o = None.
Proof.
  intros D H. destruct (destroy_objs s o s1 D) as (_ & _ & _ & r & r1 & E & E1 & C1 & P1 & _ & Ptr). rewrite E in H. destruct Ptr as [Ptr|[Ptr _]]; [|congruence].
  unfold pointer. rewrite E1, C1. destruct (o_cls r); try exact Ptr. discriminate H.
Qed.

(** ** Leaks *)
Definition rooted (s : state) : Prop := forall b, memory s b <> None -> exists R rR d, objs s R = Some rR /\ o_cls rR = Database /\ o_ptr rR = Some d /\ under (memory s) b d.
Lemma talloc_under h n (H : okheap h n) o b c : under h b c -> under (talloc h n o) b c.
Proof.
  induction 1 as [|b p c E U IH]; [constructor|]. apply u_up with p; [|exact IH]. unfold talloc. destruct (Nat.eqb_spec b n) as [->|]; [|exact E]. apply H in E. lia.
Qed.
Lemma free_keeps h n (H : okheap h n) c b d : ~ under h b c -> under h b d -> under (talloc_free h c) b d.
Proof.
  intros N U. induction U as [|b p d E U IH]; [constructor|]. apply u_up with p; [rewrite (proj2 (free_spec h n H c b) N); exact E|]. apply IH. intros V. apply N. now apply u_up with p.
Qed.
Lemma destroy_rooted s o s1 : wf s -> rooted s -> destroy s o = Returns s1 \/ destroy s o = Raises s1 -> rooted s1.
Proof.
  intros W Q D. unfold destroy in D. destruct (objs s o) as [r|] eqn:O; [|destruct D as [D|D]; [discriminate D|injection D as <-; exact Q]].
  destruct (keeps_nothing (o_cls r)); [destruct D as [D|D]; [injection D as <-; exact Q|discriminate D]|].
  destruct (_ || _) eqn:A.
  - destruct (o_ptr r) as [c|] eqn:P; [|destruct D as [D|D]; [injection D as <-; exact Q|discriminate D]]. destruct (in_use (memory s) c); [|destruct D; discriminate]. destruct D as [D|D]; [injection D as <-|discriminate D].
    intros b L. cbn [set_memory set_obj memory objs] in *. destruct (talloc_free (memory s) c b) as [pa|] eqn:F; [|easy]. apply (free_some _ _ (wf_heap s W)) in F as [F N].
    destruct (Q b) as (R & rR & d & E & C & Pd & U); [congruence|]. assert (X : R <> o) by (intros ->; assert (rR = r) by congruence; subst rR; congruence).
    exists R, rR, d. split; [now rewrite upd_other|]. split; [exact C|]. split; [exact Pd|]. now apply (free_keeps _ _ (wf_heap s W)).
  - destruct D as [D|D]; [injection D as <-|discriminate D]. intros b L. cbn [set_obj memory objs] in *. destruct (Q b L) as (R & rR & d & E & C & Pd & U).
    assert (X : R <> o). { intros ->. assert (rR = r) by congruence. subst rR. rewrite C, orb_true_r in A. discriminate A. } exists R, rR, d. split; [now rewrite upd_other|]. auto.
Qed.
Lemma talloc_rooted s os n B : wf s -> rooted s -> memory s B <> None ->
  (forall R rR, objs s R = Some rR -> o_cls rR = Database -> os R = Some rR) ->
  rooted {| memory := talloc (memory s) (next_block s) (Some B); next_block := S (next_block s); objs := os; next_obj := n |}.
Proof.
  intros W Q L H b Lb. cbn [memory objs] in *. destruct (Nat.eq_dec b (next_block s)) as [->|N].
  - destruct (Q B L) as (R & rR & d & E & C & Pd & U). exists R, rR, d. split; [auto|]. split; [exact C|]. split; [exact Pd|]. apply u_up with B; [unfold talloc; now rewrite Nat.eqb_refl|]. apply talloc_under; [apply W|exact U].
  - assert (T : talloc (memory s) (next_block s) (Some B) b = memory s b) by (unfold talloc; destruct (Nat.eqb_spec b (next_block s)); [contradiction|reflexivity]). rewrite T in Lb.
    destruct (Q b Lb) as (R & rR & d & E & C & Pd & U). exists R, rR, d. split; [auto|]. split; [exact C|]. split; [exact Pd|]. apply talloc_under; [apply W|exact U].
Qed.
Lemma step_rooted s e s1 : wf s -> rooted s -> step s e = Returns s1 \/ step s e = Raises s1 -> rooted s1.
Proof.
  intros W Q H. assert (N : objs s (next_obj s) = None) by (destruct (objs s (next_obj s)) eqn:X; [apply (wf_obj s W) in X; lia|reflexivity]).
  assert (NR : forall r R rR, objs s R = Some rR -> o_cls rR = Database -> upd (objs s) (next_obj s) r R = Some rR) by (intros r R rR E _; rewrite upd_other; [exact E|congruence]).
  destruct e as [|o m|o|o|o|o|o|o found]; cbn [step] in H.
  - destruct H as [H|H]; [injection H as <-|discriminate H]. intros b L. cbn [new_obj memory objs] in *. destruct (Nat.eq_dec b (next_block s)) as [->|X].
    + exists (next_obj s), {| o_cls := Database; o_parent := None; o_ptr := Some (next_block s); o_final := false |}, (next_block s). split; [apply upd_same|]. split; [reflexivity|]. split; [reflexivity|constructor].
    + assert (T : talloc (memory s) (next_block s) None b = memory s b) by (unfold talloc; destruct (Nat.eqb_spec b (next_block s)); [contradiction|reflexivity]). rewrite T in L.
      destruct (Q b L) as (R & rR & d & E & C & Pd & U). exists R, rR, d. split; [auto|]. split; [exact C|]. split; [exact Pd|]. apply talloc_under; [apply W|exact U].
  - unfold call in H. destruct (objs s o) as [r|] eqn:O; [|destruct H as [H|H]; [discriminate H|injection H as <-; exact Q]].
    destruct (makes (o_cls r) m) as [[c n]|] eqn:M; [|destruct H as [H|H]; [discriminate H|injection H as <-; exact Q]].
    unfold access in H. destruct (pointer (objs s) o) as [b|] eqn:P; [|destruct H as [H|H]; [discriminate H|injection H as <-; exact Q]].
    destruct (in_use (memory s) b) eqn:L; [|destruct H; discriminate]. destruct (up n (memory s) b) as [B|] eqn:U; [|destruct H; discriminate].
    destruct H as [H|H]; [injection H as <-|discriminate H]. apply talloc_rooted; auto. eapply up_live; [apply W| |exact U]. unfold in_use in L. destruct (memory s b); congruence.
  - destruct (objs s o) as [r|] eqn:O; [|destruct H as [H|H]; [discriminate H|injection H as <-; exact Q]].
    assert (G : rooted {| memory := memory s; next_block := next_block s; objs := upd (objs s) (next_obj s) {| o_cls := View; o_parent := Some o; o_ptr := None; o_final := false |}; next_obj := S (next_obj s) |}).
    { intros b L. destruct (Q b L) as (R & rR & d & E & C & Pd & U). exists R, rR, d. split; [now apply NR|]. auto. }
    destruct (o_cls r) eqn:C; destruct H as [H|H]; try discriminate H; injection H as <-; assumption.
  - unfold access in H. destruct (pointer (objs s) o); [|destruct H as [H|H]; [discriminate H|injection H as <-; exact Q]]. destruct (in_use (memory s) b); destruct H as [H|H]; try discriminate H. now injection H as <-.
  - destruct (objs s o) as [r|] eqn:O; [|destruct H as [H|H]; [discriminate H|injection H as <-; exact Q]].
    destruct (o_cls r) eqn:C; try (destruct H as [H|H]; [discriminate H|injection H as <-; exact Q]);
    (unfold access in H; destruct (pointer (objs s) o); [|destruct H as [H|H]; [discriminate H|injection H as <-; exact Q]]; destruct (in_use (memory s) b); [|destruct H; discriminate];
     destruct (destroy s o) as [s2|s2|] eqn:D; destruct H as [H|H]; try discriminate H; injection H as <-; eapply destroy_rooted; eauto).
  - eapply destroy_rooted; eauto.
  - destruct (objs s o) as [r|] eqn:O; [|destruct H as [H|H]; [discriminate H|injection H as <-; exact Q]].
    destruct (destroy s o) as [s2|s2|] eqn:D; [|destruct H as [H|H]; [discriminate H|injection H as <-; eapply destroy_rooted; eauto]|destruct H; discriminate].
    destruct (destroy_objs s o s2 D) as (_ & _ & _ & r0 & r1 & _ & E1 & _). rewrite E1 in H. destruct H as [H|H]; [injection H as <-|discriminate H].
    assert (Q2 : rooted s2) by (apply (destroy_rooted s o); auto). intros b L. cbn [set_obj memory objs] in *. destruct (Q2 b L) as (R & rR & d & E & C & Pd & U).
    destruct (Nat.eq_dec R o) as [->|X]; [exists o, (finalized r1), d; rewrite upd_same; assert (rR = r1) by congruence; subst rR; auto|exists R, rR, d; rewrite upd_other by exact X; auto].
  - unfold rollback in H. destruct (objs s o) as [r|] eqn:O; [|destruct H as [H|H]; [discriminate H|injection H as <-; exact Q]].
    match type of H with context [access s o ?f] => set (k := f) in H end.
    assert (G : (o_cls r = Message \/ o_cls r = Owned) -> (access s o k = Returns s1 \/ access s o k = Raises s1) -> rooted s1).
    2:{ destruct (o_cls r) eqn:CL; try (apply G; auto; fail); destruct H as [H|H]; try discriminate H; injection H as <-; exact Q. }
    clear H. intros C H. unfold access in H. destruct (pointer (objs s) o); [|destruct H as [H|H]; [discriminate H|injection H as <-; exact Q]]. destruct (in_use (memory s) b); [|destruct H; discriminate].
    subst k. cbv beta in H. destruct (destroy s o) as [s2|s2|] eqn:D; [|destruct H as [H|H]; [discriminate H|injection H as <-; apply (destroy_rooted s o); auto]|destruct H; discriminate].
    assert (Q2 : rooted s2) by (apply (destroy_rooted s o); auto). assert (W2 : wf s2) by (apply (destroy_wf s o); auto).
    destruct (destroy_objs s o s2 D) as (_ & _ & _ & r0 & r1 & E0 & E1 & C1 & _). assert (r0 = r) by congruence. subst r0. rewrite E1 in H.
    destruct (pointer (objs s2) (root (objs s2) o)) as [d|]; [|destruct H as [H|H]; [discriminate H|injection H as <-; exact Q2]].
    destruct (in_use (memory s2) d) eqn:L; [|destruct H; discriminate]. destruct found; [|destruct H as [H|H]; [discriminate H|injection H as <-; exact Q2]].
    destruct H as [H|H]; [discriminate H|injection H as <-]. apply talloc_rooted; auto; [unfold in_use in L; destruct (memory s2 d); congruence|].
    intros R rR E CR. rewrite upd_other; [exact E|]. intros ->. assert (rR = r1) by congruence. subst rR. rewrite C1 in CR. destruct C; congruence.
Qed.
Lemma run_rooted es : forall s s1, wf s -> rooted s -> run s es = Some s1 -> rooted s1.
Proof.
  induction es as [|e es IH]; cbn [run]; intros s s1 W Q E; [injection E as <-; exact Q|]. destruct (step s e) as [s2|s2|] eqn:X; [| |discriminate E]; apply (IH s2); auto; [eapply step_wf|eapply step_rooted|eapply step_wf|eapply step_rooted]; eauto.
Qed.

(** ** For examples *)
Lemma at_state {A} es s (f : state -> A) v : run empty es = Some s -> option_map f (run empty es) = Some v -> f s = v.
Proof. intros E H. rewrite E in H. cbn in H. congruence. Qed.
Lemma follows_at (ok : state -> event -> Prop) es : match run empty es with Some _ => true | None => false end = true -> (forall n e s, nth_error es n = Some e -> run empty (firstn n es) = Some s -> ok s e) -> follows ok empty es.
Proof.
  generalize empty. induction es as [|e es IH]; intros s0 R H; [exact Logic.I|]. cbn [follows run] in *. split; [apply (H 0 e s0); reflexivity|].
  destruct (step s0 e) as [s1|s1|] eqn:E; [| |discriminate R]; (apply IH; [exact R|]; intros n e' s N Q; apply (H (S n) e' s N); cbn [firstn run]; now rewrite E).
Qed.
