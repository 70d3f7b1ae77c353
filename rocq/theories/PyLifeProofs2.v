(** No program that follows the rules reads or frees free memory. *)
From Verif Require Import PyLife PyLifeSpec PyLifeProofs.
From Coq Require Import Arith Bool List Lia.
Import ListNotations.
Local Open Scope nat_scope.

Lemma run_safe (ok : state -> event -> Prop) (Inv : state -> Prop) :
  (forall s e, Inv s -> ok s e -> match step s e with Returns s1 | Raises s1 => Inv s1 | Undefined => False end) ->
  forall es s, Inv s -> follows ok s es -> run s es <> None.
Proof.
  intros H. induction es as [|e es IH]; cbn [run follows]; intros s V F; [discriminate|]. destruct F as [O F]. specialize (H s e V O).
  destruct (step s e); [now apply IH|now apply IH|contradiction].
Qed.

(** What an object needs to be alive. *)
Definition holds (r : obj) : Prop := keeps_nothing (o_cls r) = true \/ o_ptr r <> None.
Lemma alive_spec s o : wf s -> alive (objs s) o = true <-> forall a, descends (objs s) o a -> exists ra, objs s a = Some ra /\ holds ra.
Proof.
  intros W. unfold alive. assert (G : forall f o, o < f -> alive_from f (objs s) o = true <-> forall a, descends (objs s) o a -> exists ra, objs s a = Some ra /\ holds ra).
  { induction f as [|f IH]; intros x L; [lia|]. cbn [alive_from]. destruct (objs s x) as [r|] eqn:E.
    - assert (K : keeps_nothing (o_cls r) || match o_ptr r with Some _ => true | None => false end = true <-> holds r).
      { unfold holds. destruct (keeps_nothing (o_cls r)), (o_ptr r); cbn; intuition congruence. }
      rewrite andb_true_iff, K. pose proof (wf_parent s W x r E) as P. destruct (o_parent r) as [p|] eqn:Q.
      + destruct P as (_ & P & _). rewrite IH by lia. split.
        * intros [A B] a D. inversion D; subst; [eauto|]. assert (r0 = r) by congruence. subst r0. assert (p0 = p) by congruence. subst p0. auto.
        * intros A. split; [|destruct (A x (d_self _ x)) as (ra & E1 & E2); congruence]. intros a D. apply A. eapply d_up; eauto.
      + split.
        * intros [_ B] a D. inversion D; subst; [eauto|congruence].
        * intros A. split; [reflexivity|]. destruct (A x (d_self _ x)) as (ra & E1 & E2). congruence.
    - split; [discriminate|]. intros A. destruct (A x (d_self _ x)) as (ra & E1 & _). congruence. }
  apply G. lia.
Qed.
Lemma descends_not_up s a b : wf s -> descends (objs s) a b -> b <= a.
Proof. intros W. induction 1 as [|x r p o E P D IH]; [lia|]. pose proof (wf_parent s W x r E) as H. rewrite P in H. lia. Qed.
Lemma not_view_root s R rR : wf s -> objs s R = Some rR -> o_parent rR = None -> pointer (objs s) R = o_ptr rR.
Proof. intros W E P. pose proof (wf_parent s W R rR E) as H. rewrite P in H. unfold pointer. now rewrite E, H. Qed.
Lemma depth_up h c b k m c' : depth_ok h c b -> makes c m = Some (c', k) -> up k h b <> None.
Proof.
  intros D M. destruct c, m; try discriminate M; injection M as <- <-; cbn [up]; try discriminate; cbn in D.
  - destruct D as (p & ->). discriminate.
  - destruct D as (p & ->). discriminate.
  - destruct D as (p & q & -> & ->). discriminate.
Qed.

(** ** Destroying *)
Lemma destroy_cases s o : forall r, objs s o = Some r ->
  (keeps_nothing (o_cls r) = true /\ destroy s o = Returns s) \/
  keeps_nothing (o_cls r) = false /\
  ((o_ptr r = None /\ destroy s o = Returns s) \/
   (exists b, o_ptr r = Some b /\ destroy s o = if in_use (memory s) b then Returns (set_memory (set_obj s o (with_ptr r None)) (talloc_free (memory s) b)) else Undefined) \/
   destroy s o = Returns (set_obj s o (with_ptr r None))).
Proof.
  intros r O. unfold destroy. rewrite O. destruct (keeps_nothing (o_cls r)); [left; auto|]. right. split; [reflexivity|]. destruct (_ || _); [|auto]. destruct (o_ptr r) as [b|] eqn:P; [|auto].
  right. left. exists b. rewrite P || idtac. split; reflexivity.
Qed.
(** Nothing but what is below the object is freed; afterwards, what is alive or in hand is safe. *)
Lemma destroy_safe s o : wf s -> (forall r b, objs s o = Some r -> o_ptr r = Some b -> keeps_nothing (o_cls r) = false -> alive (objs s) o || match o_cls r with Database => true | _ => false end = true -> memory s b <> None) ->
  match destroy s o with
  | Returns s1 | Raises s1 =>
      forall x r b, objs s1 x = Some r -> o_ptr r = Some b -> memory s b <> None ->
        memory s1 b <> None \/ x <> o /\ descends (objs s) x o /\ exists ro, objs s o = Some ro /\ keeps_nothing (o_cls ro) = false /\ shelters (o_cls ro) = true
  | Undefined => False
  end.
Proof.
  intros W H. unfold destroy. destruct (objs s o) as [ro|] eqn:O; [|auto]. specialize (H ro). destruct (keeps_nothing (o_cls ro)) eqn:Kn; [auto|].
  destruct (_ || _) eqn:A.
  - destruct (o_ptr ro) as [c|] eqn:P; [|auto]. specialize (H c eq_refl eq_refl eq_refl eq_refl). unfold in_use. destruct (memory s c) eqn:L; [|easy].
    intros x r b E B Lb. cbn [set_memory set_obj objs memory] in *. apply upd_inv in E as [[-> ->]|[N E]]; [discriminate B|].
    destruct (talloc_free (memory s) c b) eqn:F; [left; discriminate|]. right.
    assert (U : under (memory s) b c). { destruct (above b (memory s) b c) eqn:Ab; [now apply (above_under _ _ (wf_heap s W) c b b (le_n b)) in Ab|]. unfold talloc_free in F. rewrite Ab in F. congruence. }
    destruct (wf_above s W x r b o ro c E B O P U) as [D1 D2]. split; [exact N|]. split; [exact D1|]. exists ro. auto.
  - intros x r b E B Lb. left. exact Lb.
Qed.

(** ** Programs that ask *)
Definition live (s : state) : Prop := forall x r b, objs s x = Some r -> alive (objs s) x = true -> o_ptr r = Some b -> memory s b <> None.
Lemma pointer_live s o b : wf s -> live s -> alive (objs s) o = true -> pointer (objs s) o = Some b -> memory s b <> None.
Proof.
  intros W L A P. destruct (pointer_object s o b W P) as (q & rq & E & B & _ & D & _). apply (L q rq b E); [|exact B].
  rewrite alive_spec in * by exact W. intros a Da. apply A. eapply descends_trans; eauto.
Qed.
Lemma access_live s o k : wf s -> live s -> alive (objs s) o = true -> access s o k = Raises s \/ exists b, pointer (objs s) o = Some b /\ memory s b <> None /\ access s o k = k b.
Proof.
  intros W L A. unfold access. destruct (pointer (objs s) o) as [b|] eqn:P; [|auto]. pose proof (pointer_live s o b W L A P) as H. right. exists b. unfold in_use. destruct (memory s b); [auto|easy].
Qed.
(** The pointers of the ancestors are what counts. *)
Lemma alive_less s s1 x : wf s -> wf s1 -> alive (objs s1) x = true ->
  (forall y z, descends (objs s) y z -> descends (objs s1) y z) ->
  (forall a ra, descends (objs s) x a -> objs s1 a = Some ra -> exists r0, objs s a = Some r0 /\ o_cls r0 = o_cls ra /\ (o_ptr ra <> None -> o_ptr r0 <> None)) -> alive (objs s) x = true.
Proof.
  intros W W1 A D H. rewrite alive_spec in * by assumption. intros a Da. destruct (A a (D _ _ Da)) as (ra & E & Ho). destruct (H a ra Da E) as (r0 & E0 & C & P). exists r0. split; [exact E0|].
  unfold holds in *. rewrite C. destruct Ho; auto.
Qed.
Lemma descends_same os os1 x y : (forall z r, os z = Some r -> exists r1, os1 z = Some r1 /\ o_parent r1 = o_parent r) -> descends os x y -> descends os1 x y.
Proof. intros H. induction 1 as [|x r p o E P D IH]; [constructor|]. destruct (H x r E) as (r1 & E1 & P1). eapply d_up; [exact E1|rewrite P1; exact P|exact IH]. Qed.

Lemma destroy_live s o : wf s -> live s -> match destroy s o with Returns s1 | Raises s1 => live s1 | Undefined => False end.
Proof.
  intros W L. assert (H : forall r b, objs s o = Some r -> o_ptr r = Some b -> keeps_nothing (o_cls r) = false -> alive (objs s) o || match o_cls r with Database => true | _ => false end = true -> memory s b <> None).
  { intros r b E B _ A. apply (L o r b E); [|exact B]. apply orb_true_iff in A as [A|A]; [exact A|]. pose proof (wf_parent s W o r E) as P. unfold alive. cbn [alive_from]. rewrite E.
    destruct (o_parent r); [destruct (o_cls r); try discriminate A; now destruct P|]. rewrite B. now rewrite orb_true_r. }
  pose proof (destroy_safe s o W H) as S1. destruct (destroy s o) as [s1|s1|] eqn:D; [| |exact S1].
  2:{ unfold destroy in D. destruct (objs s o) as [r|]; [|injection D as <-; exact L]. destruct (keeps_nothing _); [discriminate|]. destruct (_ || _); [destruct (o_ptr r); [destruct (in_use _ _)|]|]; discriminate D. }
  destruct (destroy_objs s o s1 D) as (_ & _ & Oth & r & r1 & E & E1 & C1 & P1 & _ & Ptr). assert (W1 : wf s1) by (apply (destroy_wf s o); auto).
  assert (Dn : forall y z, descends (objs s) y z -> descends (objs s1) y z).
  { intros y z. apply descends_same. intros w rw Ew. destruct (Nat.eq_dec w o) as [->|N]; [exists r1; split; [exact E1|congruence]|exists rw; split; [now rewrite Oth|reflexivity]]. }
  intros x rx b Ex A B.
  assert (As : alive (objs s) x = true).
  { apply (alive_less s s1); auto. intros a ra _ Ea. destruct (Nat.eq_dec a o) as [->|N]; [exists r; assert (ra = r1) by congruence; subst ra; split; [exact E|]; split; [congruence|]; intros Q; destruct Ptr as [Ptr|[_ Ptr]]; congruence|].
    rewrite Oth in Ea by exact N. eauto. }
  assert (Mb : memory s b <> None).
  { destruct (Nat.eq_dec x o) as [->|N]; [|rewrite Oth in Ex by exact N; apply (L x rx b Ex As B)]. assert (rx = r1) by congruence. subst rx. destruct Ptr as [Ptr|[_ Ptr]]; [congruence|]. apply (L o r b E As). congruence. }
  destruct (S1 x rx b Ex B Mb) as [M|(N & Dd & ro & Eo & Kn & _)]; [exact M|]. exfalso. assert (ro = r) by congruence. subst ro.
  rewrite alive_spec in A by exact W1. destruct (A o (Dn _ _ Dd)) as (ra & Ea & Ho). assert (ra = r1) by congruence. subst ra. unfold holds in Ho. rewrite C1, Kn in Ho. destruct Ptr as [Ptr|[Ptr _]]; [|congruence].
  destruct Ho; congruence.
Qed.

Lemma new_live s c parent owner : wf s -> wf (new_obj s c parent owner) -> live s -> live (new_obj s c parent owner).
Proof.
  intros W W1 L x r b E A B. assert (N : objs s (next_obj s) = None) by (destruct (objs s (next_obj s)) eqn:Q; [apply (wf_obj s W) in Q; lia|reflexivity]).
  cbn [new_obj objs memory] in *. unfold talloc. apply upd_inv in E as [[-> ->]|[X E]]; [cbn in B; injection B as <-; now rewrite Nat.eqb_refl|].
  destruct (b =? next_block s); [discriminate|]. apply (L x r b E); [|exact B]. apply (alive_less s (new_obj s c parent owner)); auto.
  - intros y z. now apply descends_new.
  - intros a ra D Ea. cbn [new_obj objs] in Ea. apply upd_inv in Ea as [[-> ->]|[Y Ea]]; [|eauto]. exfalso. assert (a : next_obj s <= x) by (now apply (descends_not_up s)). apply (wf_obj s W) in E. lia.
Qed.

Lemma careful_step s e : wf s /\ live s -> careful s e -> match step s e with Returns s1 | Raises s1 => wf s1 /\ live s1 | Undefined => False end.
Proof.
  intros [W L] O.
  assert (Wn : match step s e with Returns s1 | Raises s1 => wf s1 | Undefined => True end) by (destruct (step s e) eqn:E; [eapply step_wf; eauto|eapply step_wf; eauto|exact Logic.I]).
  assert (G : match step s e with Returns s1 | Raises s1 => live s1 | Undefined => False end); [|destruct (step s e); auto].
  destruct e as [|o m|o|o|o|o|o|o found]; cbn [step careful] in *.
  - now apply new_live.
  - revert Wn. unfold call. destruct (objs s o) as [r|] eqn:E; [|auto]. destruct (makes (o_cls r) m) as [[c n]|] eqn:M; [|auto].
    destruct (access_live s o (fun b => match up n (memory s) b with Some owner => Returns (new_obj s c (Some o) (Some owner)) | None => Undefined end) W L O) as [->|(b & P & Lb & ->)]; [auto|].
    destruct (up n (memory s) b) as [B|] eqn:U; [intros W1; now apply new_live|]. intros _. destruct (pointer_object s o b W P) as (q & rq & Eq & Pq & Cq & D & T). rewrite E in T.
    pose proof (wf_depth s W q rq b Eq Pq Lb) as Dp. destruct (o_cls r) eqn:C; cbn in T; try (subst q; assert (rq = r) by congruence; subst rq; rewrite C in Dp; now apply (depth_up _ _ _ _ _ _ Dp M)).
    destruct m; try discriminate M. injection M as <- <-. discriminate U.
  - assert (N : objs s (next_obj s) = None) by (destruct (objs s (next_obj s)) eqn:Q; [apply (wf_obj s W) in Q; lia|reflexivity]).
    assert (V : match objs s o with Some r => viewable (o_cls r) = true -> live {| memory := memory s; next_block := next_block s; objs := upd (objs s) (next_obj s) {| o_cls := View; o_parent := Some o; o_ptr := None; o_final := false |}; next_obj := S (next_obj s) |} | None => True end).
    { destruct (objs s o) as [r|] eqn:E; [|exact Logic.I]. intros V. pose proof (view_wf s o r W E V) as W1. intros x rx b Ex A B. cbn [objs memory] in *. apply upd_inv in Ex as [[-> ->]|[X Ex]]; [discriminate B|].
      apply (L x rx b Ex); [|exact B]. eapply alive_less; [exact W|exact W1|exact A| |].
      - intros y z. now apply descends_new.
      - intros a ra D Ea. cbn [objs] in Ea. apply upd_inv in Ea as [[-> ->]|[Y Ea]]; [|eauto]. exfalso. assert (a : next_obj s <= x) by (now apply (descends_not_up s)). apply (wf_obj s W) in Ex. lia. }
    destruct (objs s o) as [r|]; [|exact L]. destruct (o_cls r); auto; try (apply V; reflexivity).
  - destruct (access_live s o (fun _ => Returns s) W L O) as [->|(b & _ & _ & ->)]; exact L.
  - destruct (objs s o) as [r|] eqn:E; [|exact L].
    assert (G : match access s o (fun _ => match destroy s o with Returns s1 => Raises s1 | x => x end) with Returns s1 | Raises s1 => live s1 | Undefined => False end).
    { destruct (access_live s o (fun _ => match destroy s o with Returns s1 => Raises s1 | x => x end) W L O) as [->|(b & _ & _ & ->)]; [exact L|]. pose proof (destroy_live s o W L) as D. destruct (destroy s o); auto. }
    destruct (o_cls r); auto.
  - now apply destroy_live.
  - destruct (objs s o) as [r|] eqn:E; [|exact L]. pose proof (destroy_live s o W L) as D. destruct (destroy s o) as [s1|s1|] eqn:Q; auto.
    destruct (objs s1 o) as [r1|] eqn:E1; [|exact D]. assert (W1 : wf s1) by (apply (destroy_wf s o); auto). intros x rx b Ex A B. cbn [set_obj objs memory] in *.
    assert (K : exists r0, objs s1 x = Some r0 /\ o_ptr r0 = o_ptr rx) by (apply upd_inv in Ex as [[-> ->]|[X Ex]]; [exists r1; auto|eauto]). destruct K as (r0 & Er0 & Pr0).
    apply (D x r0 b Er0); [|congruence]. eapply alive_less; [exact W1|exact Wn|exact A| |].
    + intros y z. exact (proj1 (descends_upd _ o r1 (finalized r1) y z E1 eq_refl)).
    + intros a ra _ Ea. cbn [set_obj objs] in Ea. apply upd_inv in Ea as [[-> ->]|[X Ea]]; [exists r1; auto|eauto].
  - destruct O as [A H]. revert Wn. unfold rollback. destruct (objs s o) as [r|] eqn:E; [|auto].
    match goal with |- context [access s o ?f] => set (k := f) end.
    assert (G : (o_cls r = Message \/ o_cls r = Owned) -> match access s o k with Returns s1 | Raises s1 => wf s1 | Undefined => True end -> match access s o k with Returns s1 | Raises s1 => live s1 | Undefined => False end).
    2:{ destruct (o_cls r) eqn:CL; try exact (fun _ => L); apply G; auto. }
    intros C. destruct (access_live s o k W L A) as [->|(b & _ & _ & ->)]; [auto|]. subst k. cbv beta.
    pose proof (destroy_live s o W L) as D. destruct (destroy s o) as [s1|s1|] eqn:Q; [|auto|contradiction].
    destruct (destroy_objs s o s1 Q) as (_ & _ & Oth & r0 & r1 & E0 & E1 & C1 & P1 & _ & Ptr). assert (r0 = r) by congruence. subst r0. rewrite E1. assert (W1 : wf s1) by (apply (destroy_wf s o); auto).
    destruct (root_spec s1 o r1 W1 E1) as (rR & ER & PR & DR). pose proof (not_view_root s1 _ rR W1 ER PR) as PP. rewrite PP. destruct (o_ptr rR) as [d|] eqn:Pd; [|auto].
    assert (Ld : memory s1 d <> None).
    { apply (D _ rR d ER); [|exact Pd]. rewrite alive_spec by exact W1. intros a Da. inversion Da; subst; [|congruence]. exists rR. split; [exact ER|]. right. congruence. }
    unfold in_use. destruct (memory s1 d) eqn:Md; [|easy]. destruct found; [|auto]. intros W2.
    assert (Dn : forall y z, descends (objs s) y z <-> descends (objs s1) y z).
    { intros y z. split; apply descends_same; intros w rw Ew; (destruct (Nat.eq_dec w o) as [->|N]; [|exists rw; split; [rewrite Oth in * by exact N; exact Ew|reflexivity]]); [exists r1|exists r]; split; auto; congruence. }
    intros x rx c Ex Ax Px. cbn [objs memory] in *. unfold talloc. destruct (Nat.eqb_spec c (next_block s1)) as [|Nc]; [discriminate|].
    apply upd_inv in Ex as [[-> ->]|[X Ex]]; [cbn in Px; congruence|].
    assert (ND : ~ descends (objs s1) x o). { intros Dx. apply Dn in Dx. rewrite Oth in Ex by exact X. rewrite (H x rx Ex X Dx) in Px. discriminate. }
    apply (D x rx c Ex); [|exact Px]. eapply alive_less; [exact W1|exact W2|exact Ax| |].
    + intros y z. exact (proj1 (descends_upd _ o r1 (with_ptr r1 (Some (next_block s1))) y z E1 eq_refl)).
    + intros a ra Da Ea. cbn [objs] in Ea. apply upd_inv in Ea as [[-> ->]|[Y Ea]]; [contradiction|eauto].
Qed.
Theorem careful_safe es : follows careful empty es -> run empty es <> None.
Proof.
  apply (run_safe careful (fun s => wf s /\ live s) careful_step). split; [apply empty_wf|]. intros x r b E. discriminate E.
Qed.
