(** Proofs for C96: nothing is written while the object is frozen. *)
From Verif Require Import Bytes MsgCache MsgCacheSpec MsgCacheProofs.
From Coq Require Import List Arith Bool Ascii Lia.
Import ListNotations.
Local Open Scope nat_scope.

Lemma add_frozen w m f v m1 : add_term w m f v = Some m1 -> frozen m1 = frozen m.
Proof. unfold add_term. destruct (_ <? _); [discriminate|]. now intros [= <-]. Qed.
Lemma remove_frozen w m f v m1 : remove_term w m f v = Some m1 -> frozen m1 = frozen m.
Proof. unfold remove_term. destruct (_ <? _); [discriminate|]. intros [= <-]. now destruct (in_dec _ _ _). Qed.
Lemma remove_each_frozen w : forall l m, frozen (fst (remove_each w m l)) = frozen m.
Proof.
  induction l as [|t l IH]; intros m; cbn; trivial. destruct (remove_term w m Tag t) eqn:E; trivial.
  rewrite IH. eapply remove_frozen; eauto.
Qed.
Lemma thawed_frozen w m k : frozen m = S k -> sync_thawed w m = (w, m).
Proof. unfold sync_thawed. now intros ->. Qed.
(** An operation that does not touch the count. *)
Definition quiet (w : world) (m : message) (r : world * message) : Prop := fst r = w /\ frozen (snd r) = frozen m.
Lemma then_quiet w m x k : frozen m = S k -> (forall m1, x = Some m1 -> frozen m1 = frozen m) -> quiet w m (then_sync w m x).
Proof.
  intros E H. destruct x as [m1|]; cbn; [|now split]. pose proof (H m1 eq_refl) as F. rewrite E in F.
  rewrite (thawed_frozen w m1 k F). split; cbn; congruence.
Qed.
Lemma run_frozen : forall os w m n, writable w = true -> frozen m = n -> 0 < n -> stays_frozen n os -> fst (run w m os) = w.
Proof.
  induction os as [|o os IH]; intros w m n W E P H; trivial. cbn [run].
  destruct n as [|k]; [lia|].
  assert (Q : quiet w m (step w m o) -> stays_frozen (S k) os -> fst (let '(w1, m1) := step w m o in run w1 m1 os) = w).
  { intros [A B] St. destruct (step w m o) as [w1 m1]. cbn in A, B. subst w1. eapply (IH w m1 (S k)); trivial. congruence. }
  destruct o; cbn [stays_frozen] in H; try contradiction; cbn [step] in *; rewrite ?W in *; cbn [negb] in *; try (apply Q; [clear Q|exact H]).
  - split; [trivial|]. apply get_same.
  - destruct (_ <? _); [now split|]. eapply then_quiet; eauto using add_frozen.
  - destruct (_ <? _); [now split|]. eapply then_quiet; eauto using remove_frozen.
  - destruct (get w m Tags) as [m1 tags] eqn:G.
    pose proof (proj2 (proj2 (get_same w m Tags))) as F1. rewrite G in F1. cbn in F1.
    destruct (remove_each w m1 _) as [m2 ok] eqn:R.
    pose proof (remove_each_frozen w (match tags with Some l => l | None => [] end) m1) as F2. rewrite R in F2. cbn in F2.
    rewrite (thawed_frozen w m2 k) by congruence. destruct ok; split; cbn; congruence.
  - destruct (existsb _ _); [now split|]. eapply then_quiet; eauto using add_frozen.
  - destruct (existsb _ _); [now split|]. eapply then_quiet; eauto using remove_frozen.
  - assert (F : frozen (remove_terms w m pre) = frozen m) by (unfold remove_terms; now destruct (existsb _ _)).
    rewrite (thawed_frozen w _ k) by congruence. split; trivial.
  - eapply (IH _ _ (S (S k))); cbn; [exact W|congruence|lia|exact H].
  - destruct H as [H1 H]. rewrite E in *. destruct k as [|k]; [lia|].
    rewrite (thawed_frozen w _ k) by reflexivity. apply (IH _ _ (S k)); [exact W|reflexivity|lia|exact H].
Qed.
