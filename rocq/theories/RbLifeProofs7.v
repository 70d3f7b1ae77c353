(** For C95, continued: runs; what every operation does to the objects there are. *)
From Verif Require Import RbLife RbLifeSpec RbLifeProofs RbLifeProofs2 RbLifeProofs3 RbLifeProofs4 RbLifeProofs5 RbLifeProofs6.
From Coq Require Import Arith Bool List Lia.
Import ListNotations.
Local Open Scope nat_scope.

Lemma run_D es : forall s, D s -> follows tidy s es -> exists s', run s es = Some s' /\ D s'.
Proof.
  induction es as [|e es IH]; intros s HD HF; [exists s; auto|]. destruct HF as (T & HF). pose proof (step_D s e HD T) as G. simpl.
  destruct (step s e) as [s1|s1|]; simpl in G; [apply IH; auto|apply IH; auto|contradiction].
Qed.

(** Objects change in no way but by destroy! and collection. *)
Definition result_state (x : result) : option state := match x with Returns s | Raises s => Some s | Undefined => None end.
Definition bounded (s : state) : Prop := forall x r, objs s x = Some r -> x < next_obj s.
Definition same_objs (s s' : state) : Prop := objs s' = objs s /\ next_obj s' = next_obj s.
Definition grown (s s' : state) : Prop :=
  same_objs s s' \/ (exists r, objs s' = upd (objs s) (next_obj s) (Some r) /\ next_obj s' = S (next_obj s)).
Lemma same_refl s : same_objs s s. Proof. split; auto. Qed.
Lemma grown_refl s : grown s s. Proof. left. apply same_refl. Qed.
Lemma wrap_grown s s0 c p o s' : same_objs s s0 -> result_state (wrap s0 c p o) = Some s' -> grown s s'.
Proof.
  intros (A & B). unfold wrap. destruct (match p with Some p0 => in_use (mem s0) p0 | None => true end); [|discriminate].
  intros E. injection E as <-. right. simpl. rewrite A, B. eauto.
Qed.
Lemma set_what_same s s0 b k : same_objs s s0 -> same_objs s (set_what s0 b k).
Proof. intros (A & B). destruct (set_what_frame s0 b k) as (_ & C & E & _). split; congruence. Qed.
Lemma close_same s s0 b : same_objs s s0 -> same_objs s (close s0 b).
Proof. intros (A & B). destruct (close_frame s0 b) as (_ & C & E & _). split; congruence. Qed.
Lemma deref_grown s s0 p k s' : (forall b kd, result_state (k b kd) = Some s' -> grown s s') -> result_state (deref s0 p k) = Some s' -> grown s s'.
Proof. intros H. unfold deref. destruct p as [b|]; [|discriminate]. destruct (mem s0 b); [apply H|discriminate]. Qed.
Lemma with_db_grown s s0 b kd k s' : (forall d op pe, result_state (k d op pe) = Some s' -> grown s s') -> result_state (with_db s0 b kd k) = Some s' -> grown s s'.
Proof.
  intros H. unfold with_db.
  assert (G : forall d, result_state (match mem s0 d with Some {| what := KDb op pe |} => k d op pe | _ => Undefined end) = Some s' -> grown s s').
  { intros d. destruct (mem s0 d) as [[pa kk]|]; [|discriminate]. destruct kk; try discriminate. apply H. }
  destruct kd; try discriminate; try apply G. destruct (mem s0 query) as [[pa kk]|]; [|discriminate]. destruct kk; try discriminate. apply G.
Qed.
Lemma visit_grown s s0 more s' : same_objs s s0 -> result_state (visit s0 more) = Some s' -> grown s s'.
Proof.
  intros H. unfold visit. destruct (loops s0) as [|[o p] ls]; [intros E; injection E as <-; left; auto|].
  destruct p as [b|]; [|intros E; injection E as <-; left; auto]. apply deref_grown. intros _ kd.
  destruct kd; try discriminate.
  - destruct more; [|intros E; injection E as <-; left; auto]. apply with_db_grown. intros d op pe. apply wrap_grown; auto.
  - destruct more; [|intros E; injection E as <-; left; auto]. apply with_db_grown. intros d op pe. apply wrap_grown; auto.
  - destruct rest; [intros E; injection E as <-; left; auto|]. destruct (in_use (mem s0) owner); [apply wrap_grown; auto|discriminate].
Qed.
Lemma collect_same s ms : forall s0 owner s', same_objs s s0 -> result_state (collect_list s0 owner ms) = Some s' -> same_objs s s'.
Proof.
  induction ms as [|m ms IH]; intros s0 owner s' H; simpl; [intros E; injection E as <-; auto|].
  destruct (in_use (mem s0) owner); [|discriminate]. destruct (mem s0 m) as [ch|]; [|discriminate].
  unfold with_db. 
  assert (G : forall d, result_state (match mem s0 d with Some {| what := KDb op pe |} => collect_list (free s0 m) owner ms | _ => Undefined end) = Some s' -> same_objs s s').
  { intros d. destruct (mem s0 d) as [[pa kk]|]; [|discriminate]. destruct kk; try discriminate. apply IH. destruct H; split; auto. }
  destruct (what ch); try discriminate; try apply G. destruct (mem s0 query) as [[pa kk]|]; [|discriminate]. destruct kk; try discriminate. apply G.
Qed.
Lemma access_cases s o k s' : result_state (access s o k) = Some s' -> s' = s \/ exists r w p, live s o r /\ o_data r = Some w /\ result_state (k r w p) = Some s'.
Proof.
  unfold access. destruct (objs s o) as [r|] eqn:Eo; [|intros E; injection E as <-; auto]. destruct (o_gone r) eqn:Eg; [intros E; injection E as <-; auto|].
  destruct (o_data r) as [w|] eqn:Ew; [|intros E; injection E as <-; auto]. destruct (mem s w) as [ch|]; [|discriminate].
  destruct (what ch); try discriminate. intros E. right. exists r, w, p. split; [split; [auto|split; [auto|congruence]]|auto].
Qed.
(** What an operation does to the objects. *)
Definition ended (r d : obj) (e : event) (o : nat) : Prop :=
  o_cls d = o_cls r /\ o_of d = o_of r /\ o_parent d = o_parent r /\ o_db d = o_db r /\ o_thread d = o_thread r /\
  ((e = Destroy o /\ o_gone d = o_gone r /\ o_data d = None) \/ (e = Collect o /\ o_gone d = true /\ o_data d = o_data r)).
Lemma step_shape s e s' : result_state (step s e) = Some s' ->
  grown s s' \/ exists o r d, objs s o = Some r /\ objs s' = upd (objs s) o (Some d) /\ next_obj s' = next_obj s /\ ended r d e o.
Proof.
  intros E.
  assert (GR' : grown s s' -> grown s s' \/ exists o r d, objs s o = Some r /\ objs s' = upd (objs s) o (Some d) /\ next_obj s' = next_obj s /\ ended r d e o) by auto.
  assert (AC : forall o k, (forall r w p, result_state (k r w p) = Some s' -> grown s s') -> result_state (access s o k) = Some s' -> grown s s').
  { intros o k H H0. apply access_cases in H0. destruct H0 as [->|(r0 & w & p & L & W & H0)]; [apply grown_refl|eauto]. }
  destruct e as [|o m|o top|o|o more|more| |o|o rd|o c|o|o|o]; simpl in E.
  - apply GR'. eapply wrap_grown; [|exact E]. split; auto.
  - apply GR'. revert E. apply AC. intros r0 w p. destruct (makes (o_cls r0) m); [|intros E; injection E as <-; apply grown_refl].
    apply deref_grown. intros b kd. apply with_db_grown. intros d op pe. apply wrap_grown. split; auto.
  - apply GR'. revert E. apply AC. intros r0 w p. destruct (o_cls r0); try (intros E; injection E as <-; apply grown_refl).
    apply deref_grown. intros b kd. destruct kd; try discriminate. destruct (if top then top0 else all); [intros E; injection E as <-; apply grown_refl|].
    apply wrap_grown. split; auto.
  - apply GR'. revert E. apply AC. intros r0 w p. destruct (o_cls r0); try (intros E; injection E as <-; apply grown_refl).
    apply deref_grown. intros b kd. destruct kd; try discriminate. destruct replies; apply wrap_grown; split; auto.
  - apply GR'. revert E. apply AC. intros r0 w p. destruct (o_cls r0); try (intros E; injection E as <-; apply grown_refl); apply visit_grown; split; auto.
  - apply GR'. revert E. unfold continue. destruct (loops s) as [|[o [b|]] ls]; try (intros E; injection E as <-; apply grown_refl).
    apply deref_grown. intros _ kd. destruct kd; try (apply visit_grown; split; auto). destruct rest; [apply visit_grown; split; auto|].
    destruct (in_use (mem s) owner); [|discriminate]. apply visit_grown. apply set_what_same. split; auto.
  - injection E as <-. apply GR'. left. split; auto.
  - apply GR'. revert E. apply AC. intros r0 w p. destruct (o_cls r0); try (intros E; injection E as <-; apply grown_refl).
    apply deref_grown. intros b kd. destruct kd; try discriminate.
    + apply with_db_grown. intros. injection H as <-. apply grown_refl.
    + intros E. left. eapply collect_same; [|exact E]. apply set_what_same. split; auto.
  - apply GR'. revert E. apply AC. intros r0 w p. destruct (o_cls r0); try (intros E; injection E as <-; apply grown_refl);
      (apply deref_grown; intros b kd; destruct rd; [apply with_db_grown; intros d op pe|]; intros E; injection E as <-; apply grown_refl).
  - apply GR'. revert E. apply AC. intros r0 w p. destruct (o_cls r0); try (intros E; injection E as <-; apply grown_refl);
      (apply deref_grown; intros b kd; apply with_db_grown; intros d op pe; destruct op; intros E; injection E as <-; [left; apply set_what_same; split; auto|apply grown_refl]).
  - apply GR'. revert E. apply AC. intros r0 w p. destruct (o_cls r0); try (intros E; injection E as <-; apply grown_refl).
    apply deref_grown. intros b kd E. injection E as <-. left. apply close_same. split; auto.
  - apply access_cases in E. destruct E as [->|(r0 & w & p & L & W & E)]; [apply GR', grown_refl|].
    set (d := {| o_cls := o_cls r0; o_data := None; o_gone := o_gone r0; o_of := o_of r0; o_parent := o_parent r0; o_db := o_db r0; o_thread := o_thread r0 |}) in *.
    assert (X : objs s' = upd (objs s) o (Some d) /\ next_obj s' = next_obj s).
    { destruct p as [b|]; [destruct (in_use (mem s) b); [|discriminate]|]; injection E as <-; simpl; auto.
      destruct (o_cls r0); simpl; auto. destruct (close_frame s b) as (_ & C & C' & _). now rewrite C, C'. }
    right. exists o, r0, d. destruct L as (L & _). split; [auto|]. destruct X. split; [auto|]. split; [auto|]. repeat (split; [auto|]). left. auto.
  - destruct (objs s o) as [r0|] eqn:Eo; [|injection E as <-; apply GR', grown_refl].
    destruct (o_gone r0 || existsb (fun l => fst l =? o) (loops s)); [injection E as <-; apply GR', grown_refl|].
    set (d := {| o_cls := o_cls r0; o_data := o_data r0; o_gone := true; o_of := o_of r0; o_parent := o_parent r0; o_db := o_db r0; o_thread := o_thread r0 |}) in *.
    assert (X : objs s' = upd (objs s) o (Some d) /\ next_obj s' = next_obj s).
    { subst d. destruct (o_data r0) as [w|]; [destruct (in_use (mem s) w); [|discriminate]|]; injection E as <-; simpl; auto. }
    right. exists o, r0, d. split; [auto|]. destruct X. split; [auto|]. split; [auto|]. repeat (split; [auto|]). right. auto.
Qed.
Lemma step_obj s e s' x r : bounded s -> result_state (step s e) = Some s' -> objs s x = Some r ->
  exists r', objs s' x = Some r' /\ (r' = r \/ ended r r' e x).
Proof.
  intros HB E Hx. apply step_shape in E. destruct E as [[(A & B)|(rn & A & B)]|(o & r0 & d & A & B & C & F)].
  - exists r. rewrite A. auto.
  - exists r. rewrite A, upd_other; auto. apply HB in Hx. lia.
  - destruct (Nat.eq_dec x o) as [->|N].
    + exists d. rewrite B, upd_same. assert (r0 = r) by congruence. subst r0. auto.
    + exists r. rewrite B, upd_other; auto.
Qed.
Lemma step_bounded s e s' : bounded s -> result_state (step s e) = Some s' -> bounded s'.
Proof.
  intros HB E x r Hx. apply step_shape in E. destruct E as [[(A & B)|(rn & A & B)]|(o & r0 & d & A & B & C & F)].
  - rewrite B. rewrite A in Hx. apply (HB _ _ Hx).
  - rewrite B. rewrite A in Hx. unfold upd in Hx. destruct (Nat.eqb_spec x (next_obj s)) as [->|N]; [lia|]. apply HB in Hx. lia.
  - rewrite C. rewrite B in Hx. unfold upd in Hx. destruct (Nat.eqb_spec x o) as [->|N]; [apply (HB _ _ A)|]. apply (HB _ _ Hx).
Qed.
Lemma run_step s e es : run s (e :: es) = match result_state (step s e) with Some s1 => run s1 es | None => None end.
Proof. simpl. destruct (step s e); auto. Qed.
Lemma run_bounded es : forall s s', bounded s -> run s es = Some s' -> bounded s'.
Proof.
  induction es as [|e es IH]; intros s s' HB H; [injection H as <-; auto|]. rewrite run_step in H.
  destruct (result_state (step s e)) eqn:E; [|discriminate]. apply (IH s0 s'); auto. eapply step_bounded; eauto.
Qed.
Lemma bounded_empty : bounded empty. Proof. intros x r H. discriminate. Qed.
(** After destroy!. *)
Lemma destroyed_stays es : forall s s' x, bounded s -> run s es = Some s' -> destroyed s x -> destroyed s' x.
Proof.
  induction es as [|e es IH]; intros s s' x HB H Hd; [injection H as <-; auto|]. rewrite run_step in H.
  destruct (result_state (step s e)) eqn:E; [|discriminate]. apply (IH s0 s'); auto; [eapply step_bounded; eauto|].
  destruct Hd as (r & A & B). destruct (step_obj _ _ _ _ _ HB E A) as (r' & C & F). exists r'. split; [auto|].
  destruct F as [->|(_ & _ & _ & _ & _ & [(_ & _ & F)|(_ & _ & F)])]; congruence.
Qed.
Lemma destroyed_raises s e x : destroyed s x -> on e x -> step s e = Raises s.
Proof.
  intros (r & A & B) H. assert (X : forall k, access s x k = Raises s) by (intros k; unfold access; rewrite A, B; destruct (o_gone r); auto).
  destruct e; simpl in H; try contradiction; subst; apply X.
Qed.
Lemma destroy_destroyed s x s' : step s (Destroy x) = Returns s' -> destroyed s' x.
Proof.
  intros E. assert (E' : result_state (step s (Destroy x)) = Some s') by (rewrite E; auto). simpl in E'. apply access_cases in E'.
  destruct E' as [->|(r & w & p & L & W & E')].
  - exfalso. revert E. simpl. unfold access. destruct (objs s x) as [r|] eqn:Ex; [|discriminate]. destruct (o_gone r); [discriminate|].
    destruct (o_data r) as [w|] eqn:Ew; [|discriminate]. destruct (mem s w) as [ch|]; [|discriminate]. destruct (what ch); try discriminate.
    intros E. assert (X : exists d, objs s x = Some d /\ o_data d = None); [|destruct X as (d & X & Y); congruence].
    destruct p as [b|]; [destruct (in_use (mem s) b); [|discriminate]|]; injection E as E; rewrite <- E; simpl; rewrite upd_same; eauto.
  - destruct p as [b|]; [destruct (in_use (mem s) b); [|discriminate]|]; injection E' as <-; unfold destroyed; simpl; rewrite upd_same; eauto.
Qed.
