(** For C95, continued: changes reach the disk; and a way to compute whether a program is tidy. *)
From Verif Require Import RbLife RbLifeSpec RbLifeProofs RbLifeProofs5 RbLifeProofs6 RbLifeProofs7 RbLifeProofs8 RbLifeProofs9 RbLifeProofs10.
From Coq Require Import Arith Bool List Lia.
Import ListNotations.
Local Open Scope nat_scope.

Definition kept_change (c x : nat) (s : state) : Prop :=
  (exists r, objs s x = Some r) /\
  (In c (disk s) \/ forall r, live s x r -> o_cls r = Database /\ exists p pa op pe, o_of r = Some p /\ mem s p = Some {| parent := pa; what := KDb op pe |} /\ In c pe).
Lemma live_back s e s' x r r0 : bounded s -> result_state (step s e) = Some s' -> objs s x = Some r0 -> live s' x r -> live s x r.
Proof.
  intros HB E Hx (A & B & C). destruct (step_obj _ _ _ _ _ HB E Hx) as (r' & A' & [->|F]).
  - assert (r0 = r) by congruence. subst. split; auto.
  - assert (r' = r) by congruence. subst r'. destruct F as (_ & _ & _ & _ & _ & [(_ & _ & F)|(_ & F & _)]); congruence.
Qed.
Lemma kept_step s e s' c x : G None s -> result_state (step s e) = Some s' -> kept_change c x s -> kept_change c x s'.
Proof.
  intros HG E ((r0 & Hx) & H). destruct (step_G' _ _ _ HG E) as (HG' & R1 & R2). split.
  - destruct (step_obj _ _ _ _ _ (g_bound _ _ HG) E Hx) as (r' & A & _). eauto.
  - destruct H as [H|H]; [left; auto|].
    destruct (objs s' x) as [r1|] eqn:E1; [|right; intros r (A & _); congruence].
    destruct (o_gone r1) eqn:Eg; [right; intros r (A & B & _); congruence|]. destruct (o_data r1) as [w|] eqn:Ew; [|right; intros r (A & _ & B); congruence].
    assert (L' : live s' x r1) by (split; [auto|split; [auto|congruence]]). pose proof (live_back _ _ _ _ _ _ (g_bound _ _ HG) E Hx L') as L.
    destruct (H _ L) as (Hc & p & pa & op & pe & A & B & C). destruct (R2 _ _ _ _ _ _ L L' Hc A B) as (op' & pe' & F1 & F2). destruct (F2 _ C) as [F|F]; [right|auto].
    intros r L2. assert (r = r1) by (destruct L2; congruence). subst r. split; [auto|]. exists p, pa, op', pe'. auto.
Qed.
Lemma kept_run es : forall s s' c x, G None s -> run s es = Some s' -> kept_change c x s -> kept_change c x s'.
Proof.
  induction es as [|e es IH]; intros s s' c x HG H K; [injection H as <-; auto|]. rewrite run_step in H.
  destruct (result_state (step s e)) eqn:E; [|discriminate]. apply (IH s0 s' c x); auto; [eapply step_G'; eauto|eapply kept_step; eauto].
Qed.
Lemma disk_run es : forall s s' c, G None s -> run s es = Some s' -> In c (disk s) -> In c (disk s').
Proof.
  induction es as [|e es IH]; intros s s' c HG H K; [injection H as <-; auto|]. rewrite run_step in H.
  destruct (result_state (step s e)) eqn:E; [|discriminate]. destruct (step_G' _ _ _ HG E) as (A & B & _). apply (IH s0 s' c); auto.
Qed.
Lemma access_returns s o k s' : access s o k = Returns s' -> G None s -> exists r w, live s o r /\ o_data r = Some w /\ k r w (o_of r) = Returns s'.
Proof.
  unfold access. destruct (objs s o) as [r|] eqn:Eo; [|discriminate]. destruct (o_gone r) eqn:Eg; [discriminate|]. destruct (o_data r) as [w|] eqn:Ew; [|discriminate].
  intros H HG. assert (L : live s o r) by (split; [auto|split; [auto|congruence]]). destruct (g_live _ _ HG _ _ L) as (w' & A & B). assert (w' = w) by congruence. subst w'.
  rewrite B in H. simpl in H. eauto.
Qed.
Lemma closed_kept s e s' c x : G None s -> kept_change c x s -> (e = Close x \/ e = Destroy x) -> step s e = Returns s' -> In c (disk s').
Proof.
  intros HG K He E. pose proof K as (_ & K'). destruct K' as [K'|K'].
  - pose proof (step_G s e HG) as X. rewrite E in X. destruct X as (_ & X & _). auto.
  - destruct He as [->| ->]; simpl in E; apply access_returns in E; auto; destruct E as (r & w & L & W & E); destruct (K' _ L) as (Hc & p & pa & op & pe & A & B & C); rewrite Hc, A in E.
    + unfold deref in E. rewrite B in E. injection E as <-. destruct (close_db _ _ _ _ _ B) as (_ & ->). apply in_or_app. auto.
    + unfold in_use in E. rewrite B in E. injection E as <-. simpl. destruct (close_db _ _ _ _ _ B) as (_ & ->). apply in_or_app. auto.
Qed.
Lemma set_kept s c x r d pa pe op : live s x r -> o_cls r = Database -> o_of r = Some d -> mem s d = Some {| parent := pa; what := KDb op pe |} ->
  kept_change c x (set_what s d (KDb op (c :: pe))).
Proof.
  intros L Hc Ho E. pose proof (proj1 L) as L0. split; [rewrite set_what_objs; eauto|]. right. intros r' L'. rewrite live_set_what in L'. assert (r' = r) by (destruct L'; congruence). subst r'. split; [auto|].
  exists d, pa, op, (c :: pe). split; [auto|]. unfold set_what. rewrite E. simpl. rewrite upd_same. auto.
Qed.
Lemma write_kept_db s x r c s1 : G None s -> objs s x = Some r -> o_cls r = Database -> step s (Write x c) = Returns s1 -> kept_change c x s1.
Proof.
  intros HG Hx Hc E. simpl in E. apply access_returns in E; auto. destruct E as (r' & w & L & W & E). assert (r' = r) by (destruct L; congruence). subst r'. rewrite Hc in E.
  destruct (g_db _ _ HG _ _ L ltac:(discriminate) Hc) as (p & op & pe & A & B). rewrite A in E. unfold deref, with_db in E. rewrite B in E. simpl in E.
  destruct op; [|discriminate]. injection E as <-. eapply set_kept; eauto.
Qed.
Lemma write_kept s o r c s1 : D s -> G None s -> objs s o = Some r -> step s (Write o c) = Returns s1 -> kept_change c (o_db r) s1.
Proof.
  intros HD HG Hx E. simpl in E. apply access_returns in E; auto. destruct E as (r' & w & L & W & E). assert (r' = r) by (destruct L; congruence). subst r'.
  destruct (d_live _ HD _ _ L) as (w' & _ & _ & F).
  assert (X : o_cls r = Database \/ o_cls r = Message \/ o_cls r = Directory) by (destruct (o_cls r); auto; discriminate).
  destruct (o_of r) as [p|] eqn:Eo; [|destruct F as (F & _); rewrite F in X; destruct X as [X|[X|X]]; discriminate].
  destruct F as (k & F1 & F2). unfold fits in F2.
  assert (Y : exists d, with_db s p k (fun d op pe => if op then Returns (set_what s d (KDb op (c :: pe))) else Raises s) = Returns s1 /\
              (forall kk, with_db s p k kk = match mem s d with Some {| what := KDb op pe |} => kk d op pe | _ => Undefined end) /\ dbof s r d).
  { unfold deref in E. rewrite F1 in E. simpl in E. destruct X as [X|[X|X]]; rewrite X in *; destruct k; try contradiction.
    - exists p. split; [auto|]. split; [auto|]. unfold dbof. rewrite F2. exists r. auto.
    - exists db. split; [auto|]. split; [auto|]. tauto.
    - exists db. auto. }
  destruct Y as (d & Y1 & Y2 & rd & Y3 & Y4 & Y5). rewrite Y2 in Y1. destruct (mem s d) as [[pa kk]|] eqn:Ed; [|discriminate]. destruct kk; try discriminate.
  destruct is_open; [|discriminate]. injection Y1 as <-. eapply set_kept; eauto.
Qed.

(** *** Is a program tidy? *)
Definition every (s : state) (f : nat -> obj -> bool) : bool := forallb (fun x => match objs s x with Some r => f x r | None => true end) (seq 0 (next_obj s)).
Lemma every_ok s f : bounded s -> every s f = true -> forall x r, objs s x = Some r -> f x r = true.
Proof.
  intros HB H x r Hx. unfold every in H. rewrite forallb_forall in H. specialize (H x). rewrite Hx in H. apply H. apply in_seq. apply HB in Hx. lia.
Qed.
Definition liveb (r : obj) : bool := negb (o_gone r) && match o_data r with Some _ => true | None => false end.
Lemma live_liveb s x r : live s x r -> liveb r = true.
Proof. intros (_ & A & B). unfold liveb. rewrite A. destruct (o_data r); auto. Qed.
Definition eqo (a : option nat) (b : nat) : bool := match a with Some a => a =? b | None => false end.
Lemma eqo_true a b : a = Some b -> eqo a b = true. Proof. intros ->. apply Nat.eqb_refl. Qed.
Definition is_threads (c : cls) : bool := match c with Threads => true | _ => false end.
Definition may_gob (s : state) (o : nat) : bool :=
  match objs s o with
  | None => true
  | Some r => match o_cls r with
    | Database => every s (fun x rx => negb (liveb rx) || negb (o_db rx =? o) || (x =? o))
    | Query => every s (fun x rx => negb (liveb rx) || negb (is_threads (o_cls rx)) || negb (eqo (o_parent rx) o))
    | Thread => every s (fun x rx => negb (liveb rx) || negb (eqo (o_thread rx) o))
    | Message => every s (fun x rx => negb (liveb rx) || negb (eqo (o_parent rx) o))
    | Threads | Messages => negb (existsb (fun l => fst l =? o) (loops s))
    | Directory => true
    end
  end.
Lemma may_gob_ok s o : bounded s -> may_gob s o = true -> may_go s o.
Proof.
  intros HB H r Hr. unfold may_gob in H. rewrite Hr in H.
  assert (LP : negb (existsb (fun l : nat * option block => fst l =? o) (loops s)) = true -> ~ In o (map fst (loops s))).
  { intros X Y. apply negb_true_iff in X. apply in_map_iff in Y. destruct Y as ((a & b) & Y1 & Y2). simpl in Y1. subst a.
    assert (Z : existsb (fun l : nat * option block => fst l =? o) (loops s) = true) by (apply existsb_exists; exists (o, b); split; [auto|apply Nat.eqb_refl]). congruence. }
  destruct (o_cls r); auto.
  - intros x rx L E. pose proof (every_ok _ _ HB H x rx (proj1 L)) as X. simpl in X. rewrite (live_liveb _ _ _ L), E, Nat.eqb_refl in X. apply Nat.eqb_eq in X. auto.
  - intros x rx L Ec E. pose proof (every_ok _ _ HB H x rx (proj1 L)) as X. simpl in X. rewrite (live_liveb _ _ _ L), Ec, (eqo_true _ _ E) in X. discriminate.
  - intros x rx L E. pose proof (every_ok _ _ HB H x rx (proj1 L)) as X. simpl in X. rewrite (live_liveb _ _ _ L), (eqo_true _ _ E) in X. discriminate.
  - intros x rx L E. pose proof (every_ok _ _ HB H x rx (proj1 L)) as X. simpl in X. rewrite (live_liveb _ _ _ L), (eqo_true _ _ E) in X. discriminate.
Qed.
Definition tidyb (s : state) (e : event) : bool :=
  match e with
  | Destroy o | Collect o => may_gob s o
  | Each _ _ | Continue _ => match fetches s e with Some m => every s (fun _ r => negb (eqo (o_of r) m)) | None => true end
  | Tags o => match objs s o with
              | Some r => match o_parent r with
                          | Some q => match objs s q with Some rq => match o_cls rq with Query => true | _ => false end | None => false end
                          | None => false
                          end
              | None => true
              end
  | _ => true
  end.
Lemma tidyb_ok s e : bounded s -> tidyb s e = true -> tidy s e.
Proof.
  intros HB H. destruct e; try exact I; try (apply may_gob_ok; auto).
  - unfold tidy, tidyb in *. intros m E x r Hx Ho. rewrite E in H. pose proof (every_ok _ _ HB H x r Hx) as X. simpl in X. rewrite (eqo_true _ _ Ho) in X. discriminate.
  - unfold tidy, tidyb in *. intros m E x r Hx Ho. rewrite E in H. pose proof (every_ok _ _ HB H x r Hx) as X. simpl in X. rewrite (eqo_true _ _ Ho) in X. discriminate.
  - simpl in *. intros r Hr. rewrite Hr in H. destruct (o_parent r) as [q|]; [|discriminate]. destruct (objs s q) as [rq|] eqn:Eq; [|discriminate]. destruct (o_cls rq) eqn:Ec; try discriminate.
    exists q, rq. auto.
Qed.
Fixpoint followsb (s : state) (es : list event) : bool :=
  match es with
  | [] => true
  | e :: es => tidyb s e && match step s e with Returns s1 | Raises s1 => followsb s1 es | Undefined => true end
  end.
Lemma followsb_ok es : forall s, bounded s -> followsb s es = true -> follows tidy s es.
Proof.
  induction es as [|e es IH]; intros s HB H; [exact I|]. simpl in H. apply andb_true_iff in H. destruct H as (A & B). split; [apply tidyb_ok; auto|].
  pose proof (step_bounded s e) as X. destruct (step s e); auto; apply IH; auto; apply X; auto.
Qed.
