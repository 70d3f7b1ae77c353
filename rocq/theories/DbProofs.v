(** Lemmas about the freeze/atomic/durability model. *)
From Verif Require Import Bytes Terms Meta MetaProofs DocMap Db DbSpec.
Local Open Scope N_scope.

Lemma dput_same {V} k (v : V) m : dget k m = Some v -> dput k v m = m.
Proof.
  induction m as [|[j w] m IH]; cbn; [discriminate|].
  destruct (N.eqb_spec k j) as [->|]; [intros [= ->]; reflexivity|]. intros H. now rewrite IH.
Qed.

Definition core (s : db) : db := set_handles [] s.
Definition b2n (b : bool) : N := if b then 1 else 0.

(** The state after writing document [k]. *)
Definition written (k : N) (terms : list bytes) (s : db) : db :=
  set_vis (store_put k {| d_terms := terms; d_lastmod := revision s + 1 |} (vis s))
    (match nesting s with O => set_rev (revision s + 1) s | S _ => set_dirty true s end).

Definition touch (s s' : db) : Prop :=
  core s' = core s \/
  (writable s = true /\ isopen s = true /\ exists k terms, core s' = core (written k terms s)).

Lemma ensure_writable_success s : ensure_writable s = St_success <-> writable s = true /\ isopen s = true.
Proof. unfold ensure_writable. destruct (writable s), (isopen s); cbn; intuition congruence. Qed.

Lemma message_sync_eq h s :
  message_sync h s =
  if writable s && h_modified h
  then ({| h_doc := h_doc h; h_terms := h_terms h; h_modified := false; h_frozen := h_frozen h |},
        written (h_doc h) (h_terms h) s)
  else (h, s).
Proof.
  unfold message_sync, new_revision, written. destruct (writable s) eqn:Ew; cbn [negb andb]; [|reflexivity].
  destruct (h_modified h); cbn [negb]; [|reflexivity]. destruct (nesting s); reflexivity.
Qed.

Lemma touch_refl s : touch s s. Proof. now left. Qed.
Lemma touch_handles s s' hs : touch s s' -> touch s (set_handles hs s').
Proof. intros [H|H]; [left|right]; exact H. Qed.

Lemma message_sync_touch h s : isopen s = true -> touch s (snd (message_sync h s)).
Proof.
  intros Ho. rewrite message_sync_eq. destruct (writable s) eqn:Ew; cbn [andb]; [|apply touch_refl].
  destruct (h_modified h); [|apply touch_refl]. right. cbn. eauto 6.
Qed.
Lemma sync_unless_frozen_touch h s : isopen s = true -> touch s (snd (sync_unless_frozen h s)).
Proof.
  intros Ho. unfold sync_unless_frozen. destruct (h_frozen h); [now apply message_sync_touch|apply touch_refl].
Qed.

Definition handle_op (o : op) : option N :=
  match o with
  | OpAddTag h _ | OpRemTag h _ | OpRemAll h | OpFreeze h | OpThaw h | OpSync h
  | OpAddProp h _ _ | OpRemProp h _ _ | OpRemProps h _ _ => Some h
  | _ => None
  end.

Lemma on_handle_touch h f s :
  (forall hd, touch s (snd (f hd s))) -> touch s (snd (on_handle h f s)).
Proof.
  intros H. unfold on_handle. destruct (dget h (handles s)) as [hd|]; [|apply touch_refl].
  specialize (H hd). destruct (f hd s) as [[st hd'] s']. cbn [snd] in *. now apply touch_handles.
Qed.

Lemma step_touch o s h : handle_op o = Some h -> touch s (snd (step o s)).
Proof.
  assert (K : forall (f : handle -> db -> handle * db) hd st,
     (isopen s = true -> touch s (snd (f hd s))) ->
     isopen s = true -> touch s (snd (let '(h1, s1) := f hd s in (st : status, h1, s1)))).
  { intros f hd st H Ho. destruct (f hd s) as [h1 s1] eqn:E. cbn in *. now apply H. }
  destruct o; cbn [handle_op step]; intros E; try discriminate; apply on_handle_touch; intros hd.
  - unfold add_tag. destruct (ensure_writable s) eqn:Ew; try apply touch_refl.
    apply ensure_writable_success in Ew as [Ew Eo]. destruct (Nat.ltb _ _); [apply touch_refl|].
    pose proof (sync_unless_frozen_touch (h_add_term (tag_term t) hd) s Eo) as T.
    destruct (sync_unless_frozen _ s). exact T.
  - unfold remove_tag. destruct (ensure_writable s) eqn:Ew; try apply touch_refl.
    apply ensure_writable_success in Ew as [Ew Eo]. destruct (Nat.ltb _ _); [apply touch_refl|].
    pose proof (sync_unless_frozen_touch (h_remove_term (tag_term t) hd) s Eo) as T.
    destruct (sync_unless_frozen _ s). exact T.
  - unfold remove_all_tags. destruct (ensure_writable s) eqn:Ew; try apply touch_refl.
    apply ensure_writable_success in Ew as [Ew Eo].
    match goal with |- context [sync_unless_frozen ?x s] =>
      pose proof (sync_unless_frozen_touch x s Eo) as T; destruct (sync_unless_frozen x s) end. exact T.
  - unfold freeze. destruct (ensure_writable s); apply touch_refl.
  - unfold thaw. destruct (ensure_writable s) eqn:Ew; try apply touch_refl.
    apply ensure_writable_success in Ew as [Ew Eo].
    destruct (h_frozen hd) as [|[|n]]; try apply touch_refl.
    match goal with |- context [message_sync ?x s] =>
      pose proof (message_sync_touch x s Eo) as T; destruct (message_sync x s) end. exact T.
  - unfold modify_property. destruct (ensure_writable s) eqn:Ew; try apply touch_refl.
    apply ensure_writable_success in Ew as [Ew Eo]. destruct (mem _ _); [apply touch_refl|].
    cbv zeta. destruct (Nat.ltb _ _); [apply touch_refl|].
    match goal with |- context [sync_unless_frozen ?x s] =>
      pose proof (sync_unless_frozen_touch x s Eo) as T; destruct (sync_unless_frozen x s) end. exact T.
  - unfold modify_property. destruct (ensure_writable s) eqn:Ew; try apply touch_refl.
    apply ensure_writable_success in Ew as [Ew Eo]. destruct (mem _ _); [apply touch_refl|].
    cbv zeta. destruct (Nat.ltb _ _); [apply touch_refl|].
    match goal with |- context [sync_unless_frozen ?x s] =>
      pose proof (sync_unless_frozen_touch x s Eo) as T; destruct (sync_unless_frozen x s) end. exact T.
  - unfold remove_all_properties. destruct (ensure_writable s) eqn:Ew; try apply touch_refl.
    apply ensure_writable_success in Ew as [Ew Eo]. cbv zeta.
    match goal with |- context [sync_unless_frozen ?x s] =>
      pose proof (sync_unless_frozen_touch x s Eo) as T; destruct (sync_unless_frozen x s) end. exact T.
  - destruct (ensure_writable s) eqn:Ew; try apply touch_refl.
    apply ensure_writable_success in Ew as [Ew Eo].
    match goal with |- context [message_sync ?x s] =>
      pose proof (message_sync_touch x s Eo) as T; destruct (message_sync x s) end. exact T.
Qed.

(** Fields through [core]. *)
Lemma core_fields s s' : core s = core s' ->
  vis s = vis s' /\ durable s = durable s' /\ in_txn s = in_txn s' /\ nesting s = nesting s' /\
  dirty s = dirty s' /\ revision s = revision s' /\ writable s = writable s' /\ isopen s = isopen s' /\
  threshold s = threshold s'.
Proof. destruct s, s'. unfold core, set_handles. cbn. intros H. injection H. intros. subst. repeat split. Qed.

(** Run. *)
Lemma run_app p q s : run (p ++ q) s = run q (run p s).
Proof. apply fold_left_app. Qed.
Lemma run_snoc p o s : run (p ++ [o]) s = snd (step o (run p s)).
Proof. now rewrite run_app. Qed.
Lemma run_cons o p s : run (o :: p) s = run p (snd (step o s)).
Proof. reflexivity. Qed.

Lemma proper_prefix s p q : proper s (p ++ q) -> proper s p.
Proof. intros H a b rw ->. apply (H a (b ++ q) rw). now rewrite <- app_assoc. Qed.
Lemma proper_nil s : proper s []. Proof. intros [|] q rw; discriminate. Qed.

(** The main invariant. *)
Record Inv (s : db) : Prop := {
  iv_txn : in_txn s = true -> writable s = true /\ (0 < nesting s)%nat /\ isopen s = true;
  iv_nest : writable s = true -> isopen s = true -> (0 < nesting s)%nat -> in_txn s = true;
  iv_dirty : dirty s = true -> (0 < nesting s)%nat;
  iv_ro : writable s = false -> dirty s = false;
  iv_vis : store_ok (vis s);
  iv_dur : store_ok (durable s);
  iv_vub : st_ub (vis s) <= revision s + b2n (dirty s);
  iv_dub : st_ub (durable s) <= revision s }.

Lemma Inv_core s s' : core s = core s' -> Inv s -> Inv s'.
Proof.
  intros H [A B C R D E F G]. apply core_fields in H as (H1 & H2 & H3 & H4 & H5 & H6 & H7 & H8 & _).
  constructor; rewrite <- ?H1, <- ?H2, <- ?H3, <- ?H4, <- ?H5, <- ?H6, <- ?H7, <- ?H8; assumption.
Qed.
Lemma In_dput {V} k (v : V) m j w : In (j, w) (dput k v m) -> (j = k /\ w = v) \/ In (j, w) m.
Proof.
  induction m as [|[i u] m IH]; cbn.
  - intros [[= -> ->]|[]]. auto.
  - destruct (N.eqb k i); cbn; [intros [[= -> ->]|H]; auto|intros [H|H]; [auto|]].
    apply IH in H as [H|H]; auto.
Qed.
Lemma In_ddel {V} k (m : docmap V) j w : In (j, w) (ddel k m) -> In (j, w) m.
Proof.
  induction m as [|[i u] m IH]; cbn; [auto|]. destruct (N.eqb k i); cbn; [auto|intros [H|H]; auto].
Qed.
Lemma store_put_ok k d st : store_ok st -> store_ok (store_put k d st).
Proof.
  intros H j e He. unfold store_put in *. cbn in *. apply In_dput in He as [[-> ->]|He]; [lia|].
  apply H in He. lia.
Qed.
Lemma max_lastmod_get m k d : In (k, d) m -> d_lastmod d <= max_lastmod m.
Proof.
  induction m as [|[j e] m IH]; cbn; [tauto|]. intros [[= -> ->]|H]; [lia|apply IH in H; lia].
Qed.
Lemma max_lastmod_le m b : (forall k d, In (k, d) m -> d_lastmod d <= b) -> max_lastmod m <= b.
Proof.
  induction m as [|[j e] m IH]; cbn; intros H; [lia|].
  pose proof (H j e (or_introl eq_refl)). specialize (IH (fun k d Hk => H k d (or_intror Hk))). lia.
Qed.
Lemma store_del_ok k ub st : store_ok (store_del k ub st).
Proof. intros j e H. unfold store_del in *. cbn in *. apply max_lastmod_get in H. lia. Qed.
Lemma store_del_ub k ub st : store_ok st -> st_ub (store_del k ub st) <= st_ub st.
Proof.
  intros H. unfold store_del. cbn. apply N.max_lub; [|lia].
  apply max_lastmod_le. intros j d Hd. apply In_ddel in Hd. eauto.
Qed.

Lemma written_Inv k terms s : writable s = true -> isopen s = true -> Inv s -> Inv (written k terms s).
Proof.
  intros Hw Ho [A B C R D E F G]. unfold written.
  destruct (nesting s) as [|n] eqn:En; constructor; cbn; rewrite ?En; auto; try apply store_put_ok; auto; try lia; try congruence;
    destruct (dirty s); cbn in *; try specialize (C eq_refl); lia.
Qed.
Lemma touch_Inv s s' : touch s s' -> Inv s -> Inv s'.
Proof.
  intros [H|(Hw & Ho & k & t & H)] I.
  - symmetry in H. now apply (Inv_core s).
  - symmetry in H. apply (Inv_core _ _ H). now apply written_Inv.
Qed.
Lemma open_db_Inv st thr rw : store_ok st -> Inv (open_db st thr rw).
Proof. intros H. constructor; cbn; auto; try discriminate; lia. Qed.

Ltac iv := cbn in *; auto; try discriminate; try lia; try (intros; intuition (auto; try congruence; try lia)).
Lemma close_Inv s : Inv s -> Inv (close s).
Proof.
  intros I; pose proof I as [A B C R D E F G]. unfold close. destruct (isopen s) eqn:Eo; [|exact I].
  destruct (writable s) eqn:Ew.
  - assert (X : in_txn s = false -> dirty s = false).
    { intros Ht. destruct (dirty s); [|reflexivity]. rewrite (B eq_refl eq_refl (C eq_refl)) in Ht. discriminate. }
    destruct (in_txn s) eqn:Et; constructor; cbn; rewrite ?Ew; try rewrite (X eq_refl) in *; iv.
  - constructor; cbn; rewrite ?Ew; iv.
Qed.

Lemma begin_Inv s : Inv s -> Inv (snd (begin_atomic s)).
Proof.
  intros I; pose proof I as [A B C R D E F G]. unfold begin_atomic. destruct (writable s) eqn:Ew; cbn [negb orb].
  - destruct (Nat.ltb_spec 0 (nesting s)).
    + constructor; cbn; rewrite ?Ew; iv.
    + destruct (isopen s) eqn:Eo; cbn [negb orb]; [|exact I].
      destruct (in_txn s) eqn:Et; [exact I|].
      constructor; cbn; rewrite ?Ew, ?Eo; iv.
  - constructor; cbn; rewrite ?Ew; iv.
Qed.

Lemma end_Inv fe s : Inv s -> Inv (snd (end_atomic fe s)).
Proof.
  intros I. pose proof I as [A B C R D E F G]. unfold end_atomic. destruct (nesting s) as [|n] eqn:En; [exact I|].
  destruct (writable s) eqn:Ew; cbn [negb orb].
  - destruct (Nat.ltb_spec 0 n).
    + constructor; cbn; rewrite ?Ew; iv.
    + destruct (isopen s) eqn:Eo; cbn [negb orb]; [|exact I].
      destruct (in_txn s) eqn:Et; cbn [negb]; [|exact I]. assert (n = O) by lia. subst n.
      set (fl := ((Nat.ltb 0 _ && _) || fe)%bool). clearbody fl.
      destruct fl; cbn; destruct (dirty s) eqn:Ed; cbn in *;
        constructor; cbn; rewrite ?Ew, ?Eo, ?Ed; iv.
  - constructor; cbn; rewrite ?Ew; iv.
Qed.

Lemma reopen_Inv rw s : nesting s = O -> Inv s -> Inv (snd (reopen rw s)).
Proof.
  intros Hn I. unfold reopen.
  assert (K : forall t, nesting t = O -> in_txn t = false -> dirty t = false -> isopen t = true -> store_ok (durable t) ->
    vis t = durable t -> Inv (set_rev (st_ub (vis t)) t)).
  { intros t Nt Tt Dt Ot St Vt. constructor; cbn; rewrite ?Nt, ?Tt, ?Dt, ?Vt; auto; try discriminate; cbn; lia. }
  assert (Hd : dirty s = false). { destruct (dirty s) eqn:Ed; [|reflexivity]. apply (iv_dirty _ I) in Ed. lia. }
  assert (Ht : in_txn s = false). { destruct (in_txn s) eqn:Ed; [|reflexivity]. apply (iv_txn _ I) in Ed. lia. }
  destruct (negb (writable s) && negb rw && isopen s) eqn:E.
  - cbn [snd]. apply andb_true_iff in E as [_ E]. apply K; cbn; auto. apply (iv_dur _ I).
  - pose proof (close_Inv s I) as I'. cbn [snd]. apply K; cbn; auto; try apply (iv_dur _ I').
    all: unfold close; destruct (isopen s); auto; destruct (writable s); auto; rewrite Ht; auto.
Qed.

Lemma step_Inv o s : (forall rw, o = OpReopen rw -> nesting s = O) -> Inv s -> Inv (snd (step o s)).
Proof.
  intros Hp I. destruct (handle_op o) as [h|] eqn:Eh.
  - now apply (touch_Inv s), I; apply (step_touch o s h).
  - destruct o; cbn [handle_op] in Eh; try discriminate; cbn [step].
    + now apply begin_Inv.
    + now apply end_Inv.
    + destruct (writable s && isopen s && negb (in_txn s)) eqn:E; [|exact I]. cbn.
      rewrite !andb_true_iff, negb_true_iff in E. destruct E as [[Ew Eo] Et].
      pose proof I as [A B C R D E F G]. constructor; cbn; auto.
      destruct (dirty s) eqn:Ed; cbn in *; [|lia]. rewrite (B Ew Eo (C eq_refl)) in Et. discriminate.
    + now apply close_Inv.
    + apply reopen_Inv; eauto.
    + apply open_db_Inv. apply (iv_dur _ I).
    + unfold open_message. destruct (dget k _); [|exact I]. cbn. now apply (Inv_core s).
    + cbn. now apply (Inv_core s).
    + destruct (ensure_writable s); try exact I. cbn. pose proof I as [A B C R D E F G].
      pose proof (store_del_ub k ub (vis s) D) as L.
      constructor; try assumption; [apply store_del_ok|exact (N.le_trans _ _ _ L F)].
Qed.

Lemma run_Inv ops s : proper s ops -> Inv s -> Inv (run ops s).
Proof.
  intros Hp I. induction ops as [|o ops IH] using rev_ind; [exact I|].
  rewrite run_snoc. apply step_Inv.
  - intros rw ->. apply (Hp ops [] rw). reflexivity.
  - apply IH. now apply proper_prefix in Hp.
Qed.

(** Durability. *)
Lemma touch_durable s s' : touch s s' -> durable s' = durable s.
Proof.
  intros [H|(_ & _ & k & t & H)]; apply core_fields in H as (_ & H & _); rewrite H; [reflexivity|].
  unfold written. now destruct (nesting s).
Qed.
Lemma touch_nesting s s' : touch s s' -> nesting s' = nesting s.
Proof.
  intros [H|(_ & _ & k & t & H)]; apply core_fields in H as (_ & _ & _ & H & _); rewrite H; [reflexivity|].
  unfold written. destruct (nesting s) eqn:E; exact E.
Qed.

Lemma close_durable s : Inv s -> durable (close s) = durable s \/ (durable (close s) = vis s /\ nesting s = O).
Proof.
  intros I. unfold close. destruct (isopen s) eqn:Eo; [|now left]. destruct (writable s) eqn:Ew; [|now left].
  destruct (in_txn s) eqn:Et; [now left|]. right. split; [reflexivity|].
  destruct (nesting s) eqn:En; [reflexivity|]. rewrite (iv_nest _ I Ew Eo) in Et; [discriminate|lia].
Qed.

Lemma step_durable o s : Inv s ->
  durable (snd (step o s)) = durable s \/
  (durable (snd (step o s)) = vis s /\ nesting s = O) \/
  (durable (snd (step o s)) = vis (snd (step o s)) /\ nesting (snd (step o s)) = O).
Proof.
  intros I. destruct (handle_op o) as [h|] eqn:Eh.
  - left. apply touch_durable. now apply (step_touch o s h).
  - destruct o; cbn [handle_op] in Eh; try discriminate; cbn [step].
    + left. unfold begin_atomic. destruct (negb (writable s) || _); [reflexivity|].
      destruct (negb (isopen s) || in_txn s); reflexivity.
    + unfold end_atomic. destruct (nesting s) as [|n] eqn:En; [now left|].
      destruct (writable s) eqn:Ew; cbn [negb orb]; [|now left].
      destruct (Nat.ltb_spec 0 n); [now left|]. assert (n = O) by lia. subst n.
      destruct (negb (isopen s) || negb (in_txn s)); [now left|].
      set (fl := ((Nat.ltb 0 _ && _) || flush_env)%bool). clearbody fl.
      destruct fl; [right; right|left]; cbn; destruct (dirty s); cbn; auto.
    + destruct (writable s && isopen s && negb (in_txn s)) eqn:E; [|now left]. cbn.
      rewrite !andb_true_iff, negb_true_iff in E. destruct E as [[Ew Eo] Et]. right. left. split; [reflexivity|].
      destruct (nesting s) eqn:En; [reflexivity|]. rewrite (iv_nest _ I Ew Eo) in Et; [discriminate|lia].
    + cbn [snd]. destruct (close_durable s I) as [H|H]; auto.
    + unfold reopen. destruct (negb (writable s) && negb rw && isopen s); cbn [snd]; [now left|].
      destruct (close_durable s I) as [H|[H Hn]]; [left|right; left]; cbn; auto.
    + now left.
    + left. unfold open_message. now destruct (dget k _).
    + now left.
    + left. now destruct (ensure_writable s).
Qed.

Lemma durable_history st thr rw ops : store_ok st -> proper (open_db st thr rw) ops ->
  exists p q, ops = p ++ q /\ durable (run ops (open_db st thr rw)) = vis (run p (open_db st thr rw)) /\
              nesting (run p (open_db st thr rw)) = O.
Proof.
  intros Hst. set (s0 := open_db st thr rw). assert (I0 : Inv s0) by now apply open_db_Inv.
  induction ops as [|o ops IH] using rev_ind; intros Hp.
  - exists [], []. repeat split.
  - pose proof (proper_prefix _ _ _ Hp) as Hp'. pose proof (run_Inv ops s0 Hp' I0) as I.
    destruct (IH Hp') as (p & q & -> & H1 & H2). rewrite run_snoc.
    destruct (step_durable o _ I) as [H|[[H Hn]|[H Hn]]].
    + exists p, (q ++ [o]). rewrite <- app_assoc. repeat split; congruence.
    + exists (p ++ q), [o]. repeat split; auto.
    + exists ((p ++ q) ++ [o]), []. rewrite app_nil_r. repeat split; rewrite ?run_snoc; auto.
Qed.

(** Inside an open section nothing becomes durable. *)
Lemma section_durable ops s : Inv s -> proper s ops ->
  (forall p q, ops = p ++ q -> (0 < nesting (run p s))%nat) -> durable (run ops s) = durable s.
Proof.
  intros I. induction ops as [|o ops IH] using rev_ind; intros Hp Hn; [reflexivity|].
  rewrite run_snoc. pose proof (proper_prefix _ _ _ Hp) as Hp'. pose proof (run_Inv ops s Hp' I) as I'.
  assert (IH' : durable (run ops s) = durable s).
  { apply IH; auto. intros p q E. apply (Hn p (q ++ [o])). now rewrite app_assoc, E. }
  pose proof (Hn ops [o] eq_refl) as N1. pose proof (Hn (ops ++ [o]) [] (eq_sym (app_nil_r _))) as N2.
  rewrite run_snoc in N2. destruct (step_durable o _ I') as [H|[[H H']|[H H']]]; [congruence|lia|lia].
Qed.

(** Revisions inside a section. *)
Lemma section_step o s :
  (forall rw, o <> OpReopen rw) -> o <> OpClose -> (forall rw, o <> OpCrash rw) ->
  (0 < nesting s)%nat -> (0 < nesting (snd (step o s)))%nat ->
  revision (snd (step o s)) = revision s /\ threshold (snd (step o s)) = threshold s /\
  writable (snd (step o s)) = writable s /\ isopen (snd (step o s)) = isopen s /\
  (forall k d, dget k (st_docs (vis (snd (step o s)))) = Some d ->
     dget k (st_docs (vis s)) = Some d \/ d_lastmod d = revision s + 1 /\ dirty (snd (step o s)) = true) /\
  (dirty s = true -> dirty (snd (step o s)) = true).
Proof.
  intros Hr Hc Hx Hn Hn'. destruct (handle_op o) as [h|] eqn:Eh.
  - destruct (step_touch o s h Eh) as [H|(_ & _ & k & t & H)];
      apply core_fields in H as (H1 & H2 & H3 & H4 & H5 & H6 & H7 & H8 & H9).
    + rewrite H1, H5, H6, H7, H8, H9. repeat split; auto.
    + rewrite H1, H5, H6, H7, H8, H9. unfold written. destruct (nesting s) as [|n]; [lia|]. cbn.
      repeat split; auto. intros k' d. rewrite dget_dput. destruct (N.eqb k' k); [|auto].
      intros [= <-]. right. auto.
  - destruct o; cbn [handle_op] in Eh; try discriminate; try congruence; cbn [step] in *.
    + unfold begin_atomic in *. destruct (Nat.ltb_spec 0 (nesting s)); [|lia]. rewrite orb_true_r. cbn. auto 8.
    + unfold end_atomic in *. destruct (nesting s) as [|n]; [lia|].
      destruct (negb (writable s) || Nat.ltb 0 n) eqn:E.
      * cbn. auto 8.
      * apply orb_false_iff in E as [_ E]. apply Nat.ltb_ge in E.
        destruct (negb (isopen s) || negb (in_txn s)); [cbn in *; auto 8|].
        exfalso. revert Hn'. set (fl := ((Nat.ltb 0 _ && _) || flush_env)%bool). clearbody fl.
        destruct fl; cbn; destruct (dirty s); cbn; lia.
    + destruct (_ && _); cbn; auto 8.
    + unfold open_message in *. destruct (dget k _); cbn; auto 8.
    + cbn. auto 8.
    + destruct (ensure_writable s); cbn; auto 8.
      repeat split; auto. intros k' d. rewrite dget_ddel. destruct (N.eqb k' k); [discriminate|auto].
Qed.

Lemma section_run ops s : stays_inside s ops ->
  revision (run ops s) = revision s /\ threshold (run ops s) = threshold s /\
  writable (run ops s) = writable s /\ isopen (run ops s) = isopen s /\
  (forall k d, dget k (st_docs (vis (run ops s))) = Some d ->
     dget k (st_docs (vis s)) = Some d \/ d_lastmod d = revision s + 1 /\ dirty (run ops s) = true) /\
  (dirty s = true -> dirty (run ops s) = true).
Proof.
  intros (Hn & Hc & Hr & Hx).
  induction ops as [|o ops IH] using rev_ind; [cbn; auto 8|].
  destruct IH as (A & B & C & D & E & F).
  - intros p q Hpq. apply (Hn p (q ++ [o])). now rewrite app_assoc, Hpq.
  - intros H. apply Hc. apply in_or_app. auto.
  - intros rw H. apply (Hr rw). apply in_or_app. auto.
  - intros rw H. apply (Hx rw). apply in_or_app. auto.
  - rewrite run_snoc. pose proof (Hn ops [o] eq_refl) as N1.
    pose proof (Hn (ops ++ [o]) [] (eq_sym (app_nil_r _))) as N2. rewrite run_snoc in N2.
    destruct (section_step o (run ops s)) as (A' & B' & C' & D' & E' & F'); auto.
    + intros rw ->. apply (Hr rw). apply in_or_app. cbn. auto.
    + intros ->. apply Hc. apply in_or_app. cbn. auto.
    + intros rw ->. apply (Hx rw). apply in_or_app. cbn. auto.
    + rewrite A', B', C', D'. repeat split; auto; try congruence.
      intros k d Hd. apply E' in Hd as [Hd|[Hd Hd']].
      * apply E in Hd as [Hd|[Hd Hd']]; auto.
      * rewrite A in Hd. auto.
Qed.

Lemma section_commit ops s fe :
  Inv s -> nesting s = O -> writable s = true -> isopen s = true ->
  stays_inside (snd (step OpBegin s)) ops -> nesting (run (OpBegin :: ops) s) = 1%nat ->
  let t := run (OpBegin :: ops) s in
  let u := snd (step (OpEnd fe) t) in
  fst (step (OpEnd fe) t) = St_success /\ nesting u = O /\ vis u = vis t /\
  (revision u = revision s \/ revision u = revision s + 1) /\
  (forall k d, dget k (st_docs (vis u)) = Some d ->
     dget k (st_docs (vis s)) = Some d \/ d_lastmod d = revision s + 1 /\ revision u = revision s + 1) /\
  (forall k d, dget k (st_docs (vis s)) = Some d -> d_lastmod d <= revision s).
Proof.
  intros I Hn Hw Ho Hin Hend t u.
  assert (Hb : snd (step OpBegin s) = set_nesting 1 (set_txn true s)).
  { cbn [step]. unfold begin_atomic. rewrite Hw, Hn, Ho. cbn [negb orb Nat.ltb Nat.leb].
    destruct (in_txn s) eqn:Et; [|reflexivity]. apply (iv_txn _ I) in Et. lia. }
  assert (It : Inv t).
  { apply run_Inv; [|exact I]. intros p q rw E. destruct p as [|o p]; [discriminate|]. injection E as <- E.
    exfalso. destruct Hin as (_ & _ & Hr & _). apply (Hr rw). rewrite E. apply in_or_app. cbn. auto. }
  destruct (section_run ops (snd (step OpBegin s)) Hin) as (A & B & C & D & E & F).
  change (run ops (snd (step OpBegin s))) with t in *.
  assert (Hend' : nesting t = 1%nat) by exact Hend. clear Hend. clearbody t. rewrite Hb in A, B, C, D, E, F. cbn in A, B, C, D, E, F.
  assert (Ht : in_txn t = true). { apply (iv_nest _ It); [congruence|congruence|lia]. }
  assert (Hd0 : dirty s = false). { destruct (dirty s) eqn:Ed; [|reflexivity]. apply (iv_dirty _ I) in Ed. lia. }
  assert (Hu : step (OpEnd fe) t =
     (St_success, u) /\ nesting u = O /\ vis u = vis t /\ revision u = revision t + b2n (dirty t)).
  { unfold u. cbn [step]. unfold end_atomic. rewrite Hend', C, D, Ht, Hw, Ho.
    cbn [negb orb Nat.ltb Nat.leb]. match goal with |- context [if (?a || fe)%bool then _ else _] => destruct (a || fe)%bool end;
    cbn; destruct (dirty t); cbn; repeat split; lia. }
  destruct Hu as (Hu & U1 & U2 & U3). rewrite Hu. cbn [fst]. rewrite U2, U3, A.
  repeat split; auto.
  - destruct (dirty t); cbn; [right|left]; lia.
  - intros k d Hd. apply E in Hd as [Hd|[Hd Hd']]; [now left|right]. rewrite Hd'. cbn. auto.
  - intros k d Hd. apply dget_In in Hd. apply (iv_vis _ I) in Hd. pose proof (iv_vub _ I) as L.
    rewrite Hd0 in L. cbn in L. lia.
Qed.

(** Revision monotonicity. *)
Definition Mono (s : db) : Prop :=
  (isopen s = true -> revision s + b2n (dirty s) <= st_ub (vis s)) /\
  (nesting s = O -> isopen s = false -> revision s <= st_ub (durable s)) /\
  (writable s = false -> revision s <= st_ub (durable s)).

Lemma Mono_core s s' : core s = core s' -> Mono s -> Mono s'.
Proof.
  intros H. apply core_fields in H as (H1 & H2 & H3 & H4 & H5 & H6 & H7 & H8 & _).
  unfold Mono. rewrite H1, H2, H4, H5, H6, H7, H8. auto.
Qed.

Lemma close_Mono s : Inv s -> Mono s -> Mono (close s) /\ revision (close s) = revision s.
Proof.
  intros I (A & B & C). unfold close. destruct (isopen s) eqn:Eo; [|split; [unfold Mono; rewrite Eo; auto|reflexivity]].
  destruct (writable s) eqn:Ew; [|unfold Mono; cbn; rewrite Ew; repeat split; auto; discriminate].
  specialize (A eq_refl).
  destruct (in_txn s) eqn:Et; unfold Mono; cbn; rewrite Ew; repeat split; intros; try discriminate;
    try (apply (iv_txn _ I) in Et; lia); destruct (dirty s); cbn in *; lia.
Qed.

Lemma step_Mono o s : grows o -> (forall rw, o = OpReopen rw -> nesting s = O) ->
  Inv s -> Mono s -> Mono (snd (step o s)) /\ revision s <= revision (snd (step o s)).
Proof.
  intros (Hd & Hx) Hp I M. destruct (handle_op o) as [h|] eqn:Eh.
  - destruct (step_touch o s h Eh) as [H|(Hw & Ho & k & t & H)].
    + split; [symmetry in H; now apply (Mono_core s)|]. apply core_fields in H as (_ & _ & _ & _ & _ & H & _). lia.
    + split.
      * symmetry in H. apply (Mono_core _ _ H). destruct M as (A & B & C). unfold Mono, written.
        specialize (A Ho).
        destruct (nesting s) eqn:En; cbn; rewrite ?Hw, ?Ho, ?En; repeat split; intros; try discriminate; try lia.
        destruct (dirty s) eqn:Ed; [apply (iv_dirty _ I) in Ed; lia|]. cbn. lia.
      * apply core_fields in H as (_ & _ & _ & _ & _ & H & _). rewrite H. unfold written. destruct (nesting s); cbn; lia.
  - destruct o; cbn [handle_op] in Eh; try discriminate; cbn [step].
    + unfold begin_atomic. destruct M as (A & B & C).
      destruct (negb (writable s) || _); [|destruct (negb (isopen s) || in_txn s)]; cbn; unfold Mono; cbn;
        repeat split; auto; try lia; intros; discriminate.
    + unfold end_atomic. destruct (nesting s) as [|n] eqn:En; [split; [exact M|cbn; lia]|].
      destruct M as (A & B & C).
      destruct (writable s) eqn:Ew; cbn [negb orb].
      * destruct (Nat.ltb_spec 0 n).
        -- cbn. unfold Mono; cbn. rewrite ?Ew. repeat split; auto; try lia; intros; try discriminate.
        -- destruct (isopen s) eqn:Eo; cbn [negb orb]; [|cbn; unfold Mono; rewrite ?Ew, ?Eo, ?En; repeat split; auto; lia].
           destruct (in_txn s) eqn:Et; cbn [negb]; [|cbn; unfold Mono; rewrite ?Ew, ?Eo, ?En; repeat split; auto; lia].
           specialize (A eq_refl).
           set (fl := ((Nat.ltb 0 _ && _) || flush_env)%bool). clearbody fl.
           destruct fl; cbn; destruct (dirty s) eqn:Ed; cbn in *; unfold Mono; cbn; rewrite ?Ew, ?Eo, ?Ed; cbn;
             repeat split; intros; try discriminate; lia.
      * cbn. unfold Mono; cbn; rewrite ?Ew. repeat split; auto; lia.
    + destruct M as (A & B & C). destruct (writable s && isopen s && negb (in_txn s)) eqn:E; cbn; unfold Mono; cbn;
        [|repeat split; auto; lia].
      rewrite !andb_true_iff, negb_true_iff in E. destruct E as [[Ew Eo] Et]. rewrite Ew, Eo.
      repeat split; intros; try discriminate; try lia. auto.
    + cbn [snd]. destruct (close_Mono s I M) as [M' R]. split; [exact M'|lia].
    + specialize (Hp rw eq_refl). unfold reopen.
      assert (Hdd : dirty s = false). { destruct (dirty s) eqn:Ed; [|reflexivity]. apply (iv_dirty _ I) in Ed. lia. }
      destruct (negb (writable s) && negb rw && isopen s) eqn:E; cbn [snd].
      * rewrite !andb_true_iff, !negb_true_iff in E. destruct E as [[Ew Erw] Eo].
        destruct M as (A & B & C). unfold Mono; cbn. rewrite Hdd. cbn. specialize (C Ew). repeat split; intros; try lia.
      * destruct (close_Mono s I M) as [(A & B & C) R].
        assert (N1 : nesting (close s) = O).
        { unfold close. destruct (isopen s); auto. destruct (writable s); auto. destruct (in_txn s); auto. }
        assert (D1 : dirty (close s) = false).
        { unfold close. destruct (isopen s); auto. destruct (writable s); auto. destruct (in_txn s); auto. }
        assert (O1 : isopen (close s) = false).
        { unfold close. destruct (isopen s) eqn:Eo; auto. }
        specialize (B N1 O1). unfold Mono; cbn. rewrite D1. cbn. repeat split; intros; try discriminate; lia.
    + exfalso. now apply (Hx rw).
    + unfold open_message. destruct (dget k _); cbn; (split; [|lia]); [now apply (Mono_core s)|exact M].
    + cbn. split; [now apply (Mono_core s)|lia].
    + exfalso. now apply (Hd k ub).
Qed.

Lemma run_Mono ops s : proper s ops -> Forall grows ops -> Inv s -> Mono s ->
  Mono (run ops s) /\ revision s <= revision (run ops s).
Proof.
  intros Hp Hg I M. induction ops as [|o ops IH] using rev_ind; [split; [exact M|cbn; lia]|].
  apply Forall_app in Hg as [Hg Ho]. inversion Ho; subst.
  pose proof (proper_prefix _ _ _ Hp) as Hp'. destruct (IH Hp' Hg) as [M' R].
  rewrite run_snoc. destruct (step_Mono o (run ops s)) as [M'' R']; auto.
  - intros rw ->. apply (Hp ops [] rw). reflexivity.
  - now apply run_Inv.
  - split; [exact M''|lia].
Qed.
Lemma open_db_Mono st thr rw : Mono (open_db st thr rw).
Proof. unfold Mono. cbn. repeat split; intros; lia. Qed.

(** ** Tag edits and freezing *)

(** The effect of an edit on a handle, sync aside. *)
Definition edit_handle (e : edit) (hd : handle) : handle :=
  match e with
  | EAdd t => h_add_term (tag_term t) hd
  | ERem t => h_remove_term (tag_term t) hd
  | ERemAll => fold_left (fun h t => h_remove_term (tag_term t) h) (tags_of (h_terms hd)) hd
  end.

Lemma remove_fold_frozen l hd :
  h_frozen (fold_left (fun h t => h_remove_term (tag_term t) h) l hd) = h_frozen hd /\
  h_doc (fold_left (fun h t => h_remove_term (tag_term t) h) l hd) = h_doc hd.
Proof.
  revert hd; induction l as [|t l IH]; intros hd; [auto|]. cbn [fold_left].
  destruct (IH (h_remove_term (tag_term t) hd)) as [-> ->]. unfold h_remove_term. destruct (tmem _ _); auto.
Qed.
Lemma edit_handle_frame e hd :
  h_frozen (edit_handle e hd) = h_frozen hd /\ h_doc (edit_handle e hd) = h_doc hd.
Proof.
  destruct e; cbn; [auto| |apply remove_fold_frozen]. unfold h_remove_term. destruct (tmem _ _); auto.
Qed.
Lemma remove_fold_unmodified l hd :
  h_modified (fold_left (fun h t => h_remove_term (tag_term t) h) l hd) = false ->
  fold_left (fun h t => h_remove_term (tag_term t) h) l hd = hd.
Proof.
  assert (K : forall l hd, h_modified hd = true ->
    h_modified (fold_left (fun h t => h_remove_term (tag_term t) h) l hd) = true).
  { clear. induction l as [|t l IH]; intros hd H; [exact H|]. cbn. apply IH. unfold h_remove_term. now destruct (tmem _ _). }
  revert hd; induction l as [|t l IH]; intros hd; [reflexivity|]. cbn [fold_left]. intros H.
  unfold h_remove_term in H |- * at 2. destruct (tmem (tag_term t) (h_terms hd)) eqn:E; [|auto].
  rewrite K in H; [discriminate|reflexivity].
Qed.
Lemma edit_handle_unmodified e hd : h_modified (edit_handle e hd) = false -> edit_handle e hd = hd.
Proof.
  destruct e; cbn [edit_handle]; [discriminate| |apply remove_fold_unmodified].
  unfold h_remove_term. destruct (tmem _ _); [discriminate|reflexivity].
Qed.
(** The edit's effect on the terms does not depend on the other fields. *)
Definition edit_terms (e : edit) (T : list bytes) : list bytes :=
  h_terms (edit_handle e {| h_doc := 0; h_terms := T; h_modified := false; h_frozen := 0 |}).
Lemma remove_fold_terms l a b : h_terms a = h_terms b ->
  h_terms (fold_left (fun h t => h_remove_term (tag_term t) h) l a)
  = h_terms (fold_left (fun h t => h_remove_term (tag_term t) h) l b).
Proof.
  revert a b; induction l as [|t l IH]; intros a b H; [exact H|]. cbn. apply IH.
  unfold h_remove_term. rewrite <- H. destruct (tmem _ _); cbn; congruence.
Qed.
Lemma edit_handle_terms e hd : h_terms (edit_handle e hd) = edit_terms e (h_terms hd).
Proof.
  unfold edit_terms. destruct e; cbn [edit_handle]; [reflexivity| |now apply remove_fold_terms].
  unfold h_remove_term. cbn [h_terms]. destruct (tmem _ _); reflexivity.
Qed.

Lemma edit_terms_spec e T : tsorted T ->
  tsorted (edit_terms e T) /\
  (forall x, In x (edit_terms e T) <->
     match e with
     | EAdd t => x = tag_term t \/ In x T
     | ERem t => x <> tag_term t /\ In x T
     | ERemAll => In x T /\ forall t, x <> tag_term t
     end).
Proof.
  intros Hs. unfold edit_terms. destruct e as [t|t|]; cbn [edit_handle h_terms].
  - cbn. split; [now apply tadd_sorted|]. intros x. apply tadd_In.
  - unfold h_remove_term. cbn [h_terms]. destruct (tmem (tag_term t) T) eqn:E; cbn [h_terms].
    + split; [now apply trem_sorted|]. intros x. rewrite trem_In by now apply tsorted_nodup. tauto.
    + split; [exact Hs|]. intros x. apply tmem_false in E. intuition congruence.
  - assert (K : forall l hd, tsorted (h_terms hd) ->
      tsorted (h_terms (fold_left (fun h t => h_remove_term (tag_term t) h) l hd)) /\
      forall x, In x (h_terms (fold_left (fun h t => h_remove_term (tag_term t) h) l hd)) <->
        In x (h_terms hd) /\ forall t, In t l -> x <> tag_term t).
    { clear. induction l as [|t l IH]; intros hd Hs.
      - cbn. split; [exact Hs|]. intros x. intuition.
      - cbn [fold_left].
        assert (Hr : tsorted (h_terms (h_remove_term (tag_term t) hd)) /\
           forall x, In x (h_terms (h_remove_term (tag_term t) hd)) <-> x <> tag_term t /\ In x (h_terms hd)).
        { unfold h_remove_term. destruct (tmem (tag_term t) (h_terms hd)) eqn:E; cbn [h_terms].
          + split; [now apply trem_sorted|]. intros x. rewrite trem_In by now apply tsorted_nodup. tauto.
          + split; [exact Hs|]. intros x. apply tmem_false in E. intuition congruence. }
        destruct Hr as [Hr1 Hr2]. destruct (IH _ Hr1) as [A B]. split; [exact A|].
        intros x. rewrite B, Hr2. split.
        + intros [[H1 H2] H3]. split; [exact H2|]. intros t' [<-|Ht]; auto.
        + intros [H1 H2]. split; [split; [apply H2; now left|exact H1]|]. intros t' Ht. apply H2. now right. }
    destruct (K (tags_of T) {| h_doc := 0; h_terms := T; h_modified := false; h_frozen := 0 |} Hs) as [A B].
    split; [exact A|]. intros x. rewrite B. cbn. split; intros [H1 H2]; split; auto.
    intros t ->. apply (H2 t); [|reflexivity]. now apply tags_of_In.
Qed.

Lemma edit_terms_tags e T : tsorted T ->
  forall x, In x (tags_of (edit_terms e T)) <-> edit_effect e (fun t => In t (tags_of T)) x.
Proof.
  intros Hs x. destruct (edit_terms_spec e T Hs) as [S E]. rewrite tags_of_In by exact S. rewrite E.
  destruct e as [t|t|]; cbn [edit_effect]; rewrite ?tags_of_In by exact Hs.
  - unfold tag_term, term_of. split; (intros [H|H]; [left|now right]); [now apply app_inv_head in H|congruence].
  - unfold tag_term, term_of. split; intros [H H']; split; auto; [congruence|].
    intros K. apply H. now apply app_inv_head in K.
  - split; [|tauto]. intros [_ H]. now apply (H x).
Qed.

Definition edits_terms (es : list edit) (T : list bytes) : list bytes :=
  fold_left (fun T e => edit_terms e T) es T.
Lemma edits_terms_tags es T : tsorted T ->
  tsorted (edits_terms es T) /\
  (forall x, In x (tags_of (edits_terms es T)) <-> edits_effect es (fun t => In t (tags_of T)) x) /\
  (forall x, (forall t, x <> tag_term t) -> (In x (edits_terms es T) <-> In x T)).
Proof.
  unfold edits_terms, edits_effect.
  assert (Ext : forall es (P Q : bytes -> Prop), (forall x, P x <-> Q x) ->
     forall x, fold_left (fun P e => edit_effect e P) es P x <-> fold_left (fun P e => edit_effect e P) es Q x).
  { clear. induction es as [|e es IH]; intros P Q H; cbn; [exact H|]. apply IH.
    intros x. destruct e; cbn; rewrite ?H; tauto. }
  revert T. induction es as [|e es IH]; intros T Hs; cbn [fold_left]; [repeat split; tauto|].
  destruct (edit_terms_spec e T Hs) as [S E]. destruct (IH _ S) as (A & B & C). split; [exact A|].
  split.
  - intros x. rewrite B. apply Ext. now apply edit_terms_tags.
  - intros x Hx. rewrite C by exact Hx. rewrite E. destruct e as [t|t|]; try pose proof (Hx t); tauto.
Qed.

(** Steps through one handle. *)
Lemma edit_step h e hd s : edit_valid e -> dget h (handles s) = Some hd ->
  writable s = true -> isopen s = true ->
  step (edit_op h e) s =
  (St_success, let '(hd', s') := sync_unless_frozen (edit_handle e hd) s in set_handles (dput h hd' (handles s')) s').
Proof.
  intros Hv Hh Hw Ho.
  assert (Ew : ensure_writable s = St_success) by now apply ensure_writable_success.
  destruct e as [t|t|]; cbn [edit_op step edit_handle] in *; unfold on_handle; rewrite Hh;
    unfold add_tag, remove_tag, remove_all_tags; rewrite Ew.
  - destruct (Nat.ltb_spec NOTMUCH_TAG_MAX (length t)); [unfold NOTMUCH_TAG_MAX in *; cbn in Hv; lia|].
    now destruct (sync_unless_frozen _ s).
  - destruct (Nat.ltb_spec NOTMUCH_TAG_MAX (length t)); [unfold NOTMUCH_TAG_MAX in *; cbn in Hv; lia|].
    now destruct (sync_unless_frozen _ s).
  - now destruct (sync_unless_frozen _ s).
Qed.

(** Unfrozen edits: each reaches the database at once. *)
Lemma edits_unfrozen h es : forall s hd d, Forall edit_valid es -> dget h (handles s) = Some hd ->
  writable s = true -> isopen s = true -> h_frozen hd = O -> h_modified hd = false ->
  dget (h_doc hd) (st_docs (vis s)) = Some d -> d_terms d = h_terms hd ->
  let s' := run (map (edit_op h) es) s in
  exists hd' d', dget h (handles s') = Some hd' /\ h_doc hd' = h_doc hd /\
    dget (h_doc hd) (st_docs (vis s')) = Some d' /\ d_terms d' = edits_terms es (h_terms hd) /\
    h_terms hd' = edits_terms es (h_terms hd) /\ h_modified hd' = false /\
    (forall k, k <> h_doc hd -> dget k (st_docs (vis s')) = dget k (st_docs (vis s))).
Proof.
  induction es as [|e es IH]; intros s hd d Hv Hh Hw Ho Hf Hm Hd Hdt.
  - cbn. exists hd, d. unfold edits_terms. cbn. repeat split; auto.
  - inversion Hv as [|? ? Hv1 Hv2]; subst. cbn [map]. rewrite run_cons, (edit_step h e hd s) by auto. cbn [snd].
    destruct (edit_handle_frame e hd) as [Ff Fd]. unfold sync_unless_frozen. rewrite Ff, Hf.
    rewrite message_sync_eq, Hw. cbn [andb].
    pose proof (edit_handle_terms e hd) as Et.
    destruct (h_modified (edit_handle e hd)) eqn:Em.
    + set (hd1 := {| h_doc := h_doc (edit_handle e hd); h_terms := h_terms (edit_handle e hd); h_modified := false;
                     h_frozen := h_frozen (edit_handle e hd) |}).
      set (s1 := set_handles _ _).
      assert (Hvis : vis s1 = store_put (h_doc hd) {| d_terms := edit_terms e (h_terms hd); d_lastmod := revision s + 1 |} (vis s)).
      { unfold s1, written. rewrite Fd, Et. destruct (nesting s); reflexivity. }
      specialize (IH s1 hd1 {| d_terms := edit_terms e (h_terms hd); d_lastmod := revision s + 1 |} Hv2).
      destruct IH as (hd' & d' & A & B & C & D & E & F & G).
      * unfold s1. cbn. apply dget_dput_same.
      * unfold s1, written. destruct (nesting s); exact Hw.
      * unfold s1, written. destruct (nesting s); exact Ho.
      * unfold hd1. cbn. congruence.
      * reflexivity.
      * rewrite Hvis. unfold hd1. cbn [h_doc]. rewrite Fd. cbn. apply dget_dput_same.
      * unfold hd1. cbn. congruence.
      * unfold hd1 in *. cbn [h_doc h_terms] in *. rewrite Fd, Et in *. exists hd', d'.
        change (edits_terms (e :: es) (h_terms hd)) with (edits_terms es (edit_terms e (h_terms hd))).
        repeat split; auto. intros k Hk. rewrite (G k Hk), Hvis. cbn. now apply dget_dput_other.
    + apply edit_handle_unmodified in Em. rewrite Em in *.
      set (s1 := set_handles _ _). assert (Hs1 : s1 = s).
      { unfold s1. rewrite dput_same by exact Hh. now destruct s. }
      rewrite Hs1. destruct (IH s hd d Hv2 Hh Hw Ho Hf Hm Hd Hdt) as (hd' & d' & A & B & C & D & E & F & G).
      change (edits_terms (e :: es) (h_terms hd)) with (edits_terms es (edit_terms e (h_terms hd))).
      rewrite <- Et. exists hd', d'. auto 10.
Qed.

(** Frozen edits: only the handle changes. *)
Lemma edits_frozen h es : forall s hd, Forall edit_valid es -> dget h (handles s) = Some hd ->
  writable s = true -> isopen s = true -> h_frozen hd <> O ->
  let s' := run (map (edit_op h) es) s in
  core s' = core s /\
  exists hd', dget h (handles s') = Some hd' /\ h_doc hd' = h_doc hd /\ h_frozen hd' = h_frozen hd /\
    h_terms hd' = edits_terms es (h_terms hd) /\
    (h_modified hd' = false -> h_modified hd = false /\ h_terms hd' = h_terms hd).
Proof.
  induction es as [|e es IH]; intros s hd Hv Hh Hw Ho Hf.
  - cbn. split; [reflexivity|]. exists hd. unfold edits_terms. cbn. auto 6.
  - inversion Hv as [|? ? Hv1 Hv2]; subst. cbn [map]. rewrite run_cons, (edit_step h e hd s) by auto. cbn [snd].
    destruct (edit_handle_frame e hd) as [Ff Fd]. unfold sync_unless_frozen. rewrite Ff.
    destruct (h_frozen hd) as [|n] eqn:Ef; [congruence|].
    set (s1 := set_handles _ _).
    destruct (IH s1 (edit_handle e hd) Hv2) as (A & hd' & B & C & D & E & F); auto.
    + unfold s1. cbn. apply dget_dput_same.
    + rewrite Ff. congruence.
    + split; [rewrite A; reflexivity|]. exists hd'. rewrite edit_handle_terms in E.
      change (edits_terms (e :: es) (h_terms hd)) with (edits_terms es (edit_terms e (h_terms hd))).
      repeat split; auto; try congruence.
      * apply F in H as [H _]. apply edit_handle_unmodified in H as H2. rewrite <- H2. exact H.
      * apply F in H as [H H']. apply edit_handle_unmodified in H. congruence.
Qed.

Lemma h_remove_term_frame t hd : h_frozen (h_remove_term t hd) = h_frozen hd /\ h_doc (h_remove_term t hd) = h_doc hd.
Proof. unfold h_remove_term. destruct (tmem _ _); auto. Qed.
Lemma remove_terms_frame p hd : h_frozen (remove_terms p hd) = h_frozen hd /\ h_doc (remove_terms p hd) = h_doc hd.
Proof.
  unfold remove_terms. generalize (S (length (h_terms hd))) as n. intros n. revert hd.
  induction n as [|n IH]; intros hd; [auto|]. cbn [remove_terms_loop].
  destruct (skip_to p (h_terms hd)) as [|t l]; [auto|]. destruct (starts_with p t); [|auto].
  destruct (IH (h_remove_term t hd)) as [-> ->]. apply h_remove_term_frame.
Qed.

(** Through a frozen handle nothing reaches the database. *)
Lemma frozen_step h o s : through h o -> (0 < frozen_count h s)%nat ->
  (0 < frozen_count h (snd (step o s)))%nat -> core (snd (step o s)) = core s.
Proof.
  unfold frozen_count. destruct (dget h (handles s)) as [hd|] eqn:Hh; [|lia].
  intros Ht Hf. destruct o; cbn in Ht; try contradiction; subst; cbn [step]; unfold on_handle; rewrite Hh.
  - unfold add_tag. destruct (ensure_writable s); try reflexivity. destruct (Nat.ltb _ _); [reflexivity|].
    unfold sync_unless_frozen. cbn [h_frozen h_add_term]. destruct (h_frozen hd); [lia|]. reflexivity.
  - unfold remove_tag. destruct (ensure_writable s); try reflexivity. destruct (Nat.ltb _ _); [reflexivity|].
    unfold sync_unless_frozen, h_remove_term. destruct (tmem _ _); cbn [h_frozen]; (destruct (h_frozen hd) eqn:E; [lia|]); reflexivity.
  - unfold remove_all_tags. destruct (ensure_writable s); try reflexivity.
    unfold sync_unless_frozen. destruct (remove_fold_frozen (tags_of (h_terms hd)) hd) as [-> _].
    destruct (h_frozen hd); [lia|]. reflexivity.
  - unfold freeze. destruct (ensure_writable s); reflexivity.
  - unfold thaw. destruct (ensure_writable s); try reflexivity.
    destruct (h_frozen hd) as [|[|n]] eqn:E; [lia| |reflexivity].
    rewrite message_sync_eq. destruct (writable s && h_modified (h_set_frozen 0 hd)) eqn:Em; [|reflexivity].
    intros H. exfalso. revert H. cbn. rewrite dget_dput_same. cbn. lia.
  - unfold modify_property. destruct (ensure_writable s); try reflexivity. destruct (mem _ _); [reflexivity|].
    cbv zeta. destruct (Nat.ltb _ _); [reflexivity|].
    unfold sync_unless_frozen. cbn [h_frozen h_add_term]. destruct (h_frozen hd); [lia|]. reflexivity.
  - unfold modify_property. destruct (ensure_writable s); try reflexivity. destruct (mem _ _); [reflexivity|].
    cbv zeta. destruct (Nat.ltb _ _); [reflexivity|].
    unfold sync_unless_frozen. destruct (h_remove_term_frame (property_term k v) hd) as [-> _].
    destruct (h_frozen hd); [lia|]. reflexivity.
  - unfold remove_all_properties. destruct (ensure_writable s); try reflexivity. cbv zeta.
    match goal with |- context [remove_terms ?p hd] => destruct (remove_terms_frame p hd) as [F _] end.
    unfold sync_unless_frozen. rewrite F. destruct (h_frozen hd); [lia|]. reflexivity.
Qed.

Lemma frozen_run h ops s : Forall (through h) ops ->
  (forall p q, ops = p ++ q -> (0 < frozen_count h (run p s))%nat) -> core (run ops s) = core s.
Proof.
  intros Ht Hf. induction ops as [|o ops IH] using rev_ind; [reflexivity|].
  apply Forall_app in Ht as [Ht Ho]. inversion Ho; subst. rewrite run_snoc.
  rewrite (frozen_step h); auto.
  - apply IH; auto. intros p q E. apply (Hf p (q ++ [o])). now rewrite app_assoc, E.
  - apply (Hf ops [o]). reflexivity.
  - rewrite <- run_snoc. apply (Hf (ops ++ [o]) []). now rewrite app_nil_r.
Qed.

Lemma freeze_step h s hd : dget h (handles s) = Some hd -> writable s = true -> isopen s = true ->
  step (OpFreeze h) s = (St_success, set_handles (dput h (h_set_frozen (S (h_frozen hd)) hd) (handles s)) s).
Proof.
  intros Hh Hw Ho. cbn [step]. unfold on_handle. rewrite Hh. unfold freeze.
  now rewrite (proj2 (ensure_writable_success s) (conj Hw Ho)).
Qed.
Lemma thaw_step h s hd n : dget h (handles s) = Some hd -> writable s = true -> isopen s = true -> h_frozen hd = S n ->
  step (OpThaw h) s =
  (St_success, match n with
   | O => let '(hd', s') := message_sync (h_set_frozen 0 hd) s in set_handles (dput h hd' (handles s')) s'
   | S _ => set_handles (dput h (h_set_frozen n hd) (handles s)) s end).
Proof.
  intros Hh Hw Ho Hf. cbn [step]. unfold on_handle. rewrite Hh. unfold thaw.
  rewrite (proj2 (ensure_writable_success s) (conj Hw Ho)), Hf. destruct n; [|reflexivity].
  now destruct (message_sync _ s).
Qed.

Lemma frozen_batch h es s hd d : Forall edit_valid es -> dget h (handles s) = Some hd ->
  writable s = true -> isopen s = true -> h_frozen hd = O -> h_modified hd = false ->
  dget (h_doc hd) (st_docs (vis s)) = Some d -> d_terms d = h_terms hd ->
  let s1 := run (OpFreeze h :: map (edit_op h) es) s in
  let s' := run [OpThaw h] s1 in
  vis s1 = vis s /\ durable s1 = durable s /\ revision s1 = revision s /\
  exists hd' d', dget h (handles s') = Some hd' /\ h_doc hd' = h_doc hd /\
    dget (h_doc hd) (st_docs (vis s')) = Some d' /\ d_terms d' = edits_terms es (h_terms hd) /\
    h_terms hd' = edits_terms es (h_terms hd) /\ h_modified hd' = false /\ h_frozen hd' = O /\
    (forall k, k <> h_doc hd -> dget k (st_docs (vis s')) = dget k (st_docs (vis s))) /\
    (d' = d \/ d_lastmod d' = revision s + 1).
Proof.
  intros Hv Hh Hw Ho Hf Hm Hd Hdt s1 s'. unfold s1 in *. rewrite run_cons, (freeze_step h s hd) in * by auto.
  cbn [snd] in *. set (s0 := set_handles _ s) in *.
  destruct (edits_frozen h es s0 (h_set_frozen (S (h_frozen hd)) hd) Hv) as (A & hd1 & B & C & D & E & F); auto.
  { unfold s0. cbn. apply dget_dput_same. }
  { cbn. lia. }
  pose proof A as A'. apply core_fields in A as (A1 & A2 & A3 & A4 & A5 & A6 & A7 & A8 & A9). cbn in A1, A2, A4, A5, A6, A7, A8.
  split; [exact A1|]. split; [exact A2|]. split; [exact A6|].
  unfold s'. rewrite (run_cons (OpFreeze h)), (freeze_step h s hd) by auto. cbn [snd]. fold s0.
  rewrite (run_cons (OpThaw h)). clear s1 s' A'. set (t := run (map (edit_op h) es) s0) in *. clearbody t.
  change (run [] ?x) with x.
  cbn in D. rewrite Hf in D. cbn in C, E, F.
  rewrite (thaw_step h t hd1 O) by (auto; congruence). cbn [snd]. rewrite message_sync_eq, A7, Hw. cbn [andb h_set_frozen h_modified].
  destruct (h_modified hd1) eqn:Em.
  - cbn [h_doc h_terms h_frozen h_set_frozen]. rewrite C, E.
    set (t1 := set_handles _ _).
    assert (V : vis t1 = store_put (h_doc hd) {| d_terms := edits_terms es (h_terms hd); d_lastmod := revision s + 1 |} (vis s)).
    { unfold t1, written. rewrite A1, A6. destruct (nesting t); reflexivity. }
    exists {| h_doc := h_doc hd; h_terms := edits_terms es (h_terms hd); h_modified := false; h_frozen := 0 |},
           {| d_terms := edits_terms es (h_terms hd); d_lastmod := revision s + 1 |}.
    rewrite V. cbn [st_docs store_put]. repeat split; auto.
    + unfold t1. cbn. apply dget_dput_same.
    + apply dget_dput_same.
    + intros k Hk. now apply dget_dput_other.
  - destruct (F eq_refl) as [_ F']. set (t1 := set_handles _ _).
    exists (h_set_frozen 0 hd1), d. unfold t1. cbn. rewrite A1.
    repeat split; auto; try congruence. apply dget_dput_same.
Qed.

Lemma reachable_Inv s : reachable s -> Inv s.
Proof. intros (st & thr & rw & ops & H1 & H2 & ->). apply run_Inv; [exact H2|]. now apply open_db_Inv. Qed.

Lemma step_rev_session o s : (forall rw, o <> OpReopen rw) -> (forall rw, o <> OpCrash rw) ->
  revision s <= revision (snd (step o s)).
Proof.
  intros Hr Hx. destruct (handle_op o) as [h|] eqn:Eh.
  - destruct (step_touch o s h Eh) as [H|(_ & _ & k & t & H)]; apply core_fields in H as (_ & _ & _ & _ & _ & H & _);
      rewrite H; [lia|]. unfold written. destruct (nesting s); cbn; lia.
  - destruct o; cbn [handle_op] in Eh; try discriminate; cbn [step].
    + unfold begin_atomic. destruct (_ || _); [cbn; lia|]. destruct (_ || _); cbn; lia.
    + unfold end_atomic. destruct (nesting s); [cbn; lia|]. destruct (_ || _); [cbn; lia|].
      destruct (negb (isopen s) || _); [cbn; lia|].
      match goal with |- context [if (?a || flush_env)%bool then _ else _] => destruct (a || flush_env)%bool end;
      cbn; destruct (dirty s); cbn; lia.
    + destruct (_ && _); cbn; lia.
    + unfold close. destruct (isopen s); [|cbn; lia]. destruct (writable s); [|cbn; lia]. destruct (in_txn s); cbn; lia.
    + exfalso. now apply (Hr rw).
    + exfalso. now apply (Hx rw).
    + unfold open_message. destruct (dget k _); cbn; lia.
    + cbn. lia.
    + destruct (ensure_writable s); cbn; lia.
Qed.
