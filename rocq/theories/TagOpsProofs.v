(** Lemmas about tag operation lists. *)
From Verif Require Import Bytes Terms Meta MetaProofs DocMap Db DbSpec DbProofs TagOps TagOpsSpec.
Local Open Scope N_scope.

Definition to_edit (o : tagop) : edit := if to_remove o then ERem (to_tag o) else EAdd (to_tag o).
Definition edits_of (ra : bool) (ops : list tagop) : list edit :=
  (if ra then [ERemAll] else []) ++ map to_edit ops.

Lemma tagop_call_edit h o : tagop_call h o = edit_op h (to_edit o).
Proof. unfold tagop_call, to_edit. now destruct (to_remove o). Qed.
Lemma to_edit_valid o : tagop_valid o -> edit_valid (to_edit o).
Proof. unfold to_edit, tagop_valid. destruct (to_remove o); auto. Qed.
Lemma edits_of_valid ra ops : Forall tagop_valid ops -> Forall edit_valid (edits_of ra ops).
Proof.
  intros H. unfold edits_of. apply Forall_app. split; [destruct ra; repeat constructor|].
  apply Forall_map. eapply Forall_impl; [|exact H]. apply to_edit_valid.
Qed.

(** ** Last operation wins *)
Lemma last_op_snoc t ops o r :
  last_op_on t (ops ++ [o]) r <-> (o = {| to_tag := t; to_remove := r |} \/ (to_tag o <> t /\ last_op_on t ops r)).
Proof.
  split.
  - intros (p & q & E & H). destruct (rev q) as [|x rq] eqn:Eq.
    + assert (q = []) by (rewrite <- (rev_involutive q), Eq; reflexivity). subst q.
      apply app_inj_tail in E as [_ E]. now left.
    + assert (Hq : q = rev rq ++ [x]) by (rewrite <- (rev_involutive q), Eq; reflexivity). subst q.
      rewrite app_comm_cons, app_assoc in E. apply app_inj_tail in E as [E ->].
      right. split; [apply H; apply in_or_app; cbn; auto|]. exists p, (rev rq). split; [exact E|].
      intros o Ho. apply H. apply in_or_app. auto.
  - intros [->|[Hne (p & q & -> & H)]].
    + exists ops, []. split; [reflexivity|]. intros o [].
    + exists p, (q ++ [o]). split; [now rewrite <- app_assoc|]. intros o' Ho. apply in_app_or in Ho as [Ho|[<-|[]]]; auto.
Qed.
Lemma not_mentioned_snoc t ops o : not_mentioned t (ops ++ [o]) <-> not_mentioned t ops /\ to_tag o <> t.
Proof.
  unfold not_mentioned. split.
  - intros H. split; intros; apply H; apply in_or_app; cbn; auto.
  - intros [H1 H2] o' Ho. apply in_app_or in Ho as [Ho|[<-|[]]]; auto.
Qed.
Lemma edits_effect_snoc es e P : edits_effect (es ++ [e]) P = edit_effect e (edits_effect es P).
Proof. unfold edits_effect. now rewrite fold_left_app. Qed.

Lemma edits_of_effect ra ops P t : edits_effect (edits_of ra ops) P t <-> tag_after ra ops P t.
Proof.
  induction ops as [|o ops IH] using rev_ind.
  - unfold edits_of, tag_after, edits_effect. cbn [map]. rewrite app_nil_r.
    assert (N : ~ last_op_on t [] false) by (intros (p & q & E & _); now destruct p).
    assert (M : not_mentioned t []) by (intros o []).
    destruct ra; cbn; intuition congruence.
  - unfold edits_of in *. rewrite map_app, app_assoc. cbn [map]. rewrite edits_effect_snoc.
    unfold tag_after. rewrite last_op_snoc, not_mentioned_snoc. unfold tag_after in IH.
    destruct o as [u r]. unfold to_edit. cbn [to_remove to_tag].
    destruct r; cbn [edit_effect]; rewrite IH.
    + assert (Sym : u <> t <-> t <> u) by (split; congruence). rewrite !Sym.
      assert (D : {| to_tag := u; to_remove := true |} <> {| to_tag := t; to_remove := false |}) by discriminate. tauto.
    + split.
      * intros [->|[H|H]].
        -- left. now left.
        -- destruct (bseq_spec u t) as [->|Hne]; [left; now left|left; right; auto].
        -- destruct (bseq_spec u t) as [->|Hne]; [left; now left|right; tauto].
      * intros [[H|[H1 H2]]|([H1 H1'] & H2 & H3)]; [left; congruence|tauto|tauto].
Qed.

Lemma scan_back_spec t ops d : 
  (last_op_on t ops true /\ scan_back t (rev ops) d = -1)%Z \/
  (last_op_on t ops false /\ scan_back t (rev ops) d = 1)%Z \/
  (not_mentioned t ops /\ scan_back t (rev ops) d = d)%Z.
Proof.
  induction ops as [|o ops IH] using rev_ind.
  - right. right. split; [intros o []|reflexivity].
  - rewrite rev_app_distr. cbn [rev app scan_back]. rewrite !last_op_snoc, not_mentioned_snoc.
    destruct o as [u r]. cbn [to_tag to_remove]. destruct (bseq_spec t u) as [->|Hne].
    + destruct r; [left|right; left]; auto.
    + assert (u <> t) by congruence. intuition.
Qed.
Lemma last_op_unique t ops a b : last_op_on t ops a -> last_op_on t ops b -> a = b.
Proof.
  induction ops as [|o ops IH] using rev_ind; intros Ha Hb.
  - destruct Ha as (p & q & E & _). now destruct p.
  - apply last_op_snoc in Ha as [Ha|[Ha Ha']], Hb as [Hb|[Hb Hb']]; try (subst o; cbn in *; congruence). auto.
Qed.
Lemma last_op_In t ops r : last_op_on t ops r -> In {| to_tag := t; to_remove := r |} ops.
Proof. intros (p & q & -> & _). apply in_or_app. cbn. auto. Qed.
Lemma last_op_mentioned t ops r : last_op_on t ops r -> ~ not_mentioned t ops.
Proof. intros H N. apply last_op_In in H. now apply N in H. Qed.

Lemma makes_changes_false tags ops ra : makes_changes tags ops ra = false ->
  forall t, tag_after ra ops (fun t => In t tags) t <-> In t tags.
Proof.
  unfold makes_changes. destruct (existsb _ tags) eqn:E1; [discriminate|]. intros E2 t.
  assert (H1 : forall c, In c tags -> scan_back c (rev ops) (if ra then -1 else 0)%Z <> (-1)%Z).
  { intros c Hc Hs. assert (existsb (fun cur => Z.eqb (scan_back cur (rev ops) (if ra then -1 else 0)%Z) (-1)) tags = true).
    { apply existsb_exists. exists c. split; [exact Hc|]. rewrite Hs. reflexivity. } congruence. }
  assert (H2 : forall o, In o ops -> to_remove o = false -> In (to_tag o) tags).
  { intros o Ho Hr. destruct (existsb (fun cur => bseq cur (to_tag o)) tags) eqn:E.
    - apply existsb_exists in E as (c & Hc & E). apply bseq_eq in E. now subst.
    - assert (existsb (fun o => negb (to_remove o) && negb (existsb (fun cur => bseq cur (to_tag o)) tags)) ops = true).
      { apply existsb_exists. exists o. split; [exact Ho|]. now rewrite Hr, E. } congruence. }
  unfold tag_after. split.
  - intros [H|(_ & _ & H)]; [|exact H]. apply last_op_In in H. now apply (H2 _ H).
  - intros Ht. pose proof (H1 t Ht) as Hs.
    destruct (scan_back_spec t ops (if ra then -1 else 0)%Z) as [[A B]|[[A B]|[A B]]].
    + congruence.
    + now left.
    + right. split; [exact A|]. destruct ra; [congruence|auto].
Qed.

(** Unaffected messages: no condition of the optimised query holds. *)
Lemma no_condition_same ops d : existsb (fun o => op_condition o d) ops = false ->
  forall t, tag_after false ops (fun t => has_tag t d = true) t <-> has_tag t d = true.
Proof.
  intros E t.
  assert (H : forall o, In o ops -> op_condition o d = false).
  { intros o Ho. destruct (op_condition o d) eqn:Ec; [|reflexivity].
    assert (existsb (fun o => op_condition o d) ops = true) by (apply existsb_exists; eauto). congruence. }
  unfold tag_after. split.
  - intros [Hl|(_ & _ & Hl)]; [|exact Hl]. apply last_op_In in Hl. apply H in Hl. unfold op_condition in Hl. cbn in Hl.
    now destruct (has_tag t d).
  - intros Ht. destruct (scan_back_spec t ops 0%Z) as [[A B]|[[A B]|[A B]]]; [|now left|right; auto].
    apply last_op_In in A. apply H in A. unfold op_condition in A. cbn in A. congruence.
Qed.

Lemma edits_terms_id es T : tsorted T ->
  (forall t, edits_effect es (fun t => In t (tags_of T)) t <-> In t (tags_of T)) -> edits_terms es T = T.
Proof.
  intros Hs H. destruct (edits_terms_tags es T Hs) as (S & A & B). apply tsorted_ext; auto.
  intros x. destruct (strip_prefix tag_prefix x) as [t|] eqn:E.
  - apply strip_prefix_Some in E. subst x. change (tag_prefix ++ t) with (tag_term t).
    rewrite <- !tags_of_In by auto. now rewrite A.
  - apply B. intros t ->. unfold tag_term, term_of in E. rewrite strip_prefix_app in E. discriminate.
Qed.
Lemma edits_effect_ext es (P Q : bytes -> Prop) : (forall x, P x <-> Q x) ->
  forall x, edits_effect es P x <-> edits_effect es Q x.
Proof.
  unfold edits_effect. revert P Q. induction es as [|e es IH]; intros P Q H; cbn; [exact H|]. apply IH.
  intros x. destruct e; cbn; rewrite ?H; tauto.
Qed.

(** ** Applying *)
Lemma edit_step_keeps h e s : dget h (handles s) <> None -> edit_valid e -> writable s = true -> isopen s = true ->
  fst (step (edit_op h e) s) = St_success /\ dget h (handles (snd (step (edit_op h e) s))) <> None /\
  writable (snd (step (edit_op h e) s)) = true /\ isopen (snd (step (edit_op h e) s)) = true.
Proof.
  intros Hh Hv Hw Ho. destruct (dget h (handles s)) as [hd|] eqn:E; [|congruence].
  assert (T : touch s (snd (step (edit_op h e) s))) by (apply (step_touch _ s h); now destruct e).
  rewrite (edit_step h e hd s) in * by auto. cbn [fst snd] in *. split; [reflexivity|].
  assert (K : writable (snd (step (edit_op h e) s)) = true /\ isopen (snd (step (edit_op h e) s)) = true).
  { rewrite (edit_step h e hd s) by auto. cbn [snd].
    destruct T as [T|(_ & _ & k & t & T)]; apply core_fields in T as (_ & _ & _ & _ & _ & _ & A & B & _);
      rewrite A, B; auto. unfold written. destruct (nesting s); auto. }
  rewrite (edit_step h e hd s) in K by auto. cbn [snd] in K. split; [|exact K].
  destruct (sync_unless_frozen _ s). cbn. rewrite dget_dput_same. discriminate.
Qed.

Lemma apply_ops_run h ops : forall s, dget h (handles s) <> None -> Forall tagop_valid ops ->
  writable s = true -> isopen s = true ->
  apply_ops h ops s = (St_success, run (map (edit_op h) (map to_edit ops)) s).
Proof.
  induction ops as [|o ops IH]; intros s Hh Hv Hw Ho; [reflexivity|].
  inversion Hv as [|? ? Hv1 Hv2]; subst. cbn [apply_ops map]. rewrite tagop_call_edit, run_cons.
  destruct (edit_step_keeps h (to_edit o) s Hh (to_edit_valid _ Hv1) Hw Ho) as (A & B & C & D).
  destruct (step (edit_op h (to_edit o)) s) as [st s'] eqn:E. cbn [fst snd] in *. subst st. auto.
Qed.

Lemma run_keeps h es : forall s, dget h (handles s) <> None -> Forall edit_valid es ->
  writable s = true -> isopen s = true ->
  dget h (handles (run (map (edit_op h) es) s)) <> None /\
  writable (run (map (edit_op h) es) s) = true /\ isopen (run (map (edit_op h) es) s) = true.
Proof.
  induction es as [|e es IH]; intros s Hh Hv Hw Ho; [auto|].
  inversion Hv as [|? ? Hv1 Hv2]; subst. cbn [map]. rewrite run_cons.
  destruct (edit_step_keeps h e s Hh Hv1 Hw Ho) as (A & B & C & D). auto.
Qed.

Lemma apply_changes_run h ops (ra : bool) s hd : dget h (handles s) = Some hd -> Forall tagop_valid ops ->
  writable s = true -> isopen s = true ->
  (match step (OpFreeze h) s with
        | (St_success, s) =>
            match (if ra then step (OpRemAll h) s else (St_success, s)) with
            | (St_success, s) =>
                match apply_ops h ops s with
                | (St_success, s) => step (OpThaw h) s
                | r => r
                end
            | r => r
            end
        | r => r
        end) = (St_success, run [OpThaw h] (run (OpFreeze h :: map (edit_op h) (edits_of ra ops)) s)).
Proof.
  intros Hh Hv Hw Ho.
  rewrite (run_cons (OpFreeze h)). rewrite !(freeze_step h s hd) by auto. cbn [snd]. set (s0 := set_handles _ s).
  assert (H0 : dget h (handles s0) = Some (h_set_frozen (S (h_frozen hd)) hd)) by (unfold s0; cbn; apply dget_dput_same).
  assert (W0 : writable s0 = true) by exact Hw. assert (O0 : isopen s0 = true) by exact Ho. clearbody s0.
  set (es := edits_of ra ops). assert (Vs : Forall edit_valid es) by now apply edits_of_valid.
  assert (E1 : (match (if ra then step (OpRemAll h) s0 else (St_success, s0)) with
            | (St_success, s) =>
                match apply_ops h ops s with
                | (St_success, s) => step (OpThaw h) s
                | r => r
                end
            | r => r
            end) = step (OpThaw h) (run (map (edit_op h) es) s0)).
  { unfold es, edits_of. destruct ra.
    - destruct (edit_step_keeps h ERemAll s0) as (A & B & C & D); [congruence|exact Logic.I|auto|auto|].
      change (OpRemAll h) with (edit_op h ERemAll).
      destruct (step (edit_op h ERemAll) s0) as [st s1] eqn:E. cbn [fst snd] in *. subst st.
      rewrite apply_ops_run by auto. cbn [app map]. rewrite run_cons, E. reflexivity.
    - rewrite apply_ops_run by (auto; congruence). reflexivity. }
  rewrite E1. destruct (edits_frozen h es s0 _ Vs H0 W0 O0) as (A & hd1 & B & C & D & E & F); [cbn; congruence|].
  destruct (run_keeps h es s0) as (K1 & K2 & K3); auto; [congruence|].
  set (t := run (map (edit_op h) es) s0) in *. clearbody t. cbn in D.
  rewrite run_cons. change (run [] ?x) with x. rewrite !(thaw_step h t hd1 (h_frozen hd)) by auto.
  reflexivity.
Qed.

Lemma tag_op_list_apply_spec h ops ra po s hd d : Forall tagop_valid ops -> dget h (handles s) = Some hd ->
  writable s = true -> isopen s = true -> h_frozen hd = O -> h_modified hd = false ->
  dget (h_doc hd) (st_docs (vis s)) = Some d -> d_terms d = h_terms hd -> tsorted (d_terms d) ->
  exists s' d', tag_op_list_apply h ops ra po s = (St_success, s') /\
    dget (h_doc hd) (st_docs (vis s')) = Some d' /\
    d_terms d' = edits_terms (edits_of ra ops) (d_terms d) /\
    (forall k, k <> h_doc hd -> dget k (st_docs (vis s')) = dget k (st_docs (vis s))) /\
    writable s' = true /\ isopen s' = true /\
    (makes_changes (tags_of (d_terms d)) ops ra = false -> po = false -> s' = s).
Proof.
  intros Hv Hh Hw Ho Hf Hm Hd Hdt Hs. unfold tag_op_list_apply. rewrite Hh, <- Hdt.
  destruct (negb po && negb (makes_changes (tags_of (d_terms d)) ops ra)) eqn:E.
  - exists s, d. split; [reflexivity|]. split; [exact Hd|]. apply andb_true_iff in E as [_ E]. apply negb_true_iff in E.
    split; [|auto]. symmetry. apply edits_terms_id; [exact Hs|]. intros t. rewrite edits_of_effect.
    now apply makes_changes_false.
  - rewrite (apply_changes_run h ops ra s hd) by auto.
    destruct (frozen_batch h (edits_of ra ops) s hd d) as (A & B & C & hd' & d' & D & F & G & I & J & K & L & M & N); auto.
    { now apply edits_of_valid. }
    eexists. exists d'. split; [reflexivity|]. split; [exact G|]. split; [congruence|]. split; [exact M|].
    destruct (run_keeps h (edits_of ra ops) (snd (step (OpFreeze h) s))) as (K1 & K2 & K3).
    { rewrite (freeze_step h s hd) by auto. cbn. rewrite dget_dput_same. discriminate. }
    { now apply edits_of_valid. }
    { now rewrite (freeze_step h s hd) by auto. }
    { now rewrite (freeze_step h s hd) by auto. }
    rewrite (run_cons (OpFreeze h)). set (t := run _ (snd (step (OpFreeze h) s))) in *. clearbody t.
    pose proof (step_touch (OpThaw h) t h eq_refl) as T. rewrite run_cons. change (run [] ?x) with x.
    assert (W : writable (snd (step (OpThaw h) t)) = writable t /\ isopen (snd (step (OpThaw h) t)) = isopen t).
    { destruct T as [T|(_ & _ & k & l & T)]; apply core_fields in T as (_ & _ & _ & _ & _ & _ & T1 & T2 & _);
        rewrite T1, T2; auto. unfold written. destruct (nesting t); auto. }
    destruct W as [W1 W2]. rewrite W1, W2. split; [exact K2|]. split; [exact K3|].
    intros Hc ->. rewrite Hc in E. discriminate.
Qed.

(** A failing application writes nothing. *)
Lemma apply_ops_frozen h ops : forall s, (0 < frozen_count h s)%nat ->
  core (snd (apply_ops h ops s)) = core s /\ frozen_count h (snd (apply_ops h ops s)) = frozen_count h s.
Proof.
  assert (K : forall o s, frozen_count h (snd (step (tagop_call h o) s)) = frozen_count h s).
  { intros o s. rewrite tagop_call_edit. unfold frozen_count. destruct (dget h (handles s)) as [hd|] eqn:Hh.
    - unfold to_edit. destruct (to_remove o); cbn [edit_op step]; unfold on_handle; rewrite Hh;
        unfold remove_tag, add_tag; destruct (ensure_writable s); try (cbn; now rewrite dget_dput_same);
        (destruct (Nat.ltb _ _); [cbn; now rewrite dget_dput_same|]);
        unfold sync_unless_frozen, h_remove_term, h_add_term; try destruct (tmem _ _); cbn [h_frozen];
        destruct (h_frozen hd) eqn:Ef; rewrite ?message_sync_eq; try destruct (_ && _); cbn; rewrite dget_dput_same; cbn; auto.
    - unfold to_edit. destruct (to_remove o); cbn [edit_op step]; unfold on_handle; rewrite Hh; cbn; now rewrite Hh. }
  induction ops as [|o ops IH]; intros s Hf; [auto|]. cbn [apply_ops].
  pose proof (K o s) as Ko. 
  assert (C : core (snd (step (tagop_call h o) s)) = core s).
  { apply (frozen_step h); [unfold tagop_call; destruct (to_remove o); reflexivity|exact Hf|]. rewrite Ko. exact Hf. }
  destruct (step (tagop_call h o) s) as [st s'] eqn:E. cbn [snd] in *.
  destruct st; try (cbn; auto).
  destruct (IH s') as [A B]; [lia|]. split; congruence.
Qed.
Lemma apply_failure_writes_nothing h ops ra po s st s' :
  tag_op_list_apply h ops ra po s = (st, s') -> st <> St_success -> frozen_count h s = O ->
  vis s' = vis s /\ durable s' = durable s /\ revision s' = revision s.
Proof.
  unfold tag_op_list_apply, frozen_count. intros H Hne Hf. destruct (dget h (handles s)) as [hd|] eqn:Hh;
    [|injection H as <- <-; auto].
  destruct (negb po && _); [injection H as <- <-; congruence|].
  assert (K : core s' = core s -> vis s' = vis s /\ durable s' = durable s /\ revision s' = revision s).
  { intros C. apply core_fields in C. tauto. }
  apply K. clear K.
  assert (E0 : core (snd (step (OpFreeze h) s)) = core s /\
     (fst (step (OpFreeze h) s) = St_success -> frozen_count h (snd (step (OpFreeze h) s)) = 1%nat)).
  { cbn [step]. unfold on_handle. rewrite Hh. unfold freeze. destruct (ensure_writable s); cbn; split; try reflexivity; try discriminate.
    intros _. unfold frozen_count. cbn. rewrite dget_dput_same. cbn. now rewrite Hf. }
  destruct (step (OpFreeze h) s) as [st0 s0]. cbn [fst snd] in E0. destruct E0 as [C0 F0].
  destruct st0; try (injection H as <- <-; congruence). specialize (F0 eq_refl).
  assert (E1 : core (snd (if ra then step (OpRemAll h) s0 else (St_success, s0))) = core s0 /\
     frozen_count h (snd (if ra then step (OpRemAll h) s0 else (St_success, s0))) = 1%nat).
  { destruct ra; [|auto]. 
    assert (F1 : frozen_count h (snd (step (OpRemAll h) s0)) = 1%nat).
    { unfold frozen_count in F0 |- *. destruct (dget h (handles s0)) as [hd0|] eqn:Hh0; [|discriminate].
      cbn [step]. unfold on_handle. rewrite Hh0. unfold remove_all_tags.
      destruct (ensure_writable s0); try (cbn; now rewrite dget_dput_same).
      unfold sync_unless_frozen. destruct (remove_fold_frozen (tags_of (h_terms hd0)) hd0) as [Efr _].
      rewrite F0 in Efr. rewrite Efr. cbn [snd handles set_handles]. rewrite dget_dput_same. exact Efr. }
    split; [|exact F1]. apply (frozen_step h); [reflexivity|lia|lia]. }
  destruct (if ra then step (OpRemAll h) s0 else (St_success, s0)) as [st1 s1]. cbn [snd] in E1. destruct E1 as [C1 F1].
  destruct st1; try (injection H as <- <-; congruence).
  destruct (apply_ops_frozen h ops s1) as [C2 F2]; [lia|].
  destruct (apply_ops h ops s1) as [st2 s2]. cbn [snd] in *.
  destruct st2; try (injection H as <- <-; congruence).
  (* the thaw: it can only fail if the database is not writable *)
  rewrite F1 in F2. unfold frozen_count in F2. revert H. cbn [step]. unfold on_handle.
  destruct (dget h (handles s2)) as [hd2|] eqn:Hh2; [|discriminate]. unfold thaw. destruct (ensure_writable s2) eqn:Ew;
    try (intros [= <- <-]; change (core (set_handles ?x s2)) with (core s2); congruence).
  rewrite F2. destruct (message_sync _ s2). intros [= <- <-]. congruence.
Qed.

(** ** Tagging by query *)
Definition dterms (k : N) (s : db) : option (list bytes) := option_map d_terms (dget k (st_docs (vis s))).

Lemma tag_message_spec h ops ra po k s T : Forall tagop_valid ops -> writable s = true -> isopen s = true ->
  dterms k s = Some T -> tsorted T ->
  exists s', tag_message h ops ra po k s = (St_success, s') /\ writable s' = true /\ isopen s' = true /\
    dterms k s' = Some (edits_terms (edits_of ra ops) T) /\
    (forall j, j <> k -> dget j (st_docs (vis s')) = dget j (st_docs (vis s))).
Proof.
  intros Hv Hw Ho Hk Hs. unfold tag_message. cbn [step]. unfold open_message. unfold dterms in Hk.
  destruct (dget k (st_docs (vis s))) as [d|] eqn:Hd; [|discriminate]. injection Hk as <-.
  set (s0 := set_handles _ s). set (hd := {| h_doc := k; h_terms := d_terms d; h_modified := false; h_frozen := 0 |}).
  destruct (tag_op_list_apply_spec h ops ra po s0 hd d) as (s' & d' & A & B & C & D & E & F & G); auto.
  { unfold s0. cbn. apply dget_dput_same. }
  exists s'. split; [exact A|]. split; [exact E|]. split; [exact F|]. split; [|exact D].
  unfold dterms. cbn in B. rewrite B. cbn. now rewrite C.
Qed.

Lemma tag_messages_spec h ops ra po : Forall tagop_valid ops -> forall ks s,
  NoDup ks -> writable s = true -> isopen s = true ->
  (forall k, In k ks -> exists T, dterms k s = Some T /\ tsorted T) ->
  exists s', tag_messages h ops ra po ks s = (St_success, s') /\
    forall j, dterms j s' = if existsb (N.eqb j) ks then option_map (edits_terms (edits_of ra ops)) (dterms j s)
                            else dterms j s.
Proof.
  intros Hv. induction ks as [|k ks IH]; intros s Hn Hw Ho Hk.
  - exists s. split; reflexivity.
  - inversion Hn as [|? ? Hn1 Hn2]; subst. cbn [tag_messages].
    destruct (Hk k (or_introl eq_refl)) as (T & HT & HsT).
    destruct (tag_message_spec h ops ra po k s T Hv Hw Ho HT HsT) as (s1 & A & B & C & D & E). rewrite A.
    destruct (IH s1 Hn2 B C) as (s' & F & G).
    { intros j Hj. destruct (Hk j (or_intror Hj)) as (T' & HT' & HsT'). exists T'. split; [|exact HsT'].
      unfold dterms in *. rewrite E; [exact HT'|]. intros ->. contradiction. }
    exists s'. split; [exact F|]. intros j. rewrite G. cbn [existsb].
    destruct (N.eqb_spec j k) as [->|Hne]; cbn [orb].
    + assert (X : existsb (N.eqb k) ks = false).
      { destruct (existsb (N.eqb k) ks) eqn:X; [|reflexivity]. apply existsb_exists in X as (y & Hy & X).
        apply N.eqb_eq in X. now subst. }
      rewrite X, D, HT. reflexivity.
    + assert (Y : dterms j s1 = dterms j s) by (unfold dterms; now rewrite E). now rewrite Y.
Qed.

Lemma search_spec q s : NoDup (map fst (st_docs (vis s))) ->
  NoDup (search q s) /\ forall k, In k (search q s) <-> exists d, dget k (st_docs (vis s)) = Some d /\ q d = true.
Proof.
  intros Hn. unfold search. split.
  - revert Hn. generalize (st_docs (vis s)). induction d as [|[k e] m IH]; cbn; intros Hn; [constructor|].
    inversion Hn as [|? ? H1 H2]; subst. destruct (q e); cbn; auto. constructor; auto.
    intros Hin. apply H1. apply in_map_iff in Hin as (x & <- & Hx). apply filter_In in Hx as [Hx _].
    now apply in_map.
  - intros k. rewrite in_map_iff. split.
    + intros ([k' d] & <- & H). apply filter_In in H as [H1 H2]. exists d. split; [|exact H2]. now apply In_dget_nodup.
    + intros (d & H1 & H2). exists (k, d). split; [reflexivity|]. apply filter_In. split; [now apply dget_In|exact H2].
Qed.

Lemma infix_optimisation_sound h q ops s :
  Forall tagop_valid ops -> writable s = true -> isopen s = true -> NoDup (map fst (st_docs (vis s))) ->
  (forall k d, dget k (st_docs (vis s)) = Some d -> tsorted (d_terms d)) ->
  exists s1 s2,
    tag_query optimize_infix h q ops false s = (St_success, s1) /\
    tag_query (fun q _ => q) h q ops false s = (St_success, s2) /\
    forall k, dterms k s1 = dterms k s2.
Proof.
  intros Hv Hw Ho Hn Hs. unfold tag_query.
  destruct (search_spec (optimize_infix q ops) s Hn) as [N1 S1]. destruct (search_spec q s Hn) as [N2 S2].
  assert (K : forall qq k, (forall k, In k (search qq s) <-> exists d, dget k (st_docs (vis s)) = Some d /\ qq d = true) ->
     In k (search qq s) -> exists T, dterms k s = Some T /\ tsorted T).
  { intros qq k Hq Hk. apply Hq in Hk as (d & Hd & _). exists (d_terms d). unfold dterms. rewrite Hd. split; [reflexivity|eauto]. }
  destruct (tag_messages_spec h ops false true Hv (search (optimize_infix q ops) s) s N1 Hw Ho) as (s1 & A1 & B1); [eauto|].
  destruct (tag_messages_spec h ops false true Hv (search q s) s N2 Hw Ho) as (s2 & A2 & B2); [eauto|].
  exists s1, s2. split; [exact A1|]. split; [exact A2|]. intros k. rewrite B1, B2.
  assert (M : forall l, existsb (N.eqb k) l = true <-> In k l).
  { intros l. rewrite existsb_exists. split; [intros (x & Hx & E); apply N.eqb_eq in E; now subst|].
    intros H. exists k. split; [exact H|]. apply N.eqb_refl. }
  destruct (existsb (N.eqb k) (search (optimize_infix q ops) s)) eqn:E1.
  - assert (E2 : existsb (N.eqb k) (search q s) = true).
    { apply M. apply M in E1. apply S1 in E1 as (d & Hd & Hq). apply S2. exists d. split; [exact Hd|].
      unfold optimize_infix in Hq. destruct ops; [exact Hq|]. now apply andb_true_iff in Hq. }
    now rewrite E2.
  - destruct (existsb (N.eqb k) (search q s)) eqn:E2; [|reflexivity].
    apply M in E2. apply S2 in E2 as (d & Hd & Hq).
    assert (Hc : existsb (fun o => op_condition o d) ops = false).
    { destruct (existsb (fun o => op_condition o d) ops) eqn:Ec; [|reflexivity]. exfalso.
      assert (existsb (N.eqb k) (search (optimize_infix q ops) s) = true); [|congruence].
      apply M. apply S1. exists d. split; [exact Hd|]. unfold optimize_infix. destruct ops; [exact Hq|].
      now rewrite Hq, Ec. }
    unfold dterms. rewrite Hd. cbn [option_map]. f_equal. symmetry. apply edits_terms_id; [eauto|].
    intros t. rewrite edits_of_effect.
    assert (HT : forall t, has_tag t d = true <-> In t (tags_of (d_terms d))).
    { intros u. unfold has_tag. rewrite tmem_In, tags_of_In by eauto. reflexivity. }
    rewrite <- HT. rewrite <- (no_condition_same ops d Hc t). unfold tag_after. now rewrite HT.
Qed.
