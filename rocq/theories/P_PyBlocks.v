(** Property C89: "with message.frozen ():" and "with database.atomic ():" in Python. *)
From Verif Require Import Bytes Terms Meta DocMap Db DbSpec DbProofs PyBlocks PyBlocksSpec PyBlocksProofs PyBlocksProofs2.
Local Open Scope N_scope.

(** A "with message.frozen ():" around any program (with blocks nested as deep as wanted, atomic sections and
    exceptions caught or not, but without abort and without catching exceptions between two such blocks):
    - it ends as the program inside ends by itself;
    - until its last call of the library the database, as other readers see it, does not change, so that no crash can
      leave a part of the changes;
    - if it ends normally, exactly the changes the program got to are then stored, all at once, and nothing else changes;
    - if an Exception comes out, nothing is stored, and the object is as before: not frozen, with the old tags;
    - if something like KeyboardInterrupt comes out, nothing is stored. *)
Theorem C89_frozen :
  forall owned flush_env b st k d,
  settled st k d -> tsorted (d_terms d) -> uncaught_block b = true -> no_abort_block b = true ->
  exists t st', exec owned flush_env (Frozen b) st = (t, st', snd (flow_block b)) /\
    Forall (fun s => vis s = vis (p_db st)) (removelast t) /\
    usable (p_db st') /\ nesting (p_db st') = nesting (p_db st) /\
    match snd (flow_block b) with
    | Fine =>
        exists d', settled st' k d' /\ tsorted (d_terms d') /\
          (forall x, tag_set d' x <-> edits_effect (fst (flow_block b)) (tag_set d) x) /\
          (forall x, (forall u, x <> tag_term u) -> (In x (d_terms d') <-> In x (d_terms d))) /\
          (forall j, j <> k -> dget j (st_docs (vis (p_db st'))) = dget j (st_docs (vis (p_db st))))
    | Raised Exc => vis (p_db st') = vis (p_db st) /\ settled st' k d
    | Raised Base => vis (p_db st') = vis (p_db st)
    end.
Proof.
  intros owned fe b st k d (U & D & M) Ts Hu Hn. rewrite exec_frozen. unfold call at 1. rewrite M. unfold freeze at 1. rewrite (usable_ok _ U). cbn [raised].
  set (h1 := h_set_frozen _ _). set (st1 := with_msg (Some h1) (with_db (p_db st) st)).
  assert (S1 : start st1 h1). { split; [exact U|]. split; [reflexivity|]. split; [discriminate|]. exists d. exact D. }
  pose proof (proj2 (inside owned fe) b Hu Hn st1 h1 S1) as R. destruct (exec_block owned fe b st1) as [[t2 st2] o2].
  destruct R as (Eo & Ft & Sm & U2 & N2 & A2 & L2 & h2 & M2 & D2 & H2). change (p_db st1) with (p_db st) in *.
  assert (Fv : Forall (fun s => vis s = vis (p_db st)) (p_db st :: t2)).
  { constructor; [reflexivity|]. eapply Forall_impl; [|exact Ft]. now intros s [V _]. }
  assert (Rl : forall (A : Type) (P : A -> Prop) l, Forall P l -> Forall P (removelast l)).
  { intros A P l. induction 1 as [|x [|y l] Hx Hl IH]; [constructor|constructor|]. cbn [removelast] in *. now constructor. }
  rewrite <- Eo. destruct o2 as [|[]].
  - destruct (H2 (or_introl eq_refl)) as (B & C & E). unfold call. rewrite M2. unfold thaw. rewrite (usable_ok _ U2), B. cbn [h_frozen h1 h_set_frozen].
    rewrite message_sync_eq. destruct U2 as (W2 & O2 & T2). rewrite W2. cbn [andb h_modified h_set_frozen h_doc h_terms h_frozen].
    change (h_terms h1) with (d_terms d) in *. change (h_modified h1) with false in E. change (h_doc h1) with k in D2.
    destruct (edits_terms_tags (fst (flow_block b)) (d_terms d) Ts) as (Ts' & Tg & Ot).
    destruct (h_modified h2) eqn:Md.
    + eexists. eexists. split; [reflexivity|]. split; [|split; [|split]].
      * change ([p_db st] ++ t2 ++ [written (h_doc h2) (h_terms h2) (p_db st2)]) with ((p_db st :: t2) ++ [written (h_doc h2) (h_terms h2) (p_db st2)]).
        rewrite removelast_last. exact Fv.
      * cbn [p_db with_msg with_db]. unfold usable, written. destruct (nesting (p_db st2)) eqn:Z; cbn; rewrite ?Z; auto.
      * cbn [p_db with_msg with_db]. unfold written. destruct (nesting (p_db st2)) eqn:Z; cbn; rewrite ?Z; exact N2.
      * exists {| d_terms := h_terms h2; d_lastmod := revision (p_db st2) + 1 |}. cbn [d_terms].
        assert (V : vis (written (h_doc h2) (h_terms h2) (p_db st2)) = store_put k {| d_terms := h_terms h2; d_lastmod := revision (p_db st2) + 1 |} (vis (p_db st))).
        { unfold written. rewrite D2, (proj1 Sm). reflexivity. }
        split.
        { split; [cbn [p_db with_msg with_db]; unfold usable, written; destruct (nesting (p_db st2)) eqn:Z; cbn; rewrite ?Z; auto|]. cbn [p_db with_msg with_db p_msg].
          rewrite V. cbn [store_put st_docs]. rewrite dget_dput_same. split; [reflexivity|]. rewrite D2. reflexivity. }
        rewrite C in V |- *. split; [exact Ts'|]. split; [exact Tg|]. split; [exact Ot|]. intros j Hj. cbn [p_db with_msg with_db]. rewrite V. cbn [store_put st_docs].
        now apply dget_dput_other.
    + destruct (E eq_refl) as [_ Et]. eexists. eexists. split; [reflexivity|]. split; [|split; [|split]].
      * change ([p_db st] ++ t2 ++ [p_db st2]) with ((p_db st :: t2) ++ [p_db st2]). rewrite removelast_last. exact Fv.
      * now repeat split.
      * exact N2.
      * exists d. split; [|split; [exact Ts|]].
        { split; [now repeat split|]. cbn [p_db with_msg with_db p_msg]. rewrite (proj1 Sm). split; [exact D|]. f_equal. unfold h_set_frozen. rewrite D2, Et, Md. reflexivity. }
        rewrite <- C, Et in Tg. split; [exact Tg|]. split; [intros; reflexivity|]. intros j _. cbn [p_db with_msg with_db]. now rewrite (proj1 Sm).
  - eexists. eexists. split; [reflexivity|]. split; [apply Rl; exact Fv|].
    unfold rollback. rewrite M2. destruct U2 as (W2 & O2 & T2). rewrite O2, (proj1 Sm), D2. change (h_doc h1) with k. rewrite D. cbn [p_db].
    split; [now repeat split|]. split; [exact N2|]. split; [exact (proj1 Sm)|]. split; [now repeat split|]. cbn [p_db p_msg]. rewrite (proj1 Sm). now split.
  - eexists. eexists. split; [reflexivity|]. split; [apply Rl; exact Fv|]. split; [exact U2|]. split; [exact N2|]. exact (proj1 Sm).
Qed.
Print Assumptions C89_frozen.

(** "with database.atomic ():", outside of any other, around any program without abort: the section is ended
    however the program ends, by an exception too; as long as it is open nothing becomes durable, so that a crash leaves
    nothing of it; and ending it takes nothing back, so that what was written before an exception stays. *)
Theorem C89_atomic :
  forall owned flush_env b st, usable (p_db st) -> nesting (p_db st) = O -> no_abort_block b = true ->
  exists t before after st' o, exec owned flush_env (Atomic b) st = (t ++ [before; after], st', o) /\ p_db st' = after /\
    usable after /\ nesting after = O /\ vis after = vis before /\
    Forall (fun s => durable s = durable (p_db st)) (t ++ [before]) /\
    (durable after = durable (p_db st) \/ durable after = vis after).
Proof.
  intros owned fe b st U N Hn. rewrite exec_atomic. destruct (begin_usable _ U) as (s & Eb & Us & _ & Ns). rewrite Eb. set (st1 := with_aborted _ _).
  pose proof (proj2 (all_inert owned fe) b Hn st1 Us) as R. destruct (exec_block owned fe b st1) as [[t2 st2] o2] eqn:Ex. destruct R as (U2 & N2 & A2 & D2).
  change (p_db st1) with s in *. change (p_aborted st1) with (false :: p_aborted st) in A2. rewrite A2. cbn [p_db with_aborted tl].
  destruct (end_usable fe (p_db st2) (nesting (p_db st)) U2) as (s' & Ee & Ue & Se & Ne); [congruence|]. rewrite Ee. cbn [raised].
  destruct D2 as [E2 F2]; [congruence|]. pose proof (begin_durable _ _ U Eb) as Db.
  assert (Fd : Forall (fun x => durable x = durable (p_db st)) (s :: t2)).
  { constructor; [exact Db|]. eapply Forall_impl; [|exact F2]. cbn. intros x ->. exact Db. }
  (* the last state before the end is the one the body ends in *)
  assert (La : exists t before, s :: t2 = t ++ [before] /\ vis before = vis (p_db st2)).
  { assert (Last : forall l x st0, (forall c, exec owned fe c st0 = exec owned fe c st0) -> vis (p_db st0) = vis x ->
       forall bb st3 o3, exec_block owned fe bb st0 = (l, st3, o3) -> exists t before, x :: l = t ++ [before] /\ vis before = vis (p_db st3)).
    { assert (G : (forall c x st0, vis (p_db st0) = vis x -> let '(l, st3, _) := exec owned fe c st0 in exists t before, x :: l = t ++ [before] /\ vis before = vis (p_db st3)) /\
                  (forall bb x st0, vis (p_db st0) = vis x -> let '(l, st3, _) := exec_block owned fe bb st0 in exists t before, x :: l = t ++ [before] /\ vis before = vis (p_db st3))).
      { assert (Cl : forall f x st0, vis (p_db st0) = vis x -> let '(l, st3, _) := call f st0 in exists t before, x :: l = t ++ [before] /\ vis before = vis (p_db st3)).
        { intros f x st0 V. unfold call. destruct (p_msg st0) as [h|]; [|exists [], x; now split]. destruct (f h (p_db st0)) as [[r h'] s0]. exists [x], s0. now split. }
        assert (Ap : forall x l1 l2 y st3, (exists t before, x :: l1 = t ++ [before] /\ before = y) -> (exists t before, y :: l2 = t ++ [before] /\ vis before = vis (p_db st3)) ->
                     exists t before, x :: (l1 ++ l2) = t ++ [before] /\ vis before = vis (p_db st3)).
        { intros x l1 l2 y st3 (ta & ? & Ha & ->) (tb & bb & Hb & Vb). exists (ta ++ tb), bb. split; [|exact Vb]. rewrite <- app_assoc, <- Hb. change (x :: l1 ++ l2) with ((x :: l1) ++ l2). rewrite Ha, <- app_assoc. reflexivity. }
        assert (Ap' : forall x l1 l2 st3 (Q : db -> Prop), (exists t before, x :: l1 = t ++ [before] /\ Q before) -> (forall y, Q y -> exists t before, y :: l2 = t ++ [before] /\ vis before = vis (p_db st3)) ->
                     exists t before, x :: (l1 ++ l2) = t ++ [before] /\ vis before = vis (p_db st3)).
        { intros x l1 l2 st3 Q (ta & y & Ha & Qy) H. apply (Ap x l1 l2 y st3); [now exists ta, y|now apply H]. }
        apply stmt_block_ind.
        - intros c x st0 V. rewrite exec_change. now apply Cl.
        - intros kk x st0 V. rewrite exec_raise. exists [], x. now split.
        - intros bb IH x st0 V. rewrite exec_frozen. pose proof (Cl freeze x st0 V) as C1. destruct (call freeze st0) as [[l1 sa] [|k]]; [|exact C1].
          destruct C1 as (ta & y & Ha & Vy). specialize (IH y sa (eq_sym Vy)). destruct (exec_block owned fe bb sa) as [[l2 sb] o].
          destruct o as [|[]].
          + destruct IH as (tb & z & Hb & Vz). pose proof (Cl thaw z sb (eq_sym Vz)) as C3. destruct (call thaw sb) as [[l3 sc] o3].
            apply (Ap x l1 (l2 ++ l3) y sc); [now exists ta, y|]. apply (Ap y l2 l3 z sc); [now exists tb, z|exact C3].
          + assert (X : p_db (rollback owned sb) = p_db sb).
            { unfold rollback. destruct (p_msg sb) as [h|]; [|reflexivity]. destruct (if isopen _ then _ else _); [reflexivity|]. now destruct owned. }
            rewrite X. apply (Ap x l1 l2 y sb); [now exists ta, y|exact IH].
          + apply (Ap x l1 l2 y sb); [now exists ta, y|exact IH].
        - intros bb IH x st0 V. rewrite exec_atomic. destruct (begin_atomic (p_db st0)) as [r0 s0] eqn:E0.
          destruct r0; try (exists [x], s0; split; [reflexivity|reflexivity]).
          set (sx := with_aborted (false :: p_aborted st0) (with_db s0 st0)). specialize (IH s0 sx eq_refl). destruct (exec_block owned fe bb sx) as [[l2 sb] o].
          cbv zeta. destruct IH as (tb & z & Hb & Vz).
          destruct (match p_aborted sb with a :: _ => a | [] => false end).
          + exists (x :: tb), z. rewrite Hb. now split.
          + cbn [p_db with_aborted]. destruct (end_atomic fe (p_db sb)) as [r1 s1]. exists (x :: s0 :: l2), s1. split; [reflexivity|reflexivity].
        - intros n x st0 V. cbn [exec]. exists [x], (close (p_db st0)). now split.
        - intros bb IH x st0 V. rewrite exec_try. specialize (IH x st0 V). destruct (exec_block owned fe bb st0) as [[l sb] [|[]]]; exact IH.
        - intros x st0 V. cbn [exec_block]. exists [], x. now split.
        - intros c IHc bb IHb x st0 V. rewrite exec_then. specialize (IHc x st0 V). destruct (exec owned fe c st0) as [[l1 sa] [|k]]; [|exact IHc].
          destruct IHc as (ta & y & Ha & Vy). specialize (IHb y sa (eq_sym Vy)). destruct (exec_block owned fe bb sa) as [[l2 sb] o].
          apply (Ap x l1 l2 y sb); [now exists ta, y|exact IHb]. }
      intros l x st0 _ V bb st3 o3 Ebb. pose proof (proj2 G bb x st0 V) as Gb. rewrite Ebb in Gb. exact Gb. }
    apply (Last t2 s st1 (fun _ => eq_refl) eq_refl b st2 o2 Ex). }
  destruct La as (t & before & El & Vb). rewrite El in Fd. exists t, before, s', (with_db s' (with_aborted (p_aborted st) st2)), o2.
  split. { change (s :: t2 ++ [s']) with ((s :: t2) ++ [s']). rewrite El, <- app_assoc. reflexivity. }
  split; [reflexivity|]. split; [exact Ue|]. split; [congruence|]. destruct Se as [Sv Sd]. split; [congruence|]. split; [exact Fd|].
  destruct Sd as [Sd|Sd]; [left; congruence|right; congruence].
Qed.
Print Assumptions C89_atomic.

(** abort () at the end of a section that is in no other: the block ends without an exception, the database is closed, and
    nothing of the section is kept. *)
Theorem C89_abort :
  forall owned flush_env b st t st1, usable (p_db st) -> nesting (p_db st) = O -> no_abort_block b = true ->
  exec_block owned flush_env b (with_aborted (false :: p_aborted st) (with_db (snd (begin_atomic (p_db st))) st)) = (t, st1, Fine) ->
  exists t' st', exec owned flush_env (Atomic (snoc b (Abort 0))) st = (t', st', Fine) /\
    isopen (p_db st') = false /\ durable (p_db st') = durable (p_db st) /\ vis (p_db st') = durable (p_db st).
Proof.
  intros owned fe b st t st1 U N Hn Ex. rewrite exec_atomic. destruct (begin_usable _ U) as (s & Eb & Us & _ & Ns). rewrite Eb in *. cbn [snd] in Ex.
  set (st0 := with_aborted (false :: p_aborted st) (with_db s st)) in *.
  pose proof (proj2 (all_inert owned fe) b Hn st0 Us) as R. rewrite Ex in R. destruct R as (U2 & N2 & A2 & D2). change (p_db st0) with s in *. change (p_aborted st0) with (false :: p_aborted st) in A2.
  rewrite exec_snoc, Ex. cbn [exec]. cbn [p_aborted with_aborted]. rewrite A2. cbn [mark tl]. eexists. eexists. split; [reflexivity|]. cbn [p_db with_aborted with_db].
  destruct D2 as [E2 _]; [congruence|]. pose proof (begin_durable _ _ U Eb) as Db. destruct U2 as (W2 & O2 & T2). unfold close. rewrite O2, W2, T2, N2, Ns. cbn.
  split; [reflexivity|]. split; congruence.
Qed.
Print Assumptions C89_abort.

(** Revisions of one database are ordered as their numbers. *)
Theorem C89_revisions :
  forall a b, r_uuid a = r_uuid b ->
  (rev_eq a b = true <-> r_rev a = r_rev b) /\ (rev_lt a b = true <-> r_rev a < r_rev b) /\ (rev_gt a b = true <-> r_rev b < r_rev a) /\
  (rev_le a b = true <-> r_rev a <= r_rev b) /\ (rev_ge a b = true <-> r_rev b <= r_rev a).
Proof.
  intros [x u] [y v] E. cbn in E. subst v. unfold rev_gt, rev_le, rev_ge, rev_lt, rev_eq. cbn [r_rev r_uuid]. rewrite bseq_refl. cbn [negb].
  destruct (N.eqb_spec x y), (N.ltb_spec x y); cbn; repeat split; intros; try reflexivity; try discriminate; try congruence; lia.
Qed.
Print Assumptions C89_revisions.

(** ** What is false *)
Definition x_doc : doc := {| d_terms := map lit ["Kinbox"; "Qa@b"]%string; d_lastmod := 3 |}.
Definition x_store : store := {| st_docs := [(7, x_doc)]; st_ub := 3 |}.
Definition x_state : pystate :=
  {| p_db := open_db x_store 0 true; p_msg := Some {| h_doc := 7; h_terms := d_terms x_doc; h_modified := false; h_frozen := 0 |}; p_left := []; p_aborted := [] |}.
Definition stored (st : pystate) : option (list bytes) := option_map d_terms (dget 7 (st_docs (vis (p_db st)))).
Fixpoint body (l : list stmt) : block := match l with [] => Done | c :: l => Then c (body l) end.
Definition add (s : string) : stmt := Change (TAdd (lit s)).
Definition state_of (r : list db * pystate * outcome) : pystate := snd (fst r).
Definition outcome_of (r : list db * pystate * outcome) : outcome := snd r.
(** "It is safe to nest calls": if the exception of an inner block is caught in the outer one, the outer block loses the
    changes before, stores those after at once, and fails at its end. *)
Definition x_nested : block := body [add "x"; TryExcept (body [Frozen (body [add "y"; Raise Exc])]); add "z"].
Theorem C89_nested_refuted :
  snd (flow_block x_nested) = Fine /\ outcome_of (exec false false (Frozen x_nested) x_state) = Raised Exc /\
  stored (state_of (exec false false (Frozen x_nested) x_state)) = Some (map lit ["Kinbox"; "Kz"; "Qa@b"]%string).
Proof. split; [|split]; vm_compute; reflexivity. Qed.
(** After KeyboardInterrupt the message stays frozen: a later change, which raises nothing, is not stored. *)
Definition x_interrupted : list db * pystate * outcome := exec false false (Frozen (body [add "x"; Raise Base])) x_state.
Theorem C89_interrupt_refuted :
  outcome_of x_interrupted = Raised Base /\ outcome_of (exec false false (add "y") (state_of x_interrupted)) = Fine /\
  stored (state_of (exec false false (add "y") (state_of x_interrupted))) = Some (d_terms x_doc).
Proof. split; [|split]; vm_compute; reflexivity. Qed.
(** A message of a thread: after a failed block the library's message in the thread stays frozen and changed. *)
Definition x_thread : list db * pystate * outcome := exec true false (Frozen (body [add "x"; Raise Exc])) x_state.
Theorem C89_thread_refuted :
  outcome_of x_thread = Raised Exc /\
  map (fun h => (h_frozen h, h_modified h, h_terms h)) (p_left (state_of x_thread)) = [(1%nat, true, map lit ["Kinbox"; "Kx"; "Qa@b"]%string)].
Proof. split; vm_compute; reflexivity. Qed.
(** abort () in an inner section: the outer one ends without an exception although nothing of it is kept, and the section
    counts as still open. *)
Definition x_aborted : list db * pystate * outcome := exec false false (Atomic (body [add "x"; Atomic (body [Abort 0])])) x_state.
Theorem C89_abort_nested_refuted :
  outcome_of x_aborted = Fine /\ stored (state_of x_aborted) = Some (d_terms x_doc) /\ isopen (p_db (state_of x_aborted)) = false /\ nesting (p_db (state_of x_aborted)) = 1%nat.
Proof. split; [|split; [|split]]; vm_compute; reflexivity. Qed.
(** Revisions of two databases: each is greater than the other. *)
Theorem C89_revisions_refuted :
  forall a b, r_uuid a <> r_uuid b -> rev_gt a b = true /\ rev_gt b a = true /\ rev_ge a b = true /\ rev_le a b = false.
Proof.
  intros a b N. assert (E1 : bseq (r_uuid a) (r_uuid b) = false) by (destruct (bseq (r_uuid a) (r_uuid b)) eqn:E; [apply bseq_eq in E; congruence|reflexivity]).
  assert (E2 : bseq (r_uuid b) (r_uuid a) = false) by (destruct (bseq (r_uuid b) (r_uuid a)) eqn:E; [apply bseq_eq in E; congruence|reflexivity]).
  unfold rev_gt, rev_ge, rev_le, rev_lt, rev_eq. rewrite E1, E2. cbn. auto.
Qed.

(** ** Examples *)
Example x_settled : settled x_state 7 x_doc /\ tsorted (d_terms x_doc).
Proof.
  split; [|repeat constructor]. split; [|split; vm_compute; reflexivity]. split; [|split]; vm_compute; reflexivity.
Qed.
(** Nested, caught inside the innermost block, with an atomic section: x and y are stored in the end. *)
Definition x_program : block := body [add "x"; Atomic (body [Frozen (body [TryExcept (body [add "y"; Raise Exc; add "no"]); Change (TDiscard (lit "inbox"))])])].
Example x_hypotheses : uncaught_block x_program = true /\ no_abort_block x_program = true.
Proof. split; vm_compute; reflexivity. Qed.
Example x_result : outcome_of (exec false false (Frozen x_program) x_state) = Fine /\ stored (state_of (exec false false (Frozen x_program) x_state)) = Some (map lit ["Kx"; "Ky"; "Qa@b"]%string).
Proof. split; vm_compute; reflexivity. Qed.
Definition x_exception : list db * pystate * outcome := exec false true (Atomic (body [add "x"; Raise Exc; add "y"])) x_state.
Example x_atomic_exception :
  outcome_of x_exception = Raised Exc /\ stored (state_of x_exception) = Some (map lit ["Kinbox"; "Kx"; "Qa@b"]%string) /\ durable (p_db (state_of x_exception)) = vis (p_db (state_of x_exception)).
Proof. split; [|split]; vm_compute; reflexivity. Qed.
Example x_abort : outcome_of (exec_block false false (body [add "x"]) (with_aborted (false :: p_aborted x_state) (with_db (snd (begin_atomic (p_db x_state))) x_state))) = Fine.
Proof. vm_compute. reflexivity. Qed.
