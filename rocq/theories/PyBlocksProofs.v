(** Proofs for C89. *)
From Verif Require Import Bytes Terms Meta DocMap Db DbSpec DbProofs PyBlocks PyBlocksSpec.
Local Open Scope N_scope.

Scheme stmt_mind := Induction for stmt Sort Prop with block_mind := Induction for block Sort Prop.
Combined Scheme stmt_block_ind from stmt_mind, block_mind.

Definition same (s0 s : db) : Prop := vis s = vis s0 /\ (durable s = durable s0 \/ durable s = vis s0).
Lemma same_refl s : same s s.
Proof. split; auto. Qed.
Lemma same_trans a b c : same a b -> same b c -> same a c.
Proof. intros [A B] [C D]. split; [congruence|]. destruct D as [-> | ->]; [exact B|right; exact A]. Qed.
Lemma same_all a b l : same a b -> Forall (same b) l -> Forall (same a) l.
Proof. intros H. apply Forall_impl. intros c. now apply same_trans. Qed.

Lemma usable_ok s : usable s -> ensure_writable s = St_success.
Proof. intros (A & B & _). now apply ensure_writable_success. Qed.

Lemma change_frozen c h s : usable s -> h_frozen h <> O ->
  change c h s = if fits c then (St_success, edit_handle (as_edit c) h, s) else (St_tag_too_long, h, s).
Proof.
  intros U F. apply usable_ok in U. destruct c as [t|t|]; cbn [change fits as_edit edit_handle].
  - unfold add_tag. rewrite U. unfold NOTMUCH_TAG_MAX. destruct (Nat.ltb_spec 200 (length t)), (Nat.leb_spec (length t) 200); try lia; [reflexivity|].
    unfold sync_unless_frozen. cbn [h_frozen h_add_term]. destruct (h_frozen h) eqn:E; [congruence|]. reflexivity.
  - unfold remove_tag. rewrite U. unfold NOTMUCH_TAG_MAX. destruct (Nat.ltb_spec 200 (length t)), (Nat.leb_spec (length t) 200); try lia; [reflexivity|].
    unfold sync_unless_frozen. assert (E : h_frozen (h_remove_term (tag_term t) h) = h_frozen h) by (unfold h_remove_term; destruct (tmem _ _); reflexivity).
    rewrite E. destruct (h_frozen h); [congruence|]. reflexivity.
  - unfold remove_all_tags. rewrite U. unfold sync_unless_frozen.
    assert (E : forall l h, h_frozen (fold_left (fun h t => h_remove_term (tag_term t) h) l h) = h_frozen h).
    { intros l. induction l as [|t l IH]; intros h0; [reflexivity|]. cbn [fold_left]. rewrite IH. unfold h_remove_term. destruct (tmem _ _); reflexivity. }
    rewrite E. destruct (h_frozen h); [congruence|]. reflexivity.
Qed.
Lemma edit_handle_facts e h :
  h_doc (edit_handle e h) = h_doc h /\ h_frozen (edit_handle e h) = h_frozen h /\
  (h_modified (edit_handle e h) = false -> h_modified h = false /\ h_terms (edit_handle e h) = h_terms h).
Proof.
  assert (R : forall x h, h_doc (h_remove_term x h) = h_doc h /\ h_frozen (h_remove_term x h) = h_frozen h /\
    (h_modified (h_remove_term x h) = false -> h_modified h = false /\ h_terms (h_remove_term x h) = h_terms h)).
  { intros x h0. unfold h_remove_term. destruct (tmem _ _); cbn; auto. repeat split; discriminate. }
  destruct e as [t|t|]; cbn [edit_handle].
  - cbn. repeat split; discriminate.
  - apply R.
  - generalize (tags_of (h_terms h)) as l. intros l. revert h. induction l as [|t l IH]; intros h; cbn [fold_left]; [auto|].
    destruct (IH (h_remove_term (tag_term t) h)) as (A & B & C). destruct (R (tag_term t) h) as (A' & B' & C').
    split; [congruence|]. split; [congruence|]. intros M. destruct (C M) as [M1 T1]. destruct (C' M1) as [M2 T2]. split; [exact M2|congruence].
Qed.
Lemma edits_terms_app a b T : edits_terms (a ++ b) T = edits_terms b (edits_terms a T).
Proof. unfold edits_terms. apply fold_left_app. Qed.

Section Frozen.
Variables owned fe : bool.

(** What a piece of program does to a message that is frozen. *)
Definition result (flatb : bool) (fl : list edit * outcome) (st : pystate) (h : handle) (r : list db * pystate * outcome) : Prop :=
  let '(t, st', o) := r in
  o = snd fl /\ Forall (same (p_db st)) t /\ same (p_db st) (p_db st') /\ usable (p_db st') /\ nesting (p_db st') = nesting (p_db st) /\
  p_aborted st' = p_aborted st /\ (owned = false -> p_left st' = p_left st) /\
  exists h', p_msg st' = Some h' /\ h_doc h' = h_doc h /\
    ((o = Fine \/ flatb = true) -> h_frozen h' = h_frozen h /\ h_terms h' = edits_terms (fst fl) (h_terms h) /\
       (h_modified h' = false -> h_modified h = false /\ h_terms h' = h_terms h)).
Definition start (st : pystate) (h : handle) : Prop :=
  usable (p_db st) /\ p_msg st = Some h /\ h_frozen h <> O /\ exists d, dget (h_doc h) (st_docs (vis (p_db st))) = Some d.

Lemma begin_usable s : usable s -> exists s', begin_atomic s = (St_success, s') /\ usable s' /\ same s s' /\ nesting s' = S (nesting s).
Proof.
  intros (W & O & T). unfold begin_atomic. rewrite W, O, T. cbn [negb orb]. destruct (Nat.ltb_spec 0 (nesting s)) as [L|L].
  - eexists. split; [reflexivity|]. split; [|split; [split; [reflexivity|now left]|reflexivity]]. split; [exact W|]. split; [exact O|]. cbn. rewrite T. destruct (Nat.ltb_spec 0 (nesting s)); [reflexivity|lia].
  - eexists. split; [reflexivity|]. split; [|split; [split; [reflexivity|now left]|reflexivity]]. split; [exact W|]. split; [exact O|]. reflexivity.
Qed.
Lemma end_usable s n : usable s -> nesting s = S n -> exists s', end_atomic fe s = (St_success, s') /\ usable s' /\ same s s' /\ nesting s' = n.
Proof.
  intros (W & O & T) N. unfold end_atomic. rewrite N, W, O, T, N. cbn [negb orb Nat.ltb Nat.leb]. destruct n as [|n]; cbn [Nat.ltb Nat.leb negb orb].
  - eexists. split; [reflexivity|]. cbn [in_txn nesting writable isopen durable vis tcount threshold dirty set_txn set_tcount].
    destruct ((_ && _) || _); cbn [dirty set_tcount set_durable set_txn]; destruct (dirty s); cbn; (split; [split; [exact W|split; [exact O|reflexivity]]|]); (split; [|reflexivity]); (split; [reflexivity|]); auto.
  - eexists. split; [reflexivity|]. split; [|split; [split; [reflexivity|now left]|reflexivity]]. split; [exact W|]. split; [exact O|]. cbn. rewrite T, N. reflexivity.
Qed.

(** Unfolding. *)
Lemma exec_change c st : exec owned fe (Change c) st = call (change c) st.
Proof. reflexivity. Qed.
Lemma exec_raise k st : exec owned fe (Raise k) st = ([], st, Raised k).
Proof. reflexivity. Qed.
Lemma exec_frozen b st : exec owned fe (Frozen b) st =
      match call freeze st with
      | (t1, st, Fine) =>
          match exec_block owned fe b st with
          | (t2, st, Fine) => let '(t3, st, o) := call thaw st in (t1 ++ t2 ++ t3, st, o)
          | (t2, st, Raised Exc) => (t1 ++ t2, rollback owned st, Raised Exc)
          | (t2, st, Raised Base) => (t1 ++ t2, st, Raised Base)
          end
      | r => r
      end.
Proof. reflexivity. Qed.
Lemma exec_atomic b st : exec owned fe (Atomic b) st =
      match begin_atomic (p_db st) with
      | (St_success, s) =>
          let '(t, st, o) := exec_block owned fe b (with_aborted (false :: p_aborted st) (with_db s st)) in
          let aborted := match p_aborted st with a :: _ => a | [] => false end in
          let st := with_aborted (tl (p_aborted st)) st in
          if aborted then (s :: t, st, o)
          else let '(r, s') := end_atomic fe (p_db st) in
               (s :: t ++ [s'], with_db s' st, match raised r with Fine => o | e => e end)
      | (_, s) => ([s], with_db s st, Raised Exc)
      end.
Proof. reflexivity. Qed.
Lemma exec_try b st : exec owned fe (TryExcept b) st = match exec_block owned fe b st with (t, st, Raised Exc) => (t, st, Fine) | r => r end.
Proof. reflexivity. Qed.
Lemma exec_then c b st : exec_block owned fe (Then c b) st =
      match exec owned fe c st with
      | (t1, st, Fine) => let '(t2, st, o) := exec_block owned fe b st in (t1 ++ t2, st, o)
      | r => r
      end.
Proof. reflexivity. Qed.
Lemma flow_try b : flow (TryExcept b) = match flow_block b with (l, Raised Exc) => (l, Fine) | r => r end.
Proof. reflexivity. Qed.
Lemma flow_then c b : flow_block (Then c b) = match flow c with (l, Fine) => let '(l', o) := flow_block b in (l ++ l', o) | r => r end.
Proof. reflexivity. Qed.

Lemma inside :
  (forall c, uncaught c = true -> no_abort c = true -> forall st h, start st h -> result (flat c) (flow c) st h (exec owned fe c st)) /\
  (forall b, uncaught_block b = true -> no_abort_block b = true -> forall st h, start st h -> result (flat_block b) (flow_block b) st h (exec_block owned fe b st)).
Proof.
  apply stmt_block_ind.
  - (* Change *)
    intros c _ _ st h (U & M & F & D). rewrite exec_change. cbn [flow flat]. unfold call. rewrite M, (change_frozen c h (p_db st) U F).
    destruct (fits c); cbn.
    + destruct (edit_handle_facts (as_edit c) h) as (A & B & C).
      split; [reflexivity|]. split; [constructor; [apply same_refl|constructor]|]. split; [apply same_refl|]. split; [exact U|]. split; [reflexivity|]. split; [reflexivity|]. split; [intros _; reflexivity|].
      eexists. split; [reflexivity|]. split; [exact A|]. intros _. split; [exact B|]. split; [apply edit_handle_terms|exact C].
    + split; [reflexivity|]. split; [constructor; [apply same_refl|constructor]|]. split; [apply same_refl|]. split; [exact U|]. split; [reflexivity|]. split; [reflexivity|]. split; [intros _; reflexivity|].
      eexists. split; [reflexivity|]. split; [reflexivity|]. intros _. split; [reflexivity|]. split; [reflexivity|]. intros X. split; [exact X|reflexivity].
  - (* Raise *)
    intros k _ _ st h (U & M & F & D). cbn. split; [reflexivity|]. split; [constructor|]. split; [apply same_refl|]. split; [exact U|]. split; [reflexivity|]. split; [reflexivity|]. split; [intros _; reflexivity|].
    exists h. split; [exact M|]. split; [reflexivity|]. intros _. split; [reflexivity|]. split; [reflexivity|]. intros X. split; [exact X|reflexivity].
  - (* Frozen *)
    intros b IH Hu Hn st h (U & M & F & (d & D)). rewrite exec_frozen. change (flow (Frozen b)) with (flow_block b). change (flat (Frozen b)) with false. change (uncaught_block b = true) in Hu. change (no_abort_block b = true) in Hn. unfold call at 1. rewrite M. unfold freeze at 1. rewrite (usable_ok _ U).
    cbn [raised]. set (h1 := h_set_frozen (S (h_frozen h)) h). set (st1 := with_msg (Some h1) (with_db (p_db st) st)).
    assert (S1 : start st1 h1). { split; [exact U|]. split; [reflexivity|]. split; [discriminate|]. exists d. exact D. }
    specialize (IH Hu Hn st1 h1 S1). destruct (exec_block owned fe b st1) as [[t2 st2] o2]. cbn [result] in IH.
    destruct IH as (Eo & Ft & Sm & U2 & N2 & A2 & L2 & h2 & M2 & D2 & H2). change (p_db st1) with (p_db st) in *. change (p_aborted st1) with (p_aborted st) in *. change (p_left st1) with (p_left st) in *.
    destruct o2 as [|[]].
    + destruct (H2 (or_introl eq_refl)) as (B & C & E). unfold call. rewrite M2. unfold thaw. rewrite (usable_ok _ U2), B. cbn [h_frozen h1 h_set_frozen].
      destruct (h_frozen h) as [|n] eqn:Fh; [now elim F|]. cbn [raised app result].
      split; [exact Eo|]. split.
      { constructor; [apply same_refl|]. apply Forall_app. split; [exact Ft|]. constructor; [exact Sm|constructor]. }
      split; [exact Sm|]. split; [exact U2|]. split; [exact N2|]. split; [exact A2|]. split; [exact L2|]. eexists. split; [reflexivity|]. split; [exact D2|].
      intros _. cbn. split; [now symmetry|]. split; [exact C|exact E].
    + cbn [result app]. assert (Sf : Forall (same (p_db st)) (p_db st :: t2)) by (constructor; [apply same_refl|exact Ft]).
      unfold rollback. rewrite M2. destruct U2 as (W2 & O2 & T2). rewrite O2. destruct Sm as [Sv Sd]. rewrite Sv, D2. cbn [h_doc h1 h_set_frozen]. rewrite D.
      split; [exact Eo|]. split; [exact Sf|]. split; [now split|]. split; [now repeat split|]. split; [exact N2|]. split; [exact A2|]. split; [intros ->; now apply L2|].
      eexists. split; [reflexivity|]. split; [reflexivity|]. intros [X|X]; discriminate X.
    + cbn [result app]. assert (Sf : Forall (same (p_db st)) (p_db st :: t2)) by (constructor; [apply same_refl|exact Ft]).
      split; [exact Eo|]. split; [exact Sf|]. split; [exact Sm|]. split; [exact U2|]. split; [exact N2|]. split; [exact A2|]. split; [exact L2|].
      exists h2. split; [exact M2|]. split; [exact D2|]. intros [X|X]; discriminate X.
  - (* Atomic *)
    intros b IH Hu Hn st h (U & M & F & (d & D)). rewrite exec_atomic. change (flow (Atomic b)) with (flow_block b). change (flat (Atomic b)) with (flat_block b). change (uncaught_block b = true) in Hu. change (no_abort_block b = true) in Hn.
    destruct (begin_usable _ U) as (s & -> & Us & Ss & Ns). set (st1 := with_aborted (false :: p_aborted st) (with_db s st)).
    assert (S1 : start st1 h). { split; [exact Us|]. split; [exact M|]. split; [exact F|]. exists d. cbn. now rewrite (proj1 Ss). }
    specialize (IH Hu Hn st1 h S1). destruct (exec_block owned fe b st1) as [[t2 st2] o2]. cbn [result] in IH.
    destruct IH as (Eo & Ft & Sm & U2 & N2 & A2 & L2 & h2 & M2 & D2 & H2). change (p_db st1) with s in *. change (p_aborted st1) with (false :: p_aborted st) in *. change (p_left st1) with (p_left st) in *.
    rewrite A2. cbn [p_db with_aborted tl]. destruct (end_usable (p_db st2) (nesting (p_db st)) U2) as (s' & -> & Ue & Se & Ne); [congruence|].
    cbn [raised result]. split; [exact Eo|]. split.
    { constructor; [exact Ss|]. apply Forall_app. split; [exact (same_all _ _ _ Ss Ft)|]. constructor; [|constructor]. exact (same_trans _ _ _ (same_trans _ _ _ Ss Sm) Se). }
    split; [exact (same_trans _ _ _ (same_trans _ _ _ Ss Sm) Se)|]. split; [exact Ue|]. split; [exact Ne|]. split; [reflexivity|]. split; [exact L2|].
    exists h2. split; [exact M2|]. split; [exact D2|exact H2].
  - (* Abort *) intros n _ Hn. discriminate Hn.
  - (* TryExcept *)
    intros b IH Hu Hn st h St. rewrite exec_try, flow_try. change (flat (TryExcept b)) with (flat_block b). change (flat_block b = true) in Hu. change (no_abort_block b = true) in Hn.
    assert (Hu' : uncaught_block b = true).
    { clear -Hu. revert Hu. assert (X : (forall c, flat c = true -> uncaught c = true) /\ (forall b, flat_block b = true -> uncaught_block b = true)).
      { apply stmt_block_ind; cbn [flat flat_block uncaught uncaught_block]; try discriminate; auto.
        intros c H b' H'. rewrite !andb_true_iff. intros [A B]. auto. }
      apply X. }
    specialize (IH Hu' Hn st h St). destruct (exec_block owned fe b st) as [[t st'] o]. cbn [result] in IH.
    destruct IH as (Eo & Ft & Sm & U2 & N2 & A2 & L2 & h2 & M2 & D2 & H2). destruct (flow_block b) as [l o']. cbn [snd fst] in *. subst o'.
    destruct o as [|[]]; cbn [result snd fst]; (split; [reflexivity|]); repeat (split; [assumption|]); exists h2; (split; [exact M2|]); (split; [exact D2|]); intros _; apply H2; now right.
  - (* Done *)
    intros _ _ st h (U & M & F & D). cbn. split; [reflexivity|]. split; [constructor|]. split; [apply same_refl|]. split; [exact U|]. split; [reflexivity|]. split; [reflexivity|]. split; [intros _; reflexivity|]. exists h. split; [exact M|]. split; [reflexivity|]. intros _. split; [reflexivity|]. split; [reflexivity|]. intros X. split; [exact X|reflexivity].
  - (* Then *)
    intros c IHc b IHb Hu Hn st h (U & M & F & (d & D)). rewrite exec_then, flow_then. change (flat_block (Then c b)) with (flat c && flat_block b). change (uncaught c && uncaught_block b = true) in Hu. change (no_abort c && no_abort_block b = true) in Hn.
    apply andb_true_iff in Hu, Hn. destruct Hu as [Hu1 Hu2], Hn as [Hn1 Hn2].
    specialize (IHc Hu1 Hn1 st h). destruct (exec owned fe c st) as [[t1 st1] o1]. cbn [result] in IHc.
    destruct IHc as (Eo & Ft & Sm & U2 & N2 & A2 & L2 & h2 & M2 & D2 & H2); [split; [exact U|]; split; [exact M|]; split; [exact F|]; now exists d|].
    destruct (flow c) as [l o']. cbn [snd fst] in Eo, H2. subst o'.
    destruct o1 as [|k].
    + destruct (H2 (or_introl eq_refl)) as (B & C & E).
      assert (S1 : start st1 h2). { split; [exact U2|]. split; [exact M2|]. split; [congruence|]. exists d. rewrite D2, (proj1 Sm). exact D. }
      specialize (IHb Hu2 Hn2 st1 h2 S1). destruct (exec_block owned fe b st1) as [[t3 st3] o3]. cbn [result] in IHb.
      destruct IHb as (Eo3 & Ft3 & Sm3 & U3 & N3 & A3 & L3 & h3 & M3 & D3 & H3). destruct (flow_block b) as [l3 o3']. cbn [snd fst] in *. subst o3'.
      cbn [result snd fst]. split; [reflexivity|]. split; [apply Forall_app; split; [exact Ft|exact (same_all _ _ _ Sm Ft3)]|].
      split; [exact (same_trans _ _ _ Sm Sm3)|]. split; [exact U3|]. split; [congruence|]. split; [congruence|]. split; [intros X; rewrite (L3 X); now apply L2|].
      exists h3. split; [exact M3|]. split; [congruence|]. intros X. assert (X3 : o3 = Fine \/ flat_block b = true).
      { destruct X as [X|X]; [now left|right]. now apply andb_true_iff in X. }
      destruct (H3 X3) as (B3 & C3 & E3). split; [congruence|]. split; [rewrite C3, C; symmetry; apply edits_terms_app|].
      intros Y. destruct (E3 Y) as [Y1 Y2]. destruct (E Y1) as [Y3 Y4]. split; [exact Y3|congruence].
    + cbn [result snd fst]. split; [reflexivity|]. repeat (split; [assumption|]). exists h2. split; [exact M2|]. split; [exact D2|].
      intros [X|X]; [discriminate X|]. apply H2. right. now apply andb_true_iff in X.
Qed.
End Frozen.
