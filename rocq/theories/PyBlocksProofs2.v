(** Proofs for C89: atomic sections. *)
From Verif Require Import Bytes Terms Meta DocMap Db DbSpec DbProofs PyBlocks PyBlocksSpec PyBlocksProofs.
Local Open Scope N_scope.

Definition keeps (s s' : db) : Prop :=
  writable s' = writable s /\ isopen s' = isopen s /\ in_txn s' = in_txn s /\ nesting s' = nesting s /\ durable s' = durable s.
Lemma keeps_refl s : keeps s s.
Proof. repeat split. Qed.
Lemma keeps_usable s s' : keeps s s' -> usable s -> usable s'.
Proof. intros (A & B & C & D & E) (F & G & H). split; [congruence|]. split; congruence. Qed.
Lemma sync_keeps h s h' s' : message_sync h s = (h', s') -> keeps s s'.
Proof.
  unfold message_sync, new_revision. destruct (negb (writable s)); [intros [= <- <-]; apply keeps_refl|].
  destruct (negb (h_modified h)); [intros [= <- <-]; apply keeps_refl|]. destruct (nesting s) eqn:N; intros [= <- <-]; repeat split; cbn; auto.
Qed.
Lemma sync_unless_keeps h s h' s' : sync_unless_frozen h s = (h', s') -> keeps s s'.
Proof. unfold sync_unless_frozen. destruct (h_frozen h); [apply sync_keeps|]. intros [= <- <-]. apply keeps_refl. Qed.
Lemma change_keeps c h s r h' s' : change c h s = (r, h', s') -> keeps s s'.
Proof.
  destruct c; cbn [change]; unfold add_tag, remove_tag, remove_all_tags; destruct (ensure_writable s); try (intros [= <- <- <-]; apply keeps_refl).
  - destruct (Nat.ltb _ _); [intros [= <- <- <-]; apply keeps_refl|]. destruct (sync_unless_frozen _ _) eqn:E. intros [= <- <- <-]. now apply sync_unless_keeps in E.
  - destruct (Nat.ltb _ _); [intros [= <- <- <-]; apply keeps_refl|]. destruct (sync_unless_frozen _ _) eqn:E. intros [= <- <- <-]. now apply sync_unless_keeps in E.
  - cbv zeta. destruct (sync_unless_frozen _ _) eqn:E. intros [= <- <- <-]. now apply sync_unless_keeps in E.
Qed.
Lemma freeze_keeps h s r h' s' : freeze h s = (r, h', s') -> keeps s s'.
Proof. unfold freeze. destruct (ensure_writable s); intros [= <- <- <-]; apply keeps_refl. Qed.
Lemma thaw_keeps h s r h' s' : thaw h s = (r, h', s') -> keeps s s'.
Proof.
  unfold thaw. destruct (ensure_writable s); try (intros [= <- <- <-]; apply keeps_refl). destruct (h_frozen h) as [|[|n]]; [intros [= <- <- <-]; apply keeps_refl| |intros [= <- <- <-]; apply keeps_refl].
  cbv zeta. destruct (message_sync _ _) eqn:E. intros [= <- <- <-]. now apply sync_keeps in E.
Qed.

Section Sections.
Variables owned fe : bool.
(** A piece of program without abort leaves the sections as they were, and inside a section nothing becomes durable. *)
Definition inert (st : pystate) (r : list db * pystate * outcome) : Prop :=
  let '(t, st', _) := r in
  usable (p_db st') /\ nesting (p_db st') = nesting (p_db st) /\ p_aborted st' = p_aborted st /\
  (nesting (p_db st) <> O -> durable (p_db st') = durable (p_db st) /\ Forall (fun s => durable s = durable (p_db st)) t).
Lemma call_inert f st : (forall h s r h' s', f h s = (r, h', s') -> keeps s s') -> usable (p_db st) -> inert st (call f st).
Proof.
  intros H U. unfold call. destruct (p_msg st) as [h|]; [|cbn; auto]. destruct (f h (p_db st)) as [[r h'] s'] eqn:E. apply H in E.
  cbn. split; [exact (keeps_usable _ _ E U)|]. destruct E as (_ & _ & _ & N & D). split; [exact N|]. split; [reflexivity|]. intros _. split; [exact D|]. now constructor.
Qed.
Lemma begin_durable s s' : usable s -> begin_atomic s = (St_success, s') -> durable s' = durable s.
Proof.
  intros _. unfold begin_atomic. destruct (_ || _); [intros [= <-]; reflexivity|]. destruct (_ || _); [discriminate|]. intros [= <-]. reflexivity.
Qed.
Lemma end_durable s n s' : nesting s = S (S n) -> end_atomic fe s = (St_success, s') -> durable s' = durable s.
Proof. intros N. unfold end_atomic. rewrite N. cbn [Nat.ltb Nat.leb]. rewrite orb_true_r. intros [= <-]. reflexivity. Qed.
Lemma all_inert :
  (forall c, no_abort c = true -> forall st, usable (p_db st) -> inert st (exec owned fe c st)) /\
  (forall b, no_abort_block b = true -> forall st, usable (p_db st) -> inert st (exec_block owned fe b st)).
Proof.
  apply stmt_block_ind.
  - intros c _ st U. rewrite exec_change. apply call_inert; [|exact U]. intros h s r h' s'. apply change_keeps.
  - intros k _ st U. rewrite exec_raise. cbn. auto.
  - intros b IH Hn st U. rewrite exec_frozen. change (no_abort_block b = true) in Hn.
    pose proof (call_inert freeze st freeze_keeps U) as C. destruct (call freeze st) as [[t1 st1] [|k]]; [|exact C].
    destruct C as (U1 & N1 & A1 & D1). specialize (IH Hn st1 U1). destruct (exec_block owned fe b st1) as [[t2 st2] o2].
    destruct IH as (U2 & N2 & A2 & D2).
    assert (D12 : nesting (p_db st) <> O -> durable (p_db st2) = durable (p_db st) /\ Forall (fun s => durable s = durable (p_db st)) (t1 ++ t2)).
    { intros Z. destruct (D1 Z) as [E1 F1]. destruct D2 as [E2 F2]; [congruence|]. split; [congruence|]. apply Forall_app. split; [exact F1|].
      eapply Forall_impl; [|exact F2]. cbn. intros s ->. exact E1. }
    destruct o2 as [|[]].
    + pose proof (call_inert thaw st2 thaw_keeps U2) as C. destruct (call thaw st2) as [[t3 st3] o3]. destruct C as (U3 & N3 & A3 & D3). cbn [inert].
      split; [exact U3|]. split; [congruence|]. split; [congruence|]. intros Z. destruct (D12 Z) as [E F]. destruct D3 as [E3 F3]; [congruence|].
      split; [congruence|]. rewrite app_assoc. apply Forall_app. split; [exact F|]. eapply Forall_impl; [|exact F3]. cbn. intros s ->. exact E.
    + cbn [inert]. assert (X : p_db (rollback owned st2) = p_db st2 /\ p_aborted (rollback owned st2) = p_aborted st2).
      { unfold rollback. destruct (p_msg st2) as [h|]; [|auto]. destruct (if isopen _ then _ else _); [auto|]. destruct owned; auto. }
      destruct X as [-> ->]. split; [exact U2|]. split; [congruence|]. split; [congruence|exact D12].
    + cbn [inert]. split; [exact U2|]. split; [congruence|]. split; [congruence|exact D12].
  - intros b IH Hn st U. rewrite exec_atomic. change (no_abort_block b = true) in Hn.
    destruct (begin_usable _ U) as (s & Eb & Us & _ & Ns). rewrite Eb. set (st1 := with_aborted (false :: p_aborted st) (with_db s st)).
    specialize (IH Hn st1 Us). destruct (exec_block owned fe b st1) as [[t2 st2] o2]. destruct IH as (U2 & N2 & A2 & D2).
    change (p_db st1) with s in *. change (p_aborted st1) with (false :: p_aborted st) in A2. rewrite A2. cbn [p_db with_aborted tl].
    destruct (end_usable fe (p_db st2) (nesting (p_db st)) U2) as (s' & Ee & Ue & _ & Ne); [congruence|]. rewrite Ee. cbn [raised inert].
    split; [exact Ue|]. split; [exact Ne|]. split; [reflexivity|]. intros Z. destruct D2 as [E2 F2]; [congruence|].
    pose proof (begin_durable _ _ U Eb) as Db. destruct (nesting (p_db st)) as [|n] eqn:En; [congruence|].
    assert (De : durable s' = durable (p_db st)). { rewrite (end_durable (p_db st2) n s'); [congruence|congruence|exact Ee]. }
    split; [exact De|]. constructor; [exact Db|]. apply Forall_app. split; [|constructor; [exact De|constructor]].
    eapply Forall_impl; [|exact F2]. cbn. intros x ->. exact Db.
  - intros n Hn. discriminate Hn.
  - intros b IH Hn st U. rewrite exec_try. specialize (IH Hn st U). destruct (exec_block owned fe b st) as [[t st'] [|[]]]; exact IH.
  - intros _ st U. cbn. auto.
  - intros c IHc b IHb Hn st U. rewrite exec_then. change (no_abort c && no_abort_block b = true) in Hn. apply andb_true_iff in Hn. destruct Hn as [H1 H2].
    specialize (IHc H1 st U). destruct (exec owned fe c st) as [[t1 st1] [|k]]; [|exact IHc]. destruct IHc as (U1 & N1 & A1 & D1).
    specialize (IHb H2 st1 U1). destruct (exec_block owned fe b st1) as [[t2 st2] o2]. destruct IHb as (U2 & N2 & A2 & D2). cbn [inert].
    split; [exact U2|]. split; [congruence|]. split; [congruence|]. intros Z. destruct (D1 Z) as [E1 F1]. destruct D2 as [E2 F2]; [congruence|].
    split; [congruence|]. apply Forall_app. split; [exact F1|]. eapply Forall_impl; [|exact F2]. cbn. intros s ->. exact E1.
Qed.
Lemma exec_snoc b : forall c st, exec_block owned fe (snoc b c) st =
  match exec_block owned fe b st with
  | (t1, st1, Fine) => let '(t2, st2, o) := exec owned fe c st1 in (t1 ++ t2, st2, o)
  | r => r
  end.
Proof.
  induction b as [|c' b IH]; intros c st; cbn [snoc]; rewrite !exec_then.
  - cbn [exec_block]. destruct (exec owned fe c st) as [[t st1] [|k]]; cbn; rewrite ?app_nil_r; reflexivity.
  - destruct (exec owned fe c' st) as [[t1 st1] [|k]]; [|reflexivity]. rewrite IH. destruct (exec_block owned fe b st1) as [[t2 st2] [|k]]; [|reflexivity].
    destruct (exec owned fe c st2) as [[t3 st3] o]. now rewrite app_assoc.
Qed.
End Sections.
