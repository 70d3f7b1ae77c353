(** Properties C13, C14 (freeze/thaw, atomic sections, revisions, durability). *)
From Verif Require Import Bytes Terms Meta DocMap Db DbSpec DbProofs.
Local Open Scope N_scope.

(** ** C13 *)

(** While a handle is frozen, whatever is done through it (tag edits, nested
    freezes and thaws) changes neither the visible nor the durable documents nor
    the revision. *)
Theorem C13_frozen_changes_stay_out :
  forall h ops s, Forall (through h) ops ->
  (forall p q, ops = p ++ q -> (0 < frozen_count h (run p s))%nat) ->
  vis (run ops s) = vis s /\ durable (run ops s) = durable s /\ revision (run ops s) = revision s.
Proof. intros h ops s H1 H2. pose proof (frozen_run h ops s H1 H2) as H. apply core_fields in H. tauto. Qed.
Print Assumptions C13_frozen_changes_stay_out.

(** A frozen batch: until the thaw nothing is visible; at the thaw the document gets
    exactly the terms that the same edits give without freezing, in one revision,
    and no other document changes. *)
Theorem C13_frozen_batch_publishes_all_at_once :
  forall h es s hd d, Forall edit_valid es -> dget h (handles s) = Some hd ->
  writable s = true -> isopen s = true -> h_frozen hd = O -> h_modified hd = false ->
  dget (h_doc hd) (st_docs (vis s)) = Some d -> d_terms d = h_terms hd ->
  let s1 := run (OpFreeze h :: map (edit_op h) es) s in
  let s2 := run [OpThaw h] s1 in
  let s2' := run (map (edit_op h) es) s in
  vis s1 = vis s /\ durable s1 = durable s /\ revision s1 = revision s /\
  exists d2 d2', dget (h_doc hd) (st_docs (vis s2)) = Some d2 /\
    dget (h_doc hd) (st_docs (vis s2')) = Some d2' /\ d_terms d2 = d_terms d2' /\
    (forall k, k <> h_doc hd -> dget k (st_docs (vis s2)) = dget k (st_docs (vis s))) /\
    (forall k, k <> h_doc hd -> dget k (st_docs (vis s2')) = dget k (st_docs (vis s))) /\
    (d2 = d \/ d_lastmod d2 = revision s + 1).
Proof.
  intros h es s hd d H1 H2 H3 H4 H5 H6 H7 H8 s1 s2 s2'.
  destruct (frozen_batch h es s hd d H1 H2 H3 H4 H5 H6 H7 H8) as (A & B & C & hd' & d' & D & E & F & G & H & I & J & K & L).
  destruct (edits_unfrozen h es s hd d H1 H2 H3 H4 H5 H6 H7 H8) as (hd2 & d2 & D' & E' & F' & G' & H' & I' & J').
  repeat (split; [assumption|]). exists d', d2. repeat split; auto. congruence.
Qed.
Print Assumptions C13_frozen_batch_publishes_all_at_once.

(** The tags stored by such a batch are the ones set semantics gives; the other
    terms of the document are untouched. *)
Theorem C13_frozen_batch_set_semantics :
  forall h es s hd d, Forall edit_valid es -> dget h (handles s) = Some hd ->
  writable s = true -> isopen s = true -> h_frozen hd = O -> h_modified hd = false ->
  dget (h_doc hd) (st_docs (vis s)) = Some d -> d_terms d = h_terms hd -> tsorted (d_terms d) ->
  exists d', dget (h_doc hd) (st_docs (vis (run (OpFreeze h :: map (edit_op h) es ++ [OpThaw h]) s))) = Some d' /\
    (forall t, In t (tags_of (d_terms d')) <-> edits_effect es (fun t => In t (tags_of (d_terms d))) t) /\
    (forall x, (forall t, x <> lit "K" ++ t) -> (In x (d_terms d') <-> In x (d_terms d))).
Proof.
  intros h es s hd d H1 H2 H3 H4 H5 H6 H7 H8 H9.
  destruct (frozen_batch h es s hd d H1 H2 H3 H4 H5 H6 H7 H8) as (A & B & C & hd' & d' & D & E & F & G & _).
  exists d'. rewrite <- H8 in G.
  destruct (edits_terms_tags es (d_terms d) H9) as (S & T & U). rewrite <- G in T, U.
  split; [|split; assumption]. rewrite <- run_app in F. exact F.
Qed.
Print Assumptions C13_frozen_batch_set_semantics.

(** Unfrozen edits have the same set semantics. *)
Theorem C13_unfrozen_set_semantics :
  forall h es s hd d, Forall edit_valid es -> dget h (handles s) = Some hd ->
  writable s = true -> isopen s = true -> h_frozen hd = O -> h_modified hd = false ->
  dget (h_doc hd) (st_docs (vis s)) = Some d -> d_terms d = h_terms hd -> tsorted (d_terms d) ->
  exists d', dget (h_doc hd) (st_docs (vis (run (map (edit_op h) es) s))) = Some d' /\
    (forall t, In t (tags_of (d_terms d')) <-> edits_effect es (fun t => In t (tags_of (d_terms d))) t).
Proof.
  intros h es s hd d H1 H2 H3 H4 H5 H6 H7 H8 H9.
  destruct (edits_unfrozen h es s hd d H1 H2 H3 H4 H5 H6 H7 H8) as (hd2 & d2 & D' & E' & F' & G' & _).
  exists d2. rewrite <- H8 in G'. destruct (edits_terms_tags es (d_terms d) H9) as (S & T & _). rewrite <- G' in T. auto.
Qed.
Print Assumptions C13_unfrozen_set_semantics.

(** Freezes count: freeze adds one, thaw takes one away; only the last thaw writes. *)
Theorem C13_freezes_count :
  forall h s hd, dget h (handles s) = Some hd -> writable s = true -> isopen s = true ->
  fst (step (OpFreeze h) s) = St_success /\ frozen_count h (snd (step (OpFreeze h) s)) = S (frozen_count h s) /\
  (forall n, frozen_count h s = S n ->
     fst (step (OpThaw h) s) = St_success /\ frozen_count h (snd (step (OpThaw h) s)) = n /\
     (n <> O -> vis (snd (step (OpThaw h) s)) = vis s)).
Proof.
  intros h s hd Hh Hw Ho. rewrite (freeze_step h s hd) by auto. unfold frozen_count. rewrite Hh. cbn [fst snd].
  split; [reflexivity|]. split; [cbn; now rewrite dget_dput_same|]. intros n Hn.
  rewrite (thaw_step h s hd n) by auto. cbn [fst snd]. split; [reflexivity|]. destruct n as [|n].
  - split; [|congruence]. rewrite message_sync_eq. destruct (_ && _); cbn; now rewrite dget_dput_same.
  - split; [cbn; now rewrite dget_dput_same|reflexivity].
Qed.
Print Assumptions C13_freezes_count.

(** A thaw without freeze is refused and changes nothing at all. *)
Theorem C13_unbalanced_thaw_refused :
  forall h s hd, dget h (handles s) = Some hd -> writable s = true -> isopen s = true ->
  frozen_count h s = O -> step (OpThaw h) s = (St_unbalanced_freeze_thaw, s).
Proof.
  intros h s hd Hh Hw Ho Hf. unfold frozen_count in Hf. rewrite Hh in Hf. cbn [step]. unfold on_handle. rewrite Hh.
  unfold thaw. rewrite (proj2 (ensure_writable_success s) (conj Hw Ho)), Hf.
  rewrite dput_same by exact Hh. now destruct s.
Qed.
Print Assumptions C13_unbalanced_thaw_refused.

Definition ex_doc : doc := {| d_terms := map lit ["Kinbox"; "Qa@b"]%string; d_lastmod := 3 |}.
Definition ex_store : store := {| st_docs := [(7, ex_doc)]; st_ub := 3 |}.
Definition ex_db : db := snd (step (OpOpenMsg 1 7) (open_db ex_store 0 true)).
Example C13_nontrivial :
  let es := [EAdd (lit "x"); ERem (lit "inbox"); EAdd (lit "y"); ERem (lit "x")] in
  let s2 := run (OpFreeze 1 :: map (edit_op 1) es ++ [OpThaw 1]) ex_db in
  dget 1 (handles ex_db) = Some {| h_doc := 7; h_terms := d_terms ex_doc; h_modified := false; h_frozen := 0 |} /\
  dget 7 (st_docs (vis s2)) = Some {| d_terms := map lit ["Ky"; "Qa@b"]%string; d_lastmod := 4 |}.
Proof. now vm_compute. Qed.

(** Freezing protects one handle only: two handles frozen on the same message
    overwrite each other's changes. *)
Theorem C13_two_handles_lose_update_refuted :
  ~ (forall s k h1 h2 a b d',
       dget k (st_docs (vis s)) <> None -> writable s = true -> isopen s = true -> h1 <> h2 ->
       let s' := run [OpOpenMsg h1 k; OpOpenMsg h2 k; OpFreeze h1; OpFreeze h2; OpAddTag h1 a; OpAddTag h2 b;
                      OpThaw h1; OpThaw h2] s in
       dget k (st_docs (vis s')) = Some d' -> In a (tags_of (d_terms d')) /\ In b (tags_of (d_terms d'))).
Proof.
  intros H. specialize (H (open_db ex_store 0 true) 7 1 2 (lit "a") (lit "b")
     {| d_terms := map lit ["Kb"; "Kinbox"; "Qa@b"]%string; d_lastmod := 5 |}).
  vm_compute in H. destruct H as [H _]; try congruence; try reflexivity.
  destruct H as [H|[H|[]]]; discriminate.
Qed.
Print Assumptions C13_two_handles_lose_update_refuted.

(** ** C14 *)

(** At every point of every history, what is durable (what a crash would leave) is
    the visible state at some earlier point outside any atomic section. *)
Theorem C14_durable_state_is_consistent :
  forall st thr rw ops, store_ok st -> proper (open_db st thr rw) ops ->
  exists p q, ops = p ++ q /\
    durable (run ops (open_db st thr rw)) = vis (run p (open_db st thr rw)) /\
    nesting (run p (open_db st thr rw)) = O.
Proof. exact durable_history. Qed.
Print Assumptions C14_durable_state_is_consistent.

(** In particular nothing done inside an open section survives a crash. *)
Theorem C14_crash_discards_open_section :
  forall ops s rw, reachable s -> proper s ops ->
  (forall p q, ops = p ++ q -> (0 < nesting (run p s))%nat) ->
  vis (run (ops ++ [OpCrash rw]) s) = durable s.
Proof.
  intros ops s rw R Hp Hn. rewrite run_snoc. cbn. apply section_durable; auto. now apply reachable_Inv.
Qed.
Print Assumptions C14_crash_discards_open_section.

(** Closing inside a section discards it as well. *)
Theorem C14_close_discards_open_section :
  forall ops s, reachable s -> proper s ops ->
  (forall p q, ops = p ++ q -> (0 < nesting (run p s))%nat) ->
  writable (run ops s) = true -> isopen (run ops s) = true ->
  vis (run (ops ++ [OpClose]) s) = durable s /\ durable (run (ops ++ [OpClose]) s) = durable s.
Proof.
  intros ops s R Hp Hn Hw Ho. pose proof (reachable_Inv s R) as I. pose proof (run_Inv ops s Hp I) as I'.
  rewrite run_snoc. cbn [step snd]. unfold close. rewrite Ho, Hw.
  rewrite (iv_nest _ I' Hw Ho); [|apply (Hn ops []); now rewrite app_nil_r]. cbn.
  split; apply section_durable; auto.
Qed.
Print Assumptions C14_close_discards_open_section.

(** One outermost section = at most one revision: every document written inside
    carries the revision that the section commits, which is larger than that of
    every document committed before; a section that writes nothing consumes none. *)
Theorem C14_section_shares_one_revision :
  forall ops s fe, reachable s -> nesting s = O -> writable s = true -> isopen s = true ->
  stays_inside (snd (step OpBegin s)) ops -> nesting (run (OpBegin :: ops) s) = 1%nat ->
  let t := run (OpBegin :: ops) s in
  let u := snd (step (OpEnd fe) t) in
  fst (step (OpEnd fe) t) = St_success /\ nesting u = O /\ vis u = vis t /\
  (revision u = revision s \/ revision u = revision s + 1) /\
  (forall k d, dget k (st_docs (vis u)) = Some d ->
     dget k (st_docs (vis s)) = Some d \/ d_lastmod d = revision s + 1 /\ revision u = revision s + 1) /\
  (forall k d, dget k (st_docs (vis s)) = Some d -> d_lastmod d <= revision s).
Proof. intros ops s fe R. apply section_commit. now apply reachable_Inv. Qed.
Print Assumptions C14_section_shares_one_revision.

Theorem C14_empty_section_keeps_revision :
  forall s fe, reachable s -> nesting s = O -> writable s = true -> isopen s = true ->
  revision (run [OpBegin; OpEnd fe] s) = revision s.
Proof.
  intros s fe R Hn Hw Ho. apply reachable_Inv in R as I.
  assert (Hd : dirty s = false). { destruct (dirty s) eqn:E; [|reflexivity]. apply (iv_dirty _ I) in E. lia. }
  assert (Ht : in_txn s = false). { destruct (in_txn s) eqn:E; [|reflexivity]. apply (iv_txn _ I) in E. lia. }
  cbn [run fold_left step snd]. unfold begin_atomic. rewrite Hw, Hn, Ho, Ht. cbn [negb orb Nat.ltb Nat.leb].
  unfold end_atomic. cbn [nesting set_nesting set_txn writable isopen in_txn snd]. rewrite Hw, Ho. cbn [negb orb Nat.ltb Nat.leb].
  match goal with |- context [if (?a || fe)%bool then _ else _] => destruct (a || fe)%bool end; cbn; now rewrite Hd.
Qed.
Print Assumptions C14_empty_section_keeps_revision.

(** Outside sections, every message's revision is at most the database revision. *)
Theorem C14_revision_bounds_documents :
  forall s k d, reachable s -> nesting s = O -> dget k (st_docs (vis s)) = Some d -> d_lastmod d <= revision s.
Proof.
  intros s k d R Hn Hd. apply reachable_Inv in R. apply dget_In in Hd. apply (iv_vis _ R) in Hd.
  pose proof (iv_vub _ R) as L. destruct (dirty s) eqn:E; [apply (iv_dirty _ R) in E; lia|]. cbn in L. lia.
Qed.
Print Assumptions C14_revision_bounds_documents.

(** The revision never decreases, reopening included, unless messages are deleted
    or the process crashes. *)
Theorem C14_revision_monotone :
  forall st thr rw p q, store_ok st -> proper (open_db st thr rw) (p ++ q) -> Forall grows (p ++ q) ->
  revision (run p (open_db st thr rw)) <= revision (run (p ++ q) (open_db st thr rw)).
Proof.
  intros st thr rw p q Hst Hp Hg. rewrite run_app. set (s0 := open_db st thr rw) in *.
  assert (I0 : Inv s0) by now apply open_db_Inv.
  pose proof (proper_prefix _ _ _ Hp) as Hp1. apply Forall_app in Hg as [G1 G2].
  destruct (run_Mono p s0 Hp1 G1 I0 (open_db_Mono st thr rw)) as [M1 _].
  apply run_Mono; auto; [|now apply run_Inv].
  intros a b rw' E. rewrite <- run_app. apply (Hp (p ++ a) b rw'). now rewrite E, app_assoc.
Qed.
Print Assumptions C14_revision_monotone.

(** Within one session deletions do not lower it either. *)
Theorem C14_revision_monotone_session :
  forall o s, reachable s -> (forall rw, o <> OpReopen rw) -> (forall rw, o <> OpCrash rw) ->
  revision s <= revision (snd (step o s)).
Proof. intros o s _. exact (step_rev_session o s). Qed.
Print Assumptions C14_revision_monotone_session.

Theorem C14_unbalanced_end_refused :
  forall s fe, nesting s = O -> step (OpEnd fe) s = (St_unbalanced_atomic, s).
Proof. intros s fe H. cbn. unfold end_atomic. now rewrite H. Qed.
Print Assumptions C14_unbalanced_end_refused.

Theorem C14_sections_nest :
  forall s, (0 < nesting s)%nat ->
  fst (step OpBegin s) = St_success /\ nesting (snd (step OpBegin s)) = S (nesting s) /\
  vis (snd (step OpBegin s)) = vis s /\
  (forall fe, (1 < nesting s)%nat ->
     fst (step (OpEnd fe) s) = St_success /\ S (nesting (snd (step (OpEnd fe) s))) = nesting s /\
     revision (snd (step (OpEnd fe) s)) = revision s /\ durable (snd (step (OpEnd fe) s)) = durable s).
Proof.
  intros s Hn. cbn [step]. unfold begin_atomic. destruct (Nat.ltb_spec 0 (nesting s)); [|lia]. rewrite orb_true_r. cbn.
  repeat split; unfold end_atomic in *; destruct (nesting s) as [|[|n]]; try lia; rewrite orb_true_r; reflexivity.
Qed.
Print Assumptions C14_sections_nest.

Example C14_nontrivial :
  let ops := [OpOpenMsg 1 7; OpAddTag 1 (lit "x"); OpNewMsg 2 8 [lit "Qc@d"]; OpBegin; OpSync 2; OpEnd false] in
  let s0 := open_db ex_store 1 true in
  let s := run (OpBegin :: ops) s0 in
  stays_inside (snd (step OpBegin s0)) ops /\ nesting s = 1%nat /\
  revision s = 3 /\ revision (snd (step (OpEnd false) s)) = 4 /\
  durable s = ex_store /\ durable (snd (step (OpEnd false) s)) = vis s /\
  option_map d_lastmod (dget 8 (st_docs (vis s))) = Some 4 /\ option_map d_lastmod (dget 7 (st_docs (vis s))) = Some 4.
Proof.
  split; [|now vm_compute]. repeat split.
  - intros p q E. do 7 (destruct p as [|? p]; [vm_compute; lia|]; try (injection E as <- E)). discriminate.
  - vm_compute. intuition discriminate.
  - intros rw H. repeat (destruct H as [H|H]; [discriminate|]). exact H.
  - intros rw H. repeat (destruct H as [H|H]; [discriminate|]). exact H.
Qed.

(** Reopening inside a section breaks it: the nesting count survives the reopen but
    the transaction does not, so data written in a still open section becomes
    durable... *)
Theorem C14_reopen_inside_section_refuted :
  ~ (forall st thr rw ops, store_ok st ->
     exists p q, ops = p ++ q /\
       durable (run ops (open_db st thr rw)) = vis (run p (open_db st thr rw)) /\
       nesting (run p (open_db st thr rw)) = O).
Proof.
  intros H.
  destruct (H {| st_docs := []; st_ub := 0 |} O true
     [OpBegin; OpReopen true; OpNewMsg 1 1 [lit "Qa@b"]; OpSync 1; OpClose]) as (p & q & E & D & N).
  { intros k d []. }
  apply (f_equal (fun st => length (st_docs st))) in D.
  match type of D with ?x = _ => assert (V : x = 1%nat) by (vm_compute; reflexivity); rewrite V in D; clear V end.
  destruct p as [|? p]; [discriminate D|]. clear D.
  do 5 (injection E as <- E; destruct p as [|? p]; [vm_compute in N; discriminate N|]). discriminate.
Qed.
Print Assumptions C14_reopen_inside_section_refuted.

(** ...and the section can never be ended again. *)
Theorem C14_reopened_section_cannot_end :
  forall st thr fe, let s := run [OpBegin; OpReopen true] (open_db st thr true) in
  nesting s = 1%nat /\ step (OpEnd fe) s = (St_xapian_exception, s).
Proof. intros. cbn. auto. Qed.
Print Assumptions C14_reopened_section_cannot_end.

(** Deleting the newest message and reopening may lower the revision. *)
Theorem C14_revision_after_delete_refuted :
  ~ (forall st thr rw p q, store_ok st -> proper (open_db st thr rw) (p ++ q) ->
       (forall rw, ~ In (OpCrash rw) (p ++ q)) ->
       revision (run p (open_db st thr rw)) <= revision (run (p ++ q) (open_db st thr rw))).
Proof.
  intros H. specialize (H ex_store O true [] [OpDelete 7 0; OpReopen true]).
  assert (L : revision (run ([] ++ [OpDelete 7 0; OpReopen true]) (open_db ex_store O true)) = 0) by (vm_compute; reflexivity).
  rewrite L in H. clear L. apply (N.nle_succ_0 2). apply H.
  - intros k d [E|[]]. injection E as <- <-. discriminate.
  - intros p q rw E. do 3 (destruct p as [|? p]; try (injection E; intros; subst; try reflexivity; discriminate));
      try discriminate E.
  - intros rw [E|[E|[]]]; discriminate.
Qed.
Print Assumptions C14_revision_after_delete_refuted.

(** A revision handed out before a crash may be handed out again for something else. *)
Theorem C14_revision_after_crash_refuted :
  ~ (forall st thr rw p q, store_ok st -> proper (open_db st thr rw) (p ++ q) -> Forall (fun o => forall k ub, o <> OpDelete k ub) (p ++ q) ->
       revision (run p (open_db st thr rw)) <= revision (run (p ++ q) (open_db st thr rw))).
Proof.
  intros H. specialize (H ex_store O true [OpOpenMsg 1 7; OpAddTag 1 (lit "x")] [OpCrash true]).
  assert (L : revision (run ([OpOpenMsg 1 7; OpAddTag 1 (lit "x")] ++ [OpCrash true]) (open_db ex_store O true)) = 3) by (vm_compute; reflexivity).
  rewrite L in H. clear L. assert (L : revision (run [OpOpenMsg 1 7; OpAddTag 1 (lit "x")] (open_db ex_store O true)) = 4) by (vm_compute; reflexivity).
  rewrite L in H. clear L. apply (N.nle_succ_diag_l 3). apply H.
  - intros k d [E|[]]. injection E as <- <-. discriminate.
  - intros p q rw E. do 4 (destruct p as [|? p]; try (injection E; intros; subst; try reflexivity; discriminate));
      try discriminate E.
  - repeat constructor; intros; discriminate.
Qed.
Print Assumptions C14_revision_after_crash_refuted.
