(** Property C28: database feature negotiation. *)
From Verif Require Import Bytes StrUtil Features FeaturesSpec FeaturesProofs.
Local Open Scope N_scope.

Definition mode_char (read_write : bool) : byte := if read_write then "w"%char else "r"%char.
Lemma mode_not_tab rw : mode_char rw <> TAB.
Proof. destruct rw; discriminate. Qed.

(** Every feature set written to a database is read back exactly, and never blocks
    opening, in both modes. *)
Theorem C28_features_roundtrip :
  forall f rw, f < 2 ^ N.of_nat (length known_names) -> check_open 3 (print_features f) rw = OpenOk f.
Proof.
  intros f rw Hf. unfold check_open. change (DATABASE_VERSION <? 3) with false. cbn match. fold (mode_char rw).
  rewrite parse_print; [reflexivity|exact Hf|lia|apply mode_not_tab].
Qed.
Print Assumptions C28_features_roundtrip.

(** What is stored: exactly the declarations of the features in the set. *)
Theorem C28_stored_declarations :
  forall f i n, nth_error known_names i = Some n ->
  In n (map fst (declarations (print_features f))) <-> N.testbit f (N.of_nat i) = true.
Proof. intros f i n H. rewrite print_declarations. now apply chosen_spec. Qed.
Print Assumptions C28_stored_declarations.

(** Any feature string, from any version: opening fails exactly if some declared
    feature is unknown and required in this mode; otherwise feature number i is in
    force iff it is declared (whatever its flags, order, repetition or the presence
    of unknown, harmless or malformed lines). *)
Theorem C28_open_iff :
  forall s rw, (exists f, check_open 3 s rw = OpenOk f) <-> missing (mode_char rw) s = [].
Proof.
  intros s rw. unfold check_open. change (DATABASE_VERSION <? 3) with false. cbn match. fold (mode_char rw).
  pose proof (parse_incompat s (mode_char rw) 3 eq_refl (mode_not_tab rw)) as P.
  rewrite <- glue_none, <- P. destruct (parse_features s 3 (mode_char rw)) as [g [o|]]; cbn [snd].
  - split; [intros (f & H); discriminate|discriminate].
  - split; [reflexivity|eauto].
Qed.
Print Assumptions C28_open_iff.

Theorem C28_open_features :
  forall s rw f, check_open 3 s rw = OpenOk f ->
  f < 2 ^ N.of_nat (length known_names) /\
  forall i n, nth_error known_names i = Some n ->
    N.testbit f (N.of_nat i) = true <-> In n (map fst (declarations s)).
Proof.
  intros s rw f. unfold check_open. change (DATABASE_VERSION <? 3) with false. cbn match. fold (mode_char rw).
  destruct (parse_features s 3 (mode_char rw)) as [g [o|]] eqn:E; [discriminate|]. intros [= <-].
  change g with (fst (g, None : option bytes)). rewrite <- E. split.
  - apply parse_small; [lia|apply mode_not_tab].
  - intros i n Hn. apply parse_mask; [lia|apply mode_not_tab|exact Hn].
Qed.
Print Assumptions C28_open_features.

(** When opening is refused the message names exactly the missing features. *)
Theorem C28_refusal_names_features :
  forall s rw m, check_open 3 s rw = OpenRequires m ->
  Forall (fun n => n <> []) (missing (mode_char rw) s) -> m = comma_list (missing (mode_char rw) s).
Proof.
  intros s rw m. unfold check_open. change (DATABASE_VERSION <? 3) with false. cbn match. fold (mode_char rw).
  pose proof (parse_incompat s (mode_char rw) 3 eq_refl (mode_not_tab rw)) as P.
  destruct (parse_features s 3 (mode_char rw)) as [g [o|]]; [|discriminate]. cbn [snd] in P. intros [= ->] H.
  rewrite glue_comma in P by exact H. destruct (missing (mode_char rw) s); [discriminate|congruence].
Qed.
Print Assumptions C28_refusal_names_features.

(** An unknown feature required only for writing never prevents reading. *)
Theorem C28_write_only_features_do_not_block_reading :
  forall s, (forall n fl, In (n, fl) (declarations s) -> ~ In n known_names -> ~ In "r"%char fl) ->
  exists f, check_open 3 s false = OpenOk f.
Proof.
  intros s H. apply C28_open_iff. unfold missing, mode_char.
  assert (K : forall l, (forall d, In d l -> blocks "r"%char d = false) -> filter (blocks "r"%char) l = []).
  { induction l as [|d l IH]; intros Hl; [reflexivity|]. cbn [filter]. rewrite (Hl d) by now left.
    apply IH. intros d' Hd. apply Hl. now right. }
  rewrite K; [reflexivity|]. intros [n fl] Hd. unfold blocks. cbn [fst snd].
  destruct (existsb (bseq n) known_names) eqn:E; [reflexivity|]. cbn [negb andb]. apply mem_not_In.
  apply (H n fl Hd). intros Hn. assert (existsb (bseq n) known_names = true); [|congruence].
  apply existsb_exists. exists n. split; [exact Hn|apply bseq_refl].
Qed.
Print Assumptions C28_write_only_features_do_not_block_reading.

(** Databases from before feature strings: the set follows from the version alone;
    newer formats are refused. *)
Theorem C28_old_versions :
  forall s rw, check_open 0 s rw = OpenOk 0 /\ check_open 1 s rw = OpenOk 3 /\ check_open 2 s rw = OpenOk 11.
Proof. intros s rw. repeat split. Qed.
Print Assumptions C28_old_versions.

Theorem C28_newer_format_refused :
  forall v s rw, 3 < v -> check_open v s rw = OpenVersionTooNew v.
Proof. intros v s rw H. unfold check_open. unfold DATABASE_VERSION. now rewrite (proj2 (N.ltb_lt 3 v) H). Qed.
Print Assumptions C28_newer_format_refused.

(** After an upgrade, reopening yields the old features plus the current ones and
    asks for no further upgrade. *)
Theorem C28_upgrade_then_reopen :
  forall f rw, f < 2 ^ N.of_nat (length known_names) ->
  let '(s, v) := upgrade_metadata f in
  check_open v s rw = OpenOk (N.lor f FEATURES_CURRENT) /\
  needs_upgrade true v (N.lor f FEATURES_CURRENT) = false /\
  (forall i, In i [0; 1; 3; 4; 6] -> N.testbit (N.lor f FEATURES_CURRENT) i = true) /\
  (forall i, N.testbit f i = true -> N.testbit (N.lor f FEATURES_CURRENT) i = true).
Proof.
  intros f rw Hf. unfold upgrade_metadata.
  assert (L : N.lor f FEATURES_CURRENT < 256).
  { assert (N.lor f FEATURES_CURRENT <> 0) by (intros H; apply N.lor_eq_0_iff in H; destruct H; discriminate).
    change 256 with (2 ^ 8). apply N.log2_lt_pow2; [lia|]. rewrite N.log2_lor. apply N.max_lub_lt; [|reflexivity].
    destruct (N.eq_dec f 0) as [->|]; [reflexivity|]. apply N.log2_lt_pow2; [lia|exact Hf]. }
  repeat split.
  - now apply C28_features_roundtrip.
  - unfold needs_upgrade. rewrite N.lor_comm.
    assert (N.ldiff FEATURES_CURRENT (N.lor FEATURES_CURRENT f) = 0) as ->; [|reflexivity].
    apply N.bits_inj. intros j. rewrite N.ldiff_spec, N.lor_spec, N.bits_0.
    destruct (N.testbit FEATURES_CURRENT j); reflexivity.
  - intros i Hi. rewrite N.lor_spec. apply orb_true_iff. right.
    cbn [In] in Hi. decompose [or] Hi; subst; try reflexivity; contradiction.
  - intros i Hi. rewrite N.lor_spec, Hi. reflexivity.
Qed.
Print Assumptions C28_upgrade_then_reopen.

(** What does not hold: an upgrade forgets unknown features the database declared,
    even though opening for writing accepted them. *)
Theorem C28_upgrade_keeps_unknown_features_refuted :
  ~ (forall s f, check_open 3 s true = OpenOk f ->
       forall n, In n (map fst (declarations s)) -> In n (map fst (declarations (fst (upgrade_metadata f))))).
Proof.
  intros H. pose (s := lit "future" ++ [TAB] ++ lit "r" ++ [NL]).
  assert (L : check_open 3 s true = OpenOk 0) by (vm_compute; reflexivity).
  specialize (H s 0 L (lit "future")).
  assert (D : map fst (declarations s) = [lit "future"]) by (vm_compute; reflexivity).
  rewrite D in H. specialize (H (or_introl eq_refl)).
  assert (E : existsb (bseq (lit "future")) (map fst (declarations (fst (upgrade_metadata 0)))) = false) by (vm_compute; reflexivity).
  assert (existsb (bseq (lit "future")) (map fst (declarations (fst (upgrade_metadata 0)))) = true); [|congruence].
  apply existsb_exists. exists (lit "future"). split; [exact H|apply bseq_refl].
Qed.
Print Assumptions C28_upgrade_keeps_unknown_features_refuted.

Example C28_nontrivial :
  check_open 3 (lit "modification tracking" ++ [TAB] ++ lit "w" ++ [NL; NL] ++ lit "no tab here" ++ [NL] ++
                lit "shiny" ++ [TAB] ++ lit "w" ++ [NL] ++ lit "odd" ++ [TAB] ++ lit "rw") false =
    OpenRequires (lit "odd") /\
  check_open 3 (lit "modification tracking" ++ [TAB] ++ lit "w" ++ [NL; NL] ++ lit "no tab here" ++ [NL] ++
                lit "shiny" ++ [TAB] ++ lit "w" ++ [NL] ++ lit "odd" ++ [TAB] ++ lit "rw") true =
    OpenRequires (lit "shiny, odd") /\
  check_open 3 (lit "modification tracking" ++ [TAB] ++ lit "w" ++ [NL] ++ lit "shiny" ++ [TAB] ++ lit "w") false = OpenOk 64.
Proof. vm_compute. repeat split. Qed.
