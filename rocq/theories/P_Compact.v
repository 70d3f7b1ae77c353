(** C31: compaction never loses the database. *)
From Verif Require Import Bytes Compact.

Definition complete (x : option dir) : Prop := x = Some Original \/ x = Some Compacted.
Lemma dset_same p x d : dset p x d p = x.
Proof. unfold dset. now rewrite bseq_refl. Qed.
Lemma dset_other p q x d : q <> p -> dset p x d q = d q.
Proof. intros H. unfold dset. apply bseq_neq in H. now rewrite H. Qed.
Lemma compact_neq x : compact_path x <> x.
Proof. intros H. apply (f_equal (@length _)) in H. unfold compact_path in H. rewrite app_length in H. cbn in H. lia. Qed.
Lemma old_neq x : old_path x <> x.
Proof. intros H. apply (f_equal (@length _)) in H. unfold old_path in H. rewrite app_length in H. cbn in H. lia. Qed.

Section Run.
Variables (o : compact_run) (x : bytes) (backup : option bytes) (d : dirs) (v : dir).
Hypothesis Hx : d x = Some v.
Hypothesis Hv : complete (Some v).
Variables b c : bytes.
Hypothesis Hb : b = backup_of x backup.
Hypothesis Hc : c = compact_path x.
(** The database is at its path, or the old one is at the backup path. *)
Definition safe (s : dirs) : Prop := complete (s x) \/ (s x = None /\ s b = Some v /\ complete (s c)).
Definition outside (s : dirs) : Prop := forall p, p <> x -> p <> b -> p <> c -> s p = d p.
Definition inv (w : cworld) : Prop := Forall (fun s => safe s /\ outside s) (cseen w).
Lemma inv_goto s w : inv w -> safe s -> outside s -> inv (cgoto s w).
Proof. intros H1 H2 H3. unfold inv, cseen, cgoto in *. cbn. apply Forall_app. split; [exact H1|]. constructor; auto. Qed.
Lemma inv_now w : inv w -> safe (cnow w) /\ outside (cnow w).
Proof. unfold inv, cseen. rewrite Forall_app. intros [_ H]. now inversion H. Qed.
(** Changing the compact path keeps the invariant while the database is at its path. *)
Lemma inv_cset_c w y : inv w -> cnow w x = Some v -> inv (cset c y w) /\ cnow (cset c y w) x = Some v.
Proof.
  intros H Hw. assert (N : x <> c) by (intros E; apply (compact_neq x); congruence).
  assert (E : dset c y (cnow w) x = Some v) by (rewrite dset_other; auto). split; [|exact E].
  apply inv_goto; [exact H| |].
  - left. now rewrite E.
  - intros p P1 P2 P3. rewrite dset_other by exact P3. now apply (inv_now w H).
Qed.
Lemma run_spec : let '(ok, w) := notmuch_database_compact o x backup {| cnow := d; cpast := [] |} in
  inv w /\
  (ok = true -> d b = None /\ cnow w x = Some Compacted /\ cnow w b = (match backup with Some _ => Some v | None => None end) /\ (b <> c -> cnow w c = None)) /\
  (ok = false -> complete (cnow w x) \/ (o_rename2 o = false /\ cnow w b = Some v /\ cnow w c = Some Compacted)).
Proof.
  set (w0 := {| cnow := d; cpast := [] |}).
  assert (I0 : inv w0). { constructor; [|constructor]. split; [left; change (cnow w0 x) with (d x); rewrite Hx; exact Hv|]. intros p _ _ _. reflexivity. }
  assert (X0 : complete (cnow w0 x)) by (change (cnow w0 x) with (d x); rewrite Hx; exact Hv).
  unfold notmuch_database_compact. rewrite <- Hb, <- Hc. cbn zeta. change (cnow w0) with d. destruct (d b) as [bb|] eqn:Eb.
  { split; [exact I0|]. split; [discriminate|]. intros _. left. exact X0. }
  destruct (o_stat o); cbn [negb].
  2:{ split; [exact I0|]. split; [discriminate|]. intros _. left. exact X0. }
  assert (Nxb : x <> b) by congruence. assert (Nxc : x <> c) by (intros E; apply (compact_neq x); congruence).
  (* the first rmtree *)
  assert (R1 : inv (snd (rmtree (o_rm1 o) c w0)) /\ cnow (snd (rmtree (o_rm1 o) c w0)) x = Some v /\ (b <> c -> cnow (snd (rmtree (o_rm1 o) c w0)) b = None)).
  { unfold rmtree. change (cnow w0 c) with (d c). destruct (d c); [|cbn; auto].
    destruct (inv_cset_c w0 (Some Partial) I0 Hx) as [I1 X1]. destruct (o_rm1 o); cbn [snd].
    - destruct (inv_cset_c _ None I1 X1) as [I2 X2]. split; [exact I2|]. split; [exact X2|]. intros N. cbn. rewrite !dset_other by congruence. exact Eb.
    - split; [exact I1|]. split; [exact X1|]. intros N. cbn. rewrite !dset_other by congruence. exact Eb. }
  destruct R1 as (I1 & X1 & B1). set (w1 := snd (rmtree (o_rm1 o) c w0)) in *.
  assert (R2 : let '(ok, w) := xapian_compact o c w1 in inv w /\ cnow w x = Some v /\ (b <> c -> cnow w b = None) /\ (ok = true -> cnow w c = Some Compacted)).
  { unfold xapian_compact. destruct (cnow w1 c); [repeat split; auto; discriminate|]. destruct (inv_cset_c w1 (Some Partial) I1 X1) as [I2 X2]. destruct (o_compact o).
    - destruct (inv_cset_c _ (Some Compacted) I2 X2) as [I3 X3]. split; [exact I3|]. split; [exact X3|]. split.
      + intros N. cbn. rewrite !dset_other by congruence. auto.
      + intros _. cbn. apply dset_same.
    - destruct (o_remains o); repeat split; auto; try discriminate. intros N. cbn. rewrite !dset_other by congruence. auto. }
  destruct (xapian_compact o c w1) as [ok w2]. destruct R2 as (I2 & X2 & B2 & C2). destruct ok; cbn [negb].
  2:{ split; [exact I2|]. split; [discriminate|]. intros _. left. rewrite X2. exact Hv. }
  specialize (C2 eq_refl). unfold rename_dir at 1. rewrite X2.
  destruct (bytes_eq_dec b c) as [Ebc|Nbc].
  { rewrite Ebc, C2. cbn. split; [exact I2|]. split; [discriminate|]. intros _. left. rewrite X2. exact Hv. }
  rewrite (B2 Nbc). destruct (o_rename1 o); cbn [negb].
  2:{ split; [exact I2|]. split; [discriminate|]. intros _. left. rewrite X2. exact Hv. }
  set (w3 := cgoto (dset x None (dset b (Some v) (cnow w2))) w2).
  assert (X3 : cnow w3 x = None) by (cbn; apply dset_same).
  assert (B3 : cnow w3 b = Some v) by (cbn; rewrite dset_other by congruence; apply dset_same).
  assert (C3 : cnow w3 c = Some Compacted) by (cbn; rewrite !dset_other by congruence; exact C2).
  assert (I3 : inv w3).
  { apply inv_goto; [exact I2| |].
    - right. split; [exact X3|]. split; [exact B3|]. right. exact C3.
    - intros p P1 P2 P3. rewrite !dset_other by assumption. now apply (inv_now w2 I2). }
  unfold rename_dir. rewrite C3, X3. destruct (o_rename2 o) eqn:Er2; cbn [negb].
  2:{ split; [exact I3|]. split; [discriminate|]. intros _. right. auto. }
  set (w4 := cgoto (dset c None (dset x (Some Compacted) (cnow w3))) w3).
  assert (X4 : cnow w4 x = Some Compacted) by (cbn -[dset]; rewrite dset_other by congruence; apply dset_same).
  assert (B4 : cnow w4 b = Some v) by (unfold w4, cgoto; cbn [cnow]; rewrite !dset_other by congruence; exact B3).
  assert (C4 : cnow w4 c = None) by (cbn; apply dset_same).
  assert (I4 : inv w4).
  { apply inv_goto; [exact I3| |].
    - left. right. exact X4.
    - intros p P1 P2 P3. rewrite !dset_other by assumption. now apply (inv_now w3 I3). }
  destruct backup as [bk|].
  - split; [exact I4|]. split; [intros _; auto|]. intros _. left. right. exact X4.
  - unfold rmtree. rewrite B4.
    assert (S5 : forall w y, inv w -> cnow w x = Some Compacted -> cnow w c = None -> inv (cset b y w) /\ cnow (cset b y w) x = Some Compacted /\ cnow (cset b y w) c = None).
    { intros w y Iw Xw Cw. assert (E : dset b y (cnow w) x = Some Compacted) by (rewrite dset_other; auto). split; [|split; [exact E|cbn; rewrite dset_other; auto]].
      apply inv_goto; [exact Iw|left; right; exact E|]. intros p P1 P2 P3. rewrite dset_other by exact P2. now apply (inv_now w Iw). }
    destruct (S5 w4 (Some Partial) I4 X4 C4) as (I5 & X5 & C5). destruct (o_rm2 o).
    + destruct (S5 _ None I5 X5 C5) as (I6 & X6 & C6). split; [exact I6|]. split.
      * intros Hok. split; [reflexivity|]. split; [exact X6|]. split; [cbn; apply dset_same|intros _; exact C6].
      * intros _. left. right. exact X6.
    + split; [exact I5|]. split; [discriminate|]. intros _. left. right. exact X5.
Qed.
End Run.

(** At every moment of a compaction, whatever fails, a complete database is at the
    database path, or else the old one is complete at the backup path and the new one
    complete at the compact path.  Holds for the state left by an earlier interrupted run
    too: nothing is assumed about the compact and backup paths. *)
Theorem C31_every_crash_point : forall o x backup d v, d x = Some v -> complete (Some v) ->
  forall s, In s (cseen (snd (notmuch_database_compact o x backup {| cnow := d; cpast := [] |}))) ->
  complete (s x) \/ (s x = None /\ s (backup_of x backup) = Some v /\ complete (s (compact_path x))).
Proof.
  intros o x backup d v Hx Hv s Hs. pose proof (run_spec o x backup d v Hx Hv _ _ eq_refl eq_refl) as R. destruct (notmuch_database_compact _ _ _ _) as [ok w]. destruct R as (I & _).
  unfold inv in I. rewrite Forall_forall in I. apply (I s Hs).
Qed.
Print Assumptions C31_every_crash_point.
(** Nothing but the three paths is ever changed. *)
Theorem C31_nothing_else_changed : forall o x backup d v, d x = Some v -> complete (Some v) ->
  forall s p, In s (cseen (snd (notmuch_database_compact o x backup {| cnow := d; cpast := [] |}))) ->
  p <> x -> p <> backup_of x backup -> p <> compact_path x -> s p = d p.
Proof.
  intros o x backup d v Hx Hv s p Hs P1 P2 P3. pose proof (run_spec o x backup d v Hx Hv _ _ eq_refl eq_refl) as R. destruct (notmuch_database_compact _ _ _ _) as [ok w]. destruct R as (I & _).
  unfold inv in I. rewrite Forall_forall in I. now apply (I s Hs).
Qed.
Print Assumptions C31_nothing_else_changed.
(** On success the compacted database is in place and the old one is where it was asked for. *)
Theorem C31_success : forall o x backup d v w, d x = Some v -> complete (Some v) ->
  notmuch_database_compact o x backup {| cnow := d; cpast := [] |} = (true, w) ->
  d (backup_of x backup) = None /\ cnow w x = Some Compacted /\ cnow w (backup_of x backup) = match backup with Some _ => Some v | None => None end.
Proof.
  intros o x backup d v w Hx Hv E. pose proof (run_spec o x backup d v Hx Hv _ _ eq_refl eq_refl) as R. rewrite E in R. destruct R as (_ & S & _). destruct (S eq_refl) as (S1 & S2 & S3 & _). auto.
Qed.
Print Assumptions C31_success.
(** An existing directory at the backup path is never touched: compaction refuses. *)
Theorem C31_backup_not_overwritten : forall o x backup d b, d (backup_of x backup) = Some b ->
  notmuch_database_compact o x backup {| cnow := d; cpast := [] |} = (false, {| cnow := d; cpast := [] |}).
Proof. intros o x backup d b H. unfold notmuch_database_compact. cbn. rewrite H. reflexivity. Qed.
Print Assumptions C31_backup_not_overwritten.
(** After a failure the database may be missing from its path: if only the second rename
    fails, nothing moves the old one back. *)
Theorem C31_failure_leaves_database_refuted :
  ~ (forall o x backup d v w, d x = Some v -> complete (Some v) -> notmuch_database_compact o x backup {| cnow := d; cpast := [] |} = (false, w) -> complete (cnow w x)).
Proof.
  intros H. set (o := {| o_stat := true; o_rm1 := true; o_compact := true; o_remains := true; o_rename1 := true; o_rename2 := false; o_rm2 := true; o_close := true |}).
  set (d := fun p => if bseq p (lit "/x") then Some Original else None).
  assert (L : cnow (snd (notmuch_database_compact o (lit "/x") None {| cnow := d; cpast := [] |})) (lit "/x") = None) by (vm_compute; reflexivity).
  destruct (notmuch_database_compact o (lit "/x") None {| cnow := d; cpast := [] |}) as [ok w] eqn:E.
  assert (Eo : fst (notmuch_database_compact o (lit "/x") None {| cnow := d; cpast := [] |}) = false) by (vm_compute; reflexivity). rewrite E in Eo. cbn in Eo. subst ok.
  specialize (H o (lit "/x") None d Original w eq_refl (or_introl eq_refl) E). cbn [snd] in L. rewrite L in H. destruct H; discriminate.
Qed.
Print Assumptions C31_failure_leaves_database_refuted.
(** A successful run over leftovers of an interrupted one, with the states it passes. *)
Example C31_example :
  let o := {| o_stat := true; o_rm1 := true; o_compact := true; o_remains := true; o_rename1 := true; o_rename2 := true; o_rm2 := true; o_close := true |} in
  let d := fun p => if bseq p (lit "/x") then Some Original else if bseq p (lit "/x.compact") then Some Partial else None in
  let r := notmuch_database_compact o (lit "/x") None {| cnow := d; cpast := [] |} in
  fst r = true /\ map (fun s => (s (lit "/x"), s (lit "/x.compact"), s (lit "/x.old"))) (cseen (snd r)) =
   [(Some Original, Some Partial, None); (Some Original, Some Partial, None); (Some Original, None, None); (Some Original, Some Partial, None); (Some Original, Some Compacted, None);
    (None, Some Compacted, Some Original); (Some Compacted, None, Some Original); (Some Compacted, None, Some Partial); (Some Compacted, None, None)].
Proof. vm_compute. split; reflexivity. Qed.
