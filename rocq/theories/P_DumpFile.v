(** C30: dumping to a file is all or nothing. *)
From Verif Require Import Bytes Fs FsProofs DumpFile.

(** What zlib and mkstemp promise: if every step reports success, the writes together are
    the whole (encoded) dump and closing adds nothing after a successful final flush;
    mkstemp creates a file that did not exist, and its name is not the output file's. *)
Definition contract (r : dump_run) (out whole : bytes) (d : fs) : Prop :=
  (r_body r = true -> r_flush r = true -> concat (w_body r) ++ concat (w_flush r) = whole /\ w_close r = []) /\
  (r_mkstemp r = true -> d (r_temp r) = None) /\ r_temp r <> out.

Lemma only_appends t d l : forall w, Forall (only t d) (seen w) -> Forall (only t d) (seen (appends t l w)).
Proof. induction l as [|b l IH]; intros w H; cbn; [exact H|]. apply IH. now apply only_append. Qed.
Lemma appends_content t l : forall w f, now w t = Some f -> exists y, now (appends t l w) t = Some {| content := content f ++ concat l; synced := y |} /\ (l = [] -> y = synced f).
Proof.
  induction l as [|b l IH]; intros w f H; cbn.
  - exists (synced f). rewrite app_nil_r. split; [|auto]. rewrite H. now destruct f.
  - unfold sys_append at 2. rewrite H. set (w' := goto _ w).
    destruct (IH w' {| content := content f ++ b; synced := false |}) as (y & E & _). { cbn. apply upd_same. }
    exists y. split; [|discriminate]. change (now (appends t l w') t = Some {| content := content f ++ b ++ concat l; synced := y |}). rewrite E. cbn. now rewrite <- app_assoc.
Qed.
Lemma failed_spec r opened d w : Forall (only (r_temp r) d) (seen w) ->
  let '(ok, w') := dump_failed r opened w in ok = false /\ Forall (only (r_temp r) d) (seen w') /\ (r_unlink r = true -> now w' (r_temp r) = None).
Proof.
  intros H. unfold dump_failed. set (w1 := if opened then _ else _). assert (H1 : Forall (only (r_temp r) d) (seen w1)) by (unfold w1; destruct opened; [now apply only_appends|exact H]).
  split; [reflexivity|]. destruct (r_unlink r); [|split; [exact H1|discriminate]]. split; [now apply only_goto|]. intros _. apply upd_same.
Qed.
Lemma dump_cases r out whole d : contract r out whole d -> let '(ok, w) := notmuch_database_dump r out (start d) in
  if ok then exists past, seen w = past ++ [now w] /\ Forall (only (r_temp r) d) past /\ now w out = Some {| content := whole; synced := true |} /\ (forall p, p <> out -> now w p = d p)
  else Forall (only (r_temp r) d) (seen w) /\ (r_unlink r = true -> now w (r_temp r) = None).
Proof.
  intros (Cz & Cm & Ct). assert (H0 : Forall (only (r_temp r) d) (seen (start d))) by (constructor; [intros p _; reflexivity|constructor]).
  unfold notmuch_database_dump. cbn zeta.
  assert (F : forall op w, Forall (only (r_temp r) d) (seen w) -> let '(ok, w) := dump_failed r op w in
     if ok then exists past, seen w = past ++ [now w] /\ Forall (only (r_temp r) d) past /\ now w out = Some {| content := whole; synced := true |} /\ (forall p, p <> out -> now w p = d p)
     else Forall (only (r_temp r) d) (seen w) /\ (r_unlink r = true -> now w (r_temp r) = None)).
  { intros op w H. pose proof (failed_spec r op d w H) as S. destruct (dump_failed r op w) as [ok w']. destruct S as (-> & S). exact S. }
  destruct (r_mkstemp r); cbn [negb]; [|now apply F]. specialize (Cm eq_refl).
  set (w1 := sys_create (r_temp r) (start d)). assert (H1 : Forall (only (r_temp r) d) (seen w1)) by now apply only_goto.
  assert (E1 : now w1 (r_temp r) = Some {| content := []; synced := false |}) by apply upd_same.
  destruct (r_gzdopen r); cbn [negb]; [|now apply F].
  set (w2 := appends (r_temp r) (w_body r) w1). assert (H2 : Forall (only (r_temp r) d) (seen w2)) by now apply only_appends.
  destruct (appends_content (r_temp r) (w_body r) w1 _ E1) as (y2 & E2 & _). fold w2 in E2. cbn [content app] in E2.
  destruct (r_body r); cbn [negb]; [|now apply F].
  set (w3 := appends (r_temp r) (w_flush r) w2). assert (H3 : Forall (only (r_temp r) d) (seen w3)) by now apply only_appends.
  destruct (appends_content (r_temp r) (w_flush r) w2 _ E2) as (y3 & E3 & _). fold w3 in E3. cbn [content] in E3.
  destruct (r_flush r); cbn [negb]; [|now apply F]. destruct (Cz eq_refl eq_refl) as [Cw Cc]. rewrite Cw in E3.
  destruct (r_fsync r); cbn [negb]; [|now apply F].
  set (w4 := sys_fsync (r_temp r) w3). assert (H4 : Forall (only (r_temp r) d) (seen w4)) by now apply only_fsync.
  assert (E4 : now w4 (r_temp r) = Some {| content := whole; synced := true |}) by (unfold w4, sys_fsync; rewrite E3; apply upd_same).
  rewrite Cc. cbn [appends fold_left].
  destruct (r_close r); cbn [negb]; [|now apply F]. destruct (r_rename r); cbn [negb]; [|now apply F].
  unfold sys_rename. rewrite E4. destruct (bseq_spec (r_temp r) out) as [|N]; [contradiction|].
  exists (seen w4). split; [reflexivity|]. split; [exact H4|]. cbn [now goto]. split.
  - rewrite upd_other by congruence. apply upd_same.
  - intros p Hp. destruct (bytes_eq_dec p (r_temp r)) as [->|Np]; [rewrite upd_same; now rewrite Cm|]. rewrite upd_other by exact Np. rewrite upd_other by exact Hp. now apply (Forall_now _ _ H4).
Qed.

(** At every moment of a dump, whatever fails, the output file is as it was before or holds
    the whole dump, synced; no file but it and the temporary one is ever different. *)
Theorem C30_all_or_nothing : forall r out whole d, contract r out whole d ->
  forall s, In s (seen (snd (notmuch_database_dump r out (start d)))) ->
  (s out = d out \/ s out = Some {| content := whole; synced := true |}) /\ (forall p, p <> out -> p <> r_temp r -> s p = d p).
Proof.
  intros r out whole d C s Hs. pose proof (dump_cases r out whole d C) as R. destruct C as (_ & _ & Ct). destruct (notmuch_database_dump r out (start d)) as [[] w]; cbn [snd] in Hs.
  - destruct R as (pst & E & F & O & Q). rewrite E in Hs. apply in_app_or in Hs as [Hs|[<-|[]]].
    + rewrite Forall_forall in F. specialize (F s Hs). split; [left; apply F; congruence|]. intros p _ Hp. now apply F.
    + split; [right; exact O|]. intros p Hp _. now apply Q.
  - destruct R as (F & _). rewrite Forall_forall in F. specialize (F s Hs). split; [left; apply F; congruence|]. intros p _ Hp. now apply F.
Qed.
Print Assumptions C30_all_or_nothing.
(** If success is reported the output file is complete and nothing else has changed (the
    temporary file is gone). *)
Theorem C30_success : forall r out whole d w, contract r out whole d -> notmuch_database_dump r out (start d) = (true, w) ->
  now w out = Some {| content := whole; synced := true |} /\ forall p, p <> out -> now w p = d p.
Proof.
  intros r out whole d w C E. pose proof (dump_cases r out whole d C) as R. rewrite E in R. destruct R as (pst & _ & _ & O & Q). auto.
Qed.
Print Assumptions C30_success.
(** If failure is reported the output file is untouched and, unless the removal itself
    fails, so is everything else: the temporary file is removed. *)
Theorem C30_failure : forall r out whole d w, contract r out whole d -> r_unlink r = true -> d (r_temp r) = None ->
  notmuch_database_dump r out (start d) = (false, w) -> forall p, now w p = d p.
Proof.
  intros r out whole d w C U T E p. pose proof (dump_cases r out whole d C) as R. rewrite E in R. destruct R as (F & U'). specialize (U' U).
  destruct (bytes_eq_dec p (r_temp r)) as [->|N]; [now rewrite U', T|]. now apply (Forall_now _ _ F).
Qed.
Print Assumptions C30_failure.
(** The hypothesis that the temporary name is free matters: when mkstemp fails because the
    names it tried are taken, the file with the last of them is deleted. *)
Theorem C30_failed_mkstemp_refuted :
  ~ (forall r out whole d w, contract r out whole d -> r_unlink r = true -> notmuch_database_dump r out (start d) = (false, w) -> forall p, now w p = d p).
Proof.
  intros H. set (r := {| r_mkstemp := false; r_temp := lit "o.abcdef"; r_gzdopen := true; w_body := []; r_body := false; w_flush := []; r_flush := false; r_fsync := true; w_close := []; r_close := true; w_close2 := []; r_rename := true; r_unlink := true |}).
  set (d := fun p => if bseq p (lit "o.abcdef") then Some {| content := lit "x"; synced := true |} else None).
  assert (C : contract r (lit "o") [] d) by (split; [|split]; cbn; discriminate).
  destruct (notmuch_database_dump r (lit "o") (start d)) as [ok w] eqn:E.
  assert (L : fst (notmuch_database_dump r (lit "o") (start d)) = false) by reflexivity.
  assert (L2 : now (snd (notmuch_database_dump r (lit "o") (start d))) (lit "o.abcdef") = None) by (vm_compute; reflexivity).
  rewrite E in L, L2. cbn [fst snd] in L, L2. subst ok.
  specialize (H r (lit "o") [] d w C eq_refl E (lit "o.abcdef")). rewrite L2 in H. discriminate H.
Qed.
Print Assumptions C30_failed_mkstemp_refuted.
(** A run that succeeds over an existing output file, in several writes. *)
Example C30_example :
  let r := {| r_mkstemp := true; r_temp := lit "o.abcdef"; r_gzdopen := true; w_body := [lit "#not"; lit "much"]; r_body := true; w_flush := [lit "!"]; r_flush := true; r_fsync := true; w_close := []; r_close := true; w_close2 := []; r_rename := true; r_unlink := true |} in
  let d := fun p => if bseq p (lit "o") then Some {| content := lit "old"; synced := true |} else None in
  contract r (lit "o") (lit "#notmuch!") d /\
  map (fun s => (option_map content (s (lit "o")), option_map content (s (lit "o.abcdef")))) (seen (snd (notmuch_database_dump r (lit "o") (start d)))) =
  [(Some (lit "old"), None); (Some (lit "old"), Some []); (Some (lit "old"), Some (lit "#not")); (Some (lit "old"), Some (lit "#notmuch")); (Some (lit "old"), Some (lit "#notmuch!"));
   (Some (lit "old"), Some (lit "#notmuch!")); (Some (lit "#notmuch!"), None)].
Proof. split; [split; [|split]|]; [intros _ _; split; reflexivity|reflexivity|discriminate|vm_compute; reflexivity]. Qed.
