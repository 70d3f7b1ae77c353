(** C96: what an object for a message says is what is true of the message. *)
From Verif Require Import Bytes MsgCache MsgCacheSpec MsgCacheProofs MsgCacheProofs2.
From Coq Require Import List Arith Bool Ascii Lia.
Import ListNotations.
Local Open Scope nat_scope.

(** Whatever was read and remembered before, an answer takes every change made through the object into account at once
    (frozen or not), and shows no other. *)
Theorem C96_current : forall d os w m g,
  proper d -> Forall plain os -> run (opened d true) fresh os = (w, m) ->
  says (snd (get w m g)) (after_all os (facts_of d) (about g)).
Proof.
  intros d os w m g D F E. pose proof (run_I os _ _ _ _ _ (opened_I d D) F E) as [HK _ _ R].
  intros v. rewrite (get_says w m g HK v). apply R.
Qed.
(** When the object is not frozen, everything, and nothing else, is in the database, for every kind of value,
    also those without a getter. *)
Theorem C96_stored : forall d os w m f v,
  proper d -> Forall plain os -> run (opened d true) fresh os = (w, m) -> frozen m = 0 ->
  (In v (stored w f) <-> after_all os (facts_of d) f v).
Proof.
  intros d os w m f v D F E Z. pose proof (run_I os _ _ _ _ _ (opened_I d D) F E) as [HK _ M R].
  rewrite <- (K_st _ _ HK (M Z)). apply R.
Qed.
(** So another object made then says the same. *)
Theorem C96_fresh : forall d os w m g,
  proper d -> Forall plain os -> run (opened d true) fresh os = (w, m) -> frozen m = 0 ->
  says (snd (get w fresh g)) (after_all os (facts_of d) (about g)).
Proof.
  intros d os w m g D F E Z. pose proof (run_I os _ _ _ _ _ (opened_I d D) F E) as [HK _ M R].
  assert (S : forall f, stored w f = read w m f) by (intros; now rewrite (K_st _ _ HK (M Z))).
  assert (HF : K w fresh).
  { apply fresh_K. destruct (K_prop _ _ HK) as (A & B & C & C'). split; [|split; [|split]]; intros *; rewrite S; auto. }
  intros v. rewrite (get_says w fresh g HF v). change (read w fresh) with (stored w). rewrite S. apply R.
Qed.
(** While the object is frozen, also several times, none of its changes is written (but for renames of files). *)
Theorem C96_frozen : forall os w m, frozen m = 0 -> writable w = true -> stays_frozen 1 os -> fst (run w m (Freeze :: os)) = w.
Proof.
  intros os w m Z W H. cbn [run step]. rewrite W. cbn [negb]. eapply run_frozen; [exact W|reflexivity|cbn; lia|]. cbn. rewrite Z. exact H.
Qed.
(** Through a database that is only read nothing changes, in it or in what the object says, whatever is called. *)
Theorem C96_read_only : forall d os w m g,
  proper d -> Forall (fun o => match o with Changed _ => False | _ => True end) os -> run (opened d false) fresh os = (w, m) ->
  stored w = d /\ says (snd (get w m g)) (facts_of d (about g)).
Proof.
  intros d os w m g D F E. destruct (run_ro os _ _ _ _ (fresh_K (opened d false) D) eq_refl (fun f => eq_refl) F E) as (-> & HK & R).
  split; trivial. intros v. rewrite (get_says _ m g HK v), R. reflexivity.
Qed.

(** ** What is false *)
(** A message: a thread, two tags, a file and an In-Reply-To. *)
Definition example_doc : doc := fun f =>
  match f with
  | Thread => [lit "0001"] | Tag => [lit "attachment"; lit "inbox"] | Type_ => [lit "mail"] | File => [lit "1:a"]
  | Replyto => [lit "parent@x"] | _ => []
  end.
(** Reindexing: the file was replaced by one without an attachment and without an In-Reply-To. *)
Definition reindexed : world * message :=
  run (opened example_doc true) fresh [Reindex [(File, lit "1:a"); (Thread, lit "0001")]].
(** After notmuch_message_reindex the object still shows automatic tags that the message no longer has. *)
Theorem C96_reindex_tags_refuted :
  snd (get (fst reindexed) (snd reindexed) Tags) = Some [lit "attachment"; lit "inbox"] /\
  stored (fst reindexed) Tag = [lit "inbox"] /\ snd (get (fst reindexed) fresh Tags) = Some [lit "inbox"] /\
  modified (snd reindexed) = false.
Proof. vm_compute; auto. Qed.
(** ... and an In-Reply-To. *)
Theorem C96_reindex_reply_refuted :
  snd (get (fst reindexed) (snd reindexed) In_reply_to) = Some [lit "parent@x"] /\ stored (fst reindexed) Replyto = [].
Proof. vm_compute; auto. Qed.
(** ... so that reindexing it a second time through the same object, the first not having been followed by
    anything about tags, again takes its tags from what was remembered. Removing the tag, which is no longer there, helps. *)
Example C96_reindex_then_remove :
  let '(w, m) := step (fst reindexed) (snd reindexed) (Remove_tag (lit "attachment")) in
  snd (get w m Tags) = Some [lit "inbox"].
Proof. vm_compute; reflexivity. Qed.

(** Another process has written, and the database, only read, was reopened. *)
Definition new_doc : doc := fun f => match f with Tag => [lit "deleted"] | Thread => [lit "0002"] | _ => example_doc f end.
(** What was remembered is still shown, although the database says otherwise. *)
Theorem C96_reopen_refuted :
  let '(w, m) := run (opened example_doc false) fresh [Get Tags; Changed new_doc; Get Tags] in
  snd (get w m Tags) = Some [lit "attachment"; lit "inbox"] /\ stored w Tag = [lit "deleted"].
Proof. vm_compute; auto. Qed.
(** Whatever was remembered before, and however often the database is reopened. *)
Theorem C96_reopen_for_ever_refuted : forall d ds w m,
  run (opened d false) fresh (Get Tags :: concat (map (fun x => [Changed x; Get Tags]) ds)) = (w, m) ->
  snd (get w m Tags) = Some (d Tag).
Proof.
  intros d ds.
  assert (G : forall ds w m, writable w = false -> cache m STag = Some (d Tag) ->
    forall w' m', run w m (concat (map (fun x => [Changed x; Get Tags]) ds)) = (w', m') -> cache m' STag = Some (d Tag)).
  { induction ds0 as [|x xs IH]; cbn [map concat app run]; intros w m W H w' m' E.
    - now injection E as <- <-.
    - cbn [step] in E. rewrite W in E. eapply IH; [| |exact E]; trivial.
      cbn [fst get]. unfold ensure_metadata. rewrite H. destruct (_ <=? _); cbn; rewrite ?H; reflexivity. }
  intros w m E. cbn [run step] in E.
  assert (H : cache m STag = Some (d Tag)) by (eapply G; [| |exact E]; reflexivity).
  cbn [get snd]. unfold ensure_metadata. rewrite H. destruct (_ <=? _); cbn; rewrite ?H; reflexivity.
Qed.

(** Two objects for the same message: the second does not show what was changed through the first, and writes it away. *)
Definition two : world * (nat -> message) :=
  run_all (opened example_doc true) (fun _ => fresh) [(0, Add_tag (lit "a")); (1, Add_tag (lit "b")); (0, Add_tag (lit "c"))].
(** The tag b, written by the second object, is lost. *)
Theorem C96_two_objects_refuted :
  stored (fst two) Tag = [lit "attachment"; lit "inbox"; lit "a"; lit "c"] /\
  snd (get (fst two) (snd two 1) Tags) = Some [lit "attachment"; lit "inbox"; lit "a"; lit "b"] /\
  frozen (snd two 0) = 0 /\ frozen (snd two 1) = 0.
Proof. vm_compute; auto. Qed.

(** A file name that would get too long for a term. *)
Definition long_name : bytes := lit "1:" ++ repeat "x"%char 234.
(** notmuch_message_tags_to_maildir_flags then has renamed the file and forgotten the old name in the object, without
    writing it; the next change writes a message without a file. *)
Theorem C96_rename_too_long_refuted :
  let '(w, m) := run (opened example_doc true) fresh [Rename (lit "1:a") long_name] in
  snd (get w m Filenames) = Some [] /\ stored w File = [lit "1:a"] /\ frozen m = 0 /\
  let '(w, m) := step w m (Add_tag (lit "x")) in stored w File = [].
Proof. vm_compute; auto. Qed.

(** ** The theorems above are not vacuous *)
Example C96_proper : proper example_doc.
Proof.
  assert (H : forall f, forallb (fun v => prefix_len f + length v <=? 100) (example_doc f) = true) by (intros []; reflexivity).
  assert (A : forall f v, In v (example_doc f) -> prefix_len f + length v <= 100).
  { intros f v I. specialize (H f). rewrite forallb_forall in H. now apply Nat.leb_le, H. }
  split; [|split; [|split]].
  - intros f v I. specialize (A f v I). lia.
  - intros v I. specialize (A Tag v I). cbn in A. lia.
  - cbn. lia.
  - cbn. lia.
Qed.
(** Reading, changing while frozen, renaming, and thawing. *)
Definition example_program : list op :=
  [Get Tags; Get Filenames; Freeze; Add_tag (lit "x"); Get Tags; Remove_tag (lit "inbox"); Add_property (lit "k") (lit "v");
   Get Properties; Add_property (lit "a=b") (lit "v"); Rename (lit "1:a") (lit "1:a:2,S"); Get Filenames;
   Remove_properties (lit "k="); Thaw; Remove_all_tags; Add_tag (lit "last")].
Example C96_program_plain : Forall plain example_program.
Proof. repeat constructor; cbn; lia. Qed.
Example C96_program_result :
  let '(w, m) := run (opened example_doc true) fresh example_program in
  frozen m = 0 /\ snd (get w m Tags) = Some [lit "last"] /\ snd (get w m Filenames) = Some [lit "1:a:2,S"] /\
  snd (get w m Properties) = Some [] /\ stored w Tag = [lit "last"] /\ stored w File = [lit "1:a:2,S"].
Proof. vm_compute; repeat split; reflexivity. Qed.
Example C96_frozen_example :
  stays_frozen 1 [Add_tag (lit "x"); Freeze; Remove_all_tags; Thaw; Add_property (lit "k") (lit "v"); Get Tags].
Proof. cbn. auto. Qed.
(** While frozen the object shows what the database does not yet have. *)
Example C96_program_frozen :
  let '(w, m) := run (opened example_doc true) fresh (firstn 6 example_program) in
  frozen m = 1 /\ snd (get w m Tags) = Some [lit "attachment"; lit "x"] /\ stored w Tag = [lit "attachment"; lit "inbox"].
Proof. vm_compute; repeat split; reflexivity. Qed.

Print Assumptions C96_current.
Print Assumptions C96_stored.
Print Assumptions C96_fresh.
Print Assumptions C96_frozen.
Print Assumptions C96_read_only.
Print Assumptions C96_reindex_tags_refuted.
Print Assumptions C96_reindex_reply_refuted.
Print Assumptions C96_reopen_refuted.
Print Assumptions C96_reopen_for_ever_refuted.
Print Assumptions C96_two_objects_refuted.
Print Assumptions C96_rename_too_long_refuted.
