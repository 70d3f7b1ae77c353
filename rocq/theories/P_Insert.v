(** C32, C33: mail delivery. *)
From Verif Require Import Bytes StrUtil StrUtilProofs Fs FsProofs Insert InsertSpec InsertProofs InsertProofs2.
Local Open Scope nat_scope.

(** The whole message, all bytes synced. *)
Definition complete (r : run) : option file := Some {| content := delivered (input_of (reads r)); synced := true |}.
(** The read that returns the first bytes returns at least five if they begin a "From "
    line (see [C32_split_from_line_refuted]). *)
Definition first_read_ok (r : run) : Prop := starts_with (lit "From ") (input_of (reads r)) = true -> 5 <= length (first_read (reads r)).
(** No message file has one of the generated names yet. *)
Definition fresh (r : run) (maildir : bytes) (d : fs) : Prop := forall n, In n (names r) -> d (maildir ++ lit "/new/" ++ n) = None.

Lemma complete_eq r : clean (reads r) -> first_read_ok r -> Some {| content := rewritten true (reads r); synced := true |} = complete r.
Proof. intros C F. unfold complete. now rewrite rewritten_delivered. Qed.
Lemma good_complete r maildir d s : first_read_ok r -> good_state r maildir d s -> forall p, (forall n, In n (names r) -> p <> maildir ++ lit "/tmp/" ++ n) ->
  s p = d p \/ exists n, In n (names r) /\ p = maildir ++ lit "/new/" ++ n /\ s p = complete r.
Proof.
  intros F G p Hp. destruct (G p) as [E|(n & N & Ep & Es & C & _)].
  - intros (n & Hn & E). exact (Hp n Hn E).
  - auto.
  - right. exists n. split; [exact N|]. split; [exact Ep|]. rewrite <- (complete_eq r C F). exact Es.
Qed.

(** C32. At every moment of a delivery, whatever reads, writes and calls return: outside
    tmp/ each file is as before, or is the new message in new/ — or where synchronising its
    flags moved it — complete and synced. *)
Theorem C32_only_complete_messages_visible : forall r i maildir d, first_read_ok r -> fresh r maildir d ->
  forall s p, In s (seen (snd (insert r i maildir (start d)))) -> (forall n, In n (names r) -> p <> maildir ++ lit "/tmp/" ++ n) ->
  s p = d p \/ ((exists n, In n (names r) /\ p = maildir ++ lit "/new/" ++ n) \/ moved i = Some p) /\ s p = complete r \/
  (* the new name is free again *) (s p = None /\ exists n, In n (names r) /\ p = maildir ++ lit "/new/" ++ n).
Proof.
  intros r i maildir d F Fr s p Hs Hp. unfold insert in Hs. pose proof (write_new_spec r maildir d Fr) as W. destruct (maildir_write_new r maildir (start d)) as [[q|] w1].
  2:{ destruct W as [W _]. cbn in Hs. rewrite Forall_forall in W. destruct (good_complete r maildir d s F (W s Hs) p Hp) as [E|(n & N & Ep & E)]; [auto|]. right. left. split; [left; eauto|exact E]. }
  destruct W as (W & (n & In_n & Eq) & Q & O & C & Ne). rewrite (complete_eq r C F) in Q.
  assert (A : forall s, In s (seen w1) -> s p = d p \/ ((exists n, In n (names r) /\ p = maildir ++ lit "/new/" ++ n) \/ moved i = Some p) /\ s p = complete r \/ (s p = None /\ exists n, In n (names r) /\ p = maildir ++ lit "/new/" ++ n)).
  { intros s' Hs'. rewrite Forall_forall in W. destruct (good_complete r maildir d s' F (W s' Hs') p Hp) as [E|(n' & N & Ep & E)]; [auto|]. right. left. split; [left; eauto|exact E]. }
  destruct (opts_ok i); cbn [negb] in Hs; [|now apply A]. destruct (add_file i) as [ok sy].
  set (w2 := match sy with true => match moved i with Some q' => sys_rename q q' w1 | None => w1 end | false => w1 end) in *.
  assert (B : forall s, In s (seen w2) -> s p = d p \/ ((exists n, In n (names r) /\ p = maildir ++ lit "/new/" ++ n) \/ moved i = Some p) /\ s p = complete r \/ (s p = None /\ exists n, In n (names r) /\ p = maildir ++ lit "/new/" ++ n)).
  { intros s' Hs'. unfold w2 in Hs'. destruct sy; [|now apply A]. destruct (moved i) as [q'|] eqn:Em; [|now apply A]. unfold sys_rename in Hs'. rewrite Q in Hs'. cbn [complete] in Hs'.
    destruct (bseq_spec q q') as [|N]; [now apply A|]. rewrite seen_goto in Hs'. apply in_app_or in Hs' as [Hs'|[<-|[]]]; [now apply A|].
    destruct (bytes_eq_dec p q) as [->|Np]; [right; right; rewrite upd_same; split; [reflexivity|exists n; auto]|]. rewrite upd_other by exact Np.
    destruct (bytes_eq_dec p q') as [->|Np']; [right; left; rewrite upd_same; auto|]. rewrite upd_other by exact Np'. left. now apply O. }
  destruct (ok && close_ok i); [now apply B|]. destruct (keep i); [now apply B|]. destruct (unlink2_ok i); [|now apply B].
  cbn [snd] in Hs. unfold sys_unlink in Hs. rewrite seen_goto in Hs. apply in_app_or in Hs as [Hs|[<-|[]]]; [now apply B|].
  destruct (bytes_eq_dec p q) as [->|Np]; [right; right; rewrite upd_same; split; [reflexivity|exists n; auto]|]. rewrite upd_other by exact Np. apply B. unfold seen. apply in_or_app. right. now left.
Qed.
Print Assumptions C32_only_complete_messages_visible.
(** If delivery reports success the message is in place, complete and synced, and nothing
    else has changed. *)
Theorem C32_success : forall r i maildir d w, first_read_ok r -> fresh r maildir d -> insert r i maildir (start d) = (true, w) ->
  exists n q, In n (names r) /\ (q = maildir ++ lit "/new/" ++ n \/ moved i = Some q) /\ now w q = complete r /\ input_of (reads r) <> [] /\
  forall p, p <> q -> p <> maildir ++ lit "/new/" ++ n -> now w p = d p.
Proof.
  intros r i maildir d w F Fr E. unfold insert in E. pose proof (write_new_spec r maildir d Fr) as W. destruct (maildir_write_new r maildir (start d)) as [[q|] w1]; [|discriminate].
  destruct W as (W & (n & In_n & Eq) & Q & O & C & Ne). rewrite (complete_eq r C F) in Q. destruct (opts_ok i); cbn [negb] in E; [|discriminate]. destruct (add_file i) as [ok sy].
  set (w2 := match sy with true => match moved i with Some q' => sys_rename q q' w1 | None => w1 end | false => w1 end) in *.
  assert (B : exists q', (q' = q \/ moved i = Some q') /\ now w2 q' = complete r /\ forall p, p <> q' -> p <> q -> now w2 p = d p).
  { unfold w2. destruct sy; [|exists q; auto]. destruct (moved i) as [q'|]; [|exists q; auto]. unfold sys_rename. rewrite Q. cbn [complete]. destruct (bseq_spec q q') as [|N]; [exists q; auto|].
    exists q'. split; [auto|]. cbn [now goto]. split; [rewrite upd_other by congruence; apply upd_same|]. intros p P1 P2. rewrite upd_other by exact P2. rewrite upd_other by exact P1. now apply O. }
  assert (Ew : w = w2). { destruct (ok && close_ok i); [congruence|]. destruct (keep i); [congruence|discriminate]. } rewrite Ew. destruct B as (q' & B1 & B2 & B3). subst q. exists n, q'. auto.
Qed.
Print Assumptions C32_success.
(** If writing the message fails, every file is as before (unless removing the leftover
    fails). *)
Theorem C32_failed_write_leaves_nothing : forall r maildir d w, fresh r maildir d -> unlink_ok r = true ->
  maildir_write_new r maildir (start d) = (None, w) -> forall p, now w p = d p.
Proof. intros r maildir d w Fr U E. pose proof (write_new_spec r maildir d Fr) as W. rewrite E in W. destruct W as [_ W]. exact (W U). Qed.
Print Assumptions C32_failed_write_leaves_nothing.
(** The same for the whole command if the indexing options are good and flags are not
    synchronised before the failure. *)
Theorem C32_failure_leaves_nothing : forall r i maildir d w, fresh r maildir d -> unlink_ok r = true -> unlink2_ok i = true -> opts_ok i = true -> moved i = None ->
  insert r i maildir (start d) = (false, w) -> forall p, now w p = d p.
Proof.
  intros r i maildir d w Fr U U2 Op Mv E p. unfold insert in E. pose proof (write_new_spec r maildir d Fr) as W. destruct (maildir_write_new r maildir (start d)) as [[q|] w1].
  2:{ injection E as <-. destruct W as [_ W]. exact (W U p). }
  destruct W as (W & (n & In_n & Eq) & Q & O & C & Ne). rewrite Op, Mv, U2 in E. cbn [negb] in E. destruct (add_file i) as [ok sy]. destruct sy; destruct (ok && close_ok i); try discriminate; destruct (keep i); try discriminate; injection E as <-; cbn [sys_unlink goto now].
  all: destruct (bytes_eq_dec p q) as [->|Np]; [rewrite upd_same, Eq; symmetry; apply Fr, In_n|rewrite upd_other by exact Np; now apply O].
Qed.
Print Assumptions C32_failure_leaves_nothing.
(** Without these two conditions a failed delivery can leave the message behind. *)
Definition ex_run : run := {| names := [lit "1.M2P3.h"]; open_ok := true; reads := [R_data (lit "From a"); R_eintr; R_data (lit "b")]; writes := [W_ok 3; W_eintr; W_ok 20; W_ok 1]; late := false; fsync_ok := true; unlink_ok := true; rename_ok := true; syncdir_ok := true |}.
Theorem C32_bad_options_leave_message_refuted : ~ (forall r i maildir d w, fresh r maildir d -> unlink_ok r = true -> unlink2_ok i = true -> moved i = None -> insert r i maildir (start d) = (false, w) -> forall p, now w p = d p).
Proof.
  intros H. set (i := {| opts_ok := false; idx := I_success; tag_ok := true; sync := false; sync_ok := true; moved := None; close_ok := true; keep := false; unlink2_ok := true |}).
  destruct (insert ex_run i (lit "/m") (start (fun _ => None))) as [ok w] eqn:E. assert (L : fst (insert ex_run i (lit "/m") (start (fun _ => None))) = false) by (vm_compute; reflexivity). rewrite E in L. cbn in L. subst ok.
  assert (L2 : now (snd (insert ex_run i (lit "/m") (start (fun _ => None)))) (lit "/m/new/1.M2P3.h") = Some {| content := lit "X-Envelope-From: ab"; synced := true |}) by (vm_compute; reflexivity). rewrite E in L2.
  specialize (H ex_run i (lit "/m") (fun _ => None) w (fun _ _ => eq_refl) eq_refl eq_refl eq_refl E (lit "/m/new/1.M2P3.h")). cbn [snd] in L2. rewrite L2 in H. discriminate.
Qed.
Print Assumptions C32_bad_options_leave_message_refuted.
Theorem C32_moved_message_left_refuted : ~ (forall r i maildir d w, fresh r maildir d -> unlink_ok r = true -> unlink2_ok i = true -> opts_ok i = true -> insert r i maildir (start d) = (false, w) -> forall p, now w p = d p).
Proof.
  intros H. set (i := {| opts_ok := true; idx := I_success; tag_ok := true; sync := true; sync_ok := true; moved := Some (lit "/m/cur/1.M2P3.h:2,S"); close_ok := false; keep := false; unlink2_ok := true |}).
  destruct (insert ex_run i (lit "/m") (start (fun _ => None))) as [ok w] eqn:E. assert (L : fst (insert ex_run i (lit "/m") (start (fun _ => None))) = false) by (vm_compute; reflexivity). rewrite E in L. cbn in L. subst ok.
  assert (L2 : now (snd (insert ex_run i (lit "/m") (start (fun _ => None)))) (lit "/m/cur/1.M2P3.h:2,S") = Some {| content := lit "X-Envelope-From: ab"; synced := true |}) by (vm_compute; reflexivity). rewrite E in L2.
  specialize (H ex_run i (lit "/m") (fun _ => None) w (fun _ _ => eq_refl) eq_refl eq_refl eq_refl E (lit "/m/cur/1.M2P3.h:2,S")). cbn [snd] in L2. rewrite L2 in H. discriminate.
Qed.
Print Assumptions C32_moved_message_left_refuted.
(** Delivery works: with reads and writes that make progress (EINTR included), a name that
    is free, and a first read that is not just "From ", the message is written. *)
Theorem C32_delivery_succeeds : forall r maildir d, open_ok r = true -> fsync_ok r = true -> rename_ok r = true -> syncdir_ok r = true -> late r = false ->
  (exists n, In n (names r) /\ d (maildir ++ lit "/tmp/" ++ n) = None) -> input_of (reads r) <> [] -> first_read (reads r) <> lit "From " ->
  Forall (fun x => match x with R_error | R_sigint => False | _ => True end) (reads r) -> Forall (fun x => match x with W_ok n => 0 < n | W_eintr => True | W_error => False end) (writes r) ->
  exists q, fst (maildir_write_new r maildir (start d)) = Some q.
Proof.
  intros r maildir d H1 H2 H3 H4 H5 (n & Hn & Hd) H6 H7 H8 H9.
  assert (C : clean (reads r)). { clear -H8. induction H8 as [|x l Hx _ IH]; cbn; [exact I|]. destruct x as [[|]| | |]; auto. }
  assert (M : exists p, fst (maildir_mktemp (open_ok r) (names r) maildir (start d)) = Some p).
  { rewrite H1. clear -Hn Hd. induction (names r) as [|m ns IH]; [destruct Hn|]. cbn. destruct (d (tmp_path maildir m)) eqn:E; [|cbn; eauto]. destruct Hn as [->|Hn]; [unfold tmp_path in E; congruence|auto]. }
  destruct M as (p & M). unfold maildir_write_new, maildir_write_tmp. destruct (maildir_mktemp (open_ok r) (names r) maildir (start d)) as [o w]. cbn in M. subst o.
  pose proof (copy_live p (reads r) (writes r) true true w C H9 (fun _ => H7) (fun _ => H6)) as L. rewrite H5. destruct (copy_fd (reads r) (writes r) false true true p w) as [ok w']. cbn in L. subst ok. cbn [negb].
  rewrite H2. cbn [negb]. rewrite H3, H4. cbn. eauto.
Qed.
Print Assumptions C32_delivery_succeeds.
(** A "From " line cut by the first read is not rewritten. *)
Theorem C32_split_from_line_refuted : ~ (forall r maildir d q w, fresh r maildir d -> maildir_write_new r maildir (start d) = (Some q, w) -> now w q = complete r).
Proof.
  intros H. set (r := {| names := [lit "n"]; open_ok := true; reads := [R_data (lit "Fro"); R_data (lit "m x")]; writes := []; late := false; fsync_ok := true; unlink_ok := true; rename_ok := true; syncdir_ok := true |}).
  destruct (maildir_write_new r (lit "/m") (start (fun _ => None))) as [o w] eqn:E.
  assert (L : fst (maildir_write_new r (lit "/m") (start (fun _ => None))) = Some (lit "/m/new/n")) by (vm_compute; reflexivity).
  assert (L2 : now (snd (maildir_write_new r (lit "/m") (start (fun _ => None)))) (lit "/m/new/n") = Some {| content := lit "From x"; synced := true |}) by (vm_compute; reflexivity).
  rewrite E in L, L2. cbn [fst snd] in L, L2. subst o. specialize (H r (lit "/m") (fun _ => None) (lit "/m/new/n") w (fun _ _ => eq_refl) E). rewrite L2 in H. discriminate H.
Qed.
Print Assumptions C32_split_from_line_refuted.
(** A first read of exactly "From " makes delivery fail although nothing went wrong. *)
Theorem C32_from_alone_fails_refuted : ~ (forall r maildir d, open_ok r = true -> fsync_ok r = true -> rename_ok r = true -> syncdir_ok r = true -> late r = false ->
  (exists n, In n (names r) /\ d (maildir ++ lit "/tmp/" ++ n) = None) -> input_of (reads r) <> [] -> Forall (fun x => match x with R_data _ => True | _ => False end) (reads r) -> writes r = [] ->
  exists q, fst (maildir_write_new r maildir (start d)) = Some q).
Proof.
  intros H. set (r := {| names := [lit "n"]; open_ok := true; reads := [R_data (lit "From "); R_data (lit "x")]; writes := []; late := false; fsync_ok := true; unlink_ok := true; rename_ok := true; syncdir_ok := true |}).
  destruct (H r (lit "/m") (fun _ => None) eq_refl eq_refl eq_refl eq_refl eq_refl) as (q & E).
  - exists (lit "n"). split; [now left|reflexivity].
  - discriminate.
  - repeat constructor.
  - reflexivity.
  - assert (L : fst (maildir_write_new r (lit "/m") (start (fun _ => None))) = None) by (vm_compute; reflexivity). rewrite L in E. discriminate.
Qed.
Print Assumptions C32_from_alone_fails_refuted.
(** A delivery in small pieces with interruptions. *)
Example C32_example : first_read_ok ex_run /\ fresh ex_run (lit "/m") (fun _ => None) /\
  let i := {| opts_ok := true; idx := I_success; tag_ok := true; sync := false; sync_ok := true; moved := None; close_ok := true; keep := false; unlink2_ok := true |} in
  fst (insert ex_run i (lit "/m") (start (fun _ => None))) = true /\
  now (snd (insert ex_run i (lit "/m") (start (fun _ => None)))) (lit "/m/new/1.M2P3.h") = Some {| content := lit "X-Envelope-From: ab"; synced := true |}.
Proof. split; [|split; [|split; vm_compute; reflexivity]]; [intros _; cbn; lia|intros n _; reflexivity]. Qed.

(** ** C33 *)
(** A folder name is accepted iff none of its components is "..". *)
Theorem C33_accepted_iff : forall folder comps, cstr folder -> components folder comps -> (is_valid_folder_name folder = true <-> ~ In (lit "..") comps).
Proof.
  intros folder comps C H. unfold is_valid_folder_name. rewrite (valid_spec folder comps H C _ (Nat.lt_succ_diag_r _)). apply forallb_dotdot.
Qed.
Print Assumptions C33_accepted_iff.
(** Every name has components, uniquely, so this decides every name. *)
Theorem C33_components : forall path, exists! comps, components path comps.
Proof. intros p. destruct (components_exists p) as (l & H). exists l. split; [exact H|]. intros l' H'. exact (components_unique p l H l' H'). Qed.
Print Assumptions C33_components.
(** So the file delivered for an accepted folder lies below the mail root, by its name
    (symbolic links apart). *)
Theorem C33_stays_below_mail_root : forall mail_root folder name root_comps path_comps, cstr folder -> is_valid_folder_name folder = true ->
  ~ In "/"%char name -> name <> lit ".." -> components mail_root root_comps ->
  components (maildir_of mail_root folder ++ lit "/new/" ++ name) path_comps ->
  exists below, walk [] path_comps = walk [] root_comps ++ below.
Proof.
  intros root folder name lr lp C V N1 N2 Hr Hp. destruct (components_exists folder) as (lf & Hf). rewrite (C33_accepted_iff folder lf C Hf) in V.
  destruct (components_exists (maildir_of root folder)) as (lm & Hm). destruct (strip_trailing_spec (root ++ SL :: folder) SL) as (k & E & _). fold (maildir_of root folder) in E.
  pose proof (components_app root lr Hr folder lf Hf) as Hrf. pose proof (components_slashes _ _ k Hm) as Hmk. rewrite <- E in Hmk. pose proof (components_unique _ _ Hrf _ Hmk) as EL.
  assert (Hn : components (maildir_of root folder ++ lit "/new/" ++ name) (lm ++ [lit "new"; name])).
  { change (lit "/new/" ++ name) with (SL :: lit "new" ++ SL :: name). apply components_app; [exact Hm|]. apply (comp_cons (lit "new") name [name]); [cbn; intuition discriminate|]. now constructor. }
  rewrite (components_unique _ _ Hp _ Hn). rewrite walk_app.
  assert (W : walk [] lm = walk [] (lr ++ lf)) by (rewrite EL, walk_app, walk_empties; reflexivity).
  rewrite W, walk_app. destruct (walk_down lf (walk [] lr) V) as (s1 & ->).
  destruct (walk_down [lit "new"; name] (walk [] lr ++ s1)) as (s2 & ->). { intros [X|[X|[]]]; [discriminate|auto]. }
  exists (s1 ++ s2). now rewrite app_assoc.
Qed.
Print Assumptions C33_stays_below_mail_root.
(** Creating the folder: at every moment only directories on the way to it have been
    created, nothing existing is changed, and success means the directory is there. *)
Theorem C33_create_only_on_the_way : forall ok sok path d, let '(r, w) := mkdir_recursive (S (length path)) ok sok path {| tnow := d; tpast := [] |} in
  (forall s k, In s (tseen w) -> s k = d k \/ (d k = None /\ s k = Some true /\ exists p, (p = path \/ exists t, path = p ++ "/"%char :: t) /\ k = resolve p)) /\
  (r = true -> tnow w (resolve path) = Some true).
Proof.
  intros ok sok path d. pose proof (mkdir_safe (S (length path)) ok sok path d {| tnow := d; tpast := [] |} (Forall_cons _ (made_refl _ _) (Forall_nil _))) as M.
  destruct (mkdir_recursive _ _ _ _ _) as [r w]. destruct M as [M1 M2]. split; [|exact M2]. intros s k Hs. rewrite Forall_forall in M1. exact (M1 s Hs k).
Qed.
Print Assumptions C33_create_only_on_the_way.
(** And it succeeds for an absolute path without empty or "." components when mkdir works
    and no other file is in the way. *)
Theorem C33_create_succeeds : forall cs d, cs <> [] -> Forall (fun c => ~ In "/"%char c /\ c <> [] /\ c <> lit ".") cs ->
  let path := concat (map (fun c => "/"%char :: c) cs) in
  (forall p, (p = path \/ exists t, path = p ++ "/"%char :: t) -> d (resolve p) <> Some false) ->
  fst (mkdir_recursive (S (length path)) (fun _ => true) (fun _ => true) path {| tnow := d; tpast := [] |}) = true.
Proof.
  intros cs d Ne F path H. apply (mkdir_live (fun _ => true) (fun _ => true)) with (cs := cs); auto.
  eapply Forall_impl; [|exact F]. intros c (C1 & C2 & C3). split; [exact C1|]. unfold real. apply bseq_neq in C2, C3. rewrite C2, C3. reflexivity.
Qed.
Print Assumptions C33_create_succeeds.
(** With a doubled slash it fails after having created the directory before it, because
    mkdir is called again for the same directory. *)
Theorem C33_double_slash_refuted : ~ (forall path d, cstr path -> (forall k, d k = None) -> fst (mkdir_recursive (S (length path)) (fun _ => true) (fun _ => true) path {| tnow := d; tpast := [] |}) = true).
Proof. intros H. specialize (H (lit "/m//b") (fun _ => None) eq_refl (fun _ => eq_refl)). vm_compute in H. discriminate. Qed.
Print Assumptions C33_double_slash_refuted.
Example C33_example : is_valid_folder_name (lit "a/..b/...//c/") = true /\ is_valid_folder_name (lit "a/../b") = false /\ is_valid_folder_name (lit "..") = false /\ is_valid_folder_name (lit "a/..") = false /\
  components (lit "a/../b") [lit "a"; lit ".."; lit "b"].
Proof.
  repeat split; try reflexivity. apply (comp_cons (lit "a") (lit "../b")); [cbn; intuition discriminate|]. apply (comp_cons (lit "..") (lit "b")); [cbn; intuition discriminate|]. constructor. cbn. intuition discriminate.
Qed.
