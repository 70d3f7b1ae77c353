(** C54, C55: what is shown of a message, the numbers of its parts, and its cryptographic
    status.  [depth body < f]: the recursion of the program, which has no bound. *)
From Verif Require Import Bytes StrUtil Reply Mime MimeSpec MimeProofs.
Local Open Scope nat_scope.

(** What one sees of a walk over the message [body] by the formatters. *)
Definition shows (f : nat) (c : cctx) (body : obj) (l : list (option nat * node)) (m : mcrypto) : Prop :=
  exists fs, visit f c (fst (mime_node_root body)) (snd (mime_node_root body)) = Some (l, (m, fs)).
Definition objects (l : list (option nat * node)) : list (option obj) := map (fun x => n_part (snd x)) l.

Lemma shows_walk f c body l m : depth body < f -> shows f c body l m -> walk_obj (f - 1) c None 0 body mcrypto_new = Some (map snd l, m).
Proof.
  intros D (fs & V). destruct (visit_root f c body D) as (l' & m' & fs' & V' & W & _). rewrite V in V'. injection V' as <- <- <-. exact W.
Qed.
Lemma objects_parts l : objects l = map n_part (map snd l). Proof. unfold objects. now rewrite map_map. Qed.

Lemma existsb_map_snd (l : list (option nat * node)) : existsb n_decrypted (map snd l) = existsb (fun x => n_decrypted (snd x)) l.
Proof. induction l as [|x l IH]; [reflexivity|]. cbn. now rewrite IH. Qed.

(** The walk always ends, whatever the message. *)
Theorem C55_always_shown : forall c body f, depth body < f -> exists l m, shows f c body l m.
Proof. intros c body f D. destruct (visit_root f c body D) as (l & m & fs & V & _). exists l, m, fs. exact V. Qed.

(** The parts are numbered 1, 2, 3, ... in the order in which they are shown. *)
Theorem C55_numbers : forall c body f l m, depth body < f -> shows f c body l m ->
  map fst l = map Some (seq 1 (length l)).
Proof.
  intros c body f l m D (fs & V). destruct (visit_root f c body D) as (l' & m' & fs' & V' & _ & N). rewrite V in V'. now injection V' as <- <- <-.
Qed.

(** --part=k: 0 is the message itself; k finds the part that was shown with number k, and
    showing it shows the parts that followed; there is no part beyond the last. *)
Theorem C55_part_by_number : forall c body f l m k, depth body < f -> shows f c body l m ->
  let seek := seek_dfs f c (fst (mime_node_root body)) k (snd (mime_node_root body)) in
  (k = 0 -> seek = Some (inl (mime_node_root body))) /\
  (forall n, In (Some k, n) l -> exists st sub stx rest,
     seek = Some (inl (n, st)) /\ visit f c n st = Some (sub, stx) /\ skipn k l = sub ++ rest) /\
  (length l < k -> exists r, seek = Some (inr r)).
Proof.
  intros c body f l m k D Sh. assert (NUM := C55_numbers c body f l m D Sh). destruct Sh as (fs & V). cbv zeta. split; [|split].
  - intros ->. destruct f; [lia|]. now destruct (mime_node_root body).
  - intros n I. apply In_nth_error in I as (j & J).
    assert (JL : j < length l) by (apply nth_error_Some; congruence).
    assert (K : k = S j).
    { assert (X := map_nth_error fst _ _ J). rewrite NUM in X. cbn [fst] in X.
      rewrite (map_nth_error Some j (seq 1 (length l)) (d := S j)) in X; [now injection X|].
      rewrite (nth_error_nth' _ 0) by (rewrite seq_length; exact JL). rewrite seq_nth by exact JL. reflexivity. }
    subst k. assert (S := seek_visit f c _ _ _ _ V j). rewrite J in S. destruct S as (st & sub & stx & rest & S). eauto 6.
  - intros L. destruct k as [|j]; [lia|]. assert (S := seek_visit f c _ _ _ _ V j).
    replace (nth_error l j) with (@None (option nat * node)) in S by (symmetry; apply nth_error_None; lia). rewrite S. eauto.
Qed.

(** Nothing is hidden: all parts of the message are shown in their order, except for one
    copy of protected headers in a decrypted message. *)
Theorem C55_nothing_hidden : forall c body f l m, depth body < f -> shows f c body l m ->
  objects l = map Some (preorder c body) \/
  m_dec m = DEC_FULL /\ exists a b x q, preorder c body = a ++ preorder c x ++ b /\ skip_legacy_display x = Some q /\
    objects l = map Some (a ++ preorder c q ++ b).
Proof.
  intros c body f l m D S. apply shows_walk in S; [|exact D]. apply walk_shown in S as (_ & [S|(_ & _ & F & H)]); rewrite objects_parts; [now left|right]. auto.
Qed.

(** The cryptographic status of a message whose layers are all good is that of its payload. *)
Theorem C54_status_of_envelope : forall c body ls before p after f l m,
  envelope c body ls before p after -> depth body < f -> shows f c body l m ->
  objects l = map Some (before ++ preorder c (if encrypted ls then without_legacy_display p else p) ++ after) /\
  m_sigs m = innermost ls /\
  m_dec m = (if encrypted ls then DEC_FULL else if existsb (fun x => n_decrypted (snd x)) l then DEC_PARTIAL else DEC_NONE) /\
  m_sigenc m = signed_inside ls /\
  m_psubject m = match ls with [] => None | _ => exported_subject p end.
Proof.
  intros c body ls before p after f l m E D S. apply shows_walk in S; [|exact D].
  destruct (envelope_walk c body ls before p after E (f - 1) None 0 mcrypto_new (map snd l) m eq_refl ltac:(discriminate) (fun x => eq_refl) S) as (A & _ & B & C & X & Y).
  rewrite objects_parts. split; [exact A|]. split; [rewrite B; now destruct (innermost ls)|]. split.
  { rewrite C. cbn [mcrypto_new m_dec is_full orb]. unfold decs. now rewrite existsb_map_snd. }
  split; [exact X|]. rewrite Y. cbn [mcrypto_new m_dec m_sigs m_psubject is_full orb].
  destruct ls as [|[s|s] ls]; [reflexivity| |].
  - cbn [innermost signature_in]. destruct (innermost ls); rewrite orb_true_r; now destruct (exported_subject p).
  - cbn. now destruct (exported_subject p).
Qed.

(** In any message: a signature of the status is that of some part; the message counts as
    decrypted (fully or in part) just if some part was decrypted; a subject that replaces the
    one of the headers comes from a message that is signed or fully encrypted; a signature
    counts as encrypted only in a message that is fully encrypted. *)
Theorem C54_status_is_of_some_part : forall c body f l m, depth body < f -> shows f c body l m ->
  (forall s, m_sigs m = Some s -> exists k n, In (k, n) l /\ n_sigs n = Some s) /\
  (m_dec m <> DEC_NONE <-> exists k n, In (k, n) l /\ n_decrypted n = true) /\
  (m_psubject m <> None -> m_dec m = DEC_FULL \/ m_sigs m <> None) /\
  (m_sigenc m = true -> m_dec m = DEC_FULL).
Proof.
  intros c body f l m D S. apply shows_walk in S; [|exact D]. apply walk_shown in S as ((_ & A & _ & B & I) & _).
  assert (II : inv mcrypto_new) by (unfold inv; cbn; repeat split; try discriminate; congruence).
  destruct (I II) as (_ & I2 & I3).
  assert (M : forall n, In n (map snd l) -> exists k, In (k, n) l) by (intros n X; apply in_map_iff in X as ((k, n') & <- & X); eauto).
  split; [|split; [|split; assumption]].
  - intros s H. destruct (B s H) as [X|(n & X & Y)]; [discriminate X|]. destruct (M n X) as (k & Z). eauto.
  - rewrite A. split.
    + intros [X|X]; [now contradiction X|]. unfold decs in X. apply existsb_exists in X as (n & X & Y). destruct (M n X) as (k & Z). eauto.
    + intros (k & n & X & Y). right. unfold decs. apply existsb_exists. exists n. split; [|exact Y]. apply in_map_iff. now exists (k, n).
Qed.

(** ** Examples *)
Definition tx (mime text : string) : obj :=
  OPart {| o_mime := lit mime; o_protected := None; o_forwarded := None; o_protocol := None; o_subject := None; o_text := lit text; o_attachment := None |} true.
Definition mi (mime : string) (protected protocol subject : option bytes) : info :=
  {| o_mime := lit mime; o_protected := protected; o_forwarded := None; o_protocol := protocol; o_subject := subject; o_text := []; o_attachment := None |}.
Definition both : cctx := {| c_verify := true; c_decrypt := true |}.
(** A signed message inside an encrypted one, with protected headers and their copy. *)
Definition legacy : obj :=
  OPart {| o_mime := lit "text/plain"; o_protected := Some (lit "v1"); o_forwarded := None; o_protocol := None; o_subject := None; o_text := lit "Subject: real"; o_attachment := None |} true.
Definition ex_payload : obj := OMulti (mi "multipart/mixed" (Some (lit "v1")) None (Some (lit "real"))) MPlain [legacy; tx "text/plain" "hello"] None None.
Definition ex_signed : obj := OMulti (mi "multipart/signed" None None None) MSigned [ex_payload; tx "application/pgp-signature" "sig"] (Some 7) None.
Definition version : obj := tx "application/pgp-encrypted" "Version: 1".
Definition ex_message : obj :=
  OMulti (mi "multipart/encrypted" None (Some (lit "application/pgp-encrypted")) None) MEncrypted
    [version; tx "application/octet-stream" "..."] None (Some (ex_signed, None)).
Definition outcome (c : cctx) (body : obj) : option (list (option nat * bytes) * mcrypto) :=
  match visit (S (depth body)) c (fst (mime_node_root body)) (snd (mime_node_root body)) with
  | Some (l, (m, _)) => Some (map (fun x => (fst x, match n_part (snd x) with Some o => o_mime (info_of o) | None => [] end)) l, m)
  | None => None
  end.
Example C54_example : outcome both ex_message =
  Some ([(Some 1, lit "multipart/encrypted"); (Some 2, lit "application/pgp-encrypted"); (Some 3, lit "multipart/signed");
         (Some 4, lit "text/plain"); (Some 5, lit "application/pgp-signature")],
        {| m_dec := DEC_FULL; m_sigs := Some 7; m_payload := true; m_psubject := Some (lit "real"); m_sigenc := true |}).
Proof. vm_compute. reflexivity. Qed.
Example C54_example_envelope : exists before after, envelope both ex_message [LEncrypted None; LSigned 7] before ex_payload after.
Proof.
  do 2 eexists. apply env_encrypted; [reflexivity|reflexivity|]. apply env_signed; [reflexivity|]. apply env_payload; [reflexivity|exact I].
Qed.
Example C55_example_by_number : exists st, seek_dfs (S (depth ex_message)) both (fst (mime_node_root ex_message)) 4 (snd (mime_node_root ex_message))
  = Some (inl (plain_node (tx "text/plain" "hello") [], st)).
Proof. eexists. vm_compute. reflexivity. Qed.

(** ** What the status does not say *)

(** The status may say the message is signed although a text that is shown is not: an outer
    multipart/signed that cannot be verified, or has not two parts, or a multipart/encrypted
    that cannot be decrypted, is ignored, and the first of its parts taken for the message. *)
Definition victim (text : info) : obj :=
  OMulti (mi "multipart/signed" None None None) MSigned [OPart text true; tx "application/pgp-signature" "sig"] (Some 7) None.
Inductive ignored_layer : obj -> obj -> obj -> Prop :=
| ig_failed a b : ignored_layer a b (OMulti (mi "multipart/signed" None None None) MSigned [a; b] None None)
| ig_three a b x : ignored_layer a b (OMulti (mi "multipart/signed" None None None) MSigned [a; b; OPart x true] None None)
| ig_encrypted a b : ignored_layer a b (OMulti (mi "multipart/encrypted" None None None) MEncrypted [a; b] None None).
Theorem C54_signature_covers_text_refuted : forall good evil body, ignored_layer (victim good) (OPart evil true) body ->
  exists l m, shows (S (depth body)) both body l m /\ m_sigs m = Some 7 /\ In (Some (OPart evil true)) (objects l).
Proof.
  intros good evil body H. inversion H; subst; (eexists; eexists; split; [eexists; vm_compute; reflexivity|split; [reflexivity|]]); cbn; auto 10.
Qed.

(** The subject of the status may come from outside the encryption: the type of the control
    part is compared with the protocol case by case, and a control part that does not match
    is taken for the payload (whether GMime then decrypts the message is up to GMime). *)
Theorem C54_subject_is_encrypted_refuted : forall evil content, exists body l m,
  body = OMulti (mi "multipart/encrypted" None (Some (lit "application/pgp-encrypted")) None) MEncrypted
           [OPart (mi "Application/PGP-Encrypted" (Some (lit "v1")) None (Some evil)) false; tx "application/octet-stream" "..."] None
           (Some (OPart content true, None)) /\
  shows (S (depth body)) both body l m /\ m_dec m = DEC_FULL /\ m_psubject m = Some evil.
Proof.
  intros evil content. eexists; eexists; eexists. split; [reflexivity|]. split; [eexists; vm_compute; reflexivity|]. split; reflexivity.
Qed.

(** A signature inside that cannot be verified takes away the good one outside. *)
Example C54_inner_failure : forall t,
  let body := OMulti (mi "multipart/signed" None None None) MSigned
            [OMulti (mi "multipart/signed" None None None) MSigned [OPart t true; tx "application/pgp-signature" "bad"] None None;
             tx "application/pgp-signature" "good"] (Some 7) None in
  exists l m, shows (S (depth body)) both body l m /\ m_sigs m = None.
Proof. intros t. eexists; eexists. split; [eexists; vm_compute; reflexivity|reflexivity]. Qed.

Print Assumptions C54_status_of_envelope.
Print Assumptions C54_status_is_of_some_part.
Print Assumptions C54_signature_covers_text_refuted.
Print Assumptions C54_subject_is_encrypted_refuted.
Print Assumptions C55_always_shown.
Print Assumptions C55_numbers.
Print Assumptions C55_part_by_number.
Print Assumptions C55_nothing_hidden.
