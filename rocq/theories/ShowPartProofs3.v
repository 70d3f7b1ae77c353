(** Proofs about the structured output of a message: what the values say, and the schema. *)
From Verif Require Import Bytes StrUtil Reply Sprinter SprinterSpec Mime ShowPart ShowPartSpec ShowPartProofs ShowPartProofs2.
Local Open Scope nat_scope.

Ltac fields := rewrite field_omap; unfold text, text_of; cbn [olookup app option_map];
  repeat match goal with |- context [String.eqb ?a ?b] => let r := eval vm_compute in (String.eqb a b) in change (String.eqb a b) with r end; cbv iota.

(** ** Signatures *)
Lemma errors_ge s : status_errors s = N.leb 8 s.
Proof.
  unfold status_errors. rewrite N.shiftr_div_pow2. change (2 ^ 3)%N with 8%N. destruct (N.leb_spec 8 s) as [H|H].
  - apply negb_true_iff, N.eqb_neq. assert (1 <= s / 8)%N; [|lia]. apply N.div_le_lower_bound; lia.
  - apply negb_false_iff, N.eqb_eq. now apply N.div_small.
Qed.
Lemma good_verdict s : status_good s = match verdict_of s with Good => true | _ => false end.
Proof. unfold status_good, status_red, verdict_of. rewrite errors_ge. now destruct (N.testbit s 2), (N.leb 8 s). Qed.
Lemma last16_fpr f : (if length f <? 16 then f else skipn (length f - 16) f) = last16 f.
Proof.
  unfold last16. destruct (Nat.ltb_spec (length f) 16) as [L|L].
  - rewrite firstn_all2 by (rewrite rev_length; lia). now rewrite rev_involutive.
  - rewrite firstn_rev, rev_involutive. reflexivity.
Qed.
Lemma signature_displays o g : displays_signature (so_version o) g (signature_value o g).
Proof.
  unfold signature_value, signature_fields. constructor; fields.
  - unfold signature_status_to_string, status_red, verdict_of. rewrite good_verdict, errors_ge. unfold verdict_of. now destruct (N.testbit (sg_status g) 2), (N.leb 8 (sg_status g)).
  - rewrite good_verdict. destruct (verdict_of _), (sg_cert g); try reflexivity.
  - rewrite good_verdict. destruct (verdict_of _), (sg_cert g) as [c|]; try reflexivity. unfold if_valid, trusted. destruct (ct_validity c), (ct_uid c); reflexivity.
  - rewrite good_verdict. destruct (verdict_of _), (sg_cert g) as [c|]; try reflexivity. unfold if_valid, trusted. destruct (ct_validity c), (ct_email c); reflexivity.
  - rewrite good_verdict. destruct (verdict_of _), (Z.eqb (sg_created g) (-1)); reflexivity.
  - rewrite good_verdict. destruct (verdict_of _), (Z.ltb 0 (sg_expires g)); reflexivity.
  - rewrite good_verdict. unfold fpr16. destruct (verdict_of _), (sg_cert g) as [c|]; try reflexivity; destruct (ct_fpr c) as [f|]; try reflexivity; cbn [option_map]; rewrite <- last16_fpr; now destruct (length f <? 16).
  - rewrite errors_ge. destruct (N.leb 8 (sg_status g)); [|reflexivity]. f_equal. rewrite ver_le. destruct (4 <=? so_version o); cbn [negb]; [|reflexivity]. f_equal.
    unfold error_fields, omap, key_map. generalize (sg_status g). intros s.
    match goal with |- _ = map _ (filter _ ?l) => generalize l end. induction l as [|(b, n) l IH]; [reflexivity|]. cbn [map flat_map filter fst snd].
    destruct (N.testbit s b); cbn [app map snd]; [|exact IH]. now rewrite lit_of_list, IH.
Qed.
Lemma sigstatus_displays e o s : displays_sigstatus (so_version o) (sigs_of e s) (sigstatus_value e o s).
Proof. eexists. split; [reflexivity|]. induction (sigs_of e s); constructor; [apply signature_displays|assumption]. Qed.

(** ** Checking a schema *)
Fixpoint tfind (name : string) (fields : list (string * need * type)) : option type :=
  match fields with [] => None | (k, _, t) :: r => if String.eqb k name then Some t else tfind name r end.
Lemma tfind_in name fields t : tfind name fields = Some t -> exists n, In (name, n, t) fields.
Proof.
  induction fields as [|((k, n), t') r IH]; [discriminate|]. cbn [tfind]. destruct (String.eqb_spec k name) as [->|N].
  - intros H. injection H as <-. exists n. now left.
  - intros H. destruct (IH H) as (n' & I). exists n'. now right.
Qed.
Definition fits (fields : list (string * need * type)) (f : string * option value) : Prop :=
  match snd f with Some x => match tfind (fst f) fields with Some t => t x | None => False end | None => True end.
Definition given (fs : list (string * option value)) (f : string * need * type) : bool :=
  match snd (fst f) with required => match olookup (fst (fst f)) fs with Some _ => true | None => false end | optional => true end.
Lemma olookup_in k fs v : olookup k fs = Some v -> In (k, Some v) fs.
Proof.
  induction fs as [|(k', o) r IH]; [discriminate|]. cbn [olookup]. destruct (String.eqb_spec k' k) as [->|N].
  - destruct o; [intros H; injection H as <-; now left|intros H; right; auto].
  - intros H. right. auto.
Qed.
Lemma tobject_check fields fs : distinct (map fst fs) = true -> Forall (fits fields) fs -> forallb (given fs) fields = true -> tobject fields (VMap (omap fs)).
Proof.
  intros D A B. apply tobject_omap; [exact D| |].
  - intros name x I. rewrite Forall_forall in A. specialize (A _ I). unfold fits in A. cbn [fst snd] in A. destruct (tfind name fields) as [t|] eqn:E; [|contradiction].
    apply tfind_in in E as (n & E). eauto.
  - intros name t I. rewrite forallb_forall in B. specialize (B _ I). unfold given in B. cbn [fst snd] in B. destruct (olookup name fs) as [v|] eqn:E; [|discriminate].
    exists v. now apply olookup_in.
Qed.
Ltac fit := unfold fits, req, opt; cbn [fst snd tfind];
  repeat match goal with |- context [String.eqb ?a ?b] => let r := eval vm_compute in (String.eqb a b) in change (String.eqb a b) with r end; cbv iota.
Ltac schema := apply tobject_check; [reflexivity|repeat (apply Forall_cons; [fit|]); [..|apply Forall_nil]|reflexivity].
Lemma tstr s : tstring (VStr s). Proof. now exists s. Qed.
Lemma ti z : tint (VInt z). Proof. now exists z. Qed.
Lemma tb b : tbool (VBool b). Proof. now exists b. Qed.
Lemma tstrs l : tlist tstring (VList (map VStr l)).
Proof. exists (map VStr l). split; [reflexivity|]. apply Forall_forall. intros x I. apply in_map_iff in I as (s & <- & _). apply tstr. Qed.
Lemma topt (o : option bytes) : match text_of o with Some x => tstring x | None => True end.
Proof. destruct o; [apply tstr|exact I]. Qed.
Lemma errors_schema s : terrors (VMap (omap (error_fields s))).
Proof.
  unfold terrors, error_fields, key_map. cbn [map fst snd]. schema; match goal with |- context [N.testbit s ?b] => destruct (N.testbit s b) end; try exact I; apply tb.
Qed.
Lemma signature_schema o g : tsignature (so_version o) (signature_value o g).
Proof.
  unfold tsignature, tor, signature_value. destruct (verdict_of (sg_status g)) eqn:V.
  1, 2: right. 3: left.
  all: unfold signature_fields; rewrite good_verdict, V; schema; try exact I.
  - exists "bad"%string. split; [now left|]. unfold signature_status_to_string. unfold verdict_of in V. unfold status_red. now destruct (N.testbit (sg_status g) 2), (N.leb 8 (sg_status g)).
  - destruct (sg_cert g) as [c|]; [|exact I]. apply topt.
  - destruct (status_errors _); [|exact I]. rewrite ver_le. destruct (4 <=? so_version o); [apply errors_schema|apply ti].
  - exists "error"%string. split; [now right; left|]. unfold signature_status_to_string. unfold verdict_of in V. unfold status_red. rewrite errors_ge. now destruct (N.testbit (sg_status g) 2), (N.leb 8 (sg_status g)).
  - destruct (sg_cert g) as [c|]; [|exact I]. apply topt.
  - destruct (status_errors _); [|exact I]. rewrite ver_le. destruct (4 <=? so_version o); [apply errors_schema|apply ti].
  - exists "good"%string. split; [now left|]. unfold signature_status_to_string. rewrite good_verdict, V. unfold verdict_of in V. unfold status_red. rewrite errors_ge. now destruct (N.testbit (sg_status g) 2), (N.leb 8 (sg_status g)).
  - destruct (sg_cert g); [apply tstr|exact I].
  - destruct (Z.eqb _ _); [exact I|apply ti].
  - destruct (Z.ltb _ _); [apply ti|exact I].
  - destruct (sg_cert g) as [c|]; [|exact I]. apply topt.
  - destruct (sg_cert g) as [c|]; [|exact I]. apply topt.
  - unfold verdict_of in V. rewrite errors_ge. now destruct (N.testbit (sg_status g) 2), (N.leb 8 (sg_status g)).
Qed.
Lemma sigstatus_schema e o s : tsigstatus (so_version o) (sigstatus_value e o s).
Proof. eexists. split; [reflexivity|]. apply Forall_forall. intros x I. apply in_map_iff in I as (g & <- & _). apply signature_schema. Qed.

(** ** Headers *)
Lemma headers_schema o h ps : theaders (headers_value o h false ps).
Proof.
  eexists (omap (header_fields h false ps)), (extra_fields o h). split; [reflexivity|]. split.
  - unfold header_fields. schema; try exact I; try apply tstr; apply topt.
  - apply Forall_forall. intros (k, x) I. unfold extra_fields in I. apply in_flat_map in I as (n & _ & I). destruct (get_header (h_all h) n) as [(a, b)|]; [|contradiction].
    destruct I as [I|[]]. injection I as <- <-. apply tstr.
Qed.
Lemma reply_headers_schema o h ps : treply_headers (headers_value o h true ps).
Proof.
  unfold headers_value. rewrite app_nil_r. unfold treply_headers, header_fields. schema; try exact I; try apply tstr; apply topt.
Qed.
Lemma extra_other o h k : (forall n, In n (so_extra o) -> strcaseeq (lit k) n = false) -> assoc (lit k) (extra_fields o h) = None.
Proof.
  unfold extra_fields. induction (so_extra o) as [|n l IH]; intros H; [reflexivity|]. cbn [flat_map].
  destruct (get_header (h_all h) n) as [(a, b)|] eqn:E; cbn [app assoc].
  - apply find_some in E as (_ & E). cbn [fst] in E. destruct (bseq a (lit k)) eqn:Q.
    + apply bseq_eq in Q. subst a. rewrite (H n (or_introl eq_refl)) in E. discriminate.
    + apply IH. intros x I. apply H. now right.
  - apply IH. intros x I. apply H. now right.
Qed.
Lemma headers_display o h ps : displays_headers (so_extra o) h (match ps with Some s => Some s | None => h_subject h end) (headers_value o h false ps).
Proof.
  unfold headers_value. constructor.
  1-7: cbn [field]; rewrite assoc_omap; unfold header_fields; cbn [olookup];
    repeat match goal with |- context [String.eqb ?a ?b] => let r := eval vm_compute in (String.eqb a b) in change (String.eqb a b) with r end; cbv iota.
  - now destruct ps.
  - reflexivity.
  - reflexivity.
  - intros H. destruct (h_to h); [reflexivity|]. cbn [text_of option_map]. now apply extra_other.
  - intros H. destruct (h_cc h); [reflexivity|]. cbn [text_of option_map]. now apply extra_other.
  - intros H. destruct (h_bcc h); [reflexivity|]. cbn [text_of option_map]. now apply extra_other.
  - intros H. destruct (h_reply_to h); [reflexivity|]. cbn [text_of option_map]. now apply extra_other.
  - intros n name x I E. eexists. split; [reflexivity|]. apply in_or_app. right. unfold extra_fields. apply in_flat_map. exists n. split; [exact I|]. rewrite E. now left.
  - intros k x l E I. assert (E' : l = omap (header_fields h false ps) ++ extra_fields o h) by congruence. clear E. rewrite E' in I. clear E' l. apply in_app_iff in I as [I|I].
    + left. apply in_omap in I as (name & I & ->). apply in_map. cbn [header_fields In] in *. repeat (destruct I as [I|I]; [injection I as <- I; try discriminate I; tauto|]). destruct I.
    + right. unfold extra_fields in I. apply in_flat_map in I as (n & I & J). destruct (get_header (h_all h) n) as [(a, b)|] eqn:G; [|contradiction]. destruct J as [J|[]]. injection J as <- <-. eauto.
Qed.

(** ** The status of the message *)
Lemma crypto_schema e o h m : tcrypto (so_version o) (crypto_value e o h m).
Proof.
  unfold tcrypto, crypto_value, crypto_fields. schema.
  - destruct (m_sigs m) as [s|]; [|exact I]. cbn [option_map]. unfold signed_fields. schema.
    + apply sigstatus_schema.
    + destruct (m_sigenc m); [apply tb|exact I].
    + destruct (m_psubject m); [|exact I]. apply (tstrs [lit "Subject"]).
  - assert (D : tobject [req "status" (tenum ["full"; "partial"]%string); opt "header-mask" (tobject [req "Subject" (tor tstring tnull)])] (VMap (omap (decrypted_fields h m)))).
    { unfold decrypted_fields. schema.
      - destruct (is_full (m_dec m)); [exists "full"%string|exists "partial"%string]; cbn; auto.
      - unfold mask_value. destruct (m_psubject m) as [ps|]; [|exact I]. destruct (h_subject h) as [s|].
        + destruct (bseq s ps); [exact I|]. schema. left. apply tstr.
        + schema. now right. }
    destruct (m_dec m); [exact I|exact D|exact D].
Qed.
Lemma crypto_display e o h m : displays_crypto e (so_version o) (h_subject h) m (crypto_value e o h m).
Proof.
  unfold displays_crypto, crypto_value, crypto_fields. split.
  - destruct (m_sigs m) as [s|].
    + exists (VMap (omap (signed_fields e o m s))), (sigstatus_value e o (Some s)). split; [fields; reflexivity|]. unfold signed_fields. split; [fields; reflexivity|].
      split; [apply (sigstatus_displays e o (Some s))|]. split; fields; [now destruct (m_sigenc m)|now destruct (m_psubject m)].
    + fields. reflexivity.
  - assert (D : exists dv, Some (VMap (omap (decrypted_fields h m))) = Some dv /\
      field "status" dv = text (if is_full (m_dec m) then "full" else "partial")%string /\
      field "header-mask" dv =
        match m_psubject m with
        | Some ps => if match h_subject h with Some s => bseq s ps | None => false end then None
                     else Some (VMap [(lit "Subject", match h_subject h with Some s => VStr s | None => VNull end)])
        | None => None
        end).
    { eexists. split; [reflexivity|]. unfold decrypted_fields. split; fields; [now destruct (is_full (m_dec m))|]. unfold mask_value. destruct (m_psubject m) as [ps|]; [|reflexivity].
      destruct (h_subject h) as [s|]; [|reflexivity]. now destruct (bseq s ps). }
    destruct (m_dec m) eqn:E; cbn [is_full] in D; [fields; reflexivity| |].
    all: destruct D as (dv & E1 & D); exists dv; split; [rewrite <- E1; fields; reflexivity|exact D].
Qed.
