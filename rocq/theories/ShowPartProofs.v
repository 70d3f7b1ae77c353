(** Proofs about the structured output of a message: the printed values. *)
From Verif Require Import Bytes StrUtil Reply Sprinter SprinterSpec Mime ShowPart ShowPartSpec.
Local Open Scope nat_scope.

(** An object from names and optional values. *)
Definition omap (fs : list (string * option value)) : list (bytes * value) :=
  flat_map (fun f => match snd f with Some v => [(lit (fst f), v)] | None => [] end) fs.
Fixpoint olookup (k : string) (fs : list (string * option value)) : option value :=
  match fs with
  | [] => None
  | (k', o) :: r => if String.eqb k' k then match o with Some v => Some v | None => olookup k r end else olookup k r
  end.
Lemma lit_inj a b : lit a = lit b -> a = b.
Proof. intros H. unfold lit in H. rewrite <- (string_of_list_ascii_of_string a), <- (string_of_list_ascii_of_string b). now rewrite H. Qed.
Lemma bseq_lit a b : bseq (lit a) (lit b) = String.eqb a b.
Proof.
  destruct (String.eqb_spec a b) as [->|N]; [now apply bseq_eq|]. destruct (bseq (lit a) (lit b)) eqn:E; [|reflexivity]. apply bseq_eq in E. now apply lit_inj in E.
Qed.
Lemma assoc_omap k fs extra : assoc (lit k) (omap fs ++ extra) = match olookup k fs with Some v => Some v | None => assoc (lit k) extra end.
Proof.
  induction fs as [|(k', o) r IH]; [reflexivity|]. cbn [omap flat_map fst snd olookup]. fold (omap r). destruct o as [v|].
  - cbn [app assoc]. rewrite bseq_lit. destruct (String.eqb k' k); [reflexivity|exact IH].
  - cbn [app]. rewrite IH. now destruct (String.eqb k' k).
Qed.
Lemma field_omap k fs : field k (VMap (omap fs)) = olookup k fs.
Proof. cbn [field]. rewrite <- (app_nil_r (omap fs)), assoc_omap. now destruct (olookup k fs). Qed.
Lemma in_omap k v fs : In (k, v) (omap fs) <-> exists name, In (name, Some v) fs /\ k = lit name.
Proof.
  unfold omap. rewrite in_flat_map. split.
  - intros ((name, o) & I & H). cbn in H. destruct o as [x|]; [|now destruct H]. destruct H as [H|[]]. injection H as <- <-. eauto.
  - intros (name & I & ->). exists (name, Some v). split; [exact I|]. now left.
Qed.
Lemma keys_omap k fs : In k (map fst (omap fs)) -> exists name, In name (map fst fs) /\ k = lit name.
Proof.
  intros H. apply in_map_iff in H as ((k', v) & <- & I). apply in_omap in I as (name & I & ->). exists name. split; [|reflexivity]. now apply (in_map fst) in I.
Qed.
Fixpoint distinct (l : list string) : bool := match l with [] => true | a :: r => negb (existsb (String.eqb a) r) && distinct r end.
Lemma distinct_NoDup l : distinct l = true -> NoDup l.
Proof.
  induction l as [|a r IH]; [constructor|]. cbn. rewrite andb_true_iff, negb_true_iff. intros (A & B). constructor; [|auto].
  intros I. assert (existsb (String.eqb a) r = true); [|congruence]. apply existsb_exists. exists a. now rewrite String.eqb_refl.
Qed.
Lemma nodup_omap fs : distinct (map fst fs) = true -> NoDup (map fst (omap fs)).
Proof.
  intros D. apply distinct_NoDup in D. induction fs as [|(k, o) r IH]; [constructor|]. cbn [map fst] in D. inversion_clear D as [|? ? N D'].
  cbn [omap flat_map fst snd]. fold (omap r). destruct o as [v|]; cbn [app map fst]; [|auto]. constructor; [|auto].
  intros I. apply keys_omap in I as (name & I & E). apply lit_inj in E. now subst.
Qed.
(** Checking a schema: each name with a value is a field, each required field has a value. *)
Lemma tobject_omap fields fs : distinct (map fst fs) = true ->
  (forall name x, In (name, Some x) fs -> exists n t, In (name, n, t) fields /\ t x) ->
  (forall name t, In (name, required, t) fields -> exists x, In (name, Some x) fs) ->
  tobject fields (VMap (omap fs)).
Proof.
  intros D A B. exists (omap fs). split; [reflexivity|]. split; [now apply nodup_omap|]. split.
  - intros k x I. apply in_omap in I as (name & I & ->). apply A in I as (n & t & I & T). exists name, n, t. auto.
  - intros name t I. apply B in I as (x & I). exists x. apply in_omap. eauto.
Qed.

(** Printing. *)
Definition fields_calls (l : list (bytes * value)) : list op := flat_map (fun kv => Key (fst kv) :: emit (snd kv)) l.
Lemma emit_map l : emit (VMap l) = BeginMap :: fields_calls l ++ [End]. Proof. reflexivity. Qed.
Lemma fields_app a b : fields_calls (a ++ b) = fields_calls a ++ fields_calls b. Proof. apply flat_map_app. Qed.
Fixpoint ocalls (fs : list (string * option value)) : list op :=
  match fs with [] => [] | (k, Some v) :: r => Key (lit k) :: emit v ++ ocalls r | (_, None) :: r => ocalls r end.
Lemma fields_omap fs : fields_calls (omap fs) = ocalls fs.
Proof.
  induction fs as [|(k, o) r IH]; [reflexivity|]. cbn [omap flat_map fst snd ocalls]. fold (omap r). rewrite fields_app, IH. destruct o; [|reflexivity].
  cbn [fields_calls flat_map fst snd app]. now rewrite app_nil_r.
Qed.
Lemma ocalls_app a b : ocalls (a ++ b) = ocalls a ++ ocalls b.
Proof. induction a as [|(k, [v|]) a IH]; cbn [app ocalls]; rewrite ?IH, ?app_assoc; reflexivity. Qed.
Lemma emit_omap fs : emit (VMap (omap fs)) = BeginMap :: ocalls fs ++ [End].
Proof. now rewrite emit_map, fields_omap. Qed.
Lemma strings_emit l : flat_map emit (map VStr l) = map Str l.
Proof. induction l as [|x l IH]; [reflexivity|]. cbn [map flat_map emit app]. now rewrite IH. Qed.

(** ** Headers *)
Definition extra_fields (o : sopts) (h : hdrs) : list (bytes * value) :=
  flat_map (fun name => match get_header (h_all h) name with Some (n, v) => [(n, VStr v)] | None => [] end) (so_extra o).
Definition header_fields (h : hdrs) (reply : bool) (ps : option bytes) : list (string * option value) :=
  [("Subject", Some (VStr (match ps with Some s => s | None => cstr (h_subject h) end))); ("From", Some (VStr (cstr (h_from h))));
   ("To", text_of (h_to h)); ("Cc", text_of (h_cc h)); ("Bcc", text_of (h_bcc h)); ("Reply-To", text_of (h_reply_to h));
   ("In-reply-to", if reply then Some (VStr (cstr (h_irt h))) else None); ("References", if reply then Some (VStr (cstr (h_refs h))) else None);
   ("Date", if reply then None else Some (VStr (h_date h)))]%string.
Definition headers_value (o : sopts) (h : hdrs) (reply : bool) (ps : option bytes) : value :=
  VMap (omap (header_fields h reply ps) ++ if reply then [] else extra_fields o h).
Lemma extra_emit o h : fields_calls (extra_fields o h) = format_extra_headers o h.
Proof.
  unfold extra_fields, format_extra_headers. induction (so_extra o) as [|x l IH]; [reflexivity|]. cbn [flat_map]. rewrite fields_app, IH.
  destruct (get_header (h_all h) x) as [(n, v)|]; reflexivity.
Qed.
Lemma headers_emit o h reply ps : format_headers_sprinter o h reply ps = emit (headers_value o h reply ps).
Proof.
  unfold format_headers_sprinter, headers_value. rewrite emit_map, fields_app, fields_omap. unfold header_fields.
  assert (E : fields_calls (if reply then [] else extra_fields o h) = if reply then [] else format_extra_headers o h).
  { destruct reply; [reflexivity|apply extra_emit]. }
  rewrite E. unfold opt_key, text_of. destruct reply, (h_to h), (h_cc h), (h_bcc h), (h_reply_to h); cbn [ocalls option_map emit app];
    rewrite ?app_nil_r, <- ?app_assoc; reflexivity.
Qed.

(** ** Signatures *)
Definition error_fields (s : N) : list (string * option value) :=
  map (fun bn => (string_of_list_ascii (snd bn), if N.testbit s (fst bn) then Some (VBool true) else None)) key_map.
Definition signature_fields (o : sopts) (g : signature) : list (string * option value) :=
  let good := status_good (sg_status g) in
  [("status", Some (VStr (signature_status_to_string (sg_status g))));
   ("fingerprint", if good then option_map (fun c => VStr (cstr (ct_fpr c))) (sg_cert g) else None);
   ("created", if good then if Z.eqb (sg_created g) (-1) then None else Some (VInt (sg_created g)) else None);
   ("expires", if good then if Z.ltb 0 (sg_expires g) then Some (VInt (sg_expires g)) else None else None);
   ("userid", if good then match sg_cert g with Some c => text_of (if_valid c (ct_uid c)) | None => None end else None);
   ("email", if good then match sg_cert g with Some c => text_of (if_valid c (ct_email c)) | None => None end else None);
   ("keyid", if good then None else match sg_cert g with Some c => text_of (fpr16 c) | None => None end);
   ("errors", if status_errors (sg_status g)
              then Some (if Nat.leb (so_version o) 3 then VInt (Z.of_N (sg_status g)) else VMap (omap (error_fields (sg_status g)))) else None)]%string.
Definition signature_value (o : sopts) (g : signature) : value := VMap (omap (signature_fields o g)).
Lemma lit_of_list l : lit (string_of_list_ascii l) = l. Proof. apply list_ascii_of_string_of_list_ascii. Qed.
Lemma errors_emit s : ocalls (error_fields s) = flat_map (fun bn => if N.testbit s (fst bn) then [Key (snd bn); Bool true] else []) key_map.
Proof.
  unfold error_fields. induction key_map as [|(b, n) l IH]; [reflexivity|]. cbn [map flat_map ocalls fst snd]. destruct (N.testbit s b); cbn [ocalls app emit];
    rewrite ?lit_of_list, IH; reflexivity.
Qed.
Lemma ver_le v : (v <=? 3) = negb (4 <=? v).
Proof. destruct (Nat.leb_spec v 3), (Nat.leb_spec 4 v); reflexivity || lia. Qed.
Lemma signature_emit o g : format_signature o g = emit (signature_value o g).
Proof.
  unfold format_signature, signature_value. rewrite emit_omap. unfold signature_fields.
  assert (E : (if so_version o <=? 3 then if status_errors (sg_status g) then [Key (lit "errors"); Int (Z.of_N (sg_status g))] else [] else format_signature_errors (sg_status g))
    = ocalls [("errors", if status_errors (sg_status g)
              then Some (if Nat.leb (so_version o) 3 then VInt (Z.of_N (sg_status g)) else VMap (omap (error_fields (sg_status g)))) else None)]%string).
  { unfold format_signature_errors. destruct (so_version o <=? 3), (status_errors (sg_status g)); cbn [ocalls app]; try reflexivity.
    rewrite emit_omap, errors_emit. cbn [app]. now rewrite <- !app_assoc. }
  rewrite E. cbn [ocalls]. unfold opt_key, text_of. 
  destruct (status_good (sg_status g)); destruct (sg_cert g) as [c|]; cbn [option_map].
  - destruct (Z.eqb (sg_created g) (-1)), (Z.ltb 0 (sg_expires g)), (if_valid c (ct_uid c)), (if_valid c (ct_email c)); cbn [ocalls emit option_map app]; rewrite <- ?app_assoc; reflexivity.
  - destruct (Z.eqb (sg_created g) (-1)), (Z.ltb 0 (sg_expires g)); cbn [ocalls emit option_map app]; rewrite <- ?app_assoc; reflexivity.
  - destruct (fpr16 c); cbn [ocalls emit option_map app]; rewrite <- ?app_assoc; reflexivity.
  - cbn [ocalls emit option_map app]; rewrite <- ?app_assoc; reflexivity.
Qed.
Definition sigs_of (e : gmime) (s : option siglist) : list signature := match s with Some s => g_sigs e s | None => [] end.
Definition sigstatus_value (e : gmime) (o : sopts) (s : option siglist) : value := VList (map (signature_value o) (sigs_of e s)).
Lemma sigstatus_emit e o s : format_sigstatus e o s = emit (sigstatus_value e o s).
Proof.
  unfold format_sigstatus, sigstatus_value, sigs_of. cbn [emit]. f_equal. f_equal. destruct s as [s|]; [|reflexivity].
  induction (g_sigs e s) as [|g l IH]; [reflexivity|]. cbn [flat_map map]. now rewrite signature_emit, IH.
Qed.

(** ** The status of the message *)
Definition signed_fields (e : gmime) (o : sopts) (m : mcrypto) (s : siglist) : list (string * option value) :=
  [("status", Some (sigstatus_value e o (Some s))); ("encrypted", if m_sigenc m then Some (VBool true) else None);
   ("headers", match m_psubject m with Some _ => Some (VList [VStr (lit "Subject")]) | None => None end)]%string.
Definition mask_value (h : hdrs) (m : mcrypto) : option value :=
  match m_psubject m with
  | Some ps => match h_subject h with
               | None => Some (VMap (omap [("Subject", Some VNull)]%string))
               | Some s => if bseq s ps then None else Some (VMap (omap [("Subject", Some (VStr s))]%string))
               end
  | None => None
  end.
Definition decrypted_fields (h : hdrs) (m : mcrypto) : list (string * option value) :=
  [("status", Some (VStr (if is_full (m_dec m) then lit "full" else lit "partial"))); ("header-mask", mask_value h m)]%string.
Definition crypto_fields (e : gmime) (o : sopts) (h : hdrs) (m : mcrypto) : list (string * option value) :=
  [("signed", option_map (fun s => VMap (omap (signed_fields e o m s))) (m_sigs m));
   ("decrypted", match m_dec m with DEC_NONE => None | _ => Some (VMap (omap (decrypted_fields h m))) end)]%string.
Definition crypto_value (e : gmime) (o : sopts) (h : hdrs) (m : mcrypto) : value := VMap (omap (crypto_fields e o h m)).
Lemma decrypted_emit h m :
  [Key (lit "decrypted"); BeginMap; Key (lit "status"); Str (if is_full (m_dec m) then lit "full" else lit "partial")] ++
      match m_psubject m with
      | Some ps =>
          match h_subject h with
          | None => [Key (lit "header-mask"); BeginMap; Key (lit "Subject"); Null; End]
          | Some s => if bseq s ps then [] else [Key (lit "header-mask"); BeginMap; Key (lit "Subject"); Str s; End]
          end
      | None => []
      end ++ [End] = ocalls [("decrypted", Some (VMap (omap (decrypted_fields h m))))]%string.
Proof.
  cbn [ocalls]. rewrite emit_omap. unfold decrypted_fields, mask_value. destruct (m_psubject m) as [ps|]; [|reflexivity]. destruct (h_subject h) as [s|]; [|reflexivity].
  destruct (bseq s ps); reflexivity.
Qed.
Lemma crypto_emit e o h m : format_crypto e o h m = emit (crypto_value e o h m).
Proof.
  unfold format_crypto, crypto_value. rewrite emit_omap. unfold crypto_fields.
  assert (S : match m_sigs m with
  | Some s =>
      [Key (lit "signed"); BeginMap; Key (lit "status")] ++ format_sigstatus e o (Some s) ++
      (if m_sigenc m then [Key (lit "encrypted"); Bool true] else []) ++
      match m_psubject m with Some _ => [Key (lit "headers"); BeginList; Str (lit "Subject"); End] | None => [] end ++ [End]
  | None => []
  end = ocalls [("signed", option_map (fun s => VMap (omap (signed_fields e o m s))) (m_sigs m))]%string).
  { destruct (m_sigs m) as [s|]; [|reflexivity]. cbn [option_map ocalls]. rewrite emit_omap. unfold signed_fields. cbn [ocalls]. rewrite sigstatus_emit.
    destruct (m_sigenc m), (m_psubject m); cbn [ocalls app emit flat_map]; rewrite <- ?app_assoc; cbn [app]; rewrite ?app_nil_r; reflexivity. }
  rewrite S. 
  assert (D := decrypted_emit h m).
  destruct (m_dec m) eqn:Em; cbn [is_full] in D; cbn [is_full].
  - cbn [app]. destruct (m_sigs m); cbn [option_map ocalls]; now rewrite ?app_nil_r.
  - rewrite D. cbn [ocalls]. destruct (m_sigs m); cbn [option_map]; rewrite ?app_nil_r; cbn [app]; rewrite <- ?app_assoc; reflexivity.
  - rewrite D. cbn [ocalls]. destruct (m_sigs m); cbn [option_map]; rewrite ?app_nil_r; cbn [app]; rewrite <- ?app_assoc; reflexivity.
Qed.
