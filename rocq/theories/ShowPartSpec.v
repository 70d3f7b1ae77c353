(** What notmuch show should print of a message in the structured formats, after
    devel/schemata and doc/man1/notmuch-show.rst. *)
From Verif Require Import Bytes StrUtil Reply Sprinter SprinterSpec Mime ShowPart.
Local Open Scope nat_scope.

(** ** Values *)

(** The value of a key of an object (the first, if there are several). *)
Fixpoint assoc (k : bytes) (l : list (bytes * value)) : option value :=
  match l with [] => None | (k', v) :: l => if bseq k' k then Some v else assoc k l end.
Definition field (k : string) (v : value) : option value := match v with VMap l => assoc (lit k) l | _ => None end.
Definition keys (v : value) : list bytes := match v with VMap l => map fst l | _ => [] end.

(** ** devel/schemata *)

Definition type := value -> Prop.
Definition tstring : type := fun v => exists s, v = VStr s.
Definition tint : type := fun v => exists z, v = VInt z.
Definition tbool : type := fun v => exists b, v = VBool b.
Definition tnull : type := fun v => v = VNull.
(** One of some strings. *)
Definition tenum (l : list string) : type := fun v => exists s, In s l /\ v = VStr (lit s).
Definition tor (a b : type) : type := fun v => a v \/ b v.
(** [t*] *)
Definition tlist (t : type) : type := fun v => exists l, v = VList l /\ Forall t l.
(** [t] *)
Definition tone (t : type) : type := fun v => exists x, v = VList [x] /\ t x.
(** An object with some fields, each of them perhaps optional; no key is repeated. *)
Inductive need := required | optional.
Definition req (k : string) (t : type) := (k, required, t).
Definition opt (k : string) (t : type) := (k, optional, t).
Definition tobject (fields : list (string * need * type)) : type := fun v => exists l, v = VMap l /\ NoDup (map fst l) /\
  (forall k x, In (k, x) l -> exists name n t, In (name, n, t) fields /\ k = lit name /\ t x) /\
  (forall name t, In (name, required, t) fields -> exists x, In (lit name, x) l).

(** headers: the fields that are always there or have a fixed name, then pairs for the
    configured extra headers. *)
Definition theaders : type := fun v => exists l extra, v = VMap (l ++ extra) /\
  tobject [req "Subject" tstring; req "From" tstring; opt "To" tstring; opt "Cc" tstring;
           opt "Bcc" tstring; opt "Reply-To" tstring; req "Date" tstring] (VMap l) /\
  Forall (fun kv => tstring (snd kv)) extra.
Definition treply_headers : type :=
  tobject [req "Subject" tstring; req "From" tstring; opt "To" tstring; opt "Cc" tstring;
           opt "Bcc" tstring; opt "Reply-To" tstring; req "In-reply-to" tstring; req "References" tstring].
Definition terrors : type :=
  tobject (map (fun s => (s, optional, tbool))
    ["key-revoked"; "key-expired"; "sig-expired"; "key-missing"; "alg-unsupported"; "crl-missing"; "crl-too-old"; "bad-policy"; "sys-error"; "tofu-conflict"]%string).
(** signature; a good one, or another. *)
Definition tsignature (version : nat) : type := tor
  (tobject [req "status" (tenum ["good"]%string); opt "fingerprint" tstring; opt "created" tint; opt "expires" tint;
            opt "userid" tstring; opt "email" tstring])
  (tobject [req "status" (tenum ["bad"; "error"; "unknown"]%string); opt "keyid" tstring;
            opt "errors" (if 4 <=? version then terrors else tint)]).
Definition tsigstatus (version : nat) : type := tlist (tsignature version).
Definition tencstatus : type := tone (tobject [req "status" (tenum ["good"; "bad"]%string)]).
(** crypto.  (devel/schemata does not say that "encrypted", "headers" and "header-mask" are
    optional.) *)
Definition tcrypto (version : nat) : type := tobject [
  opt "signed" (tobject [req "status" (tsigstatus version); opt "encrypted" tbool; opt "headers" (tlist tstring)]);
  opt "decrypted" (tobject [req "status" (tenum ["full"; "partial"]%string);
                                   opt "header-mask" (tobject [req "Subject" (tor tstring tnull)])])].
(** part, nested at most [depth] deep.  (devel/schemata does not say that the content of an
    opened PKCS#7 part is a list of parts too.) *)
Fixpoint tpart (version depth : nat) : type :=
  match depth with
  | O => fun _ => False
  | S d =>
      let common := [req "id" tint; opt "encstatus" tencstatus; opt "sigstatus" (tsigstatus version);
                     req "content-type" tstring; opt "content-disposition" tstring; opt "content-id" tstring] in
      let leaf := [opt "filename" tstring] in
      tor (tobject (common ++ leaf ++ [req "content" (tlist (tpart version d))]))
     (tor (tobject (common ++ [req "content" (tone (tobject [req "headers" theaders; req "body" (tone (tpart version d))]))]))
     (tor (tobject (common ++ leaf ++ [req "content" tstring]))
          (tobject (common ++ leaf ++ [opt "content-charset" tstring; opt "content-length" tint;
                                       opt "content-transfer-encoding" tstring]))))
  end.
(** message; [body]: --body is true. *)
Definition tmessage (version : nat) (body : bool) (depth : nat) : type := tobject
  ([req "id" tstring; req "match" tbool; req "excluded" tbool;
    req "filename" (if 3 <=? version then tlist tstring else tstring); req "timestamp" tint; req "date_relative" tstring;
    req "tags" (tlist tstring); req "headers" theaders; req "duplicate" tint] ++
   (if 4 <=? version then [req "crypto" (tcrypto version)] else []) ++
   (if body then [req "body" (tone (tpart version depth))] else [])).

(** ** What the values say *)

Definition text_of (o : option bytes) : option value := option_map VStr o.
Definition text (s : string) : option value := Some (VStr (lit s)).

(** What a status of a signature means: the key or the signature is known to be bad; there
    is any reason not to trust the signature; neither. *)
Inductive verdict := Bad | Error | Good.
Definition verdict_of (s : N) : verdict := if N.testbit s 2 then Bad else if N.leb 8 s then Error else Good.
(** The identity of the signer may be shown. *)
Definition trusted (c : cert) : bool := match ct_validity c with V_full | V_ultimate => true | _ => false end.
Definition last16 (s : bytes) : bytes := rev (firstn 16 (rev s)).
(** One signature: no name or address unless the signature is good and the key is valid. *)
Record displays_signature (version : nat) (g : signature) (v : value) : Prop := {
  ds_status : field "status" v = match verdict_of (sg_status g) with Bad => text "bad" | Error => text "error" | Good => text "good" end;
  ds_fingerprint : field "fingerprint" v =
    match verdict_of (sg_status g), sg_cert g with Good, Some c => Some (VStr (cstr (ct_fpr c))) | _, _ => None end;
  ds_userid : field "userid" v = match verdict_of (sg_status g), sg_cert g with Good, Some c => if trusted c then text_of (ct_uid c) else None | _, _ => None end;
  ds_email : field "email" v = match verdict_of (sg_status g), sg_cert g with Good, Some c => if trusted c then text_of (ct_email c) else None | _, _ => None end;
  ds_created : field "created" v = match verdict_of (sg_status g) with Good => if Z.eqb (sg_created g) (-1) then None else Some (VInt (sg_created g)) | _ => None end;
  ds_expires : field "expires" v = match verdict_of (sg_status g) with Good => if Z.ltb 0 (sg_expires g) then Some (VInt (sg_expires g)) else None | _ => None end;
  ds_keyid : field "keyid" v =
    match verdict_of (sg_status g), sg_cert g with Good, _ => None | _, Some c => option_map (fun f => VStr (last16 f)) (ct_fpr c) | _, None => None end;
  ds_errors : field "errors" v =
    if N.leb 8 (sg_status g)
    then Some (if 4 <=? version
               then VMap (map (fun bn => (snd bn, VBool true)) (filter (fun bn => N.testbit (sg_status g) (fst bn))
                 [(4, lit "key-revoked"); (5, lit "key-expired"); (6, lit "sig-expired"); (7, lit "key-missing"); (8, lit "crl-missing");
                  (9, lit "crl-too-old"); (10, lit "bad-policy"); (11, lit "sys-error"); (12, lit "tofu-conflict")]%N))
               else VInt (Z.of_N (sg_status g)))
    else None
}.
Definition displays_sigstatus (version : nat) (l : list signature) (v : value) : Prop := exists vs, v = VList vs /\ Forall2 (displays_signature version) l vs.

(** The headers of a message; [subject] is what is to be shown as the subject. *)
Record displays_headers (extra : list bytes) (h : hdrs) (subject : option bytes) (v : value) : Prop := {
  dh_subject : field "Subject" v = Some (VStr (cstr subject));
  dh_from : field "From" v = Some (VStr (cstr (h_from h)));
  dh_date : field "Date" v = Some (VStr (h_date h));
  (* the recipients, if extra headers do not interfere *)
  dh_to : (forall n, In n extra -> strcaseeq (lit "To") n = false) -> field "To" v = text_of (h_to h);
  dh_cc : (forall n, In n extra -> strcaseeq (lit "Cc") n = false) -> field "Cc" v = text_of (h_cc h);
  dh_bcc : (forall n, In n extra -> strcaseeq (lit "Bcc") n = false) -> field "Bcc" v = text_of (h_bcc h);
  dh_reply_to : (forall n, In n extra -> strcaseeq (lit "Reply-To") n = false) -> field "Reply-To" v = text_of (h_reply_to h);
  (* each configured header that the message has is shown; nothing else is *)
  dh_extra : forall n name x, In n extra -> get_header (h_all h) n = Some (name, x) -> exists l, v = VMap l /\ In (name, VStr x) l;
  dh_only : forall k x l, v = VMap l -> In (k, x) l ->
    In k (map lit ["Subject"; "From"; "To"; "Cc"; "Bcc"; "Reply-To"; "Date"]%string) \/
    exists n s, In n extra /\ get_header (h_all h) n = Some (k, s) /\ x = VStr s
}.

(** The parts of a message as a tree: number, node, parts inside. *)
Inductive ptree := PT (num : nat) (n : node) (kids : list ptree).
Fixpoint parts (t : ptree) : list (option nat * node) := match t with PT num n kids => (Some num, n) :: concat (map parts kids) end.

(** The text of a text part is shown, except HTML without --include-html. *)
Definition has_text (o : sopts) (p : obj) : bool :=
  strcaseeq (firstn 5 (o_mime (info_of p))) (lit "text/") && negb (negb (so_html o) && strcaseeq (o_mime (info_of p)) (lit "text/html")).
(** A part, with what is inside.  (The parts inside are given by values that display them.) *)
Inductive displays_part (e : gmime) (c : cctx) (try : bool) (o : sopts) : ptree -> value -> Prop :=
| dp_part num n p kids vkids v :
    n_part n = Some p ->
    Forall2 (displays_part e c try o) kids vkids ->
    field "id" v = Some (VInt (Z.of_nat num)) ->
    field "content-type" v = Some (VStr (o_mime (info_of p))) ->
    field "content-disposition" v = text_of (g_disposition e p) ->
    field "content-id" v = text_of (g_cid e p) ->
    (* decryption: what came of it, if it was tried *)
    field "encstatus" v = (if decrypt_attempted c try n
                           then Some (VList [VMap [(lit "status", VStr (lit (if n_decrypted n then "good" else "bad")%string))]]) else None) ->
    (* signatures, if the part was verified *)
    match field "sigstatus" v with
    | Some s => n_verify n = true /\ displays_sigstatus (so_version o) (match n_sigs n with Some s => g_sigs e s | None => [] end) s
    | None => n_verify n = false
    end ->
    match p with
    | OMulti _ _ _ _ _ => field "filename" v = None /\ field "content" v = Some (VList vkids) /\ field "content-length" v = None
    | OMessage _ _ _ => field "filename" v = None /\ field "content-length" v = None /\
        exists m hv, field "content" v = Some (VList [m]) /\ field "headers" m = Some hv /\ field "body" m = Some (VList vkids) /\
          displays_headers (so_extra o) (g_headers e p) (h_subject (g_headers e p)) hv
    | OPart _ _ | OPkcs7 _ _ _ _ =>
        field "filename" v = text_of (g_filename e p) /\
        if has_text o p then kids = [] /\ field "content" v = Some (VStr (o_text (info_of p))) /\ field "content-length" v = None
        else match kids with
             | [] => field "content" v = None /\ field "content-charset" v = text_of (g_charset e p) /\
                     field "content-transfer-encoding" v = text_of (g_cte e p) /\
                     field "content-length" v = (if Z.leb 0 (g_length e p) then Some (VInt (g_length e p)) else None)
             | _ => field "content" v = Some (VList vkids)
             end
    end ->
    displays_part e c try o (PT num n kids) v.

(** The status of the message as a whole. *)
Definition displays_crypto (e : gmime) (version : nat) (outer : option bytes) (m : mcrypto) (v : value) : Prop :=
  match m_sigs m with
  | Some s => exists sv st, field "signed" v = Some sv /\ field "status" sv = Some st /\ displays_sigstatus version (g_sigs e s) st /\
      field "encrypted" sv = (if m_sigenc m then Some (VBool true) else None) /\
      field "headers" sv = match m_psubject m with Some _ => Some (VList [VStr (lit "Subject")]) | None => None end
  | None => field "signed" v = None
  end /\
  match m_dec m with
  | DEC_NONE => field "decrypted" v = None
  | d => exists dv, field "decrypted" v = Some dv /\
      field "status" dv = text (match d with DEC_FULL => "full" | _ => "partial" end)%string /\
      (* the subject outside, if it is not the one shown *)
      field "header-mask" dv =
        match m_psubject m with
        | Some ps => if match outer with Some s => bseq s ps | None => false end then None
                     else Some (VMap [(lit "Subject", match outer with Some s => VStr s | None => VNull end)])
        | None => None
        end
  end.
(** A message.  [shown]: the part that is the body and the status of the message that results
    (None: --body=false). *)
Record displays_message (e : gmime) (c : cctx) (try : bool) (o : sopts) (msg : smsg) (h : hdrs) (t : option ptree) (m : mcrypto) (v : value) : Prop := {
  dm_id : field "id" v = Some (VStr (sm_id msg));
  dm_match : field "match" v = Some (VBool (sm_match msg));
  dm_excluded : field "excluded" v = Some (VBool (sm_excluded msg));
  dm_filename : field "filename" v = Some (if 3 <=? so_version o then VList (map VStr (sm_files msg)) else VStr (hd [] (sm_files msg)));
  dm_timestamp : field "timestamp" v = Some (VInt (sm_date msg));
  dm_relative : field "date_relative" v = Some (VStr (sm_relative msg));
  dm_tags : field "tags" v = Some (VList (map VStr (sm_tags msg)));
  dm_duplicate : field "duplicate" v = Some (VInt (Z.max 1 (so_duplicate o)));
  dm_body : match t with Some t => exists pv, field "body" v = Some (VList [pv]) /\ displays_part e c try o t pv | None => field "body" v = None end;
  dm_crypto : if 4 <=? so_version o then exists cv, field "crypto" v = Some cv /\ displays_crypto e (so_version o) (h_subject h) m cv else field "crypto" v = None;
  dm_headers : exists hv, field "headers" v = Some hv /\
    displays_headers (so_extra o) h (match m_psubject m with Some s => Some s | None => h_subject h end) hv
}.

(** GMime makes PKCS#7 parts only of application/pkcs7-mime, so none of them is text.
    [within a b]: [a] is [b] or somewhere inside. *)
Inductive within (a : obj) : obj -> Prop :=
| w_self : within a a
| w_child i k ch s d x : In x ch -> within a x -> within a (OMulti i k ch s d)
| w_decrypted i k ch s x sg : within a x -> within a (OMulti i k ch s (Some (x, sg)))
| w_message i s x : within a x -> within a (OMessage i s x)
| w_opened i t s x d : within a x -> within a (OPkcs7 i t (s, Some x) d)
| w_pkcs7_decrypted i t v x sg : within a x -> within a (OPkcs7 i t v (Some (x, sg))).
Definition pkcs7_is_not_text (body : obj) : Prop :=
  forall i t v d, within (OPkcs7 i t v d) body -> strcaseeq (firstn 5 (o_mime i)) (lit "text/") = false.
(** The part with number [k] of a value printed for a part or a list of parts. *)
Fixpoint subvalues (v : value) : list value :=
  v :: match v with
       | VList l => concat (map subvalues l)
       | VMap l => concat (map (fun kv => subvalues (snd kv)) l)
       | _ => []
       end.
