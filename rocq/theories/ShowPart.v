(** Model of the structured output (JSON, S-expressions) of one message:
    format_part_sprinter and what it calls, notmuch-show.c:86-96, 114-167, 230-316, 409-548,
    651-865; the helpers of util/gmime-extra.c:95-134, 189-205.  Each function is the list of
    calls of the structure printer (Sprinter.v) it makes.

    GMime (external): [gmime] gives what is read of an object, a header list or a signature;
    the text of a text part after charset and line-end conversion
    (show_text_part_content, notmuch-show.c:328-407) is [o_text].  Not modelled: allocation
    failure. *)
From Verif Require Import Bytes StrUtil Reply Sprinter Mime.
Local Open Scope nat_scope.

(** GMimeValidity (external). *)
Inductive validity := V_unknown | V_undefined | V_never | V_marginal | V_full | V_ultimate.
(** GMimeCertificate (external). *)
Record cert := { ct_fpr : option bytes; ct_uid : option bytes; ct_email : option bytes; ct_validity : validity }.
(** GMimeSignature (external); the status is a set of bits. *)
Record signature := { sg_status : N; sg_cert : option cert; sg_created : Z; sg_expires : Z }.
(** What is read of the headers of a message (GMimeMessage, external): decoded subject, the
    address lists as text (None: NULL), the date as text, and all headers, name and value. *)
Record hdrs := {
  h_subject : option bytes; h_from : option bytes; h_to : option bytes; h_cc : option bytes; h_bcc : option bytes;
  h_reply_to : option bytes; h_irt : option bytes; h_refs : option bytes; h_date : bytes; h_all : list (bytes * bytes)
}.
(** What is read of an object by means of GMime (external). *)
Record gmime := {
  g_sigs : siglist -> list signature;
  g_disposition : obj -> option bytes; g_cid : obj -> option bytes; g_filename : obj -> option bytes;
  g_charset : obj -> option bytes; g_cte : obj -> option bytes; g_length : obj -> Z;   (* -1: unknown *)
  g_headers : obj -> hdrs                                  (* of the message inside a message part *)
}.
(** What is read of the notmuch_message_t. *)
Record smsg := {
  sm_id : bytes; sm_match : bool; sm_excluded : bool; sm_files : list bytes; sm_date : Z; sm_relative : bytes; sm_tags : list bytes
}.
(** The options: notmuch_format_version, --body, --include-html, --duplicate, and the values
    of show.extra_headers. *)
Record sopts := { so_version : nat; so_body : bool; so_html : bool; so_duplicate : Z; so_extra : list bytes }.

(** A NULL string is printed as the empty one (sprinter-json.c:121-125, sprinter-sexp.c). *)
Definition cstr (o : option bytes) : bytes := match o with Some s => s | None => [] end.
(** if (x) { map_key (k); string (x); } *)
Definition opt_key (k : bytes) (o : option bytes) : list op := match o with Some s => [Key k; Str s] | None => [] end.

(** notmuch-show.c:114-167 [format_message_sprinter]. *)
Definition format_message_sprinter (o : sopts) (m : smsg) : list op :=
  [Key (lit "id"); Str (sm_id m); Key (lit "match"); Bool (sm_match m); Key (lit "excluded"); Bool (sm_excluded m); Key (lit "filename")] ++
  (if 3 <=? so_version o then BeginList :: map Str (sm_files m) ++ [End] else [Str (cstr (hd_error (sm_files m)))]) ++
  [Key (lit "timestamp"); Int (sm_date m); Key (lit "date_relative"); Str (sm_relative m); Key (lit "tags"); BeginList] ++
  map Str (sm_tags m) ++ [End].

(** External: g_mime_header_list_get_header, the first header of that name. *)
Definition get_header (l : list (bytes * bytes)) (name : bytes) : option (bytes * bytes) := find (fun h => strcaseeq (fst h) name) l.
(** notmuch-show.c:230-249 [format_extra_headers_sprinter]. *)
Definition format_extra_headers (o : sopts) (h : hdrs) : list op :=
  flat_map (fun name => match get_header (h_all h) name with Some (n, v) => [Key n; Str v] | None => [] end) (so_extra o).
(** notmuch-show.c:251-316 [format_headers_sprinter]; [psubject]: the protected subject, if
    the status of the message is given and has one. *)
Definition format_headers_sprinter (o : sopts) (h : hdrs) (reply : bool) (psubject : option bytes) : list op :=
  [BeginMap; Key (lit "Subject"); Str (match psubject with Some s => s | None => cstr (h_subject h) end);
   Key (lit "From"); Str (cstr (h_from h))] ++
  opt_key (lit "To") (h_to h) ++ opt_key (lit "Cc") (h_cc h) ++ opt_key (lit "Bcc") (h_bcc h) ++ opt_key (lit "Reply-To") (h_reply_to h) ++
  (if reply then [Key (lit "In-reply-to"); Str (cstr (h_irt h)); Key (lit "References"); Str (cstr (h_refs h))]
   else [Key (lit "Date"); Str (h_date h)]) ++
  (if reply then [] else format_extra_headers o h) ++ [End].

(** GMimeSignatureStatus (external): VALID, GREEN and RED are the bits 0 to 2; all other bits
    are GMIME_SIGNATURE_STATUS_ERROR_MASK. *)
Definition status_red (s : N) : bool := N.testbit s 2.
(** status & GMIME_SIGNATURE_STATUS_ERROR_MASK is not 0. *)
Definition status_errors (s : N) : bool := negb (N.eqb (N.shiftr s 3) 0).
(** util/gmime-extra.c:189-205: g_mime_signature_status_good. *)
Definition status_good (s : N) : bool := negb (status_red s) && negb (status_errors s).
(** notmuch-show.c:409-422 [signature_status_to_string]. *)
Definition signature_status_to_string (s : N) : bytes :=
  if status_red s then lit "bad" else if status_errors s then lit "error" else if status_good s then lit "good" else lit "unknown".
(** notmuch-show.c:455-465: bits and names. *)
Definition key_map : list (N * bytes) :=
  [(4, lit "key-revoked"); (5, lit "key-expired"); (6, lit "sig-expired"); (7, lit "key-missing"); (8, lit "crl-missing");
   (9, lit "crl-too-old"); (10, lit "bad-policy"); (11, lit "sys-error"); (12, lit "tofu-conflict")]%N.
(** notmuch-show.c:430-445 [do_format_signature_errors] and 447-468 [format_signature_errors]. *)
Definition format_signature_errors (s : N) : list op :=
  if status_errors s then
    [Key (lit "errors"); BeginMap] ++ flat_map (fun bn => if N.testbit s (fst bn) then [Key (snd bn); Bool true] else []) key_map ++ [End]
  else [].
(** util/gmime-extra.c:125-134 [g_mime_certificate_get_fpr16]. *)
Definition fpr16 (c : cert) : option bytes :=
  match ct_fpr c with
  | Some f => if length f <? 16 then Some f else Some (skipn (length f - 16) f)
  | None => None
  end.
(** util/gmime-extra.c:95-123: only if the validity is FULL or ULTIMATE. *)
Definition if_valid (c : cert) (x : option bytes) : option bytes :=
  match ct_validity c with V_full | V_ultimate => x | _ => None end.
(** notmuch-show.c:486-544: one signature. *)
Definition format_signature (o : sopts) (g : signature) : list op :=
  [BeginMap; Key (lit "status"); Str (signature_status_to_string (sg_status g))] ++
  (if status_good (sg_status g) then
     match sg_cert g with Some c => [Key (lit "fingerprint"); Str (cstr (ct_fpr c))] | None => [] end ++
     (if Z.eqb (sg_created g) (-1) then [] else [Key (lit "created"); Int (sg_created g)]) ++
     (if Z.ltb 0 (sg_expires g) then [Key (lit "expires"); Int (sg_expires g)] else []) ++
     match sg_cert g with
     | Some c => opt_key (lit "userid") (if_valid c (ct_uid c)) ++ opt_key (lit "email") (if_valid c (ct_email c))
     | None => []
     end
   else match sg_cert g with Some c => opt_key (lit "keyid") (fpr16 c) | None => [] end) ++
  (if so_version o <=? 3 then
     if status_errors (sg_status g) then [Key (lit "errors"); Int (Z.of_N (sg_status g))] else []
   else format_signature_errors (sg_status g)) ++ [End].
(** notmuch-show.c:471-548 [format_part_sigstatus_sprinter]. *)
Definition format_sigstatus (e : gmime) (o : sopts) (s : option siglist) : list op :=
  BeginList :: match s with Some s => flat_map (format_signature o) (g_sigs e s) | None => [] end ++ [End].

(** notmuch-show.c:651-672 [format_omitted_part_meta_sprinter]. *)
Definition format_omitted_part_meta (e : gmime) (p : obj) : list op :=
  opt_key (lit "content-charset") (g_charset e p) ++ opt_key (lit "content-transfer-encoding") (g_cte e p) ++
  (if Z.leb 0 (g_length e p) then [Key (lit "content-length"); Int (g_length e p)] else []).

(** util/crypto.c:33-110, mime-node.c:265-286: [try] - there are stashed session keys, or the
    policy is not auto - whether a decryption was tried. *)
Definition decrypt_attempted (c : cctx) (try : bool) (n : node) : bool :=
  n_decrypted n ||
  (try && c_decrypt c && match n_part n with
                         | Some (OMulti _ MEncrypted [_; _] _ _) => true
                         | Some (OPkcs7 _ SM_enveloped _ _) => true
                         | _ => false
                         end).
(** External: g_mime_content_type_is_type (type, "text", "*"). *)
Definition is_text (p : obj) : bool := strcaseeq (firstn 5 (o_mime (info_of p))) (lit "text/").
(** notmuch-show.c:803-805: the text is shown. *)
Definition text_shown (o : sopts) (p : obj) : bool := is_text p && (so_html o || negb (is_type p (lit "text/html"))).
(** notmuch-show.c:756-789: what is said of a part before its content. *)
Definition part_meta (e : gmime) (c : cctx) (try : bool) (o : sopts) (num : option nat) (n : node) (p : obj) : list op :=
  [Key (lit "id"); Int (match num with Some k => Z.of_nat k | None => -1 end)] ++
  (if decrypt_attempted c try n
   then [Key (lit "encstatus"); BeginList; BeginMap; Key (lit "status"); Str (if n_decrypted n then lit "good" else lit "bad"); End; End] else []) ++
  (if n_verify n then Key (lit "sigstatus") :: format_sigstatus e o (n_sigs n) else []) ++
  [Key (lit "content-type"); Str (o_mime (info_of p))] ++
  opt_key (lit "content-disposition") (g_disposition e p) ++ opt_key (lit "content-id") (g_cid e p) ++
  match p with OPart _ _ | OPkcs7 _ _ _ _ => opt_key (lit "filename") (g_filename e p) | _ => [] end.
(** notmuch-show.c:791-852: how the content begins, and how many structures are left open. *)
Definition part_open (e : gmime) (o : sopts) (n : node) (p : obj) : list op * nat :=
  match p with
  | OPart _ _ | OPkcs7 _ _ _ _ =>
      if text_shown o p then ([Key (lit "content"); Str (o_text (info_of p))], 0)
      else if length (n_children n) =? 0 then (format_omitted_part_meta e p, 0)
      else ([Key (lit "content"); BeginList], 1)
  | OMulti _ _ _ _ _ => ([Key (lit "content"); BeginList], 1)
  | OMessage _ _ _ =>
      ([Key (lit "content"); BeginList; BeginMap; Key (lit "headers")] ++ format_headers_sprinter o (g_headers e p) false None ++
       [Key (lit "body"); BeginList], 3)
  end.
(** notmuch-show.c:854-855: the children in turn. *)
Section children.
  Variable go : option nat -> node -> wstate -> option (list op * wstate).
  (** [format_children]: as above, notmuch-show.c:854-855. *)
  Fixpoint format_children (c : cctx) (p : node) (i todo : nat) (st : wstate) : option (list op * wstate) :=
    match todo with
    | O => Some ([], st)
    | S todo' =>
        match mime_node_child c p i st with
        | None => None
        | Some (num, n, st1) =>
            match go num n st1 with
            | None => None
            | Some (l, (m, fs)) =>
                match format_children c p (S i) todo' (m, tl fs) with
                | None => None
                | Some (l', st2) => Some (l ++ l', st2)
                end
            end
        end
    end.
End children.
(** notmuch-show.c:741-864 [format_part_sprinter] of a node that is not the root. *)
Fixpoint format_part (fuel : nat) (e : gmime) (c : cctx) (try : bool) (o : sopts) (num : option nat) (n : node) (st : wstate) : option (list op * wstate) :=
  match fuel, n_part n with
  | S f, Some p =>
      match format_children (format_part f e c try o) c n 0 (length (n_children n)) st with
      | Some (kids, st') =>
          let '(start, nclose) := part_open e o n p in
          Some (BeginMap :: part_meta e c try o num n p ++ start ++ kids ++ repeat End nclose ++ [End], st')
      | None => None
      end
  | _, _ => None
  end.
(** notmuch-show.c:698-735: the status of the message. *)
Definition format_crypto (e : gmime) (o : sopts) (h : hdrs) (m : mcrypto) : list op :=
  BeginMap ::
  match m_sigs m with
  | Some s =>
      [Key (lit "signed"); BeginMap; Key (lit "status")] ++ format_sigstatus e o (Some s) ++
      (if m_sigenc m then [Key (lit "encrypted"); Bool true] else []) ++
      match m_psubject m with Some _ => [Key (lit "headers"); BeginList; Str (lit "Subject"); End] | None => [] end ++ [End]
  | None => []
  end ++
  match m_dec m with
  | DEC_NONE => []
  | d =>
      [Key (lit "decrypted"); BeginMap; Key (lit "status"); Str (if is_full d then lit "full" else lit "partial")] ++
      match m_psubject m with
      | Some ps =>
          match h_subject h with
          | None => [Key (lit "header-mask"); BeginMap; Key (lit "Subject"); Null; End]
          | Some s => if bseq s ps then [] else [Key (lit "header-mask"); BeginMap; Key (lit "Subject"); Str s; End]
          end
      | None => []
      end ++ [End]
  end ++ [End].
(** notmuch-show.c:674-740 [format_part_sprinter] of the root: the message. *)
Definition format_message (fuel : nat) (e : gmime) (c : cctx) (try : bool) (o : sopts) (msg : smsg) (h : hdrs) (body : obj) : option (list op) :=
  let '(root, st) := mime_node_root body in
  let shown :=
    if so_body o then
      match mime_node_child c root 0 st with
      | None => None
      | Some (num, n, st1) =>
          match format_part fuel e c try o num n st1 with
          | Some (l, (m, _)) => Some ([Key (lit "body"); BeginList] ++ l ++ [End], m)
          | None => None
          end
      end
    else Some ([], fst st) in
  match shown with
  | None => None
  | Some (l, m) =>
      Some (BeginMap :: format_message_sprinter o msg ++
            [Key (lit "duplicate"); Int (if Z.ltb 0 (so_duplicate o) then so_duplicate o else 1)] ++ l ++
            (if 4 <=? so_version o then Key (lit "crypto") :: format_crypto e o h m else []) ++
            Key (lit "headers") :: format_headers_sprinter o h false (m_psubject m) ++ [End])
  end.

(** mime-node.c:489-515 [mime_node_seek_dfs], as Mime.v's [seek_dfs], with the number of the
    node that is found. *)
Section seek.
  Variable go : option nat -> node -> nat -> wstate -> option ((option nat * node * wstate) + (nat * wstate)).
  (** [find_children]: as above, mime-node.c:489-515. *)
  Fixpoint find_children (c : cctx) (p : node) (i todo : nat) (k : nat) (st : wstate) : option ((option nat * node * wstate) + (nat * wstate)) :=
    match todo with
    | O => Some (inr (k, st))
    | S todo' =>
        match mime_node_child c p i st with
        | None => None
        | Some (num, n, st1) =>
            match go num n k st1 with
            | None => None
            | Some (inl r) => Some (inl r)
            | Some (inr (k', (m, fs))) => find_children c p (S i) todo' k' (m, tl fs)
            end
        end
    end.
End seek.
(** [find_dfs]: as above, mime-node.c:489-515. *)
Fixpoint find_dfs (fuel : nat) (c : cctx) (num : option nat) (n : node) (k : nat) (st : wstate) : option ((option nat * node * wstate) + (nat * wstate)) :=
  match k with
  | O => Some (inl (num, n, st))
  | S k' => match fuel with
            | O => None
            | S f => find_children (find_dfs f c) c n 0 (length (n_children n)) k' st
            end
  end.
(** notmuch-show.c:1009-1036 [show_message] with --part: what is printed of the part with
    number k (nothing if there is none). *)
Definition show_part (fuel : nat) (e : gmime) (c : cctx) (try : bool) (o : sopts) (msg : smsg) (h : hdrs) (body : obj) (k : nat) : option (list op) :=
  match k with
  | O => format_message fuel e c try o msg h body
  | _ =>
      let '(root, st) := mime_node_root body in
      match find_dfs fuel c (Some 0) root k st with
      | Some (inl (num, n, st1)) => option_map fst (format_part fuel e c try o num n st1)
      | Some (inr _) => Some []
      | None => None
      end
  end.
