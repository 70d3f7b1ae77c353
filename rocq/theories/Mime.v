(** Model of mime-node.c (the tree of parts of a message, its numbering, decryption and
    verification), of the message-wide cryptographic status of util/crypto.c, and of
    util/repair.c.

    GMime (external): parsing gives an object of type [obj]; what verifying or decrypting an
    object gives is recorded in the object itself, so that nesting is finite.  The objects of
    a message are parts, multiparts, message parts and PKCS#7 parts (GMime makes no others).
    Not modelled: allocation failure, reference counting, the choice of the file of a message
    (mime_node_open 99-133), the stashing of session keys (Decrypt.v). *)
From Verif Require Import Bytes StrUtil Reply.
Local Open Scope nat_scope.

(** GMimeSignatureList (external): an identifier of the list. *)
Definition siglist := nat.
(** What is read of the headers of an object. *)
Record info := {
  o_mime : bytes;                  (* g_mime_content_type_get_mime_type *)
  o_protected : option bytes;      (* content type parameter protected-headers *)
  o_forwarded : option bytes;      (* ... forwarded *)
  o_protocol : option bytes;       (* ... protocol *)
  o_subject : option bytes;        (* header Subject *)
  o_text : bytes;                  (* decoded text of a text part; identifies other parts *)
  o_attachment : option (option bytes)   (* Content-Disposition is attachment: the file name *)
}.
(** which multipart subclass GMime built (GMime). *)
Inductive mkind := MPlain | MSigned | MEncrypted.
(** smime-type of an application/pkcs7-mime part (GMime). *)
Inductive smime := SM_signed | SM_enveloped | SM_other.
(** a GMime object tree (GMime). *)
Inductive obj :=
| OPart (i : info) (text : bool)                      (* text: GMIME_IS_TEXT_PART *)
| OMulti (i : info) (k : mkind) (children : list obj)
    (sigs : option siglist)                           (* g_mime_multipart_signed_verify *)
    (dec : option (obj * option siglist))             (* decryption (after repair), with the signatures inside *)
| OMessage (i : info) (subject : option bytes) (body : obj)   (* message/rfc822; g_mime_message_get_subject *)
| OPkcs7 (i : info) (t : smime)
    (ver : option siglist * option obj)               (* g_mime_application_pkcs7_mime_verify *)
    (dec : option (obj * option siglist)).
(** the information kept for each object. *)
Definition info_of (o : obj) : info :=
  match o with OPart i _ => i | OMulti i _ _ _ _ => i | OMessage i _ _ => i | OPkcs7 i _ _ _ => i end.

(** External: g_mime_content_type_is_type (without wildcards). *)
Definition is_type (o : obj) (t : bytes) : bool := strcaseeq (o_mime (info_of o)) t.
(** a content-type parameter has a value (GMime). *)
Definition param_is (p : option bytes) (v : bytes) : bool := match p with Some s => bseq s v | None => false end.

(** ** util/repair.c *)

(** util/repair.c:25-64 [_notmuch_crypto_payload_has_legacy_display]; the part to be shown
    instead (65-73 [_notmuch_repair_crypto_payload_skip_legacy_display]). *)
Definition skip_legacy_display (o : obj) : option obj :=
  match o with
  | OMulti i MPlain [first; second] _ _ =>   (* a multipart/mixed is never a GMimeMultipartSigned or -Encrypted *)
      if strcaseeq (o_mime i) (lit "multipart/mixed") && param_is (o_protected i) (lit "v1") &&
         (is_type first (lit "text/plain") || is_type first (lit "text/rfc822-headers")) &&
         param_is (o_protected (info_of first)) (lit "v1") &&
         match first with OPart _ true => true | _ => false end
      then Some second else None
  | _ => None
  end.
(** util/repair.c:78-131 [_notmuch_is_mixed_up_mangled] and 136-158
    [_notmuch_repair_mixed_up_mangled]. *)
Definition repair_mixed_up (o : obj) : option obj :=
  match o with
  | OMulti i _ [p0; p1; p2] _ dec =>
      if strcaseeq (o_mime i) (lit "multipart/mixed") && is_type p0 (lit "text/plain") &&
         match p0 with OPart _ true => true | _ => false end &&
         is_type p1 (lit "application/pgp-encrypted") && is_type p2 (lit "application/octet-stream") &&
         match o_text (info_of p0) with [] => true | _ => false end
      then Some (OMulti {| o_mime := lit "multipart/encrypted"; o_protected := None; o_forwarded := None;
                           o_protocol := Some (lit "application/pgp-encrypted"); o_subject := None; o_text := []; o_attachment := None |}
                   MEncrypted [p1; p2] None dec)
      else None
  | _ => None
  end.

(** ** The status of the message, util/crypto.c *)

(** util/crypto.h:46-50. *)
Inductive dstatus := DEC_NONE | DEC_PARTIAL | DEC_FULL.
(** util/crypto.h:55-83 struct _notmuch_message_crypto. *)
Record mcrypto := {
  m_dec : dstatus; m_sigs : option siglist; m_payload : bool; m_psubject : option bytes; m_sigenc : bool
}.
(** util/crypto.c:124-131 [_notmuch_message_crypto_new]. *)
Definition mcrypto_new : mcrypto := {| m_dec := DEC_NONE; m_sigs := None; m_payload := false; m_psubject := None; m_sigenc := false |}.
(** [is_full]: as above, util/crypto.c:124-131. *)
Definition is_full (d : dstatus) : bool := match d with DEC_FULL => true | _ => false end.
(** util/crypto.c:133-160 [_notmuch_message_crypto_potential_sig_list]. *)
Definition potential_sig_list (m : mcrypto) (sigs : option siglist) : mcrypto :=
  if m_payload m then m
  else {| m_dec := m_dec m; m_sigs := sigs; m_payload := m_payload m; m_psubject := m_psubject m;
          m_sigenc := if is_full (m_dec m) then true else m_sigenc m |}.
(** util/crypto.c:231-245 [_notmuch_message_crypto_successful_decryption]. *)
Definition successful_decryption (m : mcrypto) : mcrypto :=
  {| m_dec := if m_payload m then match m_dec m with DEC_NONE => DEC_PARTIAL | d => d end else DEC_FULL;
     m_sigs := m_sigs m; m_payload := m_payload m; m_psubject := m_psubject m; m_sigenc := m_sigenc m |}.
(** util/crypto.c:185-196: the control information of a multipart/encrypted [parent]. *)
Definition is_control (parent : option obj) (childnum : nat) (part : obj) : bool :=
  match parent with
  | Some (OMulti pi MEncrypted _ _ _) => (childnum =? 0) && param_is (o_protocol pi) (o_mime (info_of part))
  | _ => false
  end.
(** util/crypto.c:206-219: the subject the payload wants to be shown. *)
Definition exported_subject (part : obj) : option bytes :=
  match part with
  | OMessage i subject _ =>
      if param_is (o_forwarded i) (lit "no") then subject
      else match o_protected i with Some v => if strcaseeq (lit "v1") v then o_subject i else None | None => None end
  | _ => match o_protected (info_of part) with
         | Some v => if strcaseeq (lit "v1") v then o_subject (info_of part) else None
         | None => None
         end
  end.
(** util/crypto.c:163-228 [_notmuch_message_crypto_potential_payload]. *)
Definition potential_payload (m : mcrypto) (part : obj) (parent : option obj) (childnum : nat) : bool * mcrypto :=
  if m_payload m then (false, m)
  else if is_control parent childnum part then (false, m)
  else
    let m1 := {| m_dec := m_dec m; m_sigs := m_sigs m; m_payload := true; m_psubject := m_psubject m; m_sigenc := m_sigenc m |} in
    if negb (is_full (m_dec m)) && match m_sigs m with None => true | Some _ => false end then (false, m1)
    else (true, {| m_dec := m_dec m; m_sigs := m_sigs m; m_payload := true;
                   m_psubject := match exported_subject part with Some s => Some s | None => m_psubject m end;
                   m_sigenc := m_sigenc m |}).

(** ** Nodes *)

(** The crypto context: verification on; decryption policy other than false. *)
Record cctx := { c_verify : bool; c_decrypt : bool }.
(** notmuch-client.h mime_node_t: what is shown of a node, and its children: the objects
    mime_node_child (mime-node.c:437-462) makes nodes of. *)
Record node := {
  n_part : option obj;             (* None: the root, the message itself *)
  n_children : list obj;
  n_verify : bool; n_sigs : option siglist;          (* verify_attempted, sig_list *)
  n_decrypted : bool                                   (* decrypt_success *)
}.
(** [plain_node]: as above, mime-node.c:437-462. *)
Definition plain_node (o : obj) (children : list obj) : node :=
  {| n_part := Some o; n_children := children; n_verify := false; n_sigs := None; n_decrypted := false |}.
(** mime-node.c:230-262 [node_verify] of a multipart/signed or of a PKCS#7 part. *)
Definition node_verify (o : obj) (children : list obj) (sigs : option siglist) (m : mcrypto) : node * mcrypto :=
  ({| n_part := Some o; n_children := children; n_verify := true; n_sigs := sigs; n_decrypted := false |},
   potential_sig_list m sigs).
(** mime-node.c:265-328 [node_decrypt_and_verify]; [wrap]: the children if the content is [c]. *)
Definition node_decrypt_and_verify (o : obj) (children : list obj) (wrap : obj -> list obj)
    (dec : option (obj * option siglist)) (m : mcrypto) : node * mcrypto :=
  match dec with
  | None => (plain_node o children, m)
  | Some (c, sigs) =>
      let m := successful_decryption m in
      ({| n_part := Some o; n_children := wrap c; n_verify := match sigs with Some _ => true | None => false end;
          n_sigs := sigs; n_decrypted := true |},
       match sigs with Some _ => potential_sig_list m sigs | None => m end)
  end.
(** mime-node.c:365-435 [_mime_node_set_up_part]: [SetUp n m] or, for the one layer of
    recursion of 428, [Again o m]. *)
Inductive set_up := SetUp (n : node) (m : mcrypto) | Again (o : obj) (m : mcrypto).
(** [as_payload]: as above, mime-node.c:365-435. *)
Definition as_payload (o : obj) (children : list obj) (parent : option obj) (childnum : nat) (m : mcrypto) : set_up :=
  let '(yes, m') := potential_payload m o parent childnum in
  if yes && is_full (m_dec m') then
    match skip_legacy_display o with
    | Some clean => Again clean m'
    | None => SetUp (plain_node o children) m'
    end
  else SetUp (plain_node o children) m'.
(** [set_up_part1]: as above, mime-node.c:365-435. *)
Definition set_up_part1 (c : cctx) (o : obj) (parent : option obj) (childnum : nat) (m : mcrypto) : set_up :=
  match o with
  | OPart _ _ => as_payload o [] parent childnum m
  | OMessage _ _ body => as_payload o [body] parent childnum m
  | OPkcs7 _ SM_signed (sigs, unwrapped) _ =>
      let '(n, m) := node_verify o match unwrapped with Some u => [u] | None => [] end sigs m in SetUp n m
  | OPkcs7 _ SM_enveloped _ dec =>
      if c_decrypt c then let '(n, m) := node_decrypt_and_verify o [] (fun u => [u]) dec m in SetUp n m
      else as_payload o [] parent childnum m
  | OPkcs7 _ SM_other _ _ => as_payload o [] parent childnum m
  | OMulti _ _ _ _ _ =>
      let o := match repair_mixed_up o with Some r => r | None => o end in
      match o with
      | OMulti _ MEncrypted children _ dec =>
          if c_decrypt c then
            match children with
            | [c0; c1] => let '(n, m) := node_decrypt_and_verify o children (fun u => [c0; u]) dec m in SetUp n m
            | _ => SetUp (plain_node o children) m
            end
          else as_payload o children parent childnum m
      | OMulti _ MSigned children sigs _ =>
          if c_verify c then
            match children with
            | [_; _] => let '(n, m) := node_verify o children sigs m in SetUp n m
            | _ => SetUp (plain_node o children) m
            end
          else as_payload o children parent childnum m
      | OMulti _ MPlain children _ _ => as_payload o children parent childnum m
      | _ => as_payload o [] parent childnum m
      end
  end.
(** [set_up_part]: as above, mime-node.c:365-435. *)
Definition set_up_part (c : cctx) (o : obj) (parent : option obj) (childnum : nat) (m : mcrypto) : option (node * mcrypto) :=
  match set_up_part1 c o parent childnum m with
  | SetUp n m => Some (n, m)
  | Again o m => match set_up_part1 c o parent childnum m with SetUp n m => Some (n, m) | Again _ _ => None end
  end.

(** ** Numbering, mime-node.c:437-487 *)

(** nchildren, next_child, next_part_num (None: -1) of a node and its ancestors, the node
    first. *)
Record frame := { f_n : nat; f_next : nat; f_num : option nat }.
(** mime-node.c:474-481: the nearest ancestor with more children numbers its next child. *)
Fixpoint renumber (fs : list frame) (k : nat) : list frame :=
  match fs with
  | [] => []
  | f :: r => if f_next f =? f_n f then f :: renumber r k
              else {| f_n := f_n f; f_next := f_next f; f_num := Some k |} :: r
  end.
(** mime-node.c:464-483: a child made of the node on top: its number (None: -1), the frames
    of its ancestors, its own frame. *)
Definition number_child (fs : list frame) (child nchildren : nat) : option nat * list frame * frame :=
  match fs with
  | p :: r =>
      match f_num p with
      | Some k =>
          if child =? f_next p then
            let fs' := {| f_n := f_n p; f_next := S (f_next p); f_num := None |} :: r in
            (Some k, if nchildren =? 0 then renumber fs' (S k) else fs', {| f_n := nchildren; f_next := 0; f_num := Some (S k) |})
          else (None, fs, {| f_n := nchildren; f_next := 0; f_num := None |})
      | None => (None, fs, {| f_n := nchildren; f_next := 0; f_num := None |})
      end
  | [] => (None, [], {| f_n := nchildren; f_next := 0; f_num := None |})
  end.

(** The state of a walk: status and frames. *)
Definition wstate := (mcrypto * list frame)%type.
(** mime-node.c:437-487 [mime_node_child] on child number [i] of the node [p] on top; the
    new frame is pushed. *)
Definition mime_node_child (c : cctx) (p : node) (i : nat) (st : wstate) : option (option nat * node * wstate) :=
  match nth_error (n_children p) i with
  | None => None
  | Some sub =>
      match set_up_part c sub (n_part p) i (fst st) with
      | None => None
      | Some (n, m) =>
          let '(num, fs, f) := number_child (snd st) i (length (n_children n)) in
          Some (num, n, (m, f :: fs))
      end
  end.
(** mime-node.c:141-151: the root. *)
Definition mime_node_root (body : obj) : node * wstate :=
  ({| n_part := None; n_children := [body]; n_verify := false; n_sigs := None; n_decrypted := false |},
   (mcrypto_new, [{| f_n := 1; f_next := 0; f_num := Some 1 |}])).

(** notmuch-show.c:640-641, 693-695, 857-858 and notmuch-reply.c:86-87: the formatters visit
    node by node, each making its children in turn; the nodes with their numbers.
    (Returning to the parent drops the frame of the child.) *)
Section visit.
  Variable go : node -> wstate -> option (list (option nat * node) * wstate).
  (** [visit_children]: as above, notmuch-show.c:640-641, 693-695, 857-858. *)
  Fixpoint visit_children (c : cctx) (p : node) (i : nat) (todo : nat) (st : wstate) : option (list (option nat * node) * wstate) :=
    match todo with
    | O => Some ([], st)
    | S todo' =>
        match mime_node_child c p i st with
        | None => None
        | Some (num, n, st1) =>
            match go n st1 with
            | None => None
            | Some (l, (m, fs)) =>
                match visit_children c p (S i) todo' (m, tl fs) with
                | None => None
                | Some (l', st2) => Some ((num, n) :: l ++ l', st2)
                end
            end
        end
    end.
End visit.
(** [visit]: as above, notmuch-show.c:640-641, 693-695, 857-858. *)
Fixpoint visit (fuel : nat) (c : cctx) (n : node) (st : wstate) : option (list (option nat * node) * wstate) :=
  match fuel with
  | O => None
  | S f => visit_children (visit f c) c n 0 (length (n_children n)) st
  end.

(** mime-node.c:489-515 [mime_node_seek_dfs]: the node found ([inl]: with the state of the
    walk), or the rest of the counter. *)
Section seek.
  Variable go : node -> nat -> wstate -> option ((node * wstate) + (nat * wstate)).
  (** [seek_children]: as above, mime-node.c:489-515. *)
  Fixpoint seek_children (c : cctx) (p : node) (i todo : nat) (k : nat) (st : wstate) : option ((node * wstate) + (nat * wstate)) :=
    match todo with
    | O => Some (inr (k, st))
    | S todo' =>
        match mime_node_child c p i st with
        | None => None
        | Some (_, n, st1) =>
            match go n k st1 with
            | None => None
            | Some (inl r) => Some (inl r)
            | Some (inr (k', (m, fs))) => seek_children c p (S i) todo' k' (m, tl fs)
            end
        end
    end.
End seek.
(** [seek_dfs]: as above, mime-node.c:489-515. *)
Fixpoint seek_dfs (fuel : nat) (c : cctx) (n : node) (k : nat) (st : wstate) : option ((node * wstate) + (nat * wstate)) :=
  match k with
  | O => Some (inl (n, st))
  | S k' => match fuel with
            | O => None
            | S f => seek_children (seek_dfs f c) c n 0 (length (n_children n)) k' st
            end
  end.
