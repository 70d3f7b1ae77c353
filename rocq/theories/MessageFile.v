(** Model of lib/message-file.c (headers of a message file), of
    notmuch_message_get_header (lib/message.cc:521-575) and of
    _notmuch_message_set_header_values (lib/message.cc:1302-1328).

    GMime is outside the model: a parsed message is the list of its headers in order
    (name and raw value); decoding a header (g_mime_utils_header_decode_text) and the
    SHA-1 of a file are parameters and may fail ([None] is NULL).  The hash table of
    decoded headers (strcase_hash, strcase_equal) is a list of names and values.
    Allocation does not fail. *)
From Verif Require Import Bytes StrUtil MsgId Reply MailStore.
From Coq Require Import ZArith.
Local Open Scope nat_scope.

(** What parsing the file gives (lib/message-file.c:139-191
    [_notmuch_message_file_parse]): [None] is NOTMUCH_STATUS_FILE_NOT_EMAIL (no message,
    or an mbox of several). *)
Definition mail := option (list (bytes * bytes)).

(** lib/message-file.c:26-38, the cache of decoded headers. *)
Definition cache := list (bytes * bytes).

Section MF.
(** g_mime_utils_header_decode_text *)
Variable decode : bytes -> option bytes.

(** lib/message-file.c:216-245 [_extend_header]. *)
Definition extend_header (combined : option bytes) (value : bytes) : option bytes :=
  match decode value with
  | None => None
  | Some decoded => match combined with
                    | Some c => Some (c ++ lit " " ++ decoded)
                    | None => Some decoded
                    end
  end.

(** lib/message-file.c:247-277 [_notmuch_message_file_get_combined_header]. *)
Fixpoint combined_loop (hs : list (bytes * bytes)) (header : bytes) (combined : option bytes) : option bytes :=
  match hs with
  | [] => combined
  | (n, v) :: hs' => if strcaseeq n header then combined_loop hs' header (extend_header combined v)
                     else combined_loop hs' header combined
  end.
(** [get_combined_header]: as above, lib/message-file.c:247-277. *)
Definition get_combined_header (hs : list (bytes * bytes)) (header : bytes) : option bytes :=
  match combined_loop hs header None with Some c => Some c | None => Some [] end.

(** g_hash_table_lookup with strcase_equal. *)
Fixpoint cache_lookup (header : bytes) (c : cache) : option bytes :=
  match c with
  | [] => None
  | (n, v) :: c' => if strcaseeq n header then Some v else cache_lookup header c'
  end.

(** g_mime_object_get_header: the raw value of the first header of that name. *)
Fixpoint first_header (header : bytes) (hs : list (bytes * bytes)) : option bytes :=
  match hs with
  | [] => None
  | (n, v) :: hs' => if strcaseeq n header then Some v else first_header header hs'
  end.

(** lib/message-file.c:279-322 [_notmuch_message_file_get_header]: the value and the new
    cache. *)
Definition file_get_header (f : mail) (c : cache) (header : bytes) : option bytes * cache :=
  match f with
  | None => (None, c)
  | Some hs =>
      match cache_lookup header c with
      | Some v => (Some v, c)
      | None =>
          let decoded :=
            if strcaseeq header (lit "received") || strcaseeq header (lit "delivered-to")
            then get_combined_header hs header
            else match first_header header hs with
                 | Some v => decode v
                 | None => Some []
                 end in
          match decoded with
          | None => (None, c)
          | Some d => (Some d, (header, d) :: c)
          end
      end
  end.

(** Several calls on one message file, in order. *)
Fixpoint file_get_many (f : mail) (c : cache) (names : list bytes) : list (option bytes) * cache :=
  match names with
  | [] => ([], c)
  | n :: ns => let '(r, c1) := file_get_header f c n in
               let '(rs, c2) := file_get_many f c1 ns in (r :: rs, c2)
  end.

(** [*s == '\0'] or NULL. *)
Definition null_or_empty (s : option bytes) : bool := match s with None | Some [] => true | _ => false end.

(** notmuch_status_t values used in lib/message-file.c. *)
Inductive fstatus := FSuccess | FNotEmail | FFileError.
(** the out-parameters of lib/message-file.c:324-402. *)
Record headers_out := { ho_from : option bytes; ho_subject : option bytes; ho_to : option bytes;
                        ho_date : option bytes; ho_id : bytes }.

(** lib/message-file.c:324-402 [_notmuch_message_file_get_headers]; [sha1] is
    _notmuch_sha1_of_file on the file's name. *)
Definition file_get_headers (sha1 : option bytes) (f : mail) (c : cache) : fstatus * option headers_out * cache :=
  match f with
  | None => (FNotEmail, None, c)
  | Some _ =>
      let '(from, c) := file_get_header f c (lit "from") in
      let '(subject, c) := file_get_header f c (lit "subject") in
      let '(to, c) := file_get_header f c (lit "to") in
      let '(date, c) := file_get_header f c (lit "date") in
      if null_or_empty from && null_or_empty subject && null_or_empty to then (FNotEmail, None, c)
      else
        let '(header, c) := file_get_header f c (lit "message-id") in
        let message_id := match header with None => None | Some h => header_message_id h end in
        match (match message_id with
               | Some i => Some i
               | None => match sha1 with None => None | Some h => Some (lit "notmuch-sha1-" ++ h) end
               end) with
        | None => (FFileError, None, c)
        | Some i => (FSuccess, Some {| ho_from := from; ho_subject := subject; ho_to := to; ho_date := date; ho_id := i |}, c)
        end
  end.

(** lib/message-file.c:57-102 [_notmuch_message_file_open_ctx]: the path that is opened,
    from the mail root and the name; [None] is refused. *)
Definition file_open_path (root filename : bytes) : option bytes :=
  match filename with
  | c :: _ => if beq c "/"%char
              then if starts_with root filename then Some filename else None
              else Some (root ++ lit "/" ++ filename)
  | [] => Some (root ++ lit "/" ++ filename)
  end.

(** The part of a message document and object that is used by
    notmuch_message_get_header: values of the document, its first file name, and the
    message file once it is open (lib/message.cc:521-535
    [_notmuch_message_ensure_message_file]). *)
Record values := { v_from : bytes; v_subject : bytes; v_id : bytes }.
(** notmuch_message_t as far as headers go, lib/message.cc. *)
Record message := { m_values : values; m_filename : option bytes; m_file : option (mail * cache) }.

(** lib/message.cc:537-575 [notmuch_message_get_header].  [has_values]: the database has
    NOTMUCH_FEATURE_FROM_SUBJECT_ID_VALUES; [fs]: opening a file, [None] if it can't be. *)
Definition ensure_file (fs : bytes -> option mail) (m : message) : option (mail * cache) :=
  match m_file m with
  | Some x => Some x
  | None => match m_filename m with
            | None => None
            | Some fn => match fs fn with None => None | Some f => Some (f, []) end
            end
  end.
(** [message_get_header]: as above, lib/message.cc:537-575. *)
Definition message_get_header (has_values : bool) (fs : bytes -> option mail) (m : message) (header : bytes)
  : option bytes * message :=
  let slot := if strcaseeq header (lit "from") then Some (v_from (m_values m))
              else if strcaseeq header (lit "subject") then Some (v_subject (m_values m))
              else if strcaseeq header (lit "message-id") then Some (v_id (m_values m))
              else None in
  let from_file :=
    match ensure_file fs m with
    | None => (None, m)
    | Some (f, c) =>
        let '(r, c') := file_get_header f c header in
        (r, {| m_values := m_values m; m_filename := m_filename m; m_file := Some (f, c') |})
    end in
  match slot with
  | Some v => if has_values || negb (match v with [] => true | _ => false end) then (Some v, m) else from_file
  | None => from_file
  end.

(** Several calls on one message object; the files may change between calls. *)
Fixpoint message_get_many (has_values : bool) (m : message) (calls : list ((bytes -> option mail) * bytes))
  : list (option bytes) * message :=
  match calls with
  | [] => ([], m)
  | (fs, h) :: calls' => let '(r, m1) := message_get_header has_values fs m h in
                         let '(rs, m2) := message_get_many has_values m1 calls' in (r :: rs, m2)
  end.

(** lib/message.cc:1302-1328 [_notmuch_message_set_header_values], the time stamp;
    [decode_date] is g_mime_utils_header_decode_date_unix. *)
Definition time_value (decode_date : bytes -> Z) (date : option bytes) : Z :=
  match date with
  | None | Some [] => 0%Z
  | Some d => let t := decode_date d in if (t <? 0)%Z then 0%Z else t
  end.
(** The values recorded for a new message; [None]: the program passes NULL as a
    std::string (undefined behaviour).  [hash] shortens long ids
    (_notmuch_message_create_for_message_id, lib/message.cc:270-290). *)
Definition set_header_values (hash : bytes -> bytes) (h : headers_out) : option values :=
  match ho_from h, ho_subject h with
  | Some f, Some s => Some {| v_from := f; v_subject := s;
                              v_id := if Nat.ltb NOTMUCH_MESSAGE_ID_MAX (length (ho_id h)) then hash (ho_id h) else ho_id h |}
  | _, _ => None
  end.
End MF.
