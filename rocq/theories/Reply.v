(** Model of notmuch-reply.c (recipients, From, threading headers and subject of a reply)
    and of gmime-filter-reply.c (quoting).

    GMime (external): parsing a header gives a list of addresses, mailboxes or groups;
    g_mime_message_add_mailbox appends to the recipients of the given type;
    g_mime_message_get_all_recipients gives the To, Cc and Bcc addresses.  A header that is
    absent is the empty list.  strcasecmp and strcasestr are those of the C locale.
    Not modelled: the formatting of the original message (format_part_reply), allocation
    failure. *)
From Verif Require Import Bytes StrUtil.
Local Open Scope nat_scope.

(** ** The quoting filter *)

(** gmime-filter-reply.h:35-41 struct _GMimeFilterReply ([encode] is fixed when the filter is made). *)
Record rfilter := { f_saw_nl : bool; f_saw_angle : bool }.
(** gmime-filter-reply.c:89-95 and 176-183 (initial state, filter_reset). *)
Definition rfilter_reset : rfilter := {| f_saw_nl := true; f_saw_angle := false |}.
(** [LF]: as above, gmime-filter-reply.c:89-95. *)
Definition LF : byte := chr 10.
(** [CR]: as above, gmime-filter-reply.c:89-95. *)
Definition CR : byte := chr 13.

(** gmime-filter-reply.c:127-138: one turn of the loop of the quoting direction; the bytes
    written and the new state. *)
Definition quote_step (st : rfilter) (c : byte) : bytes * rfilter :=
  let lead := if f_saw_nl st then lit "> " else [] in
  let st' := {| f_saw_nl := beq c LF; f_saw_angle := f_saw_angle st |} in
  (lead ++ (if beq c CR then [] else [c]), st').
(** gmime-filter-reply.c:145-163: one turn of the loop of the other direction. *)
Definition unquote_step (st : rfilter) (c : byte) : bytes * rfilter :=
  if f_saw_nl st then
    if beq c ">"%char then ([], {| f_saw_nl := false; f_saw_angle := true |})
    else ([c], {| f_saw_nl := false; f_saw_angle := f_saw_angle st |})
  else if f_saw_angle st then
    ((if beq c " "%char then [] else [c]), {| f_saw_nl := false; f_saw_angle := false |})
  else if beq c CR then ([], st)
  else ([c], {| f_saw_nl := if beq c LF then true else f_saw_nl st; f_saw_angle := f_saw_angle st |}).
(** gmime-filter-reply.c:112-170 [filter_filter]: [cap] is the room in the output buffer
    (g_mime_filter_set_size); [None] is a write beyond it. *)
Fixpoint filter_loop (step : rfilter -> byte -> bytes * rfilter) (cap : nat) (st : rfilter) (inbuf : bytes)
  : option (bytes * rfilter) :=
  match inbuf with
  | [] => Some ([], st)
  | c :: r =>
      let '(w, st') := step st c in
      if cap <? length w then None
      else match filter_loop step (cap - length w) st' r with
           | Some (o, st2) => Some (w ++ o, st2)
           | None => None
           end
  end.
(** [filter_filter]: as above, gmime-filter-reply.c:112-170. *)
Definition filter_filter (encode : bool) (st : rfilter) (inbuf : bytes) : option (bytes * rfilter) :=
  if encode then filter_loop quote_step (3 * length inbuf) st inbuf
  else filter_loop unquote_step (length inbuf + 1) st inbuf.
(** gmime-filter-reply.c:172-178 [filter_complete]: without input, nothing. *)
Definition filter_complete (encode : bool) (st : rfilter) (inbuf : bytes) : option (bytes * rfilter) :=
  match inbuf with [] => Some ([], st) | _ => filter_filter encode st inbuf end.
(** External: a GMime stream pushes its input through the filter in pieces, the last of
    which goes to filter_complete. *)
Fixpoint run_filter (encode : bool) (st : rfilter) (pieces : list bytes) (final : bytes) : option bytes :=
  match pieces with
  | [] => match filter_complete encode st final with Some (o, _) => Some o | None => None end
  | p :: ps =>
      match filter_filter encode st p with
      | Some (o, st') => match run_filter encode st' ps final with Some r => Some (o ++ r) | None => None end
      | None => None
      end
  end.

(** ** Addresses *)

(** GMime's InternetAddress (external): a mailbox with its display name, or a group. *)
Inductive address :=
| Mailbox (name : option bytes) (addr : bytes)
| Group (members : list address).
(** GMimeAddressType (GMime). *)
Inductive rtype := RTo | RCc | RBcc.
(** an address with its header (GMime). *)
Record recipient := { r_type : rtype; r_name : option bytes; r_addr : bytes }.
(** user.primary_email and the values of user.other_email. *)
Record accounts := { a_primary : bytes; a_other : list bytes }.

(** External: strcasecmp (a, b) == 0; strncasecmp (a, b, n) with n the length of [b]. *)
Fixpoint strcaseeq (a b : bytes) : bool :=
  match a, b with
  | [], [] => true
  | x :: a', y :: b' => beq (tolower x) (tolower y) && strcaseeq a' b'
  | _, _ => false
  end.
(** strncasecmp (C library), notmuch-reply.c:608. *)
Fixpoint case_prefix (p s : bytes) : bool :=
  match p, s with
  | [], _ => true
  | x :: p', y :: s' => beq (tolower x) (tolower y) && case_prefix p' s'
  | _ :: _, [] => false
  end.
(** External: strcasestr (s, p) != NULL. *)
Fixpoint strcasestr (s p : bytes) : bool :=
  case_prefix p s || match s with [] => false | _ :: s' => strcasestr s' p end.
(** External: strstr (s, p): the rest of [s] from the first occurrence on. *)
Fixpoint strstr (s p : bytes) : option bytes :=
  if starts_with p s then Some s else match s with [] => None | _ :: s' => strstr s' p end.

(** notmuch-reply.c:90-94. *)
Inductive address_match_t := USER_ADDRESS_IN_STRING | STRING_IN_USER_ADDRESS | STRING_IS_USER_ADDRESS.
(** notmuch-reply.c:97-110 [match_address]. *)
Definition match_address (str address : bytes) (mode : address_match_t) : bool :=
  match mode with
  | USER_ADDRESS_IN_STRING => strcasestr str address
  | STRING_IN_USER_ADDRESS => strcasestr address str
  | STRING_IS_USER_ADDRESS => strcaseeq address str
  end.
(** notmuch-reply.c:114-136 [address_match]; [None] for [str] is NULL. *)
Definition address_match (u : accounts) (str : option bytes) (mode : address_match_t) : option bytes :=
  match str with
  | None | Some [] => None
  | Some s => if match_address s (a_primary u) mode then Some (a_primary u)
              else find (fun addr => match_address s addr mode) (a_other u)
  end.
(** notmuch-reply.c:141-162. *)
Definition user_address_in_string (u : accounts) (str : option bytes) := address_match u str USER_ADDRESS_IN_STRING.
(** [string_in_user_address]: as above, notmuch-reply.c:141-162. *)
Definition string_in_user_address (u : accounts) (str : option bytes) := address_match u str STRING_IN_USER_ADDRESS.
(** [address_is_users]: as above, notmuch-reply.c:141-162. *)
Definition address_is_users (u : accounts) (addr : bytes) : bool :=
  match address_match u (Some addr) STRING_IS_USER_ADDRESS with Some _ => true | None => false end.

(** The reply under construction, *user_from and the number of added addresses. *)
Record scan := { s_reply : list recipient; s_from : option bytes; s_n : nat }.
(** notmuch-reply.c:177-221 [scan_address_list]; [None] for [message] is NULL, else the type
    is given.  (The count of the recursive call is added to the caller's: one counter.) *)
Fixpoint scan_address (u : accounts) (message : option rtype) (a : address) (st : scan) : scan :=
  match a with
  | Group members => fold_left (fun st x => scan_address u message x st) members st
  | Mailbox name addr =>
      if address_is_users u addr then
        match s_from st with
        | None => {| s_reply := s_reply st; s_from := Some addr; s_n := s_n st |}
        | Some _ => st
        end
      else match message with
           | Some ty => {| s_reply := s_reply st ++ [{| r_type := ty; r_name := name; r_addr := addr |}];
                           s_from := s_from st; s_n := S (s_n st) |}
           | None => st
           end
  end.
(** [scan_address_list]: as above, notmuch-reply.c:177-221. *)
Definition scan_address_list (u : accounts) (message : option rtype) (l : list address) (st : scan) : scan :=
  fold_left (fun st x => scan_address u message x st) l st.

(** The headers of the original message, as parsed by GMime. *)
Record mime := {
  m_reply_to : list address; m_from : list address;
  m_to : list address; m_cc : list address; m_bcc : list address;
  m_subject : option bytes
}.
(** External: g_mime_message_get_all_recipients. *)
Definition all_recipients (m : mime) : list address := m_to m ++ m_cc m ++ m_bcc m.
(** notmuch-reply.c:226-266 [reply_to_header_is_redundant]. *)
Definition reply_to_header_is_redundant (m : mime) (reply_to_list : list address) : bool :=
  match reply_to_list with
  | [Mailbox _ reply_to] =>
      existsb (fun a => match a with Group _ => false | Mailbox _ addr => bseq addr reply_to end) (all_recipients m)
  | _ => false
  end.
(** notmuch-reply.c:268-294 [get_sender]. *)
Definition get_sender (m : mime) : list address :=
  match m_reply_to m with
  | [] => m_from m
  | l => if reply_to_header_is_redundant m l then m_from m else l
  end.
(** notmuch-reply.c:332-340 reply_to_map. *)
Definition reply_to_map (m : mime) : list (list address * rtype) :=
  [(get_sender m, RTo); (m_to m, RTo); (m_cc m, RCc); (m_bcc m, RBcc)].
(** notmuch-reply.c:345-368: the loop; [have] tells whether [reply] is still non-NULL. *)
Fixpoint recipients_loop (u : accounts) (reply_all : bool) (hs : list (list address * rtype)) (have : bool) (st : scan)
  : bool * scan :=
  match hs with
  | [] => (have, st)
  | (l, ty) :: hs' =>
      let st := scan_address_list u (if have then Some ty else None) l st in
      if negb reply_all && (0 <? s_n st) then
        match s_from st with
        | Some _ => (false, st)
        | None => recipients_loop u reply_all hs' false st
        end
      else recipients_loop u reply_all hs' have st
  end.
(** notmuch-reply.c:326-379 [add_recipients_from_message]: the recipients and the user's
    address found; [None]: adding a recipient to a NULL reply. *)
Definition add_recipients_from_message (u : accounts) (m : mime) (reply_all : bool)
  : option (list recipient * option bytes) :=
  let '(have, st) := recipients_loop u reply_all (reply_to_map m) true {| s_reply := []; s_from := None; s_n := 0 |} in
  match s_n st, s_from st with
  | O, Some a =>
      if have then Some (s_reply st ++ [{| r_type := RTo; r_name := None; r_addr := a |}], s_from st) else None
  | _, _ => Some (s_reply st, s_from st)
  end.

(** ** Guessing the From address *)

(** notmuch-reply.c:387-397 [guess_from_in_received_for]. *)
Definition guess_from_in_received_for (u : accounts) (received : bytes) : option bytes :=
  match strstr received (lit " for ") with
  | None => None
  | Some ptr => user_address_in_string u (Some ptr)
  end.
(** [is_blank]: as above, notmuch-reply.c:387-397. *)
Definition is_blank (c : byte) : bool := beq c " "%char || beq c (chr 9).
(** External: strsep with the delimiter '.' on a text (the token has no blank left):
    all the parts, the empty ones too. *)
Fixpoint split_dots (cur : bytes) (s : bytes) : list bytes :=
  match s with
  | [] => [cur]
  | c :: s' => if beq c "."%char then cur :: split_dots [] s' else split_dots (cur ++ [c]) s'
  end.
(** notmuch-reply.c:432-438 and 448: [domain] and [tld] are the last two non-empty parts.
    strsep has overwritten the dots by NUL; writing a dot at tld - 1 joins the two only if
    exactly one dot stood between them ([adj]); [gap]: an empty part followed [tld]. *)
Fixpoint last_two (parts : list bytes) (domain tld : option bytes) (gap adj : bool) : option bytes :=
  match parts with
  | [] => match domain, tld with
          | Some d, Some t => Some (if adj then d ++ "."%char :: t else d)
          | _, _ => None
          end
  | [] :: r => last_two r domain tld true adj
  | p :: r => last_two r tld (Some p) false (negb gap)
  end.
(** notmuch-reply.c:422-427: the first word; [None]: strtok finds none. *)
Definition first_word (s : bytes) : option bytes :=
  match takewhile (fun c => negb (is_blank c)) (dropwhile is_blank s) with [] => None | w => Some w end.
(** notmuch-reply.c:411-460 [guess_from_in_received_by]. *)
Fixpoint received_by (fuel : nat) (u : accounts) (by_ : bytes) : option bytes :=
  match fuel with
  | O => None
  | S f =>
      match strstr by_ (lit " by ") with
      | None => None
      | Some at_by =>
          let by_ := skipn 4 at_by in
          match by_ with
          | [] => None
          | _ =>
              match first_word by_ with
              | None => None
              | Some token =>
                  match last_two (split_dots [] token) None None false false with
                  | Some d => match string_in_user_address u (Some d) with
                              | Some addr => Some addr
                              | None => received_by f u by_
                              end
                  | None => received_by f u by_
                  end
              end
          end
      end
  end.
(** [guess_from_in_received_by]: as above, notmuch-reply.c:411-460. *)
Definition guess_from_in_received_by (u : accounts) (received : bytes) : option bytes :=
  received_by (S (length received)) u received.
(** notmuch-reply.c:472-495 [guess_from_in_received_headers]; the header as returned by
    notmuch_message_get_header. *)
Definition guess_from_in_received_headers (u : accounts) (received : option bytes) : option bytes :=
  match received with
  | None => None
  | Some r =>
      let s := sanitize_string r in
      match guess_from_in_received_for u s with
      | Some a => Some a
      | None => guess_from_in_received_by u s
      end
  end.
(** notmuch-reply.c:507-530 [get_from_in_to_headers]. *)
Definition to_headers : list bytes := [lit "Envelope-to"; lit "X-Original-To"; lit "Delivered-To"].
(** [first_some]: as above, notmuch-reply.c:507-530. *)
Fixpoint first_some {A B} (f : A -> option B) (l : list A) : option B :=
  match l with [] => None | x :: r => match f x with Some y => Some y | None => first_some f r end end.
(** [get_from_in_to_headers]: as above, notmuch-reply.c:507-530. *)
Definition get_from_in_to_headers (u : accounts) (get_header : bytes -> option bytes) : option bytes :=
  first_some (fun h => user_address_in_string u (get_header h)) to_headers.

(** ** The reply *)
Record reply := {
  y_in_reply_to : bytes; y_references : bytes; y_recipients : list recipient;
  y_from : option bytes; y_subject : option bytes
}.
(** The original message: its id, its headers as notmuch_message_get_header gives them, and
    the parsed message. *)
Record original := { o_id : bytes; o_header : bytes -> option bytes; o_mime : mime }.
(** notmuch-reply.c:532-614 [create_reply_message].  [None]: see add_recipients_from_message. *)
Definition create_reply_message (u : accounts) (user_name : bytes) (o : original) (reply_all limited : bool)
  : option reply :=
  let in_reply_to := lit "<" ++ o_id o ++ lit ">" in
  let references :=
    match o_header o (lit "references") with
    | Some ((_ :: _) as r) => r ++ lit " " ++ in_reply_to
    | _ => in_reply_to
    end in
  match add_recipients_from_message u (o_mime o) reply_all with
  | None => None
  | Some (rs, from_addr) =>
      if limited then
        Some {| y_in_reply_to := in_reply_to; y_references := references; y_recipients := rs;
                y_from := None; y_subject := None |}
      else
        let from_addr := match from_addr with Some a => Some a | None => get_from_in_to_headers u (o_header o) end in
        let from_addr := match from_addr with
                         | Some a => Some a
                         | None => guess_from_in_received_headers u (o_header o (lit "received"))
                         end in
        let from_addr := match from_addr with Some a => a | None => a_primary u end in
        let subject := match m_subject (o_mime o) with
                       | None => None
                       | Some s => Some (if case_prefix (lit "Re:") s then s else lit "Re: " ++ s)
                       end in
        Some {| y_in_reply_to := in_reply_to; y_references := references; y_recipients := rs;
                y_from := Some (user_name ++ lit " <" ++ from_addr ++ lit ">"); y_subject := subject |}
  end.
