(** Model of the layout of what notmuch search, address and reply print: notmuch-search.c:157-262
    (the summary of a thread, text and structured), 360-402, 567-598, 640-666, notmuch-reply.c:674-690.
    The structured output is given by the calls of the structure printer (Sprinter.v).

    The relative date (C66) is a function of the time. *)
From Verif Require Import Bytes StrUtil Decimal XQuery Thread Query Sprinter SearchCmd Address Mime ShowPart.
Local Open Scope nat_scope.

(** notmuch-search.c:174-179: the date shown. *)
Definition summary_date (oldest_first : bool) (t : thread) : Z := if oldest_first then th_oldest t else th_newest t.
(** notmuch-search.c:169: notmuch_thread_get_subject; NULL prints as "". *)
Definition subject_string (t : thread) : bytes := match th_subject t with Some s => s | None => [] end.
(** The messages with their ids and whether they match. *)
Definition members (t : thread) : list (bytes * bool) := map (fun m => (xd_mid (mb_doc m), mb_match m)) (th_messages t).
(** Null or a string: notmuch-search.c:223-231. *)
Definition str_or_null (o : option bytes) : op := match o with Some s => Str s | None => Null end.
(** notmuch-search.c:166-264: one thread, structured. *)
Definition summary_ops (version : nat) (oldest_first : bool) (relative : Z -> bytes) (t : thread) : list op :=
  let date := summary_date oldest_first t in
  [BeginMap; Key (lit "thread"); Str (th_id t); Key (lit "timestamp"); Int date; Key (lit "date_relative"); Str (relative date);
   Key (lit "matched"); Int (Z.of_nat (th_matched t)); Key (lit "total"); Int (Z.of_nat (th_total t));
   Key (lit "authors"); Str (authors_string t); Key (lit "subject"); Str (subject_string t)] ++
  (if 2 <=? version then
     let '(matched, unmatched) := get_thread_query (members t) None None in
     [Key (lit "query"); BeginList; str_or_null matched; str_or_null unmatched; End]
   else []) ++
  [Key (lit "tags"); BeginList] ++ map Str (th_tags t) ++ [End; End; Separator].
(** notmuch-search.c:145-271 [do_search_threads] with --output=summary, structured. *)
Definition search_summary_ops (version : nat) (oldest_first : bool) (relative : Z -> bytes) (ts : list thread) : list op :=
  BeginList :: flat_map (summary_ops version oldest_first relative) ts ++ [End].
(** notmuch-search.c:157-161, 582-584, 593-596, 651-662: the other outputs, structured. *)
Definition search_list_ops (items : list bytes) : list op := BeginList :: flat_map (fun s => [Str s; Separator]) items ++ [End].
(** notmuch-search.c:384-397 [print_mailbox], structured. *)
Definition mailbox_ops (name_addr : option bytes -> bytes -> bytes) (b : shown_box) : list op :=
  [BeginMap; Key (lit "name"); Str (cstr (p_name b)); Key (lit "address"); Str (p_addr b); Key (lit "name-addr"); Str (name_addr (p_name b) (p_addr b))] ++
  match p_count b with Some n => [Key (lit "count"); Int (Z.of_nat n)] | None => [] end ++ [End; Separator].
(** notmuch-search.c:562-628, for address, structured. *)
Definition address_ops (name_addr : option bytes -> bytes -> bytes) (l : list shown_box) : list op :=
  BeginList :: flat_map (mailbox_ops name_addr) l ++ [End].

(** printf's "%12s" (external). *)
Definition pad12 (s : bytes) : bytes := repeat " "%char (12 - length s) ++ s.
(** notmuch-search.c:181-200, 246-264 and sprinter-text.c: one thread as a line of text. *)
Definition summary_text (oldest_first : bool) (relative : Z -> bytes) (t : thread) : bytes :=
  lit "thread:" ++ th_id t ++ lit " " ++ pad12 (relative (summary_date oldest_first t)) ++ lit " " ++
  lit "[" ++ decz (Z.of_nat (th_matched t)) ++ lit "/" ++ decz (Z.of_nat (th_total t)) ++
  (if th_total t =? th_files t then [] else lit "(" ++ decz (Z.of_nat (th_files t)) ++ lit ")") ++
  lit "] " ++ sanitize_string (authors_string t) ++ lit "; " ++ sanitize_string (subject_string t) ++ lit " (" ++
  match th_tags t with [] => [] | x :: r => x ++ flat_map (fun t => lit " " ++ t) r end ++ lit ")" ++ [chr 10].
(** notmuch-search.c:145-271 with --output=summary as text. *)
Definition search_summary_text (oldest_first : bool) (relative : Z -> bytes) (ts : list thread) : bytes :=
  flat_map (summary_text oldest_first relative) ts.

(** notmuch-reply.c:674-688: the structured output of notmuch reply; [reply] are the headers of
    the new message, the rest is the original's. *)
Definition reply_ops (fuel : nat) (e : gmime) (c : cctx) (try : bool) (version : nat) (extra : list bytes) (duplicate : Z) (reply : hdrs) (msg : smsg) (h : hdrs) (body : obj)
  : option (list op) :=
  let o := {| so_version := version; so_body := true; so_html := false; so_duplicate := duplicate; so_extra := extra |} in
  match format_message fuel e c try o msg h body with
  | Some original => Some ([BeginMap; Key (lit "reply-headers")] ++ format_headers_sprinter o reply true None ++ [Key (lit "original")] ++ original ++ [End])
  | None => None
  end.
