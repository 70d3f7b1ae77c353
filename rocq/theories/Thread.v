(** Model of lib/thread.cc 76-395 and 525-668: the summary data of a thread (authors,
    subject, tags, counts, dates) and _notmuch_thread_create.  The reply tree is in
    ThreadTree.v.  GMime's address parsing and the reading of headers are represented by
    the fields of the document (XQuery.v). *)
From Verif Require Import Bytes Terms XQuery DocSet.

(** notmuch_exclude_t, lib/notmuch.h. *)
Inductive omit_mode := EXCLUDE_FALSE | EXCLUDE_TRUE | EXCLUDE_FLAG | EXCLUDE_ALL.
(** notmuch_sort_t, lib/notmuch.h. *)
Inductive sort_mode := SORT_OLDEST_FIRST | SORT_NEWEST_FIRST | SORT_MESSAGE_ID | SORT_UNSORTED.

(** a message in the thread's message_list, with its two flags and its author string. *)
Record tmember := mk_tmember {
  mb_doc : xdoc; mb_excluded : bool; mb_match : bool; mb_author : option bytes
}.

(** struct _notmuch_thread, lib/thread.cc:34-58. *)
Record thread := mk_thread {
  th_id : bytes;
  th_subject : option bytes;              (* NULL until the first message is added *)
  th_authors : list bytes;                (* authors_array (authors_hash has the same strings) *)
  th_matched_authors : list bytes;        (* matched_authors_array *)
  th_tags : list bytes;                   (* keys of the hash, sorted as get_tags returns them *)
  th_messages : list tmember;             (* message_list *)
  th_total : nat; th_files : nat; th_matched : nat;
  th_oldest : Z; th_newest : Z
}.

(** notmuch_message_get_tags: the terms with prefix K, without it (tags.c; sorted). *)
Fixpoint doc_tags (ts : list bytes) : list bytes :=
  match ts with
  | [] => []
  | t :: ts' => match strip_prefix (lit "K") t with
                | Some tag => tag :: doc_tags ts'
                | None => doc_tags ts'
                end
  end.

(** _thread_add_author / _thread_add_matched_author, thread.cc:79-122. *)
Definition add_author (author : option bytes) (l : list bytes) : list bytes :=
  match author with
  | None => l
  | Some a => if existsb (bseq a) l then l else l ++ [a]
  end.

(** the author loops of _resolve_thread_authors_string, thread.cc:127-171.  With no
    matched author the first "%s" receives NULL; glibc prints "(null)". *)
Fixpoint join_matched (acc : option bytes) (l : list bytes) : option bytes :=
  match l with
  | [] => acc
  | a :: l' => join_matched (Some (match acc with Some s => s ++ lit ", " ++ a | None => a end)) l'
  end.
(** [null_s]: as above, thread.cc:127-171. *)
Definition null_s (s : option bytes) : bytes := match s with Some s => s | None => lit "(null)" end.
(** [join_others]: as above, thread.cc:127-171. *)
Fixpoint join_others (matched : list bytes) (first : bool) (acc : option bytes) (l : list bytes) : option bytes :=
  match l with
  | [] => acc
  | a :: l' =>
      if existsb (bseq a) matched then join_others matched first acc l'
      else join_others matched false
             (Some (null_s acc ++ (if first then lit "| " else lit ", ") ++ a)) l'
  end.
(** [authors_string]: as above, thread.cc:127-171. *)
Definition authors_string (t : thread) : bytes :=
  match join_others (th_matched_authors t) true (join_matched None (th_matched_authors t)) (th_authors t) with
  | Some s => s
  | None => []
  end.

(** strcasestr(3), C locale. *)
Fixpoint ci_prefix (p s : bytes) : bool :=
  match p, s with
  | [], _ => true
  | _ :: _, [] => false
  | a :: p', b :: s' => beq (tolower a) (tolower b) && ci_prefix p' s'
  end.
(** strcasestr (C library), lib/thread.cc:225. *)
Fixpoint strcasestr (h n : bytes) : bool :=
  ci_prefix n h || match h with [] => false | _ :: h' => strcasestr h' n end.

(** _thread_cleanup_author, thread.cc:180-231.  [lname] characters before the comma, then
    the comma, then blanks, then [fname] characters; the result "first last" has
    fname + 1 + lname characters, at most the length of the original, so the strncpy's
    stay within the copy that was made of it. *)
Definition is_comma (c : byte) : bool := beq c ","%char.
(** [is_blank]: as above, thread.cc:180-231. *)
Definition is_blank (c : byte) : bool := beq c " "%char.
(** [cleanup_author]: as above, thread.cc:180-231. *)
Definition cleanup_author (author from : bytes) : bytes :=
  match dropwhile (fun c => negb (is_comma c)) author with
  | [] => author                                     (* no comma *)
  | _ :: [] => author                                (* strlen (comma) = 1 *)
  | _ :: after =>
      let last := takewhile (fun c => negb (is_comma c)) author in
      let first := dropwhile is_blank after in
      let clean := first ++ lit " " ++ last in
      let test := map (fun c => if is_blank c then "."%char else c) clean in
      if strcasestr from test then clean else author
  end.

(** the exclusion test of _thread_add_message, thread.cc:250-266. *)
Definition message_excluded (omit : omit_mode) (exclude_terms : list bytes) (d : xdoc) : bool :=
  match omit with
  | EXCLUDE_FALSE => false
  | _ => existsb (fun tag => existsb (fun term => match term with
                                                  | [] => false
                                                  | _ :: term' => bseq tag term'
                                                  end) exclude_terms)
                 (doc_tags (xd_terms d))
  end.

(** _thread_add_message, thread.cc:238-319. *)
Definition thread_add_message (omit : omit_mode) (exclude_terms : list bytes) (t : thread) (d : xdoc) : thread :=
  let excluded := message_excluded omit exclude_terms d in
  match excluded, omit with
  | true, EXCLUDE_ALL => t
  | _, _ =>
      let author := match xd_from d, xd_author d with
                    | Some from, Some a => Some (cleanup_author a from)
                    | _, _ => None
                    end in
      {| th_id := th_id t;
         th_subject := match th_subject t with
                       | None => Some (match xd_subject d with Some s => s | None => [] end)
                       | Some s => Some s
                       end;
         th_authors := add_author author (th_authors t);
         th_matched_authors := th_matched_authors t;
         th_tags := fold_left (fun ts tag => tadd tag ts) (doc_tags (xd_terms d)) (th_tags t);
         th_messages := th_messages t ++ [mk_tmember d excluded false author];
         th_total := S (th_total t);
         th_files := (th_files t + xd_files d)%nat;
         th_matched := th_matched t;
         th_oldest := th_oldest t; th_newest := th_newest t |}
  end.

(** strncasecmp (subject, "Re: ", 4) == 0 etc., thread.cc:332-335. *)
Definition has_reply_prefix (subject : bytes) : bool :=
  ci_prefix (lit "Re: ") subject || ci_prefix (lit "Aw: ") subject ||
  ci_prefix (lit "Vs: ") subject || ci_prefix (lit "Sv: ") subject.
(** [clean_subject]: as above, thread.cc:332-335. *)
Definition clean_subject (subject : bytes) : bytes :=
  if has_reply_prefix subject then skipn 4 subject else subject.

(** _thread_set_subject_from_message, thread.cc:321-350. *)
Definition set_subject (t : thread) (s : bytes) : thread :=
  {| th_id := th_id t; th_subject := Some s; th_authors := th_authors t;
     th_matched_authors := th_matched_authors t; th_tags := th_tags t; th_messages := th_messages t;
     th_total := th_total t; th_files := th_files t; th_matched := th_matched t;
     th_oldest := th_oldest t; th_newest := th_newest t |}.
(** [set_subject_from_message]: as above, thread.cc:321-350. *)
Definition set_subject_from_message (t : thread) (d : xdoc) : thread :=
  match xd_subject d with
  | None => t
  | Some subject => match clean_subject subject with
                    | [] => t
                    | c :: s => set_subject t (c :: s)
                    end
  end.

(** record updates used by _thread_add_matched_message. *)
Definition set_oldest (t : thread) (z : Z) : thread :=
  {| th_id := th_id t; th_subject := th_subject t; th_authors := th_authors t;
     th_matched_authors := th_matched_authors t; th_tags := th_tags t; th_messages := th_messages t;
     th_total := th_total t; th_files := th_files t; th_matched := th_matched t;
     th_oldest := z; th_newest := th_newest t |}.
(** record update of newest. *)
Definition set_newest (t : thread) (z : Z) : thread :=
  {| th_id := th_id t; th_subject := th_subject t; th_authors := th_authors t;
     th_matched_authors := th_matched_authors t; th_tags := th_tags t; th_messages := th_messages t;
     th_total := th_total t; th_files := th_files t; th_matched := th_matched t;
     th_oldest := th_oldest t; th_newest := z |}.

(** the entry of message_hash for an id: the last message added with it. *)
Fixpoint hashed (l : list tmember) (id : bytes) : option tmember :=
  match l with
  | [] => None
  | m :: l' => match hashed l' id with
               | Some x => Some x
               | None => if bseq (xd_mid (mb_doc m)) id then Some m else None
               end
  end.
(** set NOTMUCH_MESSAGE_FLAG_MATCH on that entry. *)
Fixpoint flag_match (l : list tmember) (id : bytes) : list tmember :=
  match l with
  | [] => []
  | m :: l' => match hashed l' id with
               | Some _ => m :: flag_match l' id
               | None => (if bseq (xd_mid (mb_doc m)) id
                          then mk_tmember (mb_doc m) (mb_excluded m) true (mb_author m) else m) :: l'
               end
  end.

(** sort == NOTMUCH_SORT_OLDEST_FIRST. *)
Definition is_oldest_first (s : sort_mode) : bool := match s with SORT_OLDEST_FIRST => true | _ => false end.
(** EMPTY_STRING, lib/notmuch-private.h:722. *)
Definition empty_string (s : option bytes) : bool := match s with None | Some [] => true | Some (_ :: _) => false end.

(** _thread_add_matched_message, thread.cc:357-395; [None]: the read of the uninitialised
    hashed_message (when the id is not in the hash). [excl] is the EXCLUDED flag of the
    message object. *)
Definition thread_add_matched_message (t : thread) (d : xdoc) (excl : bool) (sort : sort_mode) : option thread :=
  let date := xd_date d in
  let t := if (date <? th_oldest t)%Z || Nat.eqb (th_matched t) 0
           then let t := set_oldest t date in
                if is_oldest_first sort then set_subject_from_message t d else t
           else t in
  let t := if (th_newest t <? date)%Z || Nat.eqb (th_matched t) 0
           then let t := set_newest t date in
                if negb (is_oldest_first sort) || empty_string (th_subject t)
                then set_subject_from_message t d else t
           else t in
  match hashed (th_messages t) (xd_mid d) with
  | None => None
  | Some h =>
      Some {| th_id := th_id t; th_subject := th_subject t; th_authors := th_authors t;
              th_matched_authors := add_author (mb_author h) (th_matched_authors t);
              th_tags := th_tags t;
              th_messages := flag_match (th_messages t) (xd_mid d);
              th_total := th_total t; th_files := th_files t;
              th_matched := if excl then th_matched t else S (th_matched t);
              th_oldest := th_oldest t; th_newest := th_newest t |}
  end.

(** the loop of _notmuch_thread_create, thread.cc:621-642. *)
Fixpoint create_loop (omit : omit_mode) (exclude_terms : list bytes) (sort : sort_mode)
                     (docs : list xdoc) (t : thread) (set : docset) : option (thread * docset) :=
  match docs with
  | [] => Some (t, set)
  | d :: docs' =>
      let t := thread_add_message omit exclude_terms t d in
      match ds_contains set (xd_id d) with
      | None => None
      | Some true =>
          match ds_remove set (xd_id d) with
          | None => None
          | Some set =>
              let excl := message_excluded omit exclude_terms d &&
                          negb (match omit with EXCLUDE_ALL => true | _ => false end) in
              match thread_add_matched_message t d excl sort with
              | None => None
              | Some t => create_loop omit exclude_terms sort docs' t set
              end
          end
      | Some false => create_loop omit exclude_terms sort docs' t set
      end
  end.

(** notmuch_message_get_thread_id: the (first) term with prefix G, message.cc:591-604;
    INTERNAL_ERROR (None) without one. *)
Fixpoint doc_thread (ts : list bytes) : option bytes :=
  match ts with
  | [] => None
  | t :: ts' => match strip_prefix (lit "G") t with
                | Some tid => Some tid
                | None => doc_thread ts'
                end
  end.

(** the fields as initialised in _notmuch_thread_create, lib/thread.cc:540-654. *)
Definition thread_init (tid : bytes) : thread :=
  mk_thread tid None [] [] [] [] 0 0 0 0 0.

(** get_document (Xapian). *)
Definition find_doc (db : list xdoc) (id : N) : option xdoc := find (fun d => N.eqb (xd_id d) id) db.

(** order by TIMESTAMP value (Xapian). *)
Definition le_date (a b : xdoc) : bool := (xd_date a <=? xd_date b)%Z.

(** _notmuch_thread_create, thread.cc:543-646: the query "thread:ID" (a boolean prefix: the
    term G<ID>) has no exclude terms, so its result is every mail document with that term,
    oldest first.  (Sorting by timestamp value: get_mset.) *)
Definition thread_docs (db : list xdoc) (tid : bytes) : list xdoc :=
  get_mset db (XOp OP_AND (XTerm (lit "Tmail")) (XTerm (lit "G" ++ tid))) le_date.
(** [thread_create]: as above, thread.cc:543-646. *)
Definition thread_create (db : list xdoc) (omit : omit_mode) (exclude_terms : list bytes) (sort : sort_mode)
                         (seed : N) (set : docset) : option (thread * docset) :=
  match find_doc db seed with
  | None => None                                     (* INTERNAL_ERROR, 566 *)
  | Some sd =>
      match doc_thread (xd_terms sd) with
      | None => None
      | Some tid => create_loop omit exclude_terms sort (thread_docs db tid) (thread_init tid) set
      end
  end.
