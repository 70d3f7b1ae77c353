(** Model of lib/query.cc: exclusion of tags, searching and counting messages and threads.
    Parsing the query string is Xapian's (or parse-sexp.cc's); the model starts from the
    parsed query, or from the failure to parse. *)
From Verif Require Import Bytes Terms XQuery DocSet Thread.
Local Open Scope nat_scope.

(** struct _notmuch_query, query.cc:27-37.  [q_parse]: what
    _notmuch_query_ensure_parsed (query.cc:250-262) gives: None = an error status. *)
Record query := mk_query {
  q_parse : option xq;
  q_exclude : list bytes;
  q_omit : omit_mode;
  q_sort : sort_mode
}.

(** _notmuch_query_constructor, query.cc:89-122. *)
Definition query_create (parse : option xq) : query := mk_query parse [] EXCLUDE_TRUE SORT_NEWEST_FIRST.
(** notmuch_query_set_omit_excluded / notmuch_query_set_sort, query.cc:270-275. *)
Definition set_omit_excluded (q : query) (m : omit_mode) : query := mk_query (q_parse q) (q_exclude q) m (q_sort q).
(** [set_sort]: as above, query.cc:270-275. *)
Definition set_sort (q : query) (s : sort_mode) : query := mk_query (q_parse q) (q_exclude q) (q_omit q) s.

(** status of notmuch_query_add_tag_exclude, lib/query.cc:289-305. *)
Inductive exclude_status := EX_SUCCESS | EX_IGNORED | EX_ERROR.

(** notmuch_query_add_tag_exclude, query.cc:289-305; query->terms is the set of terms of
    the parsed query (_notmuch_query_cache_terms, 169-180). *)
Definition add_tag_exclude (q : query) (tag : bytes) : query * exclude_status :=
  match q_parse q with
  | None => (q, EX_ERROR)
  | Some x =>
      let term := lit "K" ++ tag in
      if tmem term (xterms x) then (q, EX_IGNORED)
      else (mk_query (q_parse q) (q_exclude q ++ [term]) (q_omit q) (q_sort q), EX_SUCCESS)
  end.

(** a client's configuration of a query: the tags it excludes in turn (notmuch-search.c:
    743-757 and notmuch-count.c:75-87 do exactly this), the mode and the order. *)
Definition configure (parse : option xq) (tags : list bytes) (m : omit_mode) (s : sort_mode) : query :=
  set_sort (set_omit_excluded (fold_left (fun q t => fst (add_tag_exclude q t)) tags (query_create parse)) m) s.

(** _notmuch_exclude_tags, query.cc:325-336. *)
Definition exclude_tags (q : query) : xq :=
  fold_left (fun x term => XOp OP_OR x (XTerm term)) (q_exclude q) XNone.

(** the ordering of query.cc:424-436 (get_mset breaks ties by document id); unsorted is
    document id order under BoolWeight. *)
Definition sort_le (s : sort_mode) : xdoc -> xdoc -> bool :=
  match s with
  | SORT_OLDEST_FIRST => le_date
  | SORT_NEWEST_FIRST => fun a b => (xd_date b <=? xd_date a)%Z
  | SORT_MESSAGE_ID => fun a b => bleb (xd_mid a) (xd_mid b)
  | SORT_UNSORTED => fun a b => N.leb (xd_id a) (xd_id b)
  end.

(** result of a message search: the documents in order, and excluded_doc_ids. *)
Record messages := mk_messages { ms_docs : list xdoc; ms_excluded : option docset }.

(** restriction to Tmail, lib/query.cc:353-468. *)
Definition mail_query (x : xq) : xq := XOp OP_AND (XTerm (lit "Tmail")) x.

(** _notmuch_query_search_documents with type "mail", query.cc:353-468.  [None]: an error
    status. *)
Definition search_messages (db : list xdoc) (q : query) : option messages :=
  match q_parse q with
  | None => None
  | Some x =>
      let final := mail_query x in
      match q_omit q with
      | EXCLUDE_FALSE => Some (mk_messages (get_mset db final (sort_le (q_sort q))) None)
      | EXCLUDE_TRUE | EXCLUDE_ALL =>
          Some (mk_messages (get_mset db (XOp OP_AND_NOT final (exclude_tags q)) (sort_le (q_sort q))) None)
      | EXCLUDE_FLAG =>
          let ex := XOp OP_AND (exclude_tags q) final in
          match ds_init (map xd_id (get_mset db ex (sort_le SORT_UNSORTED))) with
          | None => None
          | Some set => Some (mk_messages (get_mset db final (sort_le (q_sort q))) (Some set))
          end
      end
  end.

(** iterating over the result: _notmuch_mset_messages_get, query.cc:493-522, gives each
    message, with the EXCLUDED flag. *)
Definition message_flag (m : messages) (d : xdoc) : option bool :=
  match ms_excluded m with
  | None => Some false
  | Some set => ds_contains set (xd_id d)
  end.
(** [iterate_docs]: as above, query.cc:493-522. *)
Fixpoint iterate_docs (m : messages) (l : list xdoc) : option (list (xdoc * bool)) :=
  match l with
  | [] => Some []
  | d :: l' => match message_flag m d, iterate_docs m l' with
               | Some b, Some r => Some ((d, b) :: r)
               | _, _ => None
               end
  end.
(** [iterate_messages]: as above, query.cc:493-522. *)
Definition iterate_messages (m : messages) : option (list (xdoc * bool)) := iterate_docs m (ms_docs m).

(** _notmuch_query_count_documents with type "mail", query.cc:707-768: the exclusion is
    subtracted whatever the mode. *)
Definition count_messages (db : list xdoc) (q : query) : option nat :=
  match q_parse q with
  | None => None
  | Some x => Some (length (get_mset db (XOp OP_AND_NOT (mail_query x) (exclude_tags q)) (sort_le SORT_UNSORTED)))
  end.

(** struct _notmuch_threads, query.cc:54-64. *)
Record threads := mk_threads { t_query : query; t_ids : list N; t_pos : nat; t_set : docset }.

(** notmuch_query_search_threads, query.cc:596-636. *)
Definition search_threads (db : list xdoc) (q : query) : option threads :=
  match search_messages db q with
  | None => None
  | Some m =>
      let ids := map xd_id (ms_docs m) in
      match ds_init ids with
      | None => None
      | Some set => Some (mk_threads q ids 0 set)
      end
  end.

(** the loop of notmuch_threads_valid, query.cc:651-661, from position [pos] with the
    rest [ids] of the array; [None]: bitmap access out of bounds. *)
Fixpoint valid_from (ids : list N) (pos : nat) (set : docset) : option nat :=
  match ids with
  | [] => Some pos
  | id :: ids' =>
      match ds_contains set id with
      | None => None
      | Some true => Some pos
      | Some false => valid_from ids' (S pos) set
      end
  end.
(** notmuch_threads_valid, query.cc:644-662. *)
Definition threads_valid (t : threads) : option (bool * threads) :=
  match valid_from (skipn (t_pos t) (t_ids t)) (t_pos t) (t_set t) with
  | None => None
  | Some pos => Some (Nat.ltb pos (length (t_ids t)), mk_threads (t_query t) (t_ids t) pos (t_set t))
  end.
(** notmuch_threads_get, query.cc:664-681 (inner None: NULL, no more threads). *)
Definition threads_get (db : list xdoc) (t : threads) : option (option thread * threads) :=
  match threads_valid t with
  | None => None
  | Some (false, t) => Some (None, t)
  | Some (true, t) =>
      match nth_error (t_ids t) (t_pos t) with
      | None => None
      | Some id =>
          match thread_create db (q_omit (t_query t)) (q_exclude (t_query t)) (q_sort (t_query t)) id (t_set t) with
          | None => None
          | Some (th, set) => Some (Some th, mk_threads (t_query t) (t_ids t) (t_pos t) set)
          end
      end
  end.
(** notmuch_threads_move_to_next, query.cc:683-687. *)
Definition threads_next (t : threads) : threads := mk_threads (t_query t) (t_ids t) (S (t_pos t)) (t_set t).

(** the client loop: for (; notmuch_threads_valid (t); notmuch_threads_move_to_next (t))
    notmuch_threads_get (t), e.g. notmuch-search.c:128-135. *)
Fixpoint threads_loop (fuel : nat) (db : list xdoc) (t : threads) : option (list thread) :=
  match fuel with
  | O => None
  | S f =>
      match threads_valid t with
      | None => None
      | Some (false, _) => Some []
      | Some (true, t) =>
          match threads_get db t with
          | Some (Some th, t) =>
              match threads_loop f db (threads_next t) with
              | None => None
              | Some l => Some (th :: l)
              end
          | _ => None
          end
      end
  end.

(** notmuch_query_count_threads, query.cc:776-820: the number of distinct thread ids. *)
Fixpoint thread_ids (l : list xdoc) (hash : list bytes) : option (list bytes) :=
  match l with
  | [] => Some hash
  | d :: l' => match doc_thread (xd_terms d) with
               | None => None
               | Some tid => thread_ids l' (tadd tid hash)
               end
  end.
(** [count_threads]: as above, query.cc:776-820. *)
Definition count_threads (db : list xdoc) (q : query) : option nat :=
  match search_messages db (set_sort q SORT_UNSORTED) with
  | None => None
  | Some m => match thread_ids (ms_docs m) [] with
              | None => None
              | Some h => Some (length h)
              end
  end.
