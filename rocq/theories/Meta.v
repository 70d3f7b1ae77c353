(** Model of lib/prefix.cc's prefix table and of how message metadata is read back
    from the sorted term list of a document (lib/message.cc, lib/database.cc). *)
From Verif Require Import Bytes Terms.
Local Open Scope nat_scope.

(** lib/prefix.cc:30-79 [prefix_table]: (name, term prefix); [None] is NULL. *)
Definition prefix_table : list (bytes * option bytes) :=
  [ (lit "type", Some (lit "T"));
    (lit "reference", Some (lit "XREFERENCE"));
    (lit "replyto", Some (lit "XREPLYTO"));
    (lit "directory", Some (lit "XDIRECTORY"));
    (lit "file-direntry", Some (lit "XFDIRENTRY"));
    (lit "directory-direntry", Some (lit "XDDIRENTRY"));
    (lit "body", Some []);
    (lit "thread", Some (lit "G"));
    (lit "tag", Some (lit "K"));
    (lit "is", Some (lit "K"));
    (lit "id", Some (lit "Q"));
    (lit "mid", Some (lit "Q"));
    (lit "path", Some (lit "P"));
    (lit "property", Some (lit "XPROPERTY"));
    (lit "folder", Some (lit "XFOLDER:"));
    (lit "date", None);
    (lit "query", None);
    (lit "sexp", None);
    (lit "from", Some (lit "XFROM"));
    (lit "to", Some (lit "XTO"));
    (lit "attachment", Some (lit "XATTACHMENT"));
    (lit "mimetype", Some (lit "XMIMETYPE"));
    (lit "subject", Some (lit "XSUBJECT")) ].

(** lib/prefix.cc:86-99 [_find_prefix]; [None] covers the INTERNAL_ERROR case
    (unknown name) and the NULL prefixes. *)
Definition find_prefix (name : bytes) : option bytes :=
  match find (fun e => bseq name (fst e)) prefix_table with
  | Some (_, p) => p
  | None => None
  end.

(** The prefixes used below, as constants. *)
Definition thread_prefix := lit "G".
(** entry of the prefix table, lib/prefix.cc:30-78. *)
Definition tag_prefix := lit "K".
(** entry of the prefix table, lib/prefix.cc:30-78. *)
Definition id_prefix := lit "Q".
(** entry of the prefix table, lib/prefix.cc:30-78. *)
Definition type_prefix := lit "T".
(** entry of the prefix table, lib/prefix.cc:30-78. *)
Definition filename_prefix := lit "XFDIRENTRY".
(** entry of the prefix table, lib/prefix.cc:30-78. *)
Definition property_prefix := lit "XPROPERTY".
(** entry of the prefix table, lib/prefix.cc:30-78. *)
Definition reference_prefix := lit "XREFERENCE".
(** entry of the prefix table, lib/prefix.cc:30-78. *)
Definition replyto_prefix := lit "XREPLYTO".

(** Xapian::TermIterator::skip_to (external): advance to the first term >= the
    given one; never moves backwards.  An iterator is the remaining list. *)
Fixpoint skip_to (p : bytes) (i : list bytes) : list bytes :=
  match i with
  | [] => []
  | t :: i' => if bltb t p then skip_to p i' else i
  end.

(** lib/database.cc:1529-1550 [_notmuch_database_get_terms_with_prefix]: the loop
    after [skip_to]; returns the list and the final iterator. *)
Fixpoint terms_loop (p : bytes) (i : list bytes) : list bytes * list bytes :=
  match i with
  | [] => ([], [])
  | t :: i' =>
      match strip_prefix p t with
      | None => ([], i)
      | Some r => let '(l, e) := terms_loop p i' in (r :: l, e)
      end
  end.
(** [get_terms_with_prefix]: as above, lib/database.cc:1529-1550. *)
Definition get_terms_with_prefix (p : bytes) (i : list bytes) : list bytes * list bytes :=
  terms_loop p (skip_to p i).

(** lib/message.cc:311-342 [_notmuch_message_get_term]: value of the first term
    with the prefix; the iterator stays on it. *)
Definition get_term (p : bytes) (i : list bytes) : option bytes * list bytes :=
  let i := skip_to p i in
  match i with
  | [] => (None, i)
  | t :: _ => (strip_prefix p t, i)
  end.

(** What lib/message.cc:344-454 [_notmuch_message_ensure_metadata] caches, when
    nothing is cached yet.  [mt_ghost = None] is the INTERNAL_ERROR "Message
    without type term".  (The retry loop for DatabaseModifiedError and the
    [last_view] bookkeeping are not modelled; [_notmuch_string_list_sort] on the
    tag list is the identity on a sorted list and omitted.) *)
Record metadata := {
  mt_thread : option bytes;
  mt_tags : list bytes;
  mt_id : option bytes;
  mt_ghost : option bool;
  mt_filenames : list bytes;
  mt_properties : list bytes;
  mt_references : list bytes;
  mt_in_reply_to : bytes }.

(** lib/message.cc:344-456. *)
Definition ensure_metadata (terms : list bytes) : metadata :=
  let i := terms in
  let '(thread, i) := get_term thread_prefix i in
  let '(tags, i) := get_terms_with_prefix tag_prefix i in
  let '(id, i) := get_term id_prefix i in
  let i := skip_to type_prefix i in
  let ghost := match i with
               | t :: _ => if bseq t (lit "Tmail") then Some false
                           else if bseq t (lit "Tghost") then Some true else None
               | [] => None
               end in
  let '(files, i) := get_terms_with_prefix filename_prefix i in
  let '(props, i) := get_terms_with_prefix property_prefix i in
  let '(refs, i) := get_terms_with_prefix reference_prefix i in
  let '(irt, i) := get_term replyto_prefix i in
  {| mt_thread := thread; mt_tags := tags; mt_id := id; mt_ghost := ghost;
     mt_filenames := files; mt_properties := props; mt_references := refs;
     mt_in_reply_to := match irt with Some r => r | None => [] end |}.

(** lib/message.cc:1508-1539: the term added for (prefix, value). *)
Definition term_of (p v : bytes) : bytes := p ++ v.
(** [tag_term]: as above, lib/message.cc:1508-1539. *)
Definition tag_term (t : bytes) : bytes := term_of tag_prefix t.

(** notmuch_message_get_tags (lib/message.cc:1261-1284) on a term list. *)
Definition tags_of (terms : list bytes) : list bytes :=
  fst (get_terms_with_prefix tag_prefix terms).
