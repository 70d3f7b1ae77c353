(** The part of Xapian the searching code relies on (external, trusted): documents with
    terms and values, boolean queries and their matching, get_terms_begin, and result
    ordering.  Used by the models of lib/query.cc, lib/thread.cc and lib/parse-sexp.cc. *)
From Verif Require Import Bytes Terms.

(** A document of the database, with what the thread code reads of the message behind it:
    - xd_id: the document id; xd_terms: its terms;
    - xd_date: value NOTMUCH_VALUE_TIMESTAMP; xd_mid: value NOTMUCH_VALUE_MESSAGE_ID;
    - xd_from, xd_subject: notmuch_message_get_header of "from", "subject" (None = NULL);
    - xd_author: the first address of From as GMime parses it: the display name, or the
      address when the name is missing or empty (thread.cc:282-299; None = no address);
    - xd_files: notmuch_message_count_files;
    - xd_irt, xd_refs: In-Reply-To message id and References of the message. *)
Record xdoc := mk_xdoc {
  xd_id : N; xd_terms : list bytes; xd_date : Z; xd_mid : bytes;
  xd_from : option bytes; xd_author : option bytes; xd_subject : option bytes;
  xd_files : nat; xd_irt : option bytes; xd_refs : list bytes
}.

(** Xapian::Query: MatchAll, MatchNothing (also the default-constructed Query()), single
    terms, the binary boolean operators, and other leaves (phrases, wildcards, value
    ranges) given by the set of documents they match and the terms get_terms_begin lists
    for them. *)
Inductive xop := OP_AND | OP_OR | OP_AND_NOT.
(** a Xapian::Query tree (Xapian). *)
Inductive xq :=
| XAll
| XNone
| XTerm (t : bytes)
| XLeaf (terms : list bytes) (p : xdoc -> bool)
| XOp (op : xop) (a b : xq).

(** matching with BoolWeight. *)
Fixpoint xmatch (q : xq) (d : xdoc) : bool :=
  match q with
  | XAll => true
  | XNone => false
  | XTerm t => tmem t (xd_terms d)
  | XLeaf _ p => p d
  | XOp OP_AND a b => xmatch a d && xmatch b d
  | XOp OP_OR a b => xmatch a d || xmatch b d
  | XOp OP_AND_NOT a b => xmatch a d && negb (xmatch b d)
  end.

(** Query::get_terms_begin/end. *)
Fixpoint xterms (q : xq) : list bytes :=
  match q with
  | XAll | XNone => []
  | XTerm t => [t]
  | XLeaf ts _ => ts
  | XOp _ a b => xterms a ++ xterms b
  end.

(** Enquire::get_mset over the whole database: the matching documents, ordered by the sort
    key, equal keys in ascending document id order (the database lists documents in
    ascending id order).  [le a b]: a may come before b. *)
Fixpoint sort_ins (le : xdoc -> xdoc -> bool) (d : xdoc) (l : list xdoc) : list xdoc :=
  match l with
  | [] => [d]
  | e :: l' => if le d e then d :: l else e :: sort_ins le d l'
  end.
(** sorting of an MSet (Xapian). *)
Fixpoint sort_docs (le : xdoc -> xdoc -> bool) (l : list xdoc) : list xdoc :=
  match l with [] => [] | d :: l' => sort_ins le d (sort_docs le l') end.
(** Enquire::get_mset (Xapian). *)
Definition get_mset (db : list xdoc) (q : xq) (le : xdoc -> xdoc -> bool) : list xdoc :=
  sort_docs le (filter (xmatch q) db).
