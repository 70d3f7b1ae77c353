(** Model of lib/regexp-fields.cc: searching a field with a regular expression.

    External, as parameters or definitions: regcomp/regexec of the C library, Xapian's value
    streams and list of all terms, and Xapian's query parser for the values that are handed
    back to it. *)
From Verif Require Import Bytes Terms Meta.
Local Open Scope N_scope.

(** A document: its id, its terms and its value slots (slot number -> value; Xapian does not
    tell an empty value from a missing one: Document::add_value with an empty string removes
    the value). *)
Record rdoc := mk_rdoc { rd_id : N; rd_terms : list bytes; rd_value : N -> bytes }.

(** lib/notmuch-private.h:100-107, the slots. *)
Definition VALUE_MESSAGE_ID : N := 1.
(** [VALUE_FROM]: as above, lib/notmuch-private.h:100-107. *)
Definition VALUE_FROM : N := 2.
(** [VALUE_SUBJECT]: as above, lib/notmuch-private.h:100-107. *)
Definition VALUE_SUBJECT : N := 3.

(** std::string::c_str handed to a C function: what it sees ends at the first NUL. *)
Fixpoint c_str (s : bytes) : bytes :=
  match s with [] => [] | c :: s' => if beq c NUL then [] else c :: c_str s' end.

(** Xapian::ValueIterator (external).  [At l]: the remaining entries, the current one first;
    [At []] is the end.  [Between l]: the position is indeterminate (after check answered
    no), and [l] are the entries after the document that was asked for. *)
Inductive pos := At (l : list (N * bytes)) | Between (l : list (N * bytes)).
(** skip_to of a value iterator (Xapian). *)
Fixpoint drop_below (did : N) (l : list (N * bytes)) : list (N * bytes) :=
  match l with [] => [] | e :: l' => if fst e <? did then drop_below did l' else l end.
(** the values still to come. *)
Definition rest (p : pos) : list (N * bytes) := match p with At l | Between l => l end.
(** Database::valuestream_begin (external): documents with a value, in ascending order. *)
Definition valuestream (slot : N) (db : list rdoc) : list (N * bytes) :=
  map (fun d => (rd_id d, rd_value d slot)) (filter (fun d => negb (bseq (rd_value d slot) [])) db).
(** operator++; at the end it is undefined ([None]). *)
Definition it_next (p : pos) : option pos :=
  match p with At [] => None | At (_ :: l) => Some (At l) | Between l => Some (At l) end.
(** skip_to; never moves backwards. *)
Definition it_skip_to (did : N) (p : pos) : pos := At (drop_below did (rest p)).
(** check: it may act like skip_to and answer true, or only look whether the document has a
    value: true and positioned there, or false and positioned nowhere.  [lazy]: whether it
    takes the second way. *)
Definition it_check (lazy : bool) (did : N) (p : pos) : bool * pos :=
  let l := drop_below did (rest p) in
  match l with
  | (d, _) :: _ => if lazy && negb (d =? did) then (false, Between l) else (true, At l)
  | [] => if lazy then (false, Between []) else (true, At [])
  end.

(** RegexpPostingSource (lib/regexp-fields.h:39-66): started_, it_. *)
Record source := mk_source { s_started : bool; s_it : pos }.

Section Exec.
Variable regexec : bytes -> bool. (** regexec (&regexp_, .., 0, NULL, 0) == 0 *)

(** lib/regexp-fields.cc:63-70 [init]. *)
Definition init (slot : N) (db : list rdoc) : source := mk_source false (At (valuestream slot db)).
(** lib/regexp-fields.cc:96-100 [at_end]: comparing iterators; an iterator between documents
    is not the end. *)
Definition at_end (s : source) : bool := match s_it s with At [] => true | _ => false end.
(** lib/regexp-fields.cc:90-94 [get_docid]; undefined at the end or between documents. *)
Definition get_docid (s : source) : option N := match s_it s with At (e :: _) => Some (fst e) | _ => None end.

(** lib/regexp-fields.cc:109-113 and 121-125, the loop of next and skip_to: *it_ of an
    iterator that is between documents would be undefined; it is never reached so. *)
Fixpoint scan (l : list (N * bytes)) : list (N * bytes) :=
  match l with [] => [] | e :: l' => if regexec (c_str (snd e)) then l else scan l' end.

(** lib/regexp-fields.cc:102-114 [next]. *)
Definition next (s : source) : option source :=
  match (if s_started s && negb (at_end s) then it_next (s_it s) else Some (s_it s)) with
  | Some (At l) => Some (mk_source true (At (scan l)))
  | _ => None
  end.
(** lib/regexp-fields.cc:116-126 [skip_to]. *)
Definition skip_to_doc (did : N) (s : source) : option source :=
  match it_skip_to did (s_it s) with
  | At l => Some (mk_source true (At (scan l)))
  | Between _ => None
  end.
(** lib/regexp-fields.cc:128-135 [check]. *)
Definition check (lazy : bool) (did : N) (s : source) : option (bool * source) :=
  match it_check lazy did (s_it s) with
  | (false, p) => Some (false, mk_source true p)
  | (true, At []) => Some (false, mk_source true (At []))
  | (true, At (e :: l)) => Some (regexec (c_str (snd e)), mk_source true (At (e :: l)))
  | (true, Between _) => None
  end.

(** The calls Xapian's matcher makes on a source, and what it learns: after next and skip_to
    it asks at_end and then get_docid; after a check that answered true, get_docid. *)
Inductive call := Next | SkipTo (did : N) | Check (did : N) (lazy : bool).
(** what a caller of the posting source sees. *)
Inductive answer := Document (d : N) | AtEnd | No.
(** at_end / get_docid, lib/regexp-fields.cc:90-100. *)
Definition where_now (s : source) : option answer :=
  if at_end s then Some AtEnd else match get_docid s with Some d => Some (Document d) | None => None end.
(** one call on the posting source. *)
Definition do_call (c : call) (s : source) : option (answer * source) :=
  match c with
  | Next => match next s with Some s' => match where_now s' with Some a => Some (a, s') | None => None end | None => None end
  | SkipTo did => match skip_to_doc did s with Some s' => match where_now s' with Some a => Some (a, s') | None => None end | None => None end
  | Check did lazy =>
      match check lazy did s with
      | Some (true, s') => match get_docid s' with Some d => Some (Document d, s') | None => None end
      | Some (false, s') => Some (No, s')
      | None => None
      end
  end.
(** a sequence of calls. *)
Fixpoint do_calls (cs : list call) (s : source) : option (list answer) :=
  match cs with
  | [] => Some []
  | c :: cs' => match do_call c s with
                | Some (a, s') => match do_calls cs' s' with Some l => Some (a :: l) | None => None end
                | None => None
                end
  end.

(** A query that consists of the source alone: the matcher calls next until the end.
    [fuel] bounds the number of calls. *)
Fixpoint drain (fuel : nat) (s : source) : option (list N) :=
  match fuel with
  | O => None
  | S f => match do_call Next s with
           | Some (Document d, s') => match drain f s' with Some l => Some (d :: l) | None => None end
           | Some (_, _) => Some []
           | None => None
           end
  end.
(** the documents Xapian reads from the source. *)
Definition source_docids (slot : N) (db : list rdoc) : option (list N) := drain (S (length db)) (init slot db).
End Exec.

(** Queries that the processor builds. *)
Inductive rq :=
| RTerm (t : bytes)                     (** Xapian::Query (term) *)
| ROr (ts : list bytes)                 (** OP_OR over terms; no terms: matches nothing *)
| RSource (slot : N) (re : bytes -> bool) (** Xapian::Query (postings) *)
| RAllButPrefix (p : bytes)             (** match-all AND_NOT wildcard p* *)
| RParsed (text p : bytes).             (** parse_query (text, flags, p) *)

(** lib/regexp-fields.cc:137-148 [_find_slot]; [None] is BAD_VALUENO. *)
Definition find_slot (field : bytes) : option N :=
  if bseq field (lit "from") then Some VALUE_FROM
  else if bseq field (lit "subject") then Some VALUE_SUBJECT
  else if bseq field (lit "mid") then Some VALUE_MESSAGE_ID
  else None.

(** lib/database-private.h, the flags of a field that matter here. *)
Record field_options := mk_options { probabilistic : bool }.

Section Build.
(** regcomp with REG_EXTENDED | REG_NOSUB: None is a compile error; otherwise the
    function regexec computes. *)
Variable regcomp : bytes -> option (bytes -> bool).

(** Xapian's Database::allterms_begin (prefix) (external): all terms of all documents that
    begin with the prefix (the order does not matter here). *)
Definition allterms (p : bytes) (db : list rdoc) : list bytes :=
  filter (starts_with p) (flat_map rd_terms db).

(** lib/regexp-fields.cc:163-196 [_notmuch_regexp_to_query]; the slot is looked up by the
    caller or here with the same function.  [None]: compile error (the message is left out).
    _find_prefix of a field is a string for every field that gets here. *)
Definition regexp_to_query (db : list rdoc) (field re : bytes) : option rq :=
  match regcomp (c_str re) with
  | None => None
  | Some regexec =>
      match find_slot field with
      | Some slot => Some (RSource slot regexec)
      | None => match find_prefix field with
                | None => None
                | Some p => Some (ROr (filter (fun t => regexec (c_str (skipn (length p) t))) (allterms p db)))
                end
      end
  end.

(** lib/regexp-fields.cc:198-252 [RegexpFieldProcessor::operator()]; [None]: an exception
    QueryParserError, that is, the query is refused. *)
Definition last_char (s : bytes) : ascii := last s NUL.
(** [processor]: as above, lib/regexp-fields.cc:198-252. *)
Definition processor (db : list rdoc) (field : bytes) (o : field_options) (str : bytes) : option rq :=
  match find_prefix field with
  | None => None
  | Some p =>
      match str with
      | [] => if probabilistic o then Some (RAllButPrefix p) else Some (RTerm p)
      | c :: _ =>
          if beq c "/" then
            if (1 <? N.of_nat (length str)) && beq (last_char str) "/"
            then regexp_to_query db field (firstn (length str - 2) (skipn 1 str))
            else None
          else if probabilistic o then
            Some (RParsed (if (negb (beq c "(") || negb (beq (last_char str) ")"))
                              && (negb (beq (last_char str) "*") || mem " " str)
                           then lit """" ++ str ++ lit """" else str) p)
          else
            Some (RTerm (p ++ (if (1 <? N.of_nat (length str)) && beq (last_char str) "/"
                               then firstn (length str - 1) str else str)))
      end
  end.
End Build.

(** lib/prefix.cc:30-78 and 132-157: the fields served by this processor. *)
Definition regexp_fields : list (bytes * field_options) :=
  [ (lit "tag", mk_options false); (lit "is", mk_options false); (lit "mid", mk_options false);
    (lit "path", mk_options false); (lit "folder", mk_options false);
    (lit "from", mk_options true); (lit "subject", mk_options true) ].

(** Which documents a query matches; [parsed]: the queries of Xapian's parser (external). *)
Definition rmatch (parsed : bytes -> bytes -> rdoc -> bool) (db : list rdoc) (q : rq) (d : rdoc) : bool :=
  match q with
  | RTerm t => tmem t (rd_terms d)
  | ROr ts => existsb (fun t => tmem t (rd_terms d)) ts
  | RSource slot re => match source_docids re slot db with Some l => existsb (N.eqb (rd_id d)) l | None => false end
  | RAllButPrefix p => negb (existsb (starts_with p) (rd_terms d))
  | RParsed text p => parsed text p d
  end.
