(** Model of the field processors of infix queries: "thread:" (lib/thread-fp.cc), "query:"
    (lib/query-fp.cc) and "sexp:" (lib/sexp-fp.cc), of the parsing of a query string
    (lib/query.cc:182-211) and of the cached parse of a query object (lib/query.cc:213-262).
    The grammar of infix queries is Xapian's: it is the parameter [f_grammar]. *)
From Verif Require Import Bytes Terms XQuery DocSet Thread Query Sexp.

(** the fields of lib/prefix.cc:30-78 modelled here. *)
Inductive pfield := Fthread | Fquery | Fsexp.

(** what Xapian's grammar makes of a query string: queries without a field of [pfield],
    uses of such a field with the text after the colon (quotes removed), and operators. *)
Inductive ast :=
| AQuery (q : xq)
| AField (f : pfield) (v : bytes)
| AOp (op : xop) (a b : ast).

(** the database and the external functions.
    - f_grammar: QueryParser::parse_query before field processing ([None]: it throws a
      Xapian::Error);
    Strings are C strings (no NUL).
    - f_config: notmuch_database_get_config (lib/config.cc:110-136): "" for a key that is
      not set ([None]: an error status);
    - f_sexp: _notmuch_sexp_string_to_xapian_query, modelled in Sexp.v ([None]: an error
      status).  SIMPLIFICATION: the use of infix queries inside it is not unfolded. *)
Record fdb := mk_fdb {
  f_docs : list xdoc;
  f_grammar : bytes -> option ast;
  f_config : bytes -> option bytes;
  f_sexp : bytes -> option xq
}.

(** a query, a Xapian::Error, another C++ exception (std::out_of_range), or a recursion
    that does not end (by running out of fuel). *)
Inductive fres := FOk (q : xq) | FErr | FThrow | FLoop.

(** _notmuch_query_expand with "thread", lib/query.cc:828-874 (see [query_expand] in Sexp.v). *)
Definition expand_thread (D : fdb) (q : xq) : xq :=
  or_terms (flat_map (fun d => filter (starts_with (lit "G")) (xd_terms d)) (filter (xmatch q) (f_docs D))).

(** the field processors are called while the string is parsed (Xapian), left to right. *)
Fixpoint apply_fields (proc : pfield -> bytes -> fres) (a : ast) : fres :=
  match a with
  | AQuery q => FOk q
  | AField f v => proc f v
  | AOp op a b =>
      match apply_fields proc a with
      | FOk x => match apply_fields proc b with FOk y => FOk (XOp op x y) | r => r end
      | r => r
      end
  end.
(** QueryParser::parse_query with the given processors (Xapian). *)
Definition parse_query (D : fdb) (proc : pfield -> bytes -> fres) (s : bytes) : fres :=
  match f_grammar D s with None => FErr | Some a => apply_fields proc a end.

(** _notmuch_query_string_to_xapian_query, lib/query.cc:182-211. *)
Definition string_to_query (D : fdb) (proc : pfield -> bytes -> fres) (s : bytes) : fres :=
  if bseq s [] || bseq s (lit "*") then FOk XAll else parse_query D proc s.

(** ThreadFieldProcessor::operator(), lib/thread-fp.cc:28-58.  str.at (0) of an empty
    string throws std::out_of_range. *)
Definition thread_field (D : fdb) (proc : pfield -> bytes -> fres) (str : bytes) : fres :=
  match str with
  | [] => FThrow
  | c :: rest =>
      if beq c "{"%char then
        if (Nat.leb (length str) 1) || negb (beq (last str NUL) "}"%char) then FErr
        else match string_to_query D proc (removelast rest) with
             | FOk subquery => FOk (expand_thread D subquery)
             | r => r
             end
      else FOk (XTerm (lit "G" ++ str))
  end.

(** _notmuch_query_name_to_query and QueryFieldProcessor::operator(),
    lib/query-fp.cc:27-58. *)
Definition query_field (D : fdb) (proc : pfield -> bytes -> fres) (name : bytes) : fres :=
  match f_config D (lit "query." ++ name) with
  | None => FErr
  | Some expansion => parse_query D proc expansion
  end.

(** SexpFieldProcessor::operator(), lib/sexp-fp.cc:27-45. *)
Definition sexp_field (D : fdb) (str : bytes) : fres :=
  match f_sexp D str with None => FErr | Some q => FOk q end.

(** the processors, which call the parser again; [fuel] bounds the nesting. *)
Fixpoint process (fuel : nat) (D : fdb) (f : pfield) (v : bytes) : fres :=
  match fuel with
  | O => FLoop
  | S n =>
      match f with
      | Fthread => thread_field D (process n D) v
      | Fquery => query_field D (process n D) v
      | Fsexp => sexp_field D v
      end
  end.
(** parsing the string of a query (lib/query.cc:213-229). *)
Definition parse_string (fuel : nat) (D : fdb) (s : bytes) : fres := string_to_query D (process fuel D) s.

(** a query object as far as parsing goes: the syntax, the string, whether it counts as
    parsed, and the parsed query (lib/query.cc:27-37, 89-122). *)
Record qobj := mk_qobj { o_sexp : bool; o_string : bytes; o_parsed : bool; o_xapian : xq }.
(** a new query object (notmuch_query_create_with_syntax, lib/query.cc:141-167). *)
Definition new_query (sexp : bool) (s : bytes) : qobj := mk_qobj sexp s false XNone.
(** _notmuch_query_ensure_parsed, lib/query.cc:250-262, with ensure_parsed_xapian
    (213-229) and ensure_parsed_sexpr (232-247), which leaves query->parsed false.
    [None]: an error status, or an exception.
    On an error the Xapian query of the object is left as it was. *)
Definition ensure_parsed (fuel : nat) (D : fdb) (o : qobj) : option xq * qobj :=
  if o_parsed o then (Some (o_xapian o), o)
  else if o_sexp o then
    match f_sexp D (o_string o) with
    | Some q => (Some q, mk_qobj true (o_string o) false q)
    | None => (None, o)
    end
  else match parse_string fuel D (o_string o) with
       | FOk q => (Some q, mk_qobj false (o_string o) true q)
       | _ => (None, o)
       end.
(** notmuch_query_search_messages on the object (lib/query.cc:346-468), oldest first, no
    excluded tags. *)
Definition search_with (fuel : nat) (D : fdb) (o : qobj) : option (list xdoc) * qobj :=
  let '(p, o') := ensure_parsed fuel D o in
  (match search_messages (f_docs D) (configure p [] EXCLUDE_FALSE SORT_OLDEST_FIRST) with
   | Some m => Some (ms_docs m)
   | None => None
   end, o').
