(** Model of lib/parse-sexp.cc (s-expression queries) and of _notmuch_query_expand
    (lib/query.cc:828-874).  The reader of s-expressions (sfsexp's parse_sexp), stemming,
    word splitting and case folding (Xapian), regular expressions, infix queries and value
    ranges are parameters.

    Simplification: for the fields folder and path the code strips trailing slashes from
    the atom in place (parse-sexp.cc:602-603); the model strips a copy, so it does not show
    that a macro argument first used in such a field keeps its slash nowhere else. *)
From Verif Require Import Bytes Terms XQuery.

(** sexp_t: atoms (SEXP_VALUE; basic or quoted) and lists. *)
Inductive sexp := Atom (quoted : bool) (v : bytes) | SList (l : list sexp).

(** error statuses of lib/parse-sexp.cc. *)
Inductive estatus := BAD_QUERY_SYNTAX | OTHER_ERROR.
(** result of a translation: a query, an error status, an access through a NULL pointer, or
    (by running out of fuel) a recursion that does not end. *)
Inductive sres := SOk (q : xq) | SErr (e : estatus) | SCrash | SLoop.
(** result of the infix parser used by (infix ...). *)
Inductive lres := LOk (q : xq) | LErr (e : estatus).
(** status conversion, lib/parse-sexp.cc. *)
Definition of_lres (r : lres) : sres := match r with LOk q => SOk q | LErr e => SErr e end.

(** what notmuch_database_get_config gives for squery.NAME (parse-sexp.cc:463-484). *)
Inductive saved := NotSaved | SavedInvalid | Saved (s : sexp).

(** the database and the external functions. *)
Record sdb := mk_sdb {
  s_docs : list xdoc;
  s_saved : bytes -> saved;
  s_user : bytes -> option bytes;                 (* notmuch->user_prefix: name -> term prefix *)
  s_lower : bytes -> bytes;                       (* Xapian::Unicode::tolower *)
  s_is_word : bytes -> bool;                      (* unicode_word_utf8 *)
  s_stem : bytes -> bytes;                        (* Xapian::Stem *)
  s_words : bytes -> list bytes;                  (* the words of a phrase, parse-sexp.cc:167-185 *)
  s_phrase : list bytes -> xdoc -> bool;          (* OP_PHRASE *)
  s_regex : bytes -> bytes -> lres;               (* _notmuch_regexp_to_query, by field *)
  s_infix : bytes -> lres;                        (* query_parser->parse_query *)
  s_named : bytes -> lres;                        (* _notmuch_query_name_to_query *)
  s_range : bytes -> bytes -> bytes -> lres       (* date / lastmod, from, to *)
}.

(** _sexp_flag_t, parse-sexp.cc:24-37. *)
Inductive flag := F_FIELD | F_BOOLEAN | F_SINGLE | F_WILDCARD | F_REGEX | F_DO_REGEX | F_EXPAND | F_DO_EXPAND
                | F_ORPHAN | F_RANGE | F_PATHNAME.
(** [flag_eqb]: as above, parse-sexp.cc:24-37. *)
Definition flag_eqb (a b : flag) : bool :=
  match a, b with
  | F_FIELD, F_FIELD | F_BOOLEAN, F_BOOLEAN | F_SINGLE, F_SINGLE | F_WILDCARD, F_WILDCARD | F_REGEX, F_REGEX
  | F_DO_REGEX, F_DO_REGEX | F_EXPAND, F_EXPAND | F_DO_EXPAND, F_DO_EXPAND | F_ORPHAN, F_ORPHAN | F_RANGE, F_RANGE
  | F_PATHNAME, F_PATHNAME => true
  | _, _ => false
  end.
(** Xapian::Query::op values of the table. *)
Inductive sop := Invalid | Op (o : xop) | Wildcard.
(** _sexp_prefix_t, parse-sexp.cc:56-61. *)
Record prefix := mk_prefix { p_name : bytes; p_op : sop; p_initial : xq; p_flags : list flag }.
(** [has]: as above, parse-sexp.cc:56-61. *)
Definition has (p : prefix) (f : flag) : bool := existsb (flag_eqb f) (p_flags p).

(** parse-sexp.cc:63-120. *)
Definition prefixes : list prefix := [
  mk_prefix (lit "and") (Op OP_AND) XAll [];
  mk_prefix (lit "attachment") (Op OP_AND) XAll [F_FIELD; F_WILDCARD; F_EXPAND];
  mk_prefix (lit "body") (Op OP_AND) XAll [F_FIELD];
  mk_prefix (lit "date") Invalid XAll [F_RANGE];
  mk_prefix (lit "from") (Op OP_AND) XAll [F_FIELD; F_WILDCARD; F_REGEX; F_EXPAND];
  mk_prefix (lit "folder") (Op OP_OR) XNone [F_FIELD; F_BOOLEAN; F_WILDCARD; F_REGEX; F_EXPAND; F_PATHNAME];
  mk_prefix (lit "id") (Op OP_OR) XNone [F_FIELD; F_BOOLEAN; F_WILDCARD; F_REGEX];
  mk_prefix (lit "infix") Invalid XAll [F_SINGLE; F_ORPHAN];
  mk_prefix (lit "is") (Op OP_AND) XAll [F_FIELD; F_BOOLEAN; F_WILDCARD; F_REGEX; F_EXPAND];
  mk_prefix (lit "lastmod") Invalid XAll [F_RANGE];
  mk_prefix (lit "matching") (Op OP_AND) XAll [F_DO_EXPAND];
  mk_prefix (lit "mid") (Op OP_OR) XNone [F_FIELD; F_BOOLEAN; F_WILDCARD; F_REGEX];
  mk_prefix (lit "mimetype") (Op OP_AND) XAll [F_FIELD; F_WILDCARD; F_EXPAND];
  mk_prefix (lit "not") (Op OP_AND_NOT) XAll [];
  mk_prefix (lit "of") (Op OP_AND) XAll [F_DO_EXPAND];
  mk_prefix (lit "or") (Op OP_OR) XNone [];
  mk_prefix (lit "path") (Op OP_OR) XNone [F_FIELD; F_BOOLEAN; F_WILDCARD; F_REGEX; F_PATHNAME];
  mk_prefix (lit "property") (Op OP_AND) XAll [F_FIELD; F_BOOLEAN; F_WILDCARD; F_REGEX; F_EXPAND];
  mk_prefix (lit "query") Invalid XNone [F_SINGLE; F_ORPHAN];
  mk_prefix (lit "regex") Invalid XAll [F_SINGLE; F_DO_REGEX];
  mk_prefix (lit "rx") Invalid XAll [F_SINGLE; F_DO_REGEX];
  mk_prefix (lit "starts-with") Wildcard XAll [F_SINGLE];
  mk_prefix (lit "subject") (Op OP_AND) XAll [F_FIELD; F_WILDCARD; F_REGEX; F_EXPAND];
  mk_prefix (lit "tag") (Op OP_AND) XAll [F_FIELD; F_BOOLEAN; F_WILDCARD; F_REGEX; F_EXPAND];
  mk_prefix (lit "thread") (Op OP_OR) XNone [F_FIELD; F_BOOLEAN; F_WILDCARD; F_REGEX; F_EXPAND];
  mk_prefix (lit "to") (Op OP_AND) XAll [F_FIELD; F_WILDCARD; F_EXPAND] ].

(** the rows of prefix_table (lib/prefix.cc:30-78) for the fields above. *)
Definition term_prefixes : list (bytes * bytes) := [
  (lit "body", []); (lit "thread", lit "G"); (lit "tag", lit "K"); (lit "is", lit "K"); (lit "id", lit "Q");
  (lit "mid", lit "Q"); (lit "path", lit "P"); (lit "property", lit "XPROPERTY"); (lit "folder", lit "XFOLDER:");
  (lit "from", lit "XFROM"); (lit "to", lit "XTO"); (lit "attachment", lit "XATTACHMENT");
  (lit "mimetype", lit "XMIMETYPE"); (lit "subject", lit "XSUBJECT") ].
(** _notmuch_database_prefix, prefix.cc:104-119 (a NULL never reaches std::string here:
    every field of the table above, and every user prefix, has one). *)
Fixpoint assoc (l : list (bytes * bytes)) (name : bytes) : option bytes :=
  match l with
  | [] => None
  | (n, p) :: l' => if bseq name n then Some p else assoc l' name
  end.
(** [db_prefix]: as above, prefix.cc:104-119. *)
Definition db_prefix (S : sdb) (name : bytes) : bytes :=
  match assoc term_prefixes name with
  | Some p => p
  | None => match s_user S name with Some p => p | None => [] end
  end.
(** [parent_prefix]: as above, prefix.cc:104-119. *)
Definition parent_prefix (S : sdb) (parent : option prefix) : bytes :=
  match parent with Some p => db_prefix S (p_name p) | None => [] end.

(** _sexp_binding_t, parse-sexp.cc:17-22. *)
Inductive env := ENil | EBind (name : bytes) (sx : sexp) (context next : env).

(** resolve_binding, parse-sexp.cc:190-203. *)
Fixpoint resolve (e : env) (name : bytes) : option (sexp * env) :=
  match e with
  | ENil => None
  | EBind n sx ctx next => if bseq name n then Some (sx, ctx) else resolve next name
  end.

(** an unquoted atom starting with a comma. *)
Definition param_of (sx : sexp) : option bytes :=
  match sx with
  | Atom false (c :: name) => if beq c ","%char then Some name else None
  | _ => None
  end.

(** the loop of _sexp_expand_term, parse-sexp.cc:217-227.  A binding's argument is looked
    up in its own, smaller environment, so the loop ends; the fuel is the size of [e]. *)
Fixpoint expand_loop (fuel : nat) (e : env) (sx : sexp) : option sexp :=
  match param_of sx with
  | None => Some sx
  | Some name =>
      match fuel with
      | O => None
      | S f => match resolve e name with
               | None => None
               | Some (sx', ctx) => expand_loop f ctx sx'
               end
      end
  end.
(** [env_size]: as above, parse-sexp.cc:217-227. *)
Fixpoint env_size (e : env) : nat :=
  match e with ENil => 0 | EBind _ _ ctx next => S (env_size ctx + env_size next) end.
(** _sexp_expand_term, parse-sexp.cc:205-237. *)
Definition expand_term (e : env) (sx : sexp) : option bytes :=
  match expand_loop (env_size e) e sx with
  | Some (Atom _ v) => Some v
  | _ => None
  end.

(** Xapian OP_WILDCARD with a plain prefix: a term of the document starts with it. *)
Definition wildcard_leaf (pat : bytes) : xq := XLeaf [] (fun d => existsb (starts_with pat) (xd_terms d)).

(** _sexp_parse_wildcard, parse-sexp.cc:239-257. *)
Definition parse_wildcard (S : sdb) (parent : option prefix) (m : bytes) : sres :=
  match parent with
  | Some p => if has p F_WILDCARD then SOk (wildcard_leaf (parent_prefix S parent ++ s_lower S m)) else SErr BAD_QUERY_SYNTAX
  | None => SOk (wildcard_leaf (parent_prefix S parent ++ s_lower S m))
  end.

(** _sexp_parse_one_term and _sexp_parse_phrase, parse-sexp.cc:259-274, 160-188. *)
Definition parse_one_term (S : sdb) (tp : bytes) (quoted : bool) (v : bytes) : xq :=
  if negb quoted && s_is_word S v then XTerm (lit "Z" ++ tp ++ s_stem S (s_lower S v))
  else let terms := map (fun w => tp ++ s_lower S w) (s_words S v) in XLeaf terms (s_phrase S terms).

(** _sexp_parse_regex, parse-sexp.cc:276-304. *)
Definition parse_regex (S : sdb) (parent : option prefix) (e : env) (term : sexp) : sres :=
  match parent with
  | None => SErr BAD_QUERY_SYNTAX
  | Some p => if has p F_REGEX then
                match expand_term e term with
                | None => SErr BAD_QUERY_SYNTAX
                | Some v => of_lres (s_regex S (p_name p) v)
                end
              else SErr BAD_QUERY_SYNTAX
  end.

(** _notmuch_query_expand, lib/query.cc:828-874: any of the terms with the field's prefix
    found in a document (of whatever type) matching the subquery. *)
Definition or_terms (ts : list bytes) : xq := fold_left (fun q t => XOp OP_OR q (XTerm t)) ts XNone.
(** [expand_terms]: as above, lib/query.cc:828-874. *)
Definition expand_terms (S : sdb) (tp : bytes) (q : xq) : list bytes :=
  flat_map (fun d => filter (starts_with tp) (xd_terms d)) (filter (xmatch q) (s_docs S)).
(** [query_expand]: as above, lib/query.cc:828-874. *)
Definition query_expand (S : sdb) (field : bytes) (q : xq) : xq := or_terms (expand_terms S (db_prefix S field) q).

(** _sexp_parse_range, parse-sexp.cc:514-577 (the prefix is date or lastmod). *)
Definition star_empty (v : bytes) : bytes := if bseq v (lit "*") then [] else v.
(** [parse_range]: as above, parse-sexp.cc:514-577. *)
Definition parse_range (S : sdb) (name : bytes) (args : list sexp) : sres :=
  match args with
  | [] => SOk XAll
  | SList _ :: _ => SErr BAD_QUERY_SYNTAX
  | [Atom _ a] => of_lres (s_range S name (star_empty a) (star_empty a))
  | Atom _ a :: SList _ :: _ => SErr BAD_QUERY_SYNTAX
  | [Atom _ a; Atom _ b] => of_lres (s_range S name (star_empty a) (star_empty b))
  | Atom _ a :: Atom _ b :: _ :: _ => SErr BAD_QUERY_SYNTAX
  end.

(** strip_trailing (atom, '/'), util/string-util.c:287-298. *)
Fixpoint strip_slashes (v : bytes) : bytes :=
  match v with
  | [] => []
  | c :: v' => match strip_slashes v' with
               | [] => if beq c "/"%char then [] else [c]
               | r => c :: r
               end
  end.

(** the atom case of _sexp_to_xapian_query, parse-sexp.cc:593-627. *)
Definition parse_atom (S : sdb) (parent : option prefix) (quoted : bool) (v : bytes) : sres :=
  if negb quoted && bseq v (lit "*") then parse_wildcard S parent []
  else
    match parent with
    | Some p =>
        let atom := if has p F_PATHNAME then strip_slashes v else v in
        if has p F_BOOLEAN then SOk (XTerm (parent_prefix S parent ++ atom))
        else SOk (parse_one_term S (parent_prefix S parent) quoted atom)
    | None =>
        SOk (fold_left (fun acc p => if has p F_FIELD
                                     then XOp OP_OR acc (parse_one_term S (db_prefix S (p_name p)) quoted v)
                                     else acc) prefixes XNone)
    end.

(** _sexp_combine_query, parse-sexp.cc:128-158. *)
Fixpoint combine (f : sexp -> sres) (op : xop) (left : xq) (l : list sexp) : sres :=
  match l with
  | [] => SOk left
  | sx :: l' => match f sx with
                | SOk q => combine f op (XOp op left q) l'
                | r => r
                end
  end.

(** the parameters of maybe_apply_macro, parse-sexp.cc:420-441 ([None]: an error). *)
Fixpoint bind_params (params args : list sexp) (caller : env) (acc : env) : option env :=
  match params, args with
  | [], [] => Some acc
  | [], _ :: _ => None
  | _ :: _, [] => None
  | p :: ps, a :: args' =>
      match p with
      | Atom false n => bind_params ps args' caller (EBind n a caller acc)
      | _ => None
      end
  end.

(** table scan, lib/parse-sexp.cc:63-120. *)
Definition find_prefix (name : bytes) : option prefix := find (fun p => bseq (p_name p) name) prefixes.

(** the user defined field of _sexp_parse_header, parse-sexp.cc:360-363. *)
Definition user_field (name : bytes) : prefix := mk_prefix name Invalid XNone [F_FIELD; F_WILDCARD].

(** the use of a table entry, parse-sexp.cc:657-708; [rec] translates subexpressions. *)
Definition apply_prefix (S : sdb) (rec : option prefix -> env -> sexp -> sres) (parent : option prefix) (e : env)
                        (p : prefix) (args : list sexp) : sres :=
  if (has p F_FIELD || has p F_RANGE) && (match parent with Some _ => true | None => false end) then SErr BAD_QUERY_SYNTAX
  else
    let parent := if has p F_FIELD || has p F_RANGE then Some p else parent in
    if has p F_ORPHAN && (match parent with Some _ => true | None => false end) then SErr BAD_QUERY_SYNTAX
    else if has p F_SINGLE && negb (match args with [Atom _ _] => true | _ => false end) then SErr BAD_QUERY_SYNTAX
    else if has p F_RANGE then parse_range S (p_name p) args
    else if bseq (p_name p) (lit "infix") then
      match args with Atom _ v :: _ => of_lres (s_infix S v) | _ => SCrash end
    else if bseq (p_name p) (lit "query") then
      match args with Atom _ v :: _ => of_lres (s_named S v) | _ => SCrash end
    else match p_op p with
    | Wildcard =>
        match args with
        | a :: _ => match expand_term e a with
                    | None => SErr BAD_QUERY_SYNTAX
                    | Some v => parse_wildcard S parent v
                    end
        | [] => SCrash
        end
    | op =>
        if has p F_DO_REGEX then
          match args with a :: _ => parse_regex S parent e a | [] => SCrash end
        else if has p F_DO_EXPAND then
          (* _sexp_expand_query, parse-sexp.cc:307-331: parent is used without a test *)
          match parent with
          | None => SCrash
          | Some f =>
              if has f F_EXPAND then
                match combine (rec None ENil) (match op with Op o => o | _ => OP_AND end) (p_initial p) args with
                | SOk q => SOk (query_expand S (p_name f) q)
                | r => r
                end
              else SErr BAD_QUERY_SYNTAX
          end
        else match op with
             | Op o => combine (rec parent e) o (p_initial p) args
             | _ => SErr OTHER_ERROR
             end
    end.

(** _sexp_to_xapian_query, parse-sexp.cc:583-714, with maybe_saved_squery (452-495),
    maybe_apply_macro (390-450), _sexp_expand_param (497-512), _sexp_parse_header (356-375). *)
Fixpoint to_query (fuel : nat) (S : sdb) (parent : option prefix) (e : env) (sx : sexp) {struct fuel} : sres :=
  match fuel with
  | O => SLoop
  | Datatypes.S f =>
      match param_of sx with
      | Some name =>
          match resolve e name with
          | None => SErr BAD_QUERY_SYNTAX
          | Some (sx', ctx) => to_query f S parent ctx sx'
          end
      | None =>
          match sx with
          | Atom quoted v => parse_atom S parent quoted v
          | SList [] => SOk XAll
          | SList (SList _ :: _) => SErr BAD_QUERY_SYNTAX
          | SList (Atom _ name :: args) =>
              match s_saved S name with
              | SavedInvalid => SErr BAD_QUERY_SYNTAX
              | Saved (Atom _ _) => SCrash                       (* sx->list->ty with list NULL, 400 *)
              | Saved (SList []) => SCrash
              | Saved (SList (Atom q0 h :: rest)) =>
                  if bseq h (lit "macro") then
                    match rest with
                    | SList params :: body :: _ =>
                        match bind_params params args e ENil with
                        | None => SErr BAD_QUERY_SYNTAX
                        | Some e' => to_query f S parent e' body
                        end
                    | _ => SErr BAD_QUERY_SYNTAX
                    end
                  else to_query f S parent e (SList (Atom q0 h :: rest))
              | Saved s => to_query f S parent e s
              | NotSaved =>
                  match s_user S name with
                  | Some _ =>
                      match parent with
                      | Some _ => SErr BAD_QUERY_SYNTAX
                      | None => combine (to_query f S (Some (user_field name)) e) OP_AND XAll args
                      end
                  | None =>
                      if bseq name (lit "macro") then SErr BAD_QUERY_SYNTAX
                      else match find_prefix name with
                           | None => SErr BAD_QUERY_SYNTAX
                           | Some p => apply_prefix S (to_query f S) parent e p args
                           end
                  end
              end
          end
      end
  end.

(** _notmuch_sexp_string_to_xapian_query, parse-sexp.cc:716-730 (after parse_sexp). *)
Definition sexp_query (fuel : nat) (S : sdb) (sx : sexp) : sres := to_query fuel S None ENil sx.
