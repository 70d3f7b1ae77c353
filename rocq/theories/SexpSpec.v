(** What s-expression queries mean (doc/man7/notmuch-sexp-queries.rst), written without
    reference to the translation in Sexp.v: only the external functions of the record
    [sdb] (stemming, phrases, regular expressions, infix queries, ranges) are shared. *)
From Verif Require Import Bytes Terms XQuery Sexp.

(** ** The documented table of fields: name, whether subqueries are combined with "and",
    whether terms are exact strings, support of expand / wildcard / regex, whether the
    value is a directory name, and the prefix of the field's terms in the database. *)
Record field := mk_field {
  fd_name : bytes; fd_and : bool; fd_exact : bool; fd_expand : bool; fd_wild : bool; fd_rx : bool;
  fd_dir : bool; fd_tp : bytes
}.
Definition documented : list field := [
  mk_field (lit "attachment") true  false true  true  false false (lit "XATTACHMENT");
  mk_field (lit "body")       true  false false false false false [];
  mk_field (lit "folder")     false true  true  true  true  true  (lit "XFOLDER:");
  mk_field (lit "from")       true  false true  true  true  false (lit "XFROM");
  mk_field (lit "id")         false true  false true  true  false (lit "Q");
  mk_field (lit "is")         true  true  true  true  true  false (lit "K");
  mk_field (lit "mid")        false true  false true  true  false (lit "Q");
  mk_field (lit "mimetype")   true  false true  true  false false (lit "XMIMETYPE");
  mk_field (lit "path")       false true  false true  true  true  (lit "P");
  mk_field (lit "property")   true  true  true  true  true  false (lit "XPROPERTY");
  mk_field (lit "subject")    true  false true  true  true  false (lit "XSUBJECT");
  mk_field (lit "tag")        true  true  true  true  true  false (lit "K");
  mk_field (lit "thread")     false true  true  true  true  false (lit "G");
  mk_field (lit "to")         true  false true  true  false false (lit "XTO") ].
Definition field_named (name : bytes) : option field := find (fun f => bseq (fd_name f) name) documented.
(** a user-defined field (index.header.NAME). *)
Definition user_fd (name tp : bytes) : field := mk_field name true false false true false false tp.

(** what the first element of a compound query says. *)
Inductive head := HAnd | HOr | HNot | HField (f : field) | HStarts | HRegex | HMatching | HInfix | HQuery | HRange.
Definition is (h : bytes) (s : String.string) : bool := bseq h (lit s).
Definition head_of (S : sdb) (h : bytes) : option head :=
  match s_user S h with
  | Some tp => Some (HField (user_fd h tp))
  | None =>
      if is h "and" then Some HAnd else if is h "or" then Some HOr else if is h "not" then Some HNot
      else if is h "starts-with" then Some HStarts
      else if is h "rx" || is h "regex" then Some HRegex
      else if is h "matching" || is h "of" then Some HMatching
      else if is h "infix" then Some HInfix else if is h "query" then Some HQuery
      else if is h "date" || is h "lastmod" then Some HRange
      else match field_named h with Some f => Some (HField f) | None => None end
  end.

Definition ctx_tp (c : option field) : bytes := match c with Some f => fd_tp f | None => [] end.

(** a term or phrase in a phrase field with term prefix [tp]: unquoted words are stemmed. *)
Definition word_means (S : sdb) (tp : bytes) (quoted : bool) (v : bytes) (d : xdoc) : Prop :=
  if negb quoted && s_is_word S v then In (lit "Z" ++ tp ++ s_stem S (s_lower S v)) (xd_terms d)
  else s_phrase S (map (fun w => tp ++ s_lower S w) (s_words S v)) d = true.
(** some term of the field starts with [v]. *)
Definition starts_means (S : sdb) (c : option field) (v : bytes) (d : xdoc) : Prop :=
  exists t rest, In t (xd_terms d) /\ t = ctx_tp c ++ s_lower S v ++ rest.
(** [b] is [v] without its trailing slashes. *)
Definition without_slashes (v b : bytes) : Prop :=
  exists n, v = b ++ repeat "/"%char n /\ (forall w, b <> w ++ ["/"%char]).
Definition exact_means (f : field) (v : bytes) (d : xdoc) : Prop :=
  exists b, (if fd_dir f then without_slashes v b else b = v) /\ In (fd_tp f ++ b) (xd_terms d).
Definition atom_means (S : sdb) (c : option field) (quoted : bool) (v : bytes) (d : xdoc) : Prop :=
  if negb quoted && is v "*" then starts_means S c [] d
  else match c with
       | None => exists f, In f documented /\ word_means S (fd_tp f) quoted v d
       | Some f => if fd_exact f then exact_means f v d
                   else word_means S (fd_tp f) quoted v d
       end.

Definition matches (r : lres) (d : xdoc) : Prop := match r with LOk q => xmatch q d = true | LErr _ => False end.
Definition bound (v : bytes) : bytes := if is v "*" then [] else v.
Definition range_means (S : sdb) (h : bytes) (args : list sexp) (d : xdoc) : Prop :=
  match args with
  | [] => True
  | [Atom _ a] => matches (s_range S h (bound a) (bound a)) d
  | [Atom _ a; Atom _ b] => matches (s_range S h (bound a) (bound b)) d
  | _ => False
  end.
(** [d] and [e] have a common value of the field. *)
Definition same_value (f : field) (d e : xdoc) : Prop :=
  exists t rest, t = fd_tp f ++ rest /\ In t (xd_terms d) /\ In t (xd_terms e).

(** ** The messages an expression selects, in field [c] (or outside all fields). *)
Fixpoint means (S : sdb) (c : option field) (sx : sexp) (d : xdoc) {struct sx} : Prop :=
  match sx with
  | Atom quoted v => atom_means S c quoted v d
  | SList [] => True
  | SList (SList _ :: _) => False
  | SList (Atom _ h :: args) =>
      let all := fix all (c : option field) (l : list sexp) (d : xdoc) : Prop :=
                   match l with [] => True | x :: l' => means S c x d /\ all c l' d end in
      let any := fix any (c : option field) (l : list sexp) (d : xdoc) : Prop :=
                   match l with [] => False | x :: l' => means S c x d \/ any c l' d end in
      match head_of S h with
      | None => False
      | Some HAnd => all c args d
      | Some HOr => any c args d
      | Some HNot => ~ any c args d
      | Some (HField f) => if fd_and f then all (Some f) args d else any (Some f) args d
      | Some HStarts => match args with [Atom _ v] => starts_means S c v d | _ => False end
      | Some HRegex => match c, args with
                       | Some f, [Atom _ v] => matches (s_regex S (fd_name f) v) d
                       | _, _ => False
                       end
      | Some HMatching => match c with
                          | Some f => exists e, In e (s_docs S) /\ all None args e /\ same_value f d e
                          | None => False
                          end
      | Some HInfix => match args with [Atom _ v] => matches (s_infix S v) d | _ => False end
      | Some HQuery => match args with [Atom _ v] => matches (s_named S v) d | _ => False end
      | Some HRange => range_means S h args d
      end
  end.

(** ** The expressions that are queries at all. *)
Definition ok (r : lres) : bool := match r with LOk _ => true | LErr _ => false end.
Fixpoint well_formed (S : sdb) (c : option field) (sx : sexp) {struct sx} : bool :=
  match sx with
  | Atom quoted v =>
      match param_of sx with
      | Some _ => false                       (* no macro parameter is in scope *)
      | None => if negb quoted && is v "*" then match c with Some f => fd_wild f | None => true end else true
      end
  | SList [] => true
  | SList (SList _ :: _) => false
  | SList (Atom _ h :: args) =>
      match head_of S h with
      | None => false
      | Some HAnd | Some HOr | Some HNot => forallb (well_formed S c) args
      | Some (HField f) => match c with None => forallb (well_formed S (Some f)) args | Some _ => false end
      | Some HStarts =>
          match args with
          | [Atom q v] => match param_of (Atom q v) with Some _ => false | None => true end
                          && match c with Some f => fd_wild f | None => true end
          | _ => false
          end
      | Some HRegex =>
          match c, args with
          | Some f, [Atom q v] => match param_of (Atom q v) with Some _ => false | None => true end
                                  && fd_rx f && ok (s_regex S (fd_name f) v)
          | _, _ => false
          end
      | Some HMatching => match c with Some f => fd_expand f && forallb (well_formed S None) args | None => false end
      | Some HInfix => match c, args with None, [Atom _ v] => ok (s_infix S v) | _, _ => false end
      | Some HQuery => match c, args with None, [Atom _ v] => ok (s_named S v) | _, _ => false end
      | Some HRange =>
          match c, args with
          | None, [] => true
          | None, [Atom _ a] => ok (s_range S h (bound a) (bound a))
          | None, [Atom _ a; Atom _ b] => ok (s_range S h (bound a) (bound b))
          | _, _ => false
          end
      end
  end.

(** no list starts with the name of a saved query. *)
Fixpoint plain (S : sdb) (sx : sexp) : Prop :=
  match sx with
  | SList (Atom _ h :: args) =>
      s_saved S h = NotSaved
      /\ (fix all (l : list sexp) := match l with [] => True | x :: l' => plain S x /\ all l' end) args
  | _ => True
  end.
(** no (matching ...) or (of ...) outside a field. *)
Fixpoint matching_in_fields (S : sdb) (c : option field) (sx : sexp) {struct sx} : Prop :=
  match sx with
  | SList (Atom _ h :: args) =>
      let all := fix all (c : option field) (l : list sexp) :=
                   match l with [] => True | x :: l' => matching_in_fields S c x /\ all c l' end in
      match head_of S h with
      | Some (HField f) => all (Some f) args
      | Some HMatching => c <> None /\ all None args
      | _ => all c args
      end
  | _ => True
  end.

(** ** Macros: simultaneous substitution of the parameters, written ,name. *)
Fixpoint subst (s : bytes -> option sexp) (sx : sexp) : sexp :=
  match sx with
  | Atom false (c :: name) => if beq c ","%char then match s name with Some a => a | None => sx end else sx
  | Atom _ _ => sx
  | SList [] => SList []
  | SList (h :: args) => SList (h :: map (subst s) args)
  end.
(** the argument given for a parameter: the last one, if a parameter is listed twice. *)
Fixpoint argument (params : list bytes) (args : list sexp) (name : bytes) : option sexp :=
  match params, args with
  | p :: ps, a :: al => match argument ps al name with
                        | Some b => Some b
                        | None => if bseq name p then Some a else None
                        end
  | _, _ => None
  end.
(** a saved macro, as the user writes it. *)
Definition macro (params : list bytes) (body : sexp) : sexp :=
  SList [Atom false (lit "macro"); SList (map (Atom false) params); body].

(** no parameter occurs. *)
Fixpoint no_params (sx : sexp) : Prop :=
  match sx with
  | Atom _ _ => param_of sx = None
  | SList [] => True
  | SList (_ :: args) =>
      (fix all (l : list sexp) := match l with [] => True | x :: l' => no_params x /\ all l' end) args
  end.
(** no parameter occurs where the code does not expand parameters. *)
Definition rigid (h : bytes) : bool :=
  is h "matching" || is h "of" || is h "date" || is h "lastmod" || is h "infix" || is h "query".
Fixpoint params_ok (sx : sexp) : Prop :=
  match sx with
  | Atom _ _ => True
  | SList [] => True
  | SList (h :: args) =>
      (fix all (l : list sexp) :=
         match l with
         | [] => True
         | x :: l' => params_ok x /\ match h with Atom _ n => rigid n = true -> no_params x | _ => True end /\ all l'
         end) args
  end.
(** the saved queries use parameters as documented: only in macros. *)
Definition saved_ok (S : sdb) : Prop :=
  forall name def, s_saved S name = Saved def ->
    no_params def \/ exists q params body rest, def = SList (Atom q (lit "macro") :: SList params :: body :: rest)
                                                /\ params_ok body.

(** notmuch config refuses user-defined fields whose name starts with a lower case letter. *)
Definition user_ok (S : sdb) : Prop :=
  forall name tp, s_user S name = Some tp -> islower (peek name) = false.

(** what a query amounts to, however long it takes to find out. *)
Definition gives (S : sdb) (parent : option prefix) (sx : sexp) (r : sres) : Prop :=
  r <> SLoop /\ exists fuel, to_query fuel S parent ENil sx = r.

(** the names in operator position of an expression. *)
Fixpoint heads (sx : sexp) : list bytes :=
  match sx with
  | Atom _ _ => []
  | SList [] => []
  | SList (h :: args) => match h with Atom _ n => [n] | _ => [] end ++ flat_map heads args
  end.
(** the names a saved query uses. *)
Definition calls (def : sexp) : list bytes :=
  match def with
  | SList (Atom _ h :: SList _ :: body :: _) => if is h "macro" then heads body else heads def
  | _ => heads def
  end.
(** saved queries do not refer to themselves, not even through others. *)
Definition acyclic (S : sdb) : Prop :=
  exists rank : bytes -> nat, forall name def, s_saved S name = Saved def ->
    forall n, In n (calls def) -> (rank n < rank name)%nat.
(** ** Expanding saved queries away: a macro call becomes the macro's body with the
    arguments substituted, another saved query its definition, and so on inside and, or,
    not, fields and matching.  [literal] heads take their arguments as they are. *)
Definition literal (S : sdb) (h : bytes) : bool :=
  match head_of S h with
  | Some HStarts | Some HRegex | Some HInfix | Some HQuery | Some HRange => true
  | _ => false
  end.
Definition is_macro (def : sexp) : bool :=
  match def with SList (Atom _ h :: _) => is h "macro" | _ => false end.
Definition compound (def : sexp) : bool := match def with SList (_ :: _) => true | _ => false end.
Inductive expands (S : sdb) : sexp -> sexp -> Prop :=
| ex_atom q v : expands S (Atom q v) (Atom q v)
| ex_nil : expands S (SList []) (SList [])
| ex_literal q h args :
    s_saved S h = NotSaved -> literal S h = true -> expands S (SList (Atom q h :: args)) (SList (Atom q h :: args))
| ex_list q h args args' :
    s_saved S h = NotSaved -> literal S h = false -> Forall2 (expands S) args args' ->
    expands S (SList (Atom q h :: args)) (SList (Atom q h :: args'))
| ex_macro q h params body args sx' :
    s_saved S h = Saved (macro params body) -> List.length params = List.length args ->
    expands S (subst (argument params args) body) sx' -> expands S (SList (Atom q h :: args)) sx'
| ex_saved q h def args sx' :
    s_saved S h = Saved def -> compound def = true -> is_macro def = false -> expands S def sx' ->
    expands S (SList (Atom q h :: args)) sx'.
