(** What the fields thread: and query: of infix queries promise (doc/man7/
    notmuch-search-terms.rst), in terms of what searches find. *)
From Verif Require Import Bytes Terms XQuery Thread Query Sexp FieldProc.

(** the string is parsed with result [r], whatever the nesting. *)
Definition parses (D : fdb) (s : bytes) (r : fres) : Prop := r <> FLoop /\ exists n, parse_string n D s = r.

(** a search for [s] with a new query object finds document [d]. *)
Definition finds (D : fdb) (s : bytes) (d : xdoc) : Prop :=
  exists n l o, search_with n D (new_query false s) = (Some l, o) /\ In d l.

(** a mail message (documents of type ghost stand for messages only known from
    references). *)
Definition is_message (d : xdoc) : Prop := In (lit "Tmail") (xd_terms d).
Definition same_thread (d e : xdoc) : Prop :=
  exists id, In (lit "G" ++ id) (xd_terms d) /\ In (lit "G" ++ id) (xd_terms e).

(** the string is a use of a single field. *)
Definition is_field (D : fdb) (s : bytes) (f : pfield) (v : bytes) : Prop :=
  s <> [] /\ s <> lit "*" /\ f_grammar D s = Some (AField f v).

(** "", and "*", find everything. *)
Definition everything (s : bytes) : Prop := s = [] \/ s = lit "*".

(** ** Texts parsed on the way. *)
(** a query string (typed by the user, or between braces), or the value of a named query. *)
Inductive text := Typed (s : bytes) | Named (s : bytes).
Definition text_ast (D : fdb) (t : text) : option ast :=
  match t with
  | Typed s => if bseq s [] || bseq s (lit "*") then Some (AQuery XAll) else f_grammar D s
  | Named s => f_grammar D s
  end.
Inductive occurs (f : pfield) (v : bytes) : ast -> Prop :=
| occ_here : occurs f v (AField f v)
| occ_left : forall op a b, occurs f v a -> occurs f v (AOp op a b)
| occ_right : forall op a b, occurs f v b -> occurs f v (AOp op a b).
(** parsing text [t] makes the code parse text [u]. *)
Inductive uses (D : fdb) (t : text) : text -> Prop :=
| uses_thread : forall a q, text_ast D t = Some a -> occurs Fthread (lit "{" ++ q ++ lit "}") a -> uses D t (Typed q)
| uses_query : forall a name e, text_ast D t = Some a -> occurs Fquery name a ->
    f_config D (lit "query." ++ name) = Some e -> uses D t (Named e).
Inductive uses_star (D : fdb) (t : text) : text -> Prop :=
| us_refl : uses_star D t t
| us_step : forall u w, uses_star D t u -> uses D u w -> uses_star D t w.
Definition parse_text (n : nat) (D : fdb) (t : text) : fres :=
  match t with Typed s => parse_string n D s | Named s => parse_query D (process n D) s end.
