(** Independent specification of batch tag lines (doc/man1/notmuch-tag.rst, TAG FILE
    FORMAT):  +<tag>|-<tag> [...] [--] <query>  with hex-encoded tags. *)
From Verif Require Import Bytes HexSpec TagOps.

Definition spaces (s : bytes) : Prop := forall c, In c s -> c = " "%char.
Definition word (s : bytes) : Prop := ~ In " "%char s.
(** First NUL ends a C string. *)
Fixpoint until_nul (s : bytes) : bytes :=
  match s with [] => [] | c :: r => if Ascii.eqb c (ascii_of_N 0) then [] else c :: until_nul r end.

(** [items generous text ops query]: [text] is a list of operations followed by a
    query.  Unless [generous], the text of a tag to add must not be empty nor start
    with '-'. *)
Inductive items (generous : bool) : bytes -> list tagop -> bytes -> Prop :=
| it_query sp q c r : spaces sp -> q = c :: r -> c <> " "%char -> c <> "+"%char -> c <> "-"%char ->
    items generous (sp ++ q) [] q
| it_dashes sp sp2 q c r : spaces sp -> spaces sp2 -> q = c :: r -> c <> " "%char ->
    items generous (sp ++ lit "-- " ++ sp2 ++ q) [] q
| it_op sp (remove : bool) e t rest ops q : spaces sp -> word e -> (remove = true -> e <> lit "-") ->
    (generous = false -> remove = false -> e <> [] /\ forall r, e <> "-"%char :: r) ->
    denotes e t -> items generous rest ops q ->
    items generous (sp ++ (if remove then "-"%char else "+"%char) :: e ++ " "%char :: rest)
          ({| to_tag := until_nul t; to_remove := remove |} :: ops) q.

(** A batch line without its newline: leading blanks, then items not starting with '#'. *)
Definition blanks (s : bytes) : Prop := forall c, In c s -> c = " "%char \/ c = ascii_of_N 9.
Definition batch_line (generous : bool) (line : bytes) (ops : list tagop) (q : bytes) : Prop :=
  exists b c r, line = b ++ c :: r /\ blanks b /\ c <> " "%char /\ c <> ascii_of_N 9 /\ c <> "#"%char /\ items generous (c :: r) ops q.
(** Line with its newline, if any. *)
Definition unterminated (line body : bytes) : Prop :=
  line = body ++ [ascii_of_N 10] \/ (line = body /\ last line (ascii_of_N 0) <> ascii_of_N 10).

(** Legal tags (for adding): not empty, not starting with '-'. *)
Definition legal (o : tagop) : Prop := to_remove o = false -> to_tag o <> [] /\ forall r, to_tag o <> "-"%char :: r.

(** A line that is neither blank, nor a comment, nor of the documented form. *)
Definition malformed (generous : bool) (line : bytes) : Prop :=
  exists body, unterminated line body /\ line <> [] /\
    ~ (blanks body \/ exists b r, body = b ++ "#"%char :: r /\ blanks b) /\
    ~ exists ops q, batch_line generous body ops q.
(** Blank and comment lines. *)
Definition ignorable (line : bytes) : Prop :=
  exists body, unterminated line body /\ line <> [] /\ (blanks body \/ exists b r, body = b ++ "#"%char :: r /\ blanks b).
