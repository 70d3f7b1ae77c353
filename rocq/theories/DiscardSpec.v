(** What should be left of a text part, for C60. *)
From Verif Require Import Bytes.
Local Open Scope N_scope.

Definition between (a b c : ascii) : Prop := code a <= code c <= code b.
Definition NEWLINE : ascii := "010"%char.
(** ---- plain text ---- *)
(** "begin", a mode of three octal digits, a file name. *)
Definition begin_line (l : bytes) : Prop :=
  exists a b c name, l = lit "begin " ++ [a; b; c] ++ lit " " ++ name ++ [NEWLINE] /\
    between "0" "7" a /\ between "0" "7" b /\ between "0" "7" c /\ ~ In NEWLINE name.
(** A line as uuencode writes all but the last: M, characters from ' ' to '`', and one other
    character, normally the end of the line. *)
Definition data_line (l : bytes) : Prop :=
  exists data e, l = "M"%char :: data ++ [e] /\ Forall (between " " "`") data /\ ~ between " " "`" e.
Definition data_lines (d : bytes) : Prop := exists ls, d = concat ls /\ Forall data_line ls.
Definition contains_begin_line (s : bytes) : Prop := exists a l b, s = a ++ l ++ b /\ begin_line l.
(** [uu s kept]: [s] is text and uuencoded files in turn, and [kept] is what is left of it:
    the text, the "begin" lines, but neither the data lines nor the one character after them.
    (It does not say that every uuencoded file is taken for one: see C60_file_dropped.) *)
Inductive uu : bytes -> bytes -> Prop :=
| uu_text s : uu s s
| uu_cut t l d : begin_line l -> (data_lines d \/ exists ls data, data_lines ls /\ Forall (between " " "`") data /\ d = ls ++ "M"%char :: data) -> uu (t ++ l ++ d) (t ++ l)
| uu_file t l d x s kept : begin_line l -> data_lines d -> x <> "M"%char -> uu s kept -> uu (t ++ l ++ d ++ x :: s) (t ++ l ++ kept).
(** ---- HTML ---- *)
(** What may stand between '<' and '>': characters and quoted strings. *)
Inductive inside : bytes -> Prop :=
| in_nil : inside []
| in_char c s : c <> "'"%char -> c <> "034"%char -> c <> ">"%char -> inside s -> inside (c :: s)
| in_single q s : ~ In "'"%char q -> inside s -> inside ("'"%char :: q ++ "'"%char :: s)
| in_double q s : ~ In "034"%char q -> inside s -> inside ("034"%char :: q ++ "034"%char :: s).
(** The beginning of a quoted string. *)
Definition open_quote (o : bytes) : Prop :=
  o = [] \/ (exists q, o = "'"%char :: q /\ ~ In "'"%char q) \/ (exists q, o = "034"%char :: q /\ ~ In "034"%char q).
(** [html s kept]: the text outside of tags, with each tag replaced by '<'. *)
Inductive html : bytes -> bytes -> Prop :=
| html_end : html [] []
| html_text c s kept : c <> "<"%char -> html s kept -> html (c :: s) (c :: kept)
| html_tag t s kept : inside t -> html s kept -> html ("<"%char :: t ++ ">"%char :: s) ("<"%char :: kept)
| html_unclosed t o : inside t -> open_quote o -> html ("<"%char :: t ++ o) ["<"%char].
