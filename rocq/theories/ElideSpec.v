(** What eliding blank lines may do, for C98. *)
From Verif Require Import Bytes.
From Coq Require Import List Ascii.
Import ListNotations.

(** Spaces, tabs, form feeds and carriage returns only. *)
Definition blank_line (l : bytes) : Prop := forall c, In c l -> In c [" "; "009"; "012"; "013"]%char.
(** The second text is the first without some of its blank lines, and with others made empty. *)
Inductive fewer_blanks : list bytes -> list bytes -> Prop :=
| fb_end : fewer_blanks [] []
| fb_same : forall l t u, fewer_blanks t u -> fewer_blanks (l :: t) (l :: u)
| fb_drop : forall l t u, blank_line l -> fewer_blanks t u -> fewer_blanks (l :: t) u
| fb_empty : forall l t u, blank_line l -> fewer_blanks t u -> fewer_blanks (l :: t) ([] :: u).
(** Is it blank? *)
Definition is_blank (l : bytes) : bool := forallb (fun c => if in_dec ascii_dec c [" "; "009"; "012"; "013"]%char then true else false) l.
(** The paragraphs of a text: lines between blank lines; o is what of the present one was read. *)
Fixpoint paragraphs_from (o : list bytes) (t : list bytes) : list (list bytes) :=
  match t with
  | [] => match o with [] => [] | _ => [o] end
  | l :: t => if is_blank l then match o with [] => paragraphs_from [] t | _ => o :: paragraphs_from [] t end
              else paragraphs_from (o ++ [l]) t
  end.
(** The paragraphs of a text. *)
Definition paragraphs (t : list bytes) : list (list bytes) := paragraphs_from [] t.
