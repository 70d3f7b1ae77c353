(** What tidying citations may do, for C99. *)
From Verif Require Import Bytes.
From Coq Require Import List Ascii.
Import ListNotations.

(** A ">" and then only ">" and spaces. *)
Definition marks_line (l : bytes) : Prop := exists r, l = ">"%char :: r /\ forall c, In c r -> c = ">"%char \/ c = " "%char.
(** The second text is the first without some such lines. *)
Inductive fewer_marks : list bytes -> list bytes -> Prop :=
| fm_end : fewer_marks [] []
| fm_same : forall l t u, fewer_marks t u -> fewer_marks (l :: t) (l :: u)
| fm_drop : forall l t u, marks_line l -> fewer_marks t u -> fewer_marks (l :: t) u.
(** A line that says something: with a character that is neither white space nor ">". *)
Definition says_something (l : bytes) : bool :=
  existsb (fun c => if in_dec ascii_dec c [" "; "009"; "012"; "013"; ">"]%char then false else true) l.
