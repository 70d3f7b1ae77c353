(** What wrapping may do, for C97. *)
From Verif Require Import Bytes Coolj.
From Coq Require Import List Arith Ascii.
Import ListNotations.
Local Open Scope nat_scope.

(** Marks of citation: each ">" may have a space behind it. *)
Inductive marks : bytes -> Prop :=
| no_mark : marks []
| mark : forall p, marks p -> marks (">"%char :: p)
| mark_space : forall p, marks p -> marks (">"%char :: " "%char :: p).
(** p is what a line has of them at its beginning. *)
Definition marks_of (l p : bytes) : Prop :=
  marks p /\ (exists r, l = p ++ r) /\ forall q r, marks q -> l = q ++ r -> length q <= length p.
(** A line becomes these lines: again and again one space becomes a line break, and the new line begins with the marks of the line. *)
Inductive broken : bytes -> list bytes -> Prop :=
| left_alone : forall l, broken l [l]
| break : forall l a b p out, l = a ++ " "%char :: b -> marks_of l p -> broken (p ++ b) out -> broken l (a :: out).
(** Only spaces. *)
Definition blank (l : bytes) : Prop := forall c, In c l -> c = " "%char.
(** The line has only spaces beyond the width. *)
Definition fits (fc : nat) (l : bytes) : Prop := blank (skipn fc l).
(** Its only spaces after the marks are those at its end, or at its beginning when it has no marks. *)
Definition unbreakable (l : bytes) : Prop :=
  forall p a b, marks_of l p -> l = a ++ " "%char :: b -> length p <= length a -> blank a \/ blank b.
(** How many ">" there are. *)
Fixpoint arrows (l : bytes) : nat := match l with [] => 0 | c :: r => (if ascii_dec c ">" then 1 else 0) + arrows r end.
(** The number of characters of a text, each line ending with a line break. *)
Fixpoint chars (t : list bytes) : nat := match t with [] => 0 | l :: t => length l + 1 + chars t end.
