(** What the lines of a text are. *)
From Verif Require Import Bytes Hex Dump.

(** A terminated line: the newline ends it and occurs nowhere else. *)
Definition full_line (l : bytes) : Prop := exists b, l = b ++ [NL] /\ ~ In NL b.
(** [ls] are the lines of [text]: nothing lost, repeated or reordered; all end in a newline
    but possibly the last, which is not empty. *)
Definition lines_of (text : bytes) (ls : list bytes) : Prop :=
  concat ls = text /\
  exists full last, ls = full ++ last /\ Forall full_line full /\ (last = [] \/ exists l, last = [l] /\ l <> [] /\ ~ In NL l).
