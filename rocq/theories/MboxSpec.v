(** Reading an mbox file, as programs do ("mboxrd" quoting): a line that begins with "From "
    begins a message; one ">" is taken off lines like ">From ", ">>From "; every message is
    followed by a line break that is not part of it. *)
From Verif Require Import Bytes Hex TagLine Dump.
Local Open Scope nat_scope.

Definition separator (l : bytes) : bool := starts_with (lit "From ") l.
(** Is the line ">...>From ..." with no or more ">"? *)
Fixpoint from_likeb (l : bytes) : bool :=
  separator l || match l with c :: r => beq c ">"%char && from_likeb r | [] => false end.
Definition unquote (l : bytes) : bytes :=
  match l with
  | c :: r => if beq c ">"%char && from_likeb r then r else l
  | [] => []
  end.
(** The lines of each message, and those before the first. *)
Fixpoint sections (ls : list bytes) : list bytes * list (list bytes) :=
  match ls with
  | [] => ([], [])
  | l :: ls =>
      let '(cur, done) := sections ls in
      if separator l then ([], cur :: done) else (l :: cur, done)
  end.
Definition message_of (ls : list bytes) : bytes := removelast (concat (map unquote ls)).
(** The messages of an mbox file; [None]: something is before the first. *)
Definition read_mbox (text : bytes) : option (list bytes) :=
  match sections (split_lines text) with
  | ([], done) => Some (map message_of done)
  | _ => None
  end.
