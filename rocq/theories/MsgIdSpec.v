(** Independent specification: message-id headers (RFC 5322 folding white space and
    comments between <id> tokens). *)
From Verif Require Import Bytes.
Local Open Scope nat_scope.

Inductive comment_text : bytes -> Prop :=
| ct_nil : comment_text []
| ct_char c s : c <> "("%char -> c <> ")"%char -> c <> "\"%char -> comment_text s -> comment_text (c :: s)
| ct_escape c s : comment_text s -> comment_text ("\"%char :: c :: s)
| ct_nested a s : comment_text a -> comment_text s -> comment_text ("("%char :: a ++ ")"%char :: s).
(** White space and complete comments. *)
Inductive cfws : bytes -> Prop :=
| cw_nil : cfws []
| cw_space c s : isspace c = true -> cfws s -> cfws (c :: s)
| cw_comment a s : comment_text a -> cfws s -> cfws ("("%char :: a ++ ")"%char :: s).
(** Free text between ids, as found in In-Reply-To headers: no '<', and its start is
    not white space or a comment. *)
Definition free_text (s : bytes) : Prop :=
  ~ In "<"%char s /\ match s with [] => True | c :: _ => isspace c = false /\ c <> "("%char end.
(** A regular id: at least two characters, no '>', no blanks, not starting with
    white space or a comment. *)
Definition regular_id (s : bytes) : Prop :=
  2 <= length s /\ ~ In ">"%char s /\ ~ In " "%char s /\ ~ In (ascii_of_N 9) s /\
  match s with [] => True | c :: _ => isspace c = false /\ c <> "("%char end.
(** A header listing the ids. *)
Inductive header : list bytes -> bytes -> Prop :=
| hd_end w t : cfws w -> free_text t -> header [] (w ++ t)
| hd_id w t w' id ids rest : cfws w -> free_text t -> cfws w' -> regular_id id -> header ids rest ->
    header (id :: ids) (w ++ t ++ "<"%char :: w' ++ id ++ ">"%char :: rest).
(** First occurrences of the ids other than [self]. *)
Fixpoint last_of (self : bytes) (ids : list bytes) : option bytes :=
  match ids with
  | [] => None
  | i :: r => match last_of self r with Some x => Some x | None => if bseq i self then None else Some i end
  end.
