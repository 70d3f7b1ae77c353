(** Model of notmuch-wash-elide-blank-lines (emacs/notmuch-wash.el:277-296), on the default hook for text/plain parts
    (emacs/notmuch-show.el:155-166).

    A buffer is its lines: the parts between the line breaks, the last one having none behind it.  Whether [[:space:]] also matches
    a line break depends on the syntax table of the buffer: [nl].  Simplification: of the characters that are white in the
    standard syntax table those of ASCII. *)
From Verif Require Import Bytes.
From Coq Require Import List Bool Ascii.
Import ListNotations.

(** [[:space:]\t] (emacs/notmuch-wash.el:283), without the line break: space, tab, form feed, carriage return. *)
Definition white (c : byte) : bool := beq c " " || beq c "009" || beq c "012" || beq c "013".
(** "^[[:space:]\t]+$" or nothing (emacs/notmuch-wash.el:283). *)
Definition all_white (l : bytes) : bool := forallb white l.
(** emacs/notmuch-wash.el:281-284, when [[:space:]] does not match a line break. *)
Definition empty_blanks (t : list bytes) : list bytes := map (fun l => if all_white l then [] else l) t.
(** emacs/notmuch-wash.el:281-284, when it does: the match is then as long as it can be and ends before a line break or at the end of the
    buffer, so that of blank lines one after another an empty one is left.  [prev]: there was one before. *)
Fixpoint join_blanks (prev : bool) (t : list bytes) : list bytes :=
  match t with
  | [] => []
  | l :: t => if all_white l then (if prev then join_blanks true t else [] :: join_blanks true t) else l :: join_blanks false t
  end.
(** emacs/notmuch-wash.el:285-288; the last line ends with no line break. *)
Fixpoint single_blanks (prev : bool) (t : list bytes) : list bytes :=
  match t with
  | [] => []
  | [l] => [l]
  | l :: t => match l with
              | [] => if prev then single_blanks true t else l :: single_blanks true t
              | _ => l :: single_blanks false t
              end
  end.
(** emacs/notmuch-wash.el:289-292. *)
Definition drop_leading (t : list bytes) : list bytes := match t with [] :: x :: r => x :: r | _ => t end.
(** emacs/notmuch-wash.el:293-296: at the end of the buffer there is nothing to look at. *)
Definition drop_trailing (t : list bytes) : list bytes := t.
(** emacs/notmuch-wash.el:277-296 [notmuch-wash-elide-blank-lines]. *)
Definition elide (nl : bool) (t : list bytes) : list bytes :=
  drop_trailing (drop_leading (single_blanks false (if nl then join_blanks false t else empty_blanks t))).
