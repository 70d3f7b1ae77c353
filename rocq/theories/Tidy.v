(** Model of notmuch-wash-tidy-citations (emacs/notmuch-wash.el:298-320), on the default hook for text/plain parts
    (emacs/notmuch-show.el:155-166).

    A buffer is its lines, as in Elide.v; a line "ends" when there is another after it.  The regular expressions are
    followed on lines: note that in Emacs [^>] also matches a line break, "." does not. *)
From Verif Require Import Bytes.
From Coq Require Import List Bool Ascii.
Import ListNotations.

(** "^>[> ]*\n" without the line break (emacs/notmuch-wash.el:311): only marks of citation. *)
Definition marks_only (l : bytes) : bool :=
  match l with c :: r => beq c ">" && forallb (fun c => beq c ">" || beq c " ") r | [] => false end.
(** Does the text begin with such a line that ends? (emacs/notmuch-wash.el:311-319) *)
Definition marks_next (t : list bytes) : bool := match t with l :: _ :: _ => marks_only l | _ => false end.
(** emacs/notmuch-wash.el:309-312: of two or more such lines the last is left. *)
Fixpoint tidy_repeated (t : list bytes) : list bytes :=
  match t with
  | [] => []
  | l :: t => if marks_only l && marks_next t then tidy_repeated t else l :: tidy_repeated t
  end.
(** "[^>]" not at a line break (emacs/notmuch-wash.el:315, 319): the line is not empty and not cited. *)
Definition uncited (l : bytes) : bool := match l with c :: _ => negb (beq c ">") | [] => false end.
(** emacs/notmuch-wash.el:313-316: a line that is not cited and a line of marks ("^[^>].*" then "\n"); an empty line, any line and
    a line of marks ("[^>]" is the line break of the empty line); any line, an empty line and a line of marks
    ("\n" and "\n").  The search goes on behind the line of marks. *)
Fixpoint tidy_before (t : list bytes) : list bytes :=
  match t with
  | [] => []
  | l :: t1 =>
      if uncited l && marks_next t1 then match t1 with [] => [l] | _ :: t2 => l :: tidy_before t2 end
      else match t1 with
           | [] => [l]
           | x :: t2 =>
               if (match l with [] => true | _ => match x with [] => true | _ => false end end) && marks_next t2
               then match t2 with [] => [l; x] | _ :: t3 => l :: x :: tidy_before t3 end
               else l :: tidy_before t1
           end
  end.
(** emacs/notmuch-wash.el:317-320: a line of marks before a line that is empty or not cited. *)
Fixpoint tidy_after (t : list bytes) : list bytes :=
  match t with
  | [] => []
  | l :: t => if marks_only l && match t with [] => false | x :: _ => match x with [] => true | _ => uncited x end end
              then tidy_after t else l :: tidy_after t
  end.
(** emacs/notmuch-wash.el:298-320 [notmuch-wash-tidy-citations]. *)
Definition tidy (t : list bytes) : list bytes := tidy_after (tidy_before (tidy_repeated t)).
