(** Model of the wrapping of long lines in messages shown in Emacs: emacs/coolj.el, called by notmuch-wash-wrap-long-lines
    (emacs/notmuch-wash.el:322-341), which is on the default hook (emacs/notmuch-show.el:155-166).

    A text is its lines.  Simplifications: every character has width one (no tabs, no wide characters);
    fill-nobreak-predicate is nil and coolj-line-prefix-regexp has its default value. *)
From Verif Require Import Bytes.
From Coq Require Import List Arith Bool Ascii.
Import ListNotations.
Local Open Scope nat_scope.

(** A space (emacs/coolj.el:108, 119, 134). *)
Definition is_sp (c : byte) : bool := beq c " ".
(** How much "^\\(>+ ?\\)*" (emacs/coolj.el:48-51) matches; [after]: a ">" is before. *)
Fixpoint leaders_len (after : bool) (l : bytes) : nat :=
  match l with
  | [] => 0
  | c :: r => if beq c ">" then S (leaders_len true r) else if after && is_sp c then S (leaders_len false r) else 0
  end.
(** emacs/coolj.el:55-61 [coolj-determine-prefix]. *)
Definition determine_prefix (l : bytes) : bytes := firstn (leaders_len false l) l.
(** skip-chars-forward " " (emacs/coolj.el:135): how many. *)
Fixpoint blanks (l : bytes) : nat := match l with c :: r => if is_sp c then S (blanks r) else 0 | [] => 0 end.
(** search-forward " " (emacs/coolj.el:134): how many characters before it. *)
Fixpoint nonblanks (l : bytes) : nat := match l with c :: r => if is_sp c then 0 else S (nonblanks r) | [] => 0 end.
(** search-backward " " (emacs/coolj.el:119): the last space in l between lo and hi. *)
Fixpoint last_space (l : bytes) (lo hi : nat) : option nat :=
  match hi with
  | O => None
  | S h => if h <? lo then None else if match nth_error l h with Some c => is_sp c | None => false end then Some h else last_space l lo h
  end.
(** Where to break the line: nowhere, before this character, or an error (search-backward with a bound on the wrong side of point). *)
Inductive brk := Nobreak | Break (k : nat) | Fails.
(** emacs/coolj.el:115-129 [coolj-find-break-backward]. *)
Definition find_break_backward (l : bytes) (eop p : nat) : brk :=
  if p <? eop then Fails
  else match last_space l eop p with
       | None => Nobreak
       | Some i => if (eop =? 0) && forallb is_sp (firstn (S i) l) then Nobreak else Break (S i)
       end.
(** emacs/coolj.el:131-140 [coolj-find-break-forward]. *)
Definition find_break_forward (fc : nat) (l : bytes) : brk :=
  let i := fc + nonblanks (skipn fc l) in
  let k := i + blanks (skipn i l) in
  if k <? length l then Break k else Nobreak.
(** emacs/coolj.el:103-113 [coolj-set-breakpoint]. *)
Definition set_breakpoint (fc : nat) (l : bytes) : brk :=
  let q := fc + blanks (skipn fc l) in
  if length l <=? q then Nobreak
  else match find_break_backward l (leaders_len false l) (S q) with
       | Nobreak => find_break_forward fc l
       | x => x
       end.
(** emacs/coolj.el:87-101 [coolj-wrap-line]: both lines, when it was wrapped. *)
Inductive wrapped_line := Left_alone | Wrapped (a b : bytes) | Error.
(** emacs/coolj.el:87-101 [coolj-wrap-line]: the space before point is replaced by a line break and the prefix. *)
Definition wrap_line (fc : nat) (l : bytes) : wrapped_line :=
  match set_breakpoint fc l with
  | Nobreak => Left_alone
  | Break k => Wrapped (firstn (k - 1) l) (determine_prefix l ++ skipn k l)
  | Fails => Error
  end.

(** What becomes of the text: finished, an error, or still not finished after so many steps. *)
Inductive outcome := Done (text : list bytes) | Stopped | Running.
(** With a line before (emacs/coolj.el:78-83). *)
Definition cons_line (a : bytes) (o : outcome) : outcome := match o with Done t => Done (a :: t) | x => x end.
(** emacs/coolj.el:67-85 [coolj-wrap-region]: the loop; cur is the line of point, pos the position of its beginning, last the argument
    END, second the second call of coolj-wrap-line in the condition. *)
Fixpoint loop (steps fc last pos : nat) (second : bool) (cur : bytes) (rest : list bytes) : outcome :=
  match steps with
  | O => Running
  | S steps =>
      match wrap_line fc cur with
      | Error => Stopped
      | Wrapped a b => cons_line a (loop steps fc last (pos + length a + 1) false b rest)
      | Left_alone =>
          match rest with
          | [] => Done [cur]
          | n :: rest' =>
              let pos' := pos + length cur + 1 in
              if second then Done (cur :: n :: rest')
              else if match n, rest' with [], [] => true | _, _ => false end then Done (cur :: n :: rest')
              else cons_line cur (loop steps fc last pos' (last <=? pos') n rest')
          end
      end
  end.
(** The number of characters, with the line breaks (emacs/coolj.el:63-65: point-max). *)
Definition text_length (t : list bytes) : nat := fold_right (fun l n => length l + 1 + n) 0 t - 1.
(** emacs/notmuch-wash.el:322-341 [notmuch-wash-wrap-long-lines], emacs/coolj.el:67-85: wrapping a whole text to a width. *)
Definition wrap_text (steps fc : nat) (t : list bytes) : outcome :=
  match t with [] => Done [] | l :: t' => loop steps fc (text_length t) 0 false l t' end.
