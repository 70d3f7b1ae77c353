(** Model of tagging in the Emacs front end (emacs/notmuch-tag.el, and the functions of
    emacs/notmuch-lib.el and emacs/notmuch-show.el it uses).  Strings are the UTF-8 bytes
    Emacs writes; the syntax table is the standard one (Notmuch's modes derive from
    fundamental-mode), in which blank, tab, newline, form feed and carriage return are the
    ASCII whitespace.  Not modelled: hooks, minibuffer completion, the refresh of a buffer
    after an undo, non-ASCII whitespace. *)
From Verif Require Import Bytes Hex StrUtil DocMap Db TagOps TagLine Dump.
Local Open Scope nat_scope.

(** emacs/notmuch-lib.el:534-540 [notmuch-hex-encode]. *)
Definition el_hex_encode (s : bytes) : bytes :=
  concat (map (fun c => if beq c " "%char || beq c "%"%char || beq c """"%char then escape_byte c else [c]) s).

(** emacs/notmuch-lib.el:514-528 the characters "[^!#-'*-~]" does not match. *)
Definition el_plain (c : byte) : bool :=
  beq c "!"%char || (N.leb 35 (code c) && N.leb (code c) 39) || (N.leb 42 (code c) && N.leb (code c) 126).
(** emacs/notmuch-lib.el:514-528 [notmuch-escape-boolean-term]. *)
Definition el_escape_term (t : bytes) : bytes :=
  match t with
  | [] => lit """"""
  | _ => if forallb el_plain t then t
         else """"%char :: concat (map (fun c => if beq c """"%char then [c; c] else [c]) t) ++ [""""%char]
  end.
(** emacs/notmuch-lib.el:530-532 [notmuch-id-to-query]. *)
Definition el_id_to_query (id : bytes) : bytes := lit "id:" ++ el_escape_term id.

(** Whitespace in the standard syntax table (Emacs, external). *)
Definition el_white (c : byte) : bool := existsb (N.eqb (code c)) [9; 10; 12; 13; 32]%N.
(** The lines of a string, between which the regexp anchors of Emacs match. *)
Fixpoint el_lines (cur s : bytes) : list bytes :=
  match s with
  | [] => [cur]
  | c :: r => if beq c NL then cur :: el_lines [] r else el_lines (cur ++ [c]) r
  end.
(** emacs/notmuch-tag.el:487-489: one line matches "^[-+]\S-+$". *)
Definition el_line_ok (l : bytes) : bool :=
  match l with
  | c :: x :: t => (beq c "+"%char || beq c "-"%char) && forallb (fun c => negb (el_white c)) (x :: t)
  | _ => false
  end.
(** emacs/notmuch-tag.el:487-489: the validation of a tag change. *)
Definition el_change_ok (s : bytes) : bool := existsb el_line_ok (el_lines [] s).

(** Sorting by string< (stable; for UTF-8, the order of characters is that of bytes). *)
Fixpoint el_insert (t : bytes) (l : list bytes) : list bytes :=
  match l with [] => [t] | u :: r => if bltb u t then u :: el_insert t r else t :: l end.
(** emacs/notmuch-tag.el:461 [sort]. *)
Definition el_sort (l : list bytes) : list bytes := fold_right el_insert [] l.

(** emacs/notmuch-tag.el:451-460: the loop; [None] is an error. *)
Fixpoint el_update (tags : list bytes) (changes : list bytes) : option (list bytes) :=
  match changes with
  | [] => Some tags
  | [] :: _ => None
  | (c :: t) :: r =>
      if beq c "+"%char then el_update (if existsb (bseq t) tags then tags else t :: tags) r
      else if beq c "-"%char then el_update (filter (fun u => negb (bseq t u)) tags) r
      else None
  end.
(** emacs/notmuch-tag.el:443-461 [notmuch-update-tags]. *)
Definition el_update_tags (tags changes : list bytes) : option (list bytes) :=
  option_map el_sort (el_update tags changes).

(** emacs/notmuch-tag.el:519-533 [notmuch-tag-change-list], one element. *)
Definition el_change (reverse : bool) (str : bytes) : bytes :=
  let s := if existsb (fun l => match l with c :: _ => beq c "+"%char || beq c "-"%char | [] => false end) (el_lines [] str)
           then str else "+"%char :: str in
  if reverse then (if beq (peek s) "-"%char then "+"%char else "-"%char) :: tl s else s.
(** emacs/notmuch-tag.el:519-533 [notmuch-tag-change-list]. *)
Definition el_change_list (tags : list bytes) (reverse : bool) : list bytes := map (el_change reverse) tags.

(** (mapconcat f l " "). *)
Fixpoint el_join (l : list bytes) : bytes :=
  match l with [] => [] | [x] => x | x :: r => x ++ " "%char :: el_join r end.
(** emacs/notmuch-tag.el:496-497: what is fed to 'notmuch tag --batch'. *)
Definition el_batch_text (query : bytes) (changes : list bytes) : bytes :=
  el_join (map el_hex_encode changes) ++ lit " -- " ++ query.

(** The database on disk and [notmuch-tag-history] of a buffer. *)
Record editor := { e_store : store; e_history : list (bytes * list bytes) }.
Inductive el_result := E_ok | E_refused (* an error before anything is run *) | E_failed (* 'notmuch tag' failed *).

Section Editor.
Variable eval : bytes -> option query.   (* query parsing and evaluation by Xapian *)
Variable thr : nat.                      (* the flush threshold of the process *)

(** 'notmuch tag --batch' with [text] on standard input (notmuch-tag.c:218-317, the part
    that matters here): a process of its own, closing the database at the end. *)
Definition run_batch (text : bytes) (st : store) : outcome * store :=
  let '(o, s) := tag_file eval 1%N false (split_lines text) (open_db st thr true) in (o, durable (close s)).

(** emacs/notmuch-tag.el:472-504 [notmuch-tag]; [None] is a nil query. *)
Definition el_tag (query : option bytes) (changes : list bytes) (omit_hist : bool) (e : editor) : el_result * editor :=
  if negb (forallb el_change_ok changes) then (E_refused, e)
  else match query with
  | None => (E_refused, e)
  | Some q =>
      match changes with
      | [] => (E_ok, e)
      | _ =>
          let '(o, st) := run_batch (el_batch_text q changes) (e_store e) in
          match o with
          | O_return false =>
              (E_ok, {| e_store := st; e_history := if omit_hist then e_history e else (q, changes) :: e_history e |})
          | _ => (E_failed, {| e_store := st; e_history := e_history e |})
          end
      end
  end.

(** emacs/notmuch-tag.el:506-517 [notmuch-tag-undo]. *)
Definition el_undo (e : editor) : el_result * editor :=
  match e_history e with
  | [] => (E_refused, e)
  | (q, changes) :: h => el_tag (Some q) (el_change_list changes true) true {| e_store := e_store e; e_history := h |}
  end.

(** emacs/notmuch-show.el:2264-2274 [notmuch-show-tag]: the message with id [id], shown
    with [tags]; also returns the tags shown afterwards. *)
Definition el_show_tag (id : bytes) (tags changes : list bytes) (e : editor) : el_result * editor * list bytes :=
  match el_tag (Some (el_id_to_query id)) changes false e with
  | (E_ok, e') => match el_update_tags tags changes with
                  | Some tags' => (E_ok, e', tags')
                  | None => (E_refused, e', tags)
                  end
  | (r, e') => (r, e', tags)
  end.
End Editor.
