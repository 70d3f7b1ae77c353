(** Model of changing tags from the search view of the Emacs front end: emacs/notmuch.el:417-514 (results in the
    buffer, regions, the stable queries), 592-674 (changing tags), 677-702 and 882-892 (drawing a line again), 932-938.

    The buffer is a list of lines, one for each result, and some text after them.  Simplification: a line is as wide as
    [draw] says; faces and the position of point are left out. *)
From Verif Require Import Bytes Db TagOps EmacsTag.
Local Open Scope nat_scope.

(** A result of "notmuch search": the number of matched messages, the two stable queries and the tags (the plist entries
    :matched, :query and :tags; notmuch-search.c:160-252). *)
Record result := { r_matched : nat; r_query : option bytes * option bytes; r_tags : list bytes }.
(** The buffer: its lines and the number of characters after them ("End of search results.", emacs/notmuch.el:704-728). *)
Record view := { v_lines : list result; v_rest : nat }.
(** emacs/notmuch.el:882-892 [notmuch-search-show-result], 894-907 [notmuch-search-append-result]: results without a
    matched message are not shown. *)
Definition append_result (r : result) (v : view) : view :=
  if Nat.eqb (r_matched r) 0 then v else {| v_lines := v_lines v ++ [r]; v_rest := v_rest v |}.

Section View.
(** The number of characters of a line without its newline. *)
Variable draw : result -> nat.
(** The width of a line, emacs/notmuch.el:886-890. *)
Definition width (r : result) : nat := S (draw r).
(** The text property notmuch-search-result at a position and where it begins and ends; [s]: the position of the first line
    (emacs/notmuch.el:419-448; two lines never have the same object). *)
Fixpoint line_at (s : nat) (l : list result) (pos : nat) : option (nat * nat * result) :=
  match l with
  | [] => None
  | r :: l => if pos <? s then None else if pos <? s + width r then Some (s, s + width r, r) else line_at (s + width r) l pos
  end.
(** emacs/notmuch.el:419-423 [notmuch-search-get-result]; point-min is 1. *)
Definition get_result (v : view) (pos : nat) : option result := option_map snd (line_at 1 (v_lines v) pos).
(** emacs/notmuch.el:425-437 [notmuch-search-result-beginning]. *)
Definition result_beginning (v : view) (pos : nat) : option nat := option_map (fun x => fst (fst x)) (line_at 1 (v_lines v) pos).
(** emacs/notmuch.el:439-448 [notmuch-search-result-end]. *)
Definition result_end (v : view) (pos : nat) : option nat := option_map (fun x => snd (fst x)) (line_at 1 (v_lines v) pos).

(** emacs/notmuch.el:450-474 [notmuch-search-foreach-result]: the state is the buffer, the marker END and what FN works
    on.  [fuel]: more than the number of lines. *)
Fixpoint foreach_loop {A} (fn : nat -> view * nat * A -> view * nat * A) (fuel : nat) (pos : option nat) (first : bool) (st : view * nat * A) : view * nat * A :=
  match fuel, pos with
  | S f, Some p =>
      let '(v, m, _) := st in
      if (p <? m) || first then
        let st := match get_result v p with Some _ => fn p st | None => st end in
        let '(v, _, _) := st in
        foreach_loop fn f (result_end v p) false st
      else st
  | _, _ => st
  end.
(** As above. *)
Definition foreach_result {A} (v : view) (beg end_ : nat) (fn : nat -> view * nat * A -> view * nat * A) (a : A) : view * nat * A :=
  foreach_loop fn (S (S (length (v_lines v)))) (result_beginning v beg) true (v, end_, a).
(** emacs/notmuch.el:479-484 [notmuch-search-properties-in-region] for :query: the last one first. *)
Definition queries_in_region (v : view) (beg end_ : nat) : list (option bytes * option bytes) :=
  snd (foreach_result v beg end_ (fun p '(v, m, out) => (v, m, match get_result v p with Some r => r_query r :: out | None => out end)) []).
(** The dolist of emacs/notmuch.el:508-512. *)
Definition push_queries (all : bool) (l : list (option bytes * option bytes)) : list bytes :=
  fold_left (fun acc q =>
    let acc := match fst q with Some s => s :: acc | None => acc end in
    match snd q with Some s => if all then s :: acc else acc | None => acc end) l [].
(** (mapconcat 'identity l sep). *)
Fixpoint mapconcat (sep : bytes) (l : list bytes) : bytes := match l with [] => [] | [x] => x | x :: r => x ++ sep ++ mapconcat sep r end.
(** emacs/notmuch.el:501-514 [notmuch-search-find-stable-query-region]; [None] is nil. *)
Definition stable_query (v : view) (beg end_ : nat) (only_matched : bool) : option bytes :=
  match push_queries (negb only_matched) (queries_in_region v beg end_) with
  | [] => None
  | l => Some (lit "(" ++ mapconcat (lit ") or (") l ++ lit ")")
  end.

(** The line at a position is replaced. *)
Fixpoint set_line (s : nat) (l : list result) (pos : nat) (r' : result) : list result :=
  match l with
  | [] => []
  | r :: l => if pos <? s + width r then r' :: l else r :: set_line (s + width r) l pos r'
  end.
(** A marker when the text from s to e is deleted and w characters are inserted at s (external: a marker at the place of
    insertion stays before the text). *)
Definition move_marker (m s e w : nat) : nat :=
  let m := if m <=? s then m else if m <? e then s else m - (e - s) in
  if s <? m then m + w else m.
(** emacs/notmuch.el:677-702 [notmuch-search-update-result]. *)
Definition update_result (p : nat) (r' : result) (v : view) (m : nat) : view * nat :=
  match line_at 1 (v_lines v) p with
  | Some (s, e, _) => ({| v_lines := set_line 1 (v_lines v) p r'; v_rest := v_rest v |}, move_marker m s e (width r'))
  | None => (v, m)
  end.
(** emacs/notmuch.el:592-595 [notmuch-search-set-tags] with notmuch-update-tags.  (A change that notmuch-update-tags
    refuses although notmuch-tag did not leaves the line as it is here; in Emacs the error ends the command.) *)
Definition new_tags (changes : list bytes) (r : result) : result :=
  match el_update_tags (r_tags r) changes with
  | Some t => {| r_matched := r_matched r; r_query := r_query r; r_tags := t |}
  | None => r
  end.
(** The loop of emacs/notmuch.el:634-638. *)
Definition retag (changes : list bytes) (v : view) (beg end_ : nat) : view :=
  fst (fst (foreach_result v beg end_ (fun p '(v, m, u) =>
    match get_result v p with
    | Some r => let '(v, m) := update_result p (new_tags changes r) v m in (v, m, u)
    | None => (v, m, u)
    end) tt)).

Section Tag.
(** Queries as Xapian reads them, and the flush threshold (see EmacsTag.v). *)
Variable eval : bytes -> option query.
Variable thr : nat.
(** emacs/notmuch.el:617-638 [notmuch-search-tag]. *)
Definition search_tag (changes : list bytes) (v : view) (beg end_ : nat) (only_matched : bool) (e : editor) : el_result * editor * view :=
  match el_tag eval thr (stable_query v beg end_ only_matched) changes false e with
  | (E_ok, e') => (E_ok, e', retag changes v beg end_)
  | (r, e') => (r, e', v)
  end.
(** emacs/notmuch.el:657-673 [notmuch-search-archive-thread]; [archive_tags]: notmuch-archive-tags. *)
Definition search_archive (archive_tags : list bytes) (unarchive : bool) (v : view) (beg end_ : nat) (e : editor) : el_result * editor * view :=
  match archive_tags with
  | [] => (E_ok, e, v)
  | _ => search_tag (el_change_list archive_tags unarchive) v beg end_ false e
  end.
(** The end of the text (point-max). *)
Definition point_max (v : view) : nat := S (list_sum (map width (v_lines v)) + v_rest v).
(** emacs/notmuch.el:932-938 [notmuch-search-tag-all]. *)
Definition search_tag_all (changes : list bytes) (v : view) (e : editor) : el_result * editor * view := search_tag changes v 1 (point_max v) true e.
End Tag.
End View.
