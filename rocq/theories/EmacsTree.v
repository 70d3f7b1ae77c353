(** Model of changing tags from the tree view and the show view of the Emacs front end: emacs/notmuch-tree.el:430-545,
    713-725, 812-815, 863-908 and 1017-1076, emacs/notmuch-show.el:452-468, 1762-1770, 1830-1850, 1887-1890, 1904-1927,
    2254-2291, 2385-2400 and 2416-2426.

    The buffers are lists: of lines in the tree view, of messages in the show view; point is the number of a line, and a
    number past the last one is the text after the results.  Simplifications: of what is drawn only the tags are kept;
    moving through a show buffer by its text properties, as notmuch-show-mapc does, is going through the list. *)
From Verif Require Import Bytes Db TagOps EmacsTag EmacsSearch.
Local Open Scope nat_scope.

(** A line of the tree view: the entries :id, :first and :tags. *)
Record tline := { t_id : bytes; t_first : bool; t_tags : list bytes }.
(** A message of the show view: the entries :id, :tags, :seen and :message-visible, and the tags in the header line. *)
Record smsg := { s_id : bytes; s_tags : list bytes; s_drawn : list bytes; s_seen : bool; s_visible : bool }.
(** A show buffer: its messages and the one point is in. *)
Record show := { sh_msgs : list smsg; sh_cur : nat }.

(** ** Filling the tree view *)
(** What "notmuch show" reports of a thread: messages with their replies. *)
Inductive tree := Tree (id : bytes) (tags : list bytes) (replies : list tree).
(** emacs/notmuch-tree.el:1017-1053 [notmuch-tree-insert-tree], 1055-1063 [notmuch-tree-insert-thread]: the lines added. *)
Fixpoint insert_tree (t : tree) (depth : nat) (first : bool) : list tline :=
  match t with
  | Tree id tags replies =>
      {| t_id := id; t_first := first && (depth =? 0); t_tags := tags |} ::
      (fix insert_thread (ts : list tree) (first : bool) : list tline :=
         match ts with [] => [] | t :: ts => insert_tree t (S depth) first ++ insert_thread ts false end) replies true
  end.
(** emacs/notmuch-tree.el:1055-1063 [notmuch-tree-insert-thread] at depth 0. *)
Fixpoint insert_thread (ts : list tree) (first : bool) : list tline :=
  match ts with [] => [] | t :: ts => insert_tree t 0 first ++ insert_thread ts false end.
(** emacs/notmuch-tree.el:1065-1076 [notmuch-tree-insert-forest-thread], [notmuch-tree-insert-forest]. *)
Definition insert_forest (f : list (list tree)) : list tline := flat_map (fun ts => insert_thread ts true) f.

(** ** The tree view *)
(** emacs/notmuch-tree.el:812-815 [notmuch-tree-thread-top] on a line.  (If no line above begins a thread, Emacs does not
    return.) *)
Fixpoint top_loop (l : list tline) (pos : nat) : nat :=
  match nth_error l pos with
  | Some t => if t_first t then pos else match pos with O => O | S p => top_loop l p end
  | None => pos
  end.
(** emacs/notmuch-tree.el:863-871 [notmuch-tree-thread-mapcar]: the loop.  The state is the tree view and anything else
    FUNCTION works on; [fuel]: more than the number of lines. *)
Fixpoint mapcar_loop {A B} (fn : nat -> list tline * A -> B * (list tline * A)) (fuel pos : nat) (st : list tline * A) : list B * (list tline * A) :=
  match fuel with
  | O => ([], st)
  | S f =>
      let '(b, st) := fn pos st in
      match nth_error (fst st) (S pos) with
      | Some t => if t_first t then ([b], st) else let '(bs, st) := mapcar_loop fn f (S pos) st in (b :: bs, st)
      | None => ([b], st)
      end
  end.
(** As above. *)
Definition thread_mapcar {A B} (fn : nat -> list tline * A -> B * (list tline * A)) (pos : nat) (st : list tline * A) : list B * (list tline * A) :=
  mapcar_loop fn (S (length (fst st))) (top_loop (fst st) pos) st.
(** emacs/notmuch-tree.el:467-475 [notmuch-tree-get-message-id]; [None] is nil. *)
Definition tree_message_id (l : list tline) (pos : nat) : option bytes := option_map (fun t => el_id_to_query (t_id t)) (nth_error l pos).
(** emacs/notmuch-tree.el:873-877 [notmuch-tree-get-messages-ids-thread-search]; in mapconcat nil is the empty sequence. *)
Definition ids_thread_search (l : list tline) (pos : nat) : bytes :=
  mapconcat (lit " or ") (fst (thread_mapcar (fun p st => (match tree_message_id (fst st) p with Some q => q | None => [] end, st)) pos (l, tt))).
(** Element n of a list is replaced. *)
Fixpoint set_nth {X} (l : list X) (n : nat) (x : X) : list X :=
  match l, n with [], _ => [] | _ :: l, O => x :: l | y :: l, S n => y :: set_nth l n x end.
(** (equal a b) for lists of strings. *)
Fixpoint equal_tags (a b : list bytes) : bool :=
  match a, b with [], [] => true | x :: a, y :: b => bseq x y && equal_tags a b | _, _ => false end.
(** emacs/notmuch-show.el:452-468 [notmuch-show-update-tags]: the header line of the current message is drawn again, and its
    properties stay as they were. *)
Definition show_update_tags (tags : list bytes) (s : show) : show :=
  match nth_error (sh_msgs s) (sh_cur s) with
  | Some m => {| sh_msgs := set_nth (sh_msgs s) (sh_cur s)
                   {| s_id := s_id m; s_tags := s_tags m; s_drawn := tags; s_seen := s_seen m; s_visible := s_visible m |};
                 sh_cur := sh_cur s |}
  | None => s
  end.
(** emacs/notmuch-tree.el:509-524 [notmuch-tree-tag-update-display]; the pane is the buffer of notmuch-tree-message-window,
    if that window is live.  (Changes that notmuch-update-tags refuses leave the line alone; in Emacs the error ends the
    command.) *)
Definition tree_update_display (changes : list bytes) (pos : nat) (l : list tline) (pane : option show) : list tline * option show :=
  match nth_error l pos with
  | None => (l, pane)
  | Some t =>
      match el_update_tags (t_tags t) changes with
      | None => (l, pane)
      | Some new =>
          if equal_tags (t_tags t) new then (l, pane)
          else (set_nth l pos {| t_id := t_id t; t_first := t_first t; t_tags := new |},
                option_map (fun s => match nth_error (sh_msgs s) (sh_cur s) with
                                     | Some m => if bseq (el_id_to_query (t_id t)) (el_id_to_query (s_id m)) then show_update_tags new s else s
                                     | None => s
                                     end) pane)
      end
  end.

Section Tag.
(** Queries as Xapian reads them, and the flush threshold (see EmacsTag.v). *)
Variable eval : bytes -> option query.
Variable thr : nat.
(** emacs/notmuch-tree.el:528-533 [notmuch-tree-tag]. *)
Definition tree_tag (changes : list bytes) (pos : nat) (l : list tline) (pane : option show) (e : editor) : el_result * editor * (list tline * option show) :=
  match el_tag eval thr (tree_message_id l pos) changes false e with
  | (E_ok, e') => (E_ok, e', tree_update_display changes pos l pane)
  | (r, e') => (r, e', (l, pane))
  end.
(** emacs/notmuch-tree.el:879-888 [notmuch-tree-tag-thread]. *)
Definition tree_tag_thread (changes : list bytes) (pos : nat) (l : list tline) (pane : option show) (e : editor) : el_result * editor * (list tline * option show) :=
  match nth_error l pos with
  | None => (E_ok, e, (l, pane))
  | Some _ =>
      match el_tag eval thr (Some (ids_thread_search l pos)) changes false e with
      | (E_ok, e') => (E_ok, e', snd (thread_mapcar (fun p st => (tt, tree_update_display changes p (fst st) (snd st))) pos (l, pane)))
      | (r, e') => (r, e', (l, pane))
      end
  end.
(** emacs/notmuch-tree.el:713-723 [notmuch-tree-archive-message]; [tags]: notmuch-archive-tags. *)
Definition tree_archive_message (tags : list bytes) (unarchive : bool) pos l pane e :=
  match tags with [] => (E_ok, e, (l, pane)) | _ => tree_tag (el_change_list tags unarchive) pos l pane e end.
(** emacs/notmuch-tree.el:890-905 [notmuch-tree-archive-thread]. *)
Definition tree_archive_thread (tags : list bytes) (unarchive : bool) pos l pane e :=
  match tags with [] => (E_ok, e, (l, pane)) | _ => tree_tag_thread (el_change_list tags unarchive) pos l pane e end.

(** ** The show view *)
(** emacs/notmuch-show.el:1887-1890 [notmuch-show-set-tags]. *)
Definition set_tags (tags : list bytes) (m : smsg) : smsg :=
  {| s_id := s_id m; s_tags := tags; s_drawn := tags; s_seen := s_seen m; s_visible := s_visible m |}.
(** The ends of emacs/notmuch-show.el:2264-2274 and 2284-2291, for one message. *)
Definition show_retag (changes : list bytes) (m : smsg) : smsg :=
  match el_update_tags (s_tags m) changes with
  | Some new => if equal_tags (s_tags m) new then m else set_tags new m
  | None => m
  end.
(** As above, for the current message. *)
Definition show_retag_current (changes : list bytes) (s : show) : show :=
  match nth_error (sh_msgs s) (sh_cur s) with
  | Some m => {| sh_msgs := set_nth (sh_msgs s) (sh_cur s) (show_retag changes m); sh_cur := sh_cur s |}
  | None => s
  end.
(** emacs/notmuch-show.el:1830-1837 [notmuch-show-get-message-id]. *)
Definition show_message_id (s : show) : option bytes := option_map (fun m => el_id_to_query (s_id m)) (nth_error (sh_msgs s) (sh_cur s)).
(** emacs/notmuch-show.el:2254-2262 [notmuch-show-tag-message]. *)
Definition show_tag_message (changes : list bytes) (s : show) (e : editor) : el_result * editor * show :=
  match nth_error (sh_msgs s) (sh_cur s) with
  | None => (E_refused, e, s)
  | Some m =>
      match el_update_tags (s_tags m) changes with
      | None => (E_refused, e, s)
      | Some new =>
          if equal_tags (s_tags m) new then (E_ok, e, s)
          else match el_tag eval thr (show_message_id s) changes false e with
               | (E_ok, e') => (E_ok, e', {| sh_msgs := set_nth (sh_msgs s) (sh_cur s) (set_tags new m); sh_cur := sh_cur s |})
               | (r, e') => (r, e', s)
               end
      end
  end.
(** emacs/notmuch-show.el:2264-2274 [notmuch-show-tag]. *)
Definition show_tag (changes : list bytes) (s : show) (e : editor) : el_result * editor * show :=
  match el_tag eval thr (show_message_id s) changes false e with
  | (E_ok, e') => (E_ok, e', show_retag_current changes s)
  | (r, e') => (r, e', s)
  end.
(** emacs/notmuch-show.el:1839-1850 [notmuch-show-get-messages-ids], [notmuch-show-get-messages-ids-search]: the last message first. *)
Definition show_ids_search (s : show) : bytes := mapconcat (lit " or ") (rev (map (fun m => el_id_to_query (s_id m)) (sh_msgs s))).
(** emacs/notmuch-show.el:2276-2291 [notmuch-show-tag-all]. *)
Definition show_tag_all (changes : list bytes) (s : show) (e : editor) : el_result * editor * show :=
  match el_tag eval thr (Some (show_ids_search s)) changes false e with
  | (E_ok, e') => (E_ok, e', {| sh_msgs := map (show_retag changes) (sh_msgs s); sh_cur := sh_cur s |})
  | (r, e') => (r, e', s)
  end.
(** emacs/notmuch-show.el:2385-2400 [notmuch-show-archive-thread]. *)
Definition show_archive_thread (tags : list bytes) (unarchive : bool) (s : show) (e : editor) : el_result * editor * show :=
  match tags with [] => (E_ok, e, s) | _ => show_tag_all (el_change_list tags unarchive) s e end.
(** emacs/notmuch-show.el:2416-2426 [notmuch-show-archive-message]. *)
Definition show_archive_message (tags : list bytes) (unarchive : bool) (s : show) (e : editor) : el_result * editor * show :=
  match tags with [] => (E_ok, e, s) | _ => show_tag_message (el_change_list tags unarchive) s e end.
(** emacs/notmuch-show.el:1906-1917 [notmuch-show-mark-read]; [tags]: notmuch-show-mark-read-tags. *)
Definition show_mark_read (tags : list bytes) (unread : bool) (s : show) (e : editor) : el_result * editor * show :=
  match tags with [] => (E_ok, e, s) | _ => show_tag_message (el_change_list tags unread) s e end.
(** emacs/notmuch-show.el:1919-1927 [notmuch-show-seen-current-message]. *)
Definition show_seen (tags : list bytes) (s : show) (e : editor) : el_result * editor * show :=
  match nth_error (sh_msgs s) (sh_cur s) with
  | Some m =>
      if s_visible m && negb (s_seen m) then
        match show_mark_read tags false s e with
        | (E_ok, e', s') =>
            (E_ok, e', match nth_error (sh_msgs s') (sh_cur s') with
                       | Some m => {| sh_msgs := set_nth (sh_msgs s') (sh_cur s')
                                        {| s_id := s_id m; s_tags := s_tags m; s_drawn := s_drawn m; s_seen := true; s_visible := s_visible m |};
                                      sh_cur := sh_cur s' |}
                       | None => s'
                       end)
        | x => x
        end
      else (E_ok, e, s)
  | None => (E_ok, e, s)
  end.
End Tag.
