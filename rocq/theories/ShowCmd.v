(** Model of the show command: notmuch-show.c:1009-1268 and 1313-1513 (which messages are
    shown, in which structure).  The library calls are those of Query.v, Thread.v and
    ThreadTree.v; what is printed for one message is in Mime.v, Mbox.v, Sprinter.v.

    Not modelled: format selection and warnings, reindexing after session keys were stashed
    (1042-1055), allocation failure. *)
From Verif Require Import Bytes Terms XQuery DocSet Thread Query ThreadTree SearchCmd.
Local Open Scope nat_scope.

(** What is given to the structure printer: a message (what format->part prints), null, a
    list. *)
Inductive item := IMsg (d : xdoc) (indent : nat) | INull | IList (l : list item).

(** notmuch-show.c:1318-1335 and 1373-1404: the options, after parsing.  [v_single]: --part,
    --duplicate or --format=raw was given. *)
Record show_args := {
  v_exclude : bool; v_sort : sort_mode; v_entire : bool; v_unthreaded : bool; v_single : bool;
  v_offset : Z; v_limit : Z
}.

(** What the threading code reads of the message (ThreadTree.v). *)
Definition tmsg_of (d : xdoc) : tmsg := mk_tmsg (xd_mid d) (xd_irt d) (xd_refs d) (xd_date d).
(** default document for total list access. *)
Definition no_doc : xdoc := mk_xdoc 0 [] 0 [] None None None 0 None [].
(** default member for total list access. *)
Definition no_member : tmember := mk_tmember no_doc false false None.

Section show.
  (** External: mime_node_open and the part function succeed for the message. *)
  Variable opens : xdoc -> bool.
  (** notmuch-show.c:1009-1052 [show_message]: what is printed, and if all went well. *)
  Definition show_message (d : xdoc) (indent : nat) : list item * bool :=
    if opens d then ([IMsg d indent], true) else ([], false).
  (** notmuch-show.c:1082. *)
  Definition to_show (omit entire : bool) (m : tmember) : bool :=
    mb_match m && (negb (mb_excluded m) || negb omit) || entire.
  (** notmuch-show.c:1054-1107 [show_messages]; messages are positions in the message list of
      the thread. *)
  Fixpoint show_list (omit entire : bool) (ms : list tmember) (fuel : nat) (r : replies) (indent : nat) (l : list nat) : option (item * bool) :=
    match fuel with
    | O => None
    | S f =>
        match (fix loop (l : list nat) : option (list item * bool) :=
           match l with
           | [] => Some ([], true)
           | i :: l' =>
               let m := nth i ms no_member in
               let '(own, ok) := if to_show omit entire m then show_message (mb_doc m) indent else ([INull], true) in
               let next_indent := if to_show omit entire m then S indent else indent in
               match show_list omit entire ms f r next_indent (r i) with
               | None => None
               | Some (sub, ok') =>
                   match loop l' with
                   | None => None
                   | Some (rest, ok'') => Some (IList (own ++ [sub]) :: rest, ok && ok' && ok'')
                   end
               end
           end) l with
        | None => None
        | Some (items, ok) => Some (IList items, ok)
        end
    end.
  (** notmuch-show.c:1191-1199: one thread; its replies as notmuch_threads_get left them
      (lib/thread.cc:646 [_resolve_thread_relationships]). *)
  Definition show_thread (qsort : list tmsg -> list nat -> list nat) (omit entire : bool) (th : thread) : option (item * bool) :=
    let docs := map (fun m => tmsg_of (mb_doc m)) (th_messages th) in
    let fuel := S (length docs) in
    match resolve (qsort docs) fuel docs with
    | None => None
    | Some (r, top) => show_list omit entire (th_messages th) fuel r 0 top
    end.
  (** [show_all]: as above, notmuch-show.c:1191-1199. *)
  Fixpoint show_all {A} (f : A -> option (item * bool)) (l : list A) : option (list item * bool) :=
    match l with
    | [] => Some ([], true)
    | a :: l => match f a, show_all f l with
                | Some (i, ok), Some (r, ok') => Some (i :: r, ok && ok')
                | _, _ => None
                end
    end.
  (** [list_of]: as above, notmuch-show.c:1191-1199. *)
  Definition list_of (o : option (list item * bool)) : result (item * bool) :=
    match o with Some (l, ok) => Out (IList l, ok) | None => Undef end.
  (** notmuch-show.c:1151-1208 [do_show_threaded]. *)
  Definition do_show_threaded (qsort : list tmsg -> list nat -> list nat) (db : list xdoc) (q : query) (omit entire : bool) (offset limit : Z) : result (item * bool) :=
    match do_search_threads db q offset limit with
    | Out l => list_of (show_all (show_thread qsort omit entire) l)
    | Fail => Fail
    | Undef => Undef
    end.
  (** notmuch-show.c:1210-1268 [do_show_unthreaded]. *)
  Definition show_unthreaded_one (omit : bool) (m : messages) (d : xdoc) : option (item * bool) :=
    match message_flag m d with
    | None => None
    | Some excluded =>
        let '(own, ok) := if negb excluded || negb omit then show_message d 0 else ([INull], true) in
        Some (IList [IList own], ok)
    end.
  (** [do_show_unthreaded]: as above, notmuch-show.c:1210-1268. *)
  Definition do_show_unthreaded (db : list xdoc) (q : query) (omit : bool) (offset limit : Z) : result (item * bool) :=
    let offset := if (offset <? 0)%Z
                  then match count_messages db q with Some n => Some (fix_offset offset n) | None => None end
                  else Some offset in
    match offset with
    | None => Fail
    | Some offset =>
        match search_messages db q with
        | None => Fail
        | Some m =>
            match messages_slice (ms_docs m) 0 offset limit with
            | Out l => list_of (show_all (show_unthreaded_one omit m) l)
            | Fail => Fail
            | Undef => Undef
            end
        end
    end.
  (** notmuch-show.c:1110-1148 [do_show_single]. *)
  Definition do_show_single (db : list xdoc) (q : query) : result (item * bool) :=
    match count_messages db q, search_messages db q with
    | Some 1, Some m =>
        match ms_docs m with
        | d :: _ => let '(own, ok) := show_message d 0 in Out (IList own, ok)
        | [] => Fail
        end
    | _, _ => Fail
    end.
  (** notmuch-show.c:1438-1505: the query and the three cases.  (NOTMUCH_EXCLUDE_FLAG is 0,
      that is false.) *)
  Definition show_command (qsort : list tmsg -> list nat -> list nat) (db : list xdoc) (parse : option xq) (tags : list bytes) (a : show_args) : result (item * bool) :=
    let q := set_sort (query_create parse) (v_sort a) in
    if v_single a then do_show_single db q
    else
      match add_excludes q tags with
      | None => Fail
      | Some q =>
          let q := if v_exclude a then q else set_omit_excluded q EXCLUDE_FLAG in
          if v_unthreaded a then do_show_unthreaded db q (v_exclude a) (v_offset a) (v_limit a)
          else do_show_threaded qsort db q (v_exclude a) (v_entire a) (v_offset a) (v_limit a)
      end.
End show.
