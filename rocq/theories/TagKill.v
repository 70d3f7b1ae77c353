(** Model of a run of 'notmuch tag' with maildir.synchronize_flags, as the sequence of its
    effects on the database and on the disk, so that the process can be killed between any
    two of them (notmuch-tag.c:118-170, tag-util.c:273-333, lib/message.cc:1349-1373,
    2044-2107).

    Xapian (external): written documents are seen by the process at once and become durable
    when Xapian flushes, which it may do at any time outside a transaction ('notmuch tag'
    opens none) and does when the database is closed.  rename(2) (external) takes effect at
    once, and survives (a kill of the process, not of the machine). *)
From Verif Require Import Bytes DocMap TagOps Maildir MailStore.
Local Open Scope N_scope.

(** tag-util.c:289-312 on the set of tags; [ra] is TAG_FLAG_REMOVE_ALL. *)
Definition new_tags_of (ra : bool) (ops : list tagop) (tags : list bytes) : list bytes :=
  fold_left (fun ts o => if to_remove o then remove_tag (to_tag o) ts else add_tag (to_tag o) ts) ops (if ra then [] else tags).

(** One effect: a document written (lib/message.cc:1349-1373 [_notmuch_message_sync]) or a
    file renamed (lib/message.cc:2078). *)
Inductive action := AWrite (k : N) (d : mdoc) | ARename (f g : bytes).

(** lib/message.cc:2044-2107 [notmuch_message_tags_to_maildir_flags]: the effects, for the
    files still to do; [names] are the names the document has now.  Also the disk
    afterwards. *)
Fixpoint sync_actions (rename_ok : bytes -> bool) (to_set to_clear : bytes) (k : N) (d : mdoc) (files names : list bytes) (dk : disk)
  : list action * disk :=
  match files with
  | [] => ([], dk)
  | f :: files =>
      match filename_is_in_maildir f with
      | None => sync_actions rename_ok to_set to_clear k d files names dk
      | Some _ =>
          match new_maildir_filename f to_set to_clear with
          | None => sync_actions rename_ok to_set to_clear k d files names dk
          | Some g =>
              if bseq f g then sync_actions rename_ok to_set to_clear k d files names dk
              else if rename_ok f && match dk f with Some _ => true | None => false end
              then
                let names := add_name g (remove_name f names) in
                let '(l, dk') := sync_actions rename_ok to_set to_clear k d files names (rename_file f g dk) in
                (ARename f g :: AWrite k (set_files names d) :: l, dk')
              else sync_actions rename_ok to_set to_clear k d files names dk
          end
      end
  end.

(** tag-util.c:273-333 [tag_op_list_apply]: the effects for one message; [po] is
    TAG_FLAG_PRE_OPTIMIZED, [sync] TAG_FLAG_MAILDIR_SYNC.  The tags are written when the
    message is thawed; a write of an unchanged document, which the code leaves out, is
    included. *)
Definition message_actions (rename_ok : bytes -> bool) (ra po sync : bool) (ops : list tagop) (k : N) (d : mdoc) (dk : disk)
  : list action * disk :=
  if negb po && negb (makes_changes (m_tags d) ops ra) then ([], dk)
  else
    let d1 := set_tags (new_tags_of ra ops (m_tags d)) d in
    let '(l, dk') := if sync then let '(to_set, to_clear) := get_maildir_flag_actions (m_tags d1) in
                                  sync_actions rename_ok to_set to_clear k d1 (m_files d1) (m_files d1) dk
                     else ([], dk) in
    (AWrite k d1 :: l, dk').

(** notmuch-tag.c:157-165: the loop over the results.  (Each message is read when it is
    reached; the results are distinct, so it is as it was at the start.) *)
Fixpoint command_actions (rename_ok : bytes -> bool) (ra po sync : bool) (ops : list tagop) (rs : list (N * mdoc)) (dk : disk) : list action :=
  match rs with
  | [] => []
  | (k, d) :: rs =>
      let '(l, dk') := message_actions rename_ok ra po sync ops k d dk in
      l ++ command_actions rename_ok ra po sync ops rs dk'
  end.

(** A query as the set of documents it selects (Xapian, external), and what the query made
    of it by notmuch-tag.c:41-89 selects: only messages some operation would change. *)
Definition mquery := mdoc -> bool.
(** notmuch-tag.c:41-89: the condition of one operation. *)
Definition would_change (d : mdoc) (o : tagop) : bool :=
  if to_remove o then existsb (bseq (to_tag o)) (m_tags d) else negb (existsb (bseq (to_tag o)) (m_tags d)).
(** notmuch-tag.c:120-151: the results. *)
Definition results (q : mquery) (ra : bool) (ops : list tagop) (m : docmap mdoc) : list (N * mdoc) :=
  filter (fun kd => q (snd kd) && (ra || match ops with [] => true | _ => existsb (would_change (snd kd)) ops end)) m.

(** What the process sees, what is durable, and the disk. *)
Record world := { w_seen : docmap mdoc; w_durable : docmap mdoc; w_disk : disk }.
(** an effect takes place. *)
Definition exec (a : action) (w : world) : world :=
  match a with
  | AWrite k d => {| w_seen := dput k d (w_seen w); w_durable := w_durable w; w_disk := w_disk w |}
  | ARename f g => {| w_seen := w_seen w; w_durable := w_durable w; w_disk := rename_file f g (w_disk w) |}
  end.
(** Xapian's flush (external). *)
Definition flush (w : world) : world := {| w_seen := w_seen w; w_durable := w_seen w; w_disk := w_disk w |}.
(** The command on a database and disk at rest: notmuch-tag.c:120-170. *)
Definition tag_actions (rename_ok : bytes -> bool) (sync ra : bool) (q : mquery) (ops : list tagop) (w : world) : list action :=
  command_actions rename_ok ra (negb ra) sync ops (results q ra ops (w_seen w)) (w_disk w).
(** Run to the end: the database is closed, which flushes. *)
Definition finish (acts : list action) (w : world) : world := flush (fold_left (fun w a => exec a w) acts w).
(** Killed at any point, Xapian having flushed whenever it liked; what the next process finds. *)
Inductive killed : list action -> world -> world -> Prop :=
| k_now acts w : killed acts w {| w_seen := w_durable w; w_durable := w_durable w; w_disk := w_disk w |}
| k_effect a acts w w' : killed acts (exec a w) w' -> killed (a :: acts) w w'
| k_flush acts w w' : killed acts (flush w) w' -> killed acts w w'.
(** Interrupted by a signal it handles (notmuch-tag.c:27-38, 158): the message at hand is
    completed, then the database is closed. *)
Definition interrupted_after (n : nat) (rename_ok : bytes -> bool) (sync ra : bool) (q : mquery) (ops : list tagop) (w : world) : world :=
  finish (command_actions rename_ok ra (negb ra) sync ops (firstn n (results q ra ops (w_seen w))) (w_disk w)) w.
