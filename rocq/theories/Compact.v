(** Model of compaction (lib/database.cc:619-721). *)
From Verif Require Import Bytes.

(** A directory that may hold a database: the original, the compacted copy, or remains of
    a partly written or partly removed one. *)
Inductive dir := Original | Compacted | Partial | Foreign (n : nat).
(** the directories at each path, as far as lib/database.cc:619-733 uses them. *)
Definition dirs := bytes -> option dir.
(** replace one path. *)
Definition dset (p : bytes) (x : option dir) (d : dirs) : dirs := fun q => if bseq q p then x else d q.
(** current directories and every earlier state (crash points). *)
Record cworld := { cnow : dirs; cpast : list dirs }.
(** every state an observer can find, in order. *)
Definition cseen (w : cworld) : list dirs := cpast w ++ [cnow w].
(** one atomic file-system step. *)
Definition cgoto (d : dirs) (w : cworld) : cworld := {| cnow := d; cpast := cpast w ++ [cnow w] |}.
(** one atomic step changing one path. *)
Definition cset (p : bytes) (x : option dir) (w : cworld) : cworld := cgoto (dset p x (cnow w)) w.
(** External: rename of a directory fails if the target is a directory that is not empty;
    here no directory is empty. [ok] false: it fails for another reason. *)
Definition rename_dir (ok : bool) (p q : bytes) (w : cworld) : bool * cworld :=
  match cnow w p, cnow w q with
  | Some x, None => if ok then (true, cgoto (dset p None (dset q (Some x) (cnow w))) w) else (false, w)
  | _, _ => (false, w)
  end.
(** lib/database.cc [rmtree] (util): removes file by file; may stop half way. *)
Definition rmtree (ok : bool) (p : bytes) (w : cworld) : bool * cworld :=
  match cnow w p with
  | None => (false, w)
  | Some _ => let w := cset p (Some Partial) w in if ok then (true, cset p None w) else (false, w)
  end.
(** What happens during one run: [o_stat] false if stat fails with something else than
    ENOENT; [o_compact]: Xapian finishes the compaction (else it throws, leaving remains or
    not); [o_*] whether the calls succeed; [o_close] the final close. *)
Record compact_run := { o_stat : bool; o_rm1 : bool; o_compact : bool; o_remains : bool; o_rename1 : bool; o_rename2 : bool; o_rm2 : bool; o_close : bool }.
(** External: Xapian::Database::compact writes a new database to a path that must not hold
    one. *)
Definition xapian_compact (o : compact_run) (p : bytes) (w : cworld) : bool * cworld :=
  match cnow w p with
  | Some _ => (false, w)
  | None =>
      if o_compact o then (true, cset p (Some Compacted) (cset p (Some Partial) w))
      else (false, if o_remains o then cset p (Some Partial) w else w)
  end.
(** lib/database.cc:619-721 [notmuch_database_compact_db]; [backup] NULL: "XAPIAN.old",
    removed at the end.  True: NOTMUCH_STATUS_SUCCESS. *)
Definition compact_path (x : bytes) : bytes := x ++ lit ".compact".
(** [old_path]: as above, lib/database.cc:619-721. *)
Definition old_path (x : bytes) : bytes := x ++ lit ".old".
(** [backup_of]: as above, lib/database.cc:619-721. *)
Definition backup_of (x : bytes) (backup : option bytes) : bytes := match backup with Some b => b | None => old_path x end.
(** [notmuch_database_compact]: as above, lib/database.cc:619-721. *)
Definition notmuch_database_compact (o : compact_run) (x : bytes) (backup : option bytes) (w : cworld) : bool * cworld :=
  let b := backup_of x backup in
  let c := compact_path x in
  match cnow w b with
  | Some _ => (false, w)
  | None =>
      if negb (o_stat o) then (false, w)
      else
      let w := snd (rmtree (o_rm1 o) c w) in
      let '(ok, w) := xapian_compact o c w in
      if negb ok then (false, w)
      else
      let '(ok, w) := rename_dir (o_rename1 o) x b w in
      if negb ok then (false, w)
      else
      let '(ok, w) := rename_dir (o_rename2 o) c x w in
      if negb ok then (false, w)
      else
      match backup with
      | Some _ => (o_close o, w)
      | None => let '(ok, w) := rmtree (o_rm2 o) b w in ((ok && o_close o)%bool, w)
      end
  end.
