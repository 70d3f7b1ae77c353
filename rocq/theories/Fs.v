(** A small file system for the crash-safety properties (C30, C32): what other processes
    see at every moment.  A file remembers whether all its bytes have been synced.  The
    world keeps every state it has passed through, so a process killed at any moment leaves
    one of [seen].  (External: POSIX.) *)
From Verif Require Import Bytes.

(** a file: content, and whether it has been fsynced (POSIX). *)
Record file := { content : bytes; synced : bool }.
(** files by path (POSIX). *)
Definition fs := bytes -> option file.
(** replace one path. *)
Definition upd (p : bytes) (f : option file) (d : fs) : fs := fun q => if bseq q p then f else d q.
(** current file system and every earlier state (crash points). *)
Record world := { now : fs; past : list fs }.
(** no earlier state. *)
Definition start (d : fs) : world := {| now := d; past := [] |}.
(** All states visible to others up to now. *)
Definition seen (w : world) : list fs := past w ++ [now w].
(** one atomic file-system step. *)
Definition goto (d : fs) (w : world) : world := {| now := d; past := past w ++ [now w] |}.
(** open with O_CREAT|O_EXCL (or mkstemp): an empty file. *)
Definition sys_create (p : bytes) (w : world) : world := goto (upd p (Some {| content := []; synced := false |}) (now w)) w.
(** A write of [b] at the end of an open file. *)
Definition sys_append (p b : bytes) (w : world) : world :=
  match now w p with
  | Some f => goto (upd p (Some {| content := content f ++ b; synced := false |}) (now w)) w
  | None => w
  end.
(** fsync(2). *)
Definition sys_fsync (p : bytes) (w : world) : world :=
  match now w p with Some f => goto (upd p (Some {| content := content f; synced := true |}) (now w)) w | None => w end.
(** rename replaces the target at once. *)
Definition sys_rename (p q : bytes) (w : world) : world :=
  match now w p with
  | Some f => if bseq p q then w else goto (upd p None (upd q (Some f) (now w))) w
  | None => w
  end.
(** unlink(2). *)
Definition sys_unlink (p : bytes) (w : world) : world := goto (upd p None (now w)) w.
