(** Model of writing a dump to a file (notmuch-dump.c:274-362). *)
From Verif Require Import Bytes Fs.

(** What the system and zlib do during one run (external).  [None] for a call that fails;
    [w_*] are the writes that reach the file, in order, before the call returns. *)
Record dump_run := {
  r_mkstemp : bool;            (* mkstemp succeeds *)
  r_temp : bytes;              (* the template after mkstemp *)
  r_gzdopen : bool;
  w_body : list bytes; r_body : bool;     (* database_dump_file, notmuch-dump.c:210-272 *)
  w_flush : list bytes; r_flush : bool;   (* gzflush (Z_FINISH) *)
  r_fsync : bool;
  w_close : list bytes; r_close : bool;   (* gzclose_w in the normal path *)
  w_close2 : list bytes;                  (* gzclose_w after an error *)
  r_rename : bool; r_unlink : bool
}.
(** [appends]: as above, notmuch-dump.c:210-272. *)
Definition appends (p : bytes) (l : list bytes) (w : world) : world := fold_left (fun w b => sys_append p b w) l w.
(** notmuch-dump.c:354-361, the label DONE, when [ret] is not EXIT_SUCCESS; [opened] if
    output is not NULL there. *)
Definition dump_failed (r : dump_run) (opened : bool) (w : world) : bool * world :=
  let w := if opened then appends (r_temp r) (w_close2 r) w else w in
  (false, if r_unlink r then sys_unlink (r_temp r) w else w).
(** notmuch-dump.c:274-362 [notmuch_database_dump] with an output file name [out]; the
    result is true for EXIT_SUCCESS. *)
Definition notmuch_database_dump (r : dump_run) (out : bytes) (w : world) : bool * world :=
  let tmp := r_temp r in
  if negb (r_mkstemp r) then dump_failed r false w
  else
  let w := sys_create tmp w in
  if negb (r_gzdopen r) then dump_failed r false w
  else
  let w := appends tmp (w_body r) w in
  if negb (r_body r) then dump_failed r true w
  else
  let w := appends tmp (w_flush r) w in
  if negb (r_flush r) then dump_failed r true w
  else
  if negb (r_fsync r) then dump_failed r true w
  else
  let w := sys_fsync tmp w in
  let w := appends tmp (w_close r) w in
  if negb (r_close r) then dump_failed r false w
  else
  if negb (r_rename r) then dump_failed r false w
  else (true, sys_rename tmp out w).
