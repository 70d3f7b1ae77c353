(** Model of util/zlib-extra.c: reading lines from a (possibly compressed) stream.

    The stream is the decompressed data still to come and the state zlib reports at its
    end (external: zlib).  Buffers never exceed 2^31 bytes (the C code keeps the length in
    an unsigned int). *)
From Verif Require Import Bytes Hex TagLine Dump.
Local Open Scope nat_scope.

(** gzerror result (zlib), util/zlib-extra.c:80-87. *)
Inductive gz_status := Z_ok | Z_errno | Z_gzerror.
(** a gzFile: data then a final status (zlib). *)
Record stream := { data : bytes; at_end : gz_status }.

(** Up to and including the first newline, at most [n] bytes. *)
Fixpoint chunk (n : nat) (s : bytes) : bytes * bytes :=
  match n, s with
  | S n, c :: s => if beq c NL then ([c], s) else let '(a, b) := chunk n s in (c :: a, b)
  | _, _ => ([], s)
  end.
(** External: zlib's gzgets (file, buf, len): at most [len - 1] bytes, up to and including
    a newline; NULL if it read nothing. *)
Definition gzgets (len : nat) (s : stream) : option (bytes * stream) :=
  match chunk (len - 1) (data s) with
  | ([], _) => None
  | (b, r) => Some (b, {| data := r; at_end := at_end s |})
  end.

(** util/zlib-extra.h; util/zlib-extra.c:27-78. *)
Inductive getline_result :=
| G_line (line : bytes) (buflen : nat) (s : stream)
| G_eof | G_errno | G_gzerror
| G_crash       (* buf[-1] is read *)
| G_nofuel.     (* model only; never returned, see GzLineProofs.v *)
(** util/zlib-extra.c:44-77, the loop: [buf] is the first [offset] bytes of the buffer
    and [len] its size.  strlen stops at a NUL in the data. *)
Fixpoint getline_loop (fuel : nat) (len : nat) (buf : bytes) (s : stream) : getline_result :=
  match fuel with
  | O => G_nofuel
  | S fuel =>
      match gzgets (len - length buf) s with
      | None =>
          match at_end s with
          | Z_ok => match buf with [] => G_eof | _ => G_line buf len s end
          | Z_errno => G_errno
          | Z_gzerror => G_gzerror
          end
      | Some (b, s) =>
          let buf := buf ++ c_string_of b in
          match rev buf with
          | [] => G_crash
          | c :: _ => if beq c NL then G_line buf len s else getline_loop fuel (2 * len) buf s
          end
      end
  end.
(** util/zlib-extra.c:27-78 [gz_getline]; [buf] is the size of the buffer passed in, if
    any.  Every round but the last consumes data, hence the fuel. *)
Definition gz_getline (buf : option nat) (s : stream) : getline_result :=
  getline_loop (S (length (data s))) (match buf with Some len => len | None => 120 end) [] s.

(** The loops of notmuch-restore.c:322-355, 378-430: lines are read, with the same buffer,
    until gz_getline reports something else. *)
Fixpoint read_lines (fuel : nat) (buf : option nat) (s : stream) : list bytes * getline_result :=
  match fuel with
  | O => ([], G_nofuel)
  | S fuel =>
      match gz_getline buf s with
      | G_line l len s => let '(ls, e) := read_lines fuel (Some len) s in (l :: ls, e)
      | r => ([], r)
      end
  end.
(** [read_all]: as above, notmuch-restore.c:322-355, 378-430. *)
Definition read_all (s : stream) : list bytes * getline_result := read_lines (S (length (data s))) None s.
