(** Model of util/hex-escape.c. *)
From Verif Require Import Bytes.
Local Open Scope N_scope.

(** util/hex-escape.c:28-29 [output_charset]. *)
Definition output_charset : bytes :=
  lit "ABCDEFGHIJKLMNOPQRSTUVWXYZabcdefghijklmnopqrstuvwxyz0123456789+-_@=.,".

(** util/hex-escape.c:31 [escape_char]. *)
Definition escape_char : byte := "%"%char.

(** util/hex-escape.c:33-37 [is_output]; [strchr] also finds the terminator. *)
Definition is_output (c : byte) : bool := strchr_found output_charset c.

(** One digit of sprintf's ["%02x"] conversion, used at util/hex-escape.c:85. *)
Definition hexdigit (n : N) : byte :=
  nth (N.to_nat n) (lit "0123456789abcdef") NUL.

(** The text [sprintf (q, "%%%02x", c)] produces, util/hex-escape.c:85. *)
Definition escape_byte (c : byte) : bytes :=
  [escape_char; hexdigit (code c / 16); hexdigit (code c mod 16)].

(** util/hex-escape.c:81-88, the output of the encoding loop (without NUL). *)
Fixpoint hex_encode_loop (p : bytes) : bytes :=
  match p with
  | [] => []
  | c :: p' => if is_output c then c :: hex_encode_loop p'
               else escape_byte c ++ hex_encode_loop p'
  end.

(** util/hex-escape.c:64-70, the size computation. *)
Fixpoint hex_encode_needed_loop (needed : nat) (p : bytes) : nat :=
  match p with
  | [] => needed
  | c :: p' => hex_encode_needed_loop (needed + (if is_output c then 1 else 3))%nat p'
  end.
(** [hex_encode_needed]: as above, util/hex-escape.c:64-70. *)
Definition hex_encode_needed (p : bytes) : nat := hex_encode_needed_loop 1 p.

(** util/hex-escape.c:39-55 [maybe_realloc] on the (pointer-is-NULL, size) pair of
    the caller's buffer; allocation failure is not modelled.  The returned number
    is the recorded size [*out_size]; the memory really available is [real]:
    a NULL buffer has none.  Returns (recorded size, real size). *)
Definition maybe_realloc (needed : nat) (isnull : bool) (recorded real : nat) : nat * nat :=
  if Nat.ltb recorded needed then (needed, needed)
  else (recorded, if isnull then 0%nat else real).

(** Result of a function writing to memory: a write outside the buffer is
    undefined behaviour, an outcome of its own. *)
Inductive written :=
| OutOfBounds
| Written (real_size : nat) (content : bytes).

(** util/hex-escape.c:81-91 executed against a buffer of [real] bytes: every
    store is checked.  [sprintf] stores 4 bytes (three characters and a NUL),
    of which the NUL is overwritten by the following store. *)
Fixpoint encode_into (real pos : nat) (p : bytes) (acc : bytes) : written :=
  match p with
  | [] => if Nat.ltb pos real then Written real acc else OutOfBounds
  | c :: p' =>
      if is_output c then
        if Nat.ltb pos real then encode_into real (pos + 1) p' (acc ++ [c]) else OutOfBounds
      else
        if Nat.ltb (pos + 3) real then encode_into real (pos + 3) p' (acc ++ escape_byte c)
        else OutOfBounds
  end.

(** util/hex-escape.c:57-92 [hex_encode]: the caller passes a buffer that is NULL
    ([isnull]) or holds [real] bytes with [recorded] as its recorded size. *)
Definition hex_encode_mem (isnull : bool) (recorded real : nat) (p : bytes) : written :=
  let needed := hex_encode_needed p in
  let recorded := if isnull then 0%nat else recorded in     (* lines 72-73 *)
  let '(_, real') := maybe_realloc needed isnull recorded real in
  encode_into real' 0 p [].

(** The encoded text as a pure function (what callers use). *)
Definition hex_encode (p : bytes) : bytes := hex_encode_loop p.

(** Value of one hexadecimal digit under [strtoul (buf, &endp, 16)], line 116. *)
Definition xval (c : byte) : N :=
  let n := code c in
  if isdigit c then n - 48 else if n <? 97 then n - 55 else n - 87.

(** util/hex-escape.c:98-131 [hex_decode_internal], out-of-place: the bytes
    stored before returning and the status (true = HEX_SUCCESS).  After
    [isxdigit] holds for both characters, [strtoul] always consumes both. *)
Fixpoint hex_decode_internal (inp : bytes) : bytes * bool :=
  match inp with
  | [] => ([], true)
  | c :: r =>
      if beq c escape_char then
        match r with
        | a :: b :: r' =>
            if isxdigit a && isxdigit b then
              let '(o, st) := hex_decode_internal r' in (chr (16 * xval a + xval b) :: o, st)
            else ([], false)
        | _ => ([], false)          (* in[1] or in[2] is the terminator *)
        end
      else let '(o, st) := hex_decode_internal r in (c :: o, st)
  end.

(** util/hex-escape.c:144-153, the decoder's size computation, in [Z] because the
    counter can go down (the C code uses [size_t]). *)
Fixpoint hex_decode_needed_loop (needed : Z) (p : bytes) : Z :=
  match p with
  | [] => needed
  | c :: p' =>
      if beq c escape_char && isxdigit (peek p') && isxdigit (peek (tl p'))
      then hex_decode_needed_loop (needed - 1) p'
      else hex_decode_needed_loop (needed + 1) p'
  end%Z.
(** [hex_decode_needed]: as above, util/hex-escape.c:144-153. *)
Definition hex_decode_needed (p : bytes) : Z := hex_decode_needed_loop 1 p.

(** A C string as seen through a pointer into memory: up to the first NUL. *)
Definition c_string_of (m : bytes) : bytes := takewhile nonul m.

(** util/hex-escape.c:133-139 [hex_decode_inplace]: source and destination are
    the same memory [m]; [i] and [j] are the offsets of [in] and [out].
    [fuel] bounds the loop; loads and stores outside [m] are undefined. *)
Inductive inplace_result :=
| IPOutOfFuel
| IPOutOfBounds
| IPDone (m : bytes) (ok : bool).

(** array store (C language). *)
Fixpoint set_nth (j : nat) (v : byte) (m : bytes) : bytes :=
  match j, m with
  | _, [] => []
  | O, _ :: m' => v :: m'
  | S j', x :: m' => x :: set_nth j' v m'
  end.

(** util/hex-escape.c:98-131 with in == out. *)
Fixpoint decode_inplace_loop (fuel i j : nat) (m : bytes) : inplace_result :=
  match fuel with
  | O => IPOutOfFuel
  | S fuel' =>
      match nth_error m i with
      | None => IPOutOfBounds
      | Some c =>
          if beq c NUL then
            if Nat.ltb j (length m) then IPDone (set_nth j NUL m) true else IPOutOfBounds
          else if beq c escape_char then
            match nth_error m (i + 1) with
            | None => IPOutOfBounds
            | Some a =>
                if isxdigit a then
                  match nth_error m (i + 2) with
                  | None => IPOutOfBounds
                  | Some b =>
                      if isxdigit b then
                        if Nat.ltb j (length m) then
                          decode_inplace_loop fuel' (i + 3) (j + 1)
                            (set_nth j (chr (16 * xval a + xval b)) m)
                        else IPOutOfBounds
                      else IPDone m false
                  end
                else IPDone m false
            end
          else
            if Nat.ltb j (length m) then
              decode_inplace_loop fuel' (i + 1) (j + 1) (set_nth j c m)
            else IPOutOfBounds
      end
  end.

(** util/hex-escape.c:133-138. *)
Definition hex_decode_inplace (m : bytes) : inplace_result :=
  decode_inplace_loop (S (length m)) 0 0 m.
