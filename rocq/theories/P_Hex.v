(** Properties C01, C02, C03 (util/hex-escape.c). *)
From Verif Require Import Bytes Hex HexSpec HexProofs.

(** C01: escaping then unescaping any C string gives the string back, both for the
    copying decoder and for the decoder that overwrites its input in memory
    (whatever follows the terminator). *)
Theorem C01_hex_roundtrip :
  forall s, cstr s -> hex_decode_internal (hex_encode s) = (s, true).
Proof. intros s _. exact (decode_encode s). Qed.
Print Assumptions C01_hex_roundtrip.

Theorem C01_hex_roundtrip_inplace :
  forall s slack, cstr s ->
  exists m, hex_decode_inplace (hex_encode s ++ NUL :: slack) = IPDone m true /\ c_string_of m = s.
Proof. exact encode_inplace_roundtrip. Qed.
Print Assumptions C01_hex_roundtrip_inplace.

(** The decoder accepts exactly the documented syntax and gives its meaning. *)
Theorem C01_hex_decode_meets_spec :
  forall e s, hex_decode_internal e = (s, true) <-> denotes e s.
Proof. exact decode_denotes. Qed.
Print Assumptions C01_hex_decode_meets_spec.

Example C01_nontrivial :
  cstr (lit "a b%c""") /\ hex_encode (lit "a b%c""") = lit "a%20b%25c%22" /\
  hex_decode_internal (lit "a%20b%25c%22") = (lit "a b%c""", true).
Proof. now vm_compute. Qed.

(** C02: escaped text consists of safe characters only; in particular no white
    space, quote, parenthesis, colon, '#', control or non-ASCII byte. *)
Theorem C02_hex_safe_alphabet :
  forall s, cstr s -> Forall safe_char (hex_encode s).
Proof. exact encode_safe. Qed.
Print Assumptions C02_hex_safe_alphabet.

Theorem C02_safe_char_is_token_char :
  forall c, safe_char c ->
  c <> NUL /\ isspace c = false /\ c <> """"%char /\ (33 <= code c <= 126)%N /\ c <> "#"%char /\
  c <> "("%char /\ c <> ")"%char /\ c <> ":"%char.
Proof. exact safe_char_facts. Qed.
Print Assumptions C02_safe_char_is_token_char.

Example C02_nontrivial : cstr (chr 10 :: lit "x y") /\
  hex_encode (chr 10 :: lit "x y") = lit "%0ax%20y".
Proof. now vm_compute. Qed.

(** C03: whatever buffer the caller passes (NULL, or one at least as large as its
    recorded size), the encoder stores only inside the buffer, and the buffer holds
    the whole text and its terminator. *)
Theorem C03_hex_encode_no_overflow :
  forall isnull recorded real s, (isnull = false -> recorded <= real) ->
  exists real', hex_encode_mem isnull recorded real s = Written real' (hex_encode s) /\
                length (hex_encode s) < real'.
Proof. exact encode_mem_ok. Qed.
Print Assumptions C03_hex_encode_no_overflow.

(** The decoder's computed size always exceeds what it stores, valid input or not,
    and is exact on valid input. *)
Theorem C03_hex_decode_fits :
  forall s, (Z.of_nat (length (fst (hex_decode_internal s))) < hex_decode_needed s)%Z.
Proof. exact decode_fits. Qed.
Print Assumptions C03_hex_decode_fits.

Theorem C03_hex_decode_size_exact :
  forall s t, hex_decode_internal s = (t, true) ->
  hex_decode_needed s = (1 + Z.of_nat (length t))%Z.
Proof. intros s t H. exact (decode_needed_exact_acc s t 1 H). Qed.
Print Assumptions C03_hex_decode_size_exact.

(** In-place decoding of any terminated string terminates without a load or store
    outside the memory, keeps its size, and either leaves the meaning of the text
    (terminated) or reports that the text has no meaning. *)
Theorem C03_hex_decode_inplace_safe :
  forall s slack, cstr s ->
  exists m' ok, hex_decode_inplace (s ++ NUL :: slack) = IPDone m' ok /\
    length m' = length (s ++ NUL :: slack) /\
    (ok = true -> exists t tail, denotes s t /\ m' = t ++ NUL :: tail) /\
    (ok = false -> ~ exists t, denotes s t).
Proof. exact decode_inplace_total. Qed.
Print Assumptions C03_hex_decode_inplace_safe.

Example C03_nontrivial :
  hex_encode_mem false 2 2 (lit "a b") = Written 6 (lit "a%20b") /\
  hex_encode_mem true 77 0 (lit "a b") = Written 6 (lit "a%20b") /\
  hex_decode_inplace (lit "%41%4" ++ [NUL]) = IPDone (lit "A41%4" ++ [NUL]) false.
Proof. now vm_compute. Qed.
