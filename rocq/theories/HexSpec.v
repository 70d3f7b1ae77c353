(** Independent specification of the %XX escape syntax used in dump files
    (doc/man1/notmuch-dump.rst: "hex encoding"). *)
From Verif Require Import Bytes.
Local Open Scope N_scope.

(** The sixteen digits and their values, both cases of letters. *)
Definition digit_table : list (byte * N) :=
  combine (lit "0123456789abcdef") [0;1;2;3;4;5;6;7;8;9;10;11;12;13;14;15] ++
  combine (lit "ABCDEF") [10;11;12;13;14;15].
Definition is_digit_of (c : byte) (v : N) : Prop := In (c, v) digit_table.

(** [denotes e s]: the escaped text [e] stands for the byte string [s]. *)
Inductive denotes : bytes -> bytes -> Prop :=
| den_nil : denotes [] []
| den_plain c e s : c <> "%"%char -> denotes e s -> denotes (c :: e) (c :: s)
| den_escape a b va vb e s :
    is_digit_of a va -> is_digit_of b vb -> denotes e s ->
    denotes ("%"%char :: a :: b :: e) (ascii_of_N (16 * va + vb) :: s).

(** Characters allowed in escaped text: letters, digits and [+-_@=.,%]. *)
Definition safe_char (c : byte) : Prop :=
  In c (lit "ABCDEFGHIJKLMNOPQRSTUVWXYZ") \/ In c (lit "abcdefghijklmnopqrstuvwxyz") \/
  In c (lit "0123456789") \/ In c (lit "+-_@=.,%").
