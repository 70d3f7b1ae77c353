(** Model of the filter that discards what is not worth indexing of a text part: uuencoded
    data in plain text, tags in HTML (lib/index.cc:28-281), and of its use on the body of
    a part (lib/index.cc:527-567).

    GMime hands the decoded content of the part to the filter in pieces of any sizes
    (g_mime_stream_write), the last of them through [filter_complete].  [char] is signed,
    as on x86; the filter does the same where it is not.  Not modelled: the conversion to
    UTF-8, which comes after the filter; Xapian's term generator. *)
From Verif Require Import Bytes.
Local Open Scope Z_scope.

(** lib/index.cc:28-34 [scanner_state_t]. *)
Record scanner_state := { st_state : nat; st_a : Z; st_b : Z; st_match : nat; st_not_match : nat }.
(** [row]: as above, lib/index.cc:28-34. *)
Definition row s a b m n := {| st_state := s; st_a := a; st_b := b; st_match := m; st_not_match := n |}.
(** [ch]: as above, lib/index.cc:28-34. *)
Definition ch (c : ascii) : Z := Z.of_N (code c).
(** [LF]: as above, lib/index.cc:28-34. *)
Definition LF : ascii := "010"%char.
(** [DQ]: as above, lib/index.cc:28-34. *)
Definition DQ : ascii := "034"%char.
(** [SQ]: as above, lib/index.cc:28-34. *)
Definition SQ : ascii := "'"%char.
(** lib/index.cc:44-59. *)
Definition first_uuencode_skipping_state : nat := 11.
(** [uuencode_states]: as above, lib/index.cc:44-59. *)
Definition uuencode_states : list scanner_state := [
  row 0 (ch "b") (ch "b") 1 0;
  row 1 (ch "e") (ch "e") 2 0;
  row 2 (ch "g") (ch "g") 3 0;
  row 3 (ch "i") (ch "i") 4 0;
  row 4 (ch "n") (ch "n") 5 0;
  row 5 (ch " ") (ch " ") 6 0;
  row 6 (ch "0") (ch "7") 7 0;
  row 7 (ch "0") (ch "7") 8 0;
  row 8 (ch "0") (ch "7") 9 0;
  row 9 (ch " ") (ch " ") 10 0;
  row 10 (ch LF) (ch LF) 11 10;
  row 11 (ch "M") (ch "M") 12 0;
  row 12 (ch " ") (ch "`") 12 11 ].
(** lib/index.cc:78-86. *)
Definition first_html_skipping_state : nat := 1.
(** [html_states]: as above, lib/index.cc:78-86. *)
Definition html_states : list scanner_state := [
  row 0 (ch "<") (ch "<") 1 0;
  row 1 (ch SQ) (ch SQ) 4 2;
  row 1 (ch DQ) (ch DQ) 5 3;
  row 1 (ch ">") (ch ">") 0 1;
  row 4 (ch SQ) (ch SQ) 1 4;
  row 5 (ch DQ) (ch DQ) 1 5 ].

(** *inptr as an int. *)
Definition schar (c : byte) : Z := if N.ltb (code c) 128 then Z.of_N (code c) else Z.of_N (code c) - 256.

Section Filter.
Variable states : list scanner_state.
Variable first_skipping_state : nat.
(** lib/index.cc:192-206: the inner loop, from row [next]. [None]: it reads outside the
    table or does not end within [fuel] turns. *)
Fixpoint transition (fuel : nat) (next : nat) (c : byte) : option nat :=
  match fuel with
  | O => None
  | S fuel =>
      match nth_error states next with
      | None => None
      | Some r =>
          let next := if (st_a r <=? schar c) && (schar c <=? st_b r) then st_match r else st_not_match r in
          match nth_error states next with
          | None => None
          | Some r => if Nat.eqb next (st_state r) then Some next else transition fuel next c
          end
      end
  end.
(** lib/index.cc:173-218 [filter_filter]: the new state and the output. *)
Fixpoint filter_filter (state : nat) (inbuf : bytes) : option (nat * bytes) :=
  match inbuf with
  | [] => Some (state, [])
  | c :: inbuf =>
      match transition (length states) state c with
      | None => None
      | Some next =>
          match filter_filter next inbuf with
          | None => None
          | Some (final, out) => Some (final, if Nat.ltb state first_skipping_state then c :: out else out)
          end
      end
  end.
(** Writing the pieces one by one; lib/index.cc:220-226 [filter_complete] does the same
    for the last one and nothing if that is empty. *)
Fixpoint filter_stream (state : nat) (pieces : list bytes) : option (nat * bytes) :=
  match pieces with
  | [] => Some (state, [])
  | p :: pieces =>
      match filter_filter state p with
      | None => None
      | Some (state, out) =>
          match filter_stream state pieces with
          | None => None
          | Some (final, out') => Some (final, out ++ out')
          end
      end
  end.
End Filter.

(** lib/index.cc:263-280 [notmuch_filter_discard_non_term_new]: the state is 0 at first. *)
Definition discard (html : bool) (pieces : list bytes) : option bytes :=
  option_map snd (if html then filter_stream html_states first_html_skipping_state 0 pieces
                  else filter_stream uuencode_states first_uuencode_skipping_state 0 pieces).
(** lib/index.cc:559-563: a NUL byte is appended and the result read as a C string. *)
Fixpoint c_string (s : bytes) : bytes :=
  match s with [] => [] | c :: s => if beq c NUL then [] else c :: c_string s end.
(** [indexed_body]: as above, lib/index.cc:559-563. *)
Definition indexed_body (html : bool) (pieces : list bytes) : option bytes := option_map c_string (discard html pieces).
