(** Model of the mbox format of the show command: notmuch-show.c:204-228 and 883-933.

    External: the address in the From header (_extract_email_address 171-202, GMime), the
    date as asctime_r prints it, zlib (GzLine.v).  Not modelled: allocation failure. *)
From Verif Require Import Bytes Hex TagLine Dump GzLine.
Local Open Scope nat_scope.

(** notmuch-show.c:204-228 [_is_from_line]. *)
Definition is_from_line (line : bytes) : bool := starts_with (lit "From ") (dropwhile (beq ">"%char) line).
(** notmuch-show.c:923-925: one round of the loop, what is printed for the line. *)
Definition mbox_line (line : bytes) : bytes := if is_from_line line then ">"%char :: line else line.
(** notmuch-show.c:922-926: the loop ends at UTIL_EOF only; after an error the variable
    [line] still has the last line that was read.  [None]: not ended in [fuel] rounds. *)
Fixpoint mbox_lines (fuel : nat) (buf : option nat) (line : bytes) (s : stream) : option bytes :=
  match fuel with
  | O => None
  | S fuel =>
      match gz_getline buf s with
      | G_eof => Some []
      | G_line l len s' => option_map (app (mbox_line l)) (mbox_lines fuel (Some len) l s')
      | _ => option_map (app (mbox_line line)) (mbox_lines fuel buf line s)
      end
  end.
(** A message: the address in its From header, its date in the form of asctime (3) (with a
    line break at the end), and its first file; [None]: it cannot be opened. *)
Record mbox_message := { b_from : bytes; b_date : bytes; b_file : option stream }.
(** notmuch-show.c:883-933 [format_part_mbox]: what is printed, and if the status is success. *)
Definition format_part_mbox (fuel : nat) (m : mbox_message) : option (bytes * bool) :=
  match b_file m with
  | None => Some ([], false)
  | Some s =>
      match mbox_lines fuel None [] s with
      | Some body => Some (lit "From " ++ b_from m ++ lit " " ++ b_date m ++ body ++ [NL], true)
      | None => None
      end
  end.
(** notmuch-show.c:1054-1107, 1151-1208: the messages to be shown one after the other; the
    structure printer for text prints nothing for lists (sprinter-text.c); the first failure is
    remembered. *)
Fixpoint show_mbox (fuel : nat) (ms : list mbox_message) : option (bytes * bool) :=
  match ms with
  | [] => Some ([], true)
  | m :: ms =>
      match format_part_mbox fuel m, show_mbox fuel ms with
      | Some (a, ok), Some (b, ok') => Some (a ++ b, ok && ok')
      | _, _ => None
      end
  end.
