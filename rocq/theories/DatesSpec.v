(** What date expressions mean, stated independently of Dates.v. *)
From Verif Require Import Bytes CalendarSpec.
From Coq Require Import ZArith.
Open Scope Z_scope.

(** ** Words.  The words of an expression are its longest runs of letters. *)
Definition letter (c : byte) : bool := isupper c || islower c.
Definition flush (acc : bytes) : list bytes := match acc with [] => [] | _ => [acc] end.
Fixpoint words_from (acc s : bytes) : list bytes :=
  match s with
  | [] => flush acc
  | c :: s' => if letter c then words_from (acc ++ [c]) s' else flush acc ++ words_from [] s'
  end.
Definition words (s : bytes) : list bytes := words_from [] s.

(** The vocabulary: for each word, the part that may not be left out, and the rest (which may
    be shortened at the end). *)
Definition W (a b : String.string) : bytes * bytes := (lit a, lit b).
Definition vocabulary : list (bytes * bytes) := [
  W "sun" "day"; W "mon" "day"; W "tue" "sday"; W "wed" "nesday"; W "thu" "rsday"; W "fri" "day"; W "sat" "urday";
  W "jan" "uary"; W "feb" "ruary"; W "mar" "ch"; W "apr" "il"; W "may" ""; W "jun" "e"; W "jul" "y"; W "aug" "ust";
  W "sep" "tember"; W "oct" "ober"; W "nov" "ember"; W "dec" "ember";
  W "y" "ears"; W "mo" "nths"; W "w" "eeks"; W "d" "ays"; W "h" "ours"; W "hr" "s"; W "mi" "nutes"; W "mins" ""; W "s" "econds"; W "secs" "";
  W "one" ""; W "two" ""; W "three" ""; W "four" ""; W "five" ""; W "six" ""; W "seven" ""; W "eight" ""; W "nine" ""; W "ten" "";
  W "dozen" ""; W "hundred" ""; W "this" ""; W "last" "";
  W "yesterday" ""; W "today" ""; W "now" ""; W "noon" ""; W "midnight" ""; W "am" ""; W "pm" "";
  W "st" ""; W "nd" ""; W "rd" ""; W "th" ""; W "ago" "";
  W "pst" ""; W "mst" ""; W "cst" ""; W "est" ""; W "ast" ""; W "nst" ""; W "gmt" ""; W "utc" ""; W "wet" ""; W "cet" ""; W "eet" "";
  W "fet" ""; W "wat" ""; W "cat" ""; W "eat" "" ].
(** A known word, in upper or lower case; the one-letter forms M (months) and m (minutes). *)
Definition known_word (w : bytes) : Prop :=
  w = lit "M" \/ w = lit "m" \/
  exists a b b' b'', In (a, b) vocabulary /\ b = b' ++ b'' /\ map tolower w = a ++ b'.

(** ** Numbers: two digits, four digits. *)
Definition digit (k : Z) : byte := chr (Z.to_N (48 + k)).
Definition pad2 (n : Z) : bytes := [digit (n / 10); digit (n mod 10)].
Definition pad4 (n : Z) : bytes := [digit (n / 1000); digit (n / 100 mod 10); digit (n / 10 mod 10); digit (n mod 10)].

(** ** The words for units of time. *)
Definition unit_words : list (bytes * unit_of_time) :=
  [(lit "s", Second); (lit "sec", Second); (lit "secs", Second); (lit "second", Second); (lit "seconds", Second);
   (lit "m", Minute); (lit "min", Minute); (lit "mins", Minute); (lit "minute", Minute); (lit "minutes", Minute);
   (lit "h", Hour); (lit "hr", Hour); (lit "hrs", Hour); (lit "hour", Hour); (lit "hours", Hour);
   (lit "d", Day); (lit "day", Day); (lit "days", Day); (lit "w", Week); (lit "week", Week); (lit "weeks", Week);
   (lit "M", Month); (lit "mo", Month); (lit "month", Month); (lit "months", Month);
   (lit "y", Year); (lit "year", Year); (lit "years", Year)].
(** the days of the week, from Sunday. *)
Definition weekday_words : list (bytes * Z) :=
  [(lit "sun", 0); (lit "sunday", 0); (lit "mon", 1); (lit "monday", 1); (lit "tue", 2); (lit "tuesday", 2); (lit "wed", 3); (lit "wednesday", 3);
   (lit "thu", 4); (lit "thursday", 4); (lit "fri", 5); (lit "friday", 5); (lit "sat", 6); (lit "saturday", 6)].
(** no longer than this many seconds. *)
Definition length_of (u : unit_of_time) : Z :=
  match u with Second => 1 | Minute => 60 | Hour => 3600 | Day => 86400 | Week => 7 * 86400 | Month => 31 * 86400 | Year => 366 * 86400 end.
