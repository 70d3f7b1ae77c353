(** The documented ways of writing dates, times and zones (doc/man7/notmuch-search-terms.rst, "DATE AND TIME
    SEARCH"), stated independently of Dates.v. *)
From Verif Require Import Bytes CalendarSpec DatesSpec.
From Coq Require Import ZArith.
Open Scope Z_scope.

(** "Number can also be written out one, two, ..., ten, dozen, hundred ... last or this". *)
Definition number_words : list (bytes * Z) :=
  [(lit "this", 0); (lit "last", 1); (lit "one", 1); (lit "two", 2); (lit "three", 3); (lit "four", 4); (lit "five", 5); (lit "six", 6);
   (lit "seven", 7); (lit "eight", 8); (lit "nine", 9); (lit "ten", 10); (lit "dozen", 12); (lit "hundred", 100)].

(** The months: the letters that must be there, and the rest of the name. *)
Definition month_names : list (bytes * bytes * Z) :=
  [(lit "jan", lit "uary", 1); (lit "feb", lit "ruary", 2); (lit "mar", lit "ch", 3); (lit "apr", lit "il", 4); (lit "may", [], 5);
   (lit "jun", lit "e", 6); (lit "jul", lit "y", 7); (lit "aug", lit "ust", 8); (lit "sep", lit "tember", 9); (lit "oct", lit "ober", 10);
   (lit "nov", lit "ember", 11); (lit "dec", lit "ember", 12)].
(** w is a name of month m, in capital or small letters, perhaps abbreviated to three or more letters. *)
Definition month_word (m : Z) (w : bytes) : Prop :=
  exists a b b' b'', In (a, b, m) month_names /\ b = b' ++ b'' /\ map tolower w = a ++ b'.
(** The time zone codes, with the minutes to the east of Greenwich. *)
Definition zone_codes : list (bytes * Z) :=
  [(lit "pst", -480); (lit "mst", -420); (lit "cst", -360); (lit "est", -300); (lit "ast", -240); (lit "nst", -210);
   (lit "gmt", 0); (lit "utc", 0); (lit "wet", 0); (lit "cet", 60); (lit "wat", 60); (lit "eet", 120); (lit "cat", 120); (lit "fet", 180); (lit "eat", 180)].
(** z writes the zone that many minutes to the east: a code, +HH:MM, +HHMM or +HH (or with -). *)
Inductive written_zone : Z -> bytes -> Prop :=
  | zone_code : forall w e, In (map tolower w, e) zone_codes -> written_zone e w
  | zone_colon : forall h m, 0 <= h <= 14 -> In m [0; 15; 30; 45] -> written_zone (60 * h + m) (lit "+" ++ pad2 h ++ lit ":" ++ pad2 m)
  | zone_colon_west : forall h m, 0 <= h <= 14 -> In m [0; 15; 30; 45] -> written_zone (- (60 * h + m)) (lit "-" ++ pad2 h ++ lit ":" ++ pad2 m)
  | zone_four : forall h m, 0 <= h <= 14 -> In m [0; 15; 30; 45] -> written_zone (60 * h + m) (lit "+" ++ pad2 h ++ pad2 m)
  | zone_four_west : forall h m, 0 <= h <= 14 -> In m [0; 15; 30; 45] -> written_zone (- (60 * h + m)) (lit "-" ++ pad2 h ++ pad2 m)
  | zone_two : forall h, 0 <= h <= 14 -> written_zone (60 * h) (lit "+" ++ pad2 h)
  | zone_two_west : forall h, 0 <= h <= 14 -> written_zone (- (60 * h)) (lit "-" ++ pad2 h).

(** One or two digits for a day or month, two or four for a year, the endings of ordinals. *)
Definition short_number (n : Z) (s : bytes) : Prop := s = pad2 n \/ (n < 10 /\ s = [digit n]).
Definition year_number (y : Z) (s : bytes) : Prop := s = pad4 y \/ (1970 <= y <= 2069 /\ s = pad2 (y mod 100)).
Definition ending (d : Z) (s : bytes) : Prop :=
  s = [] \/ s = lit "th" \/ (s = lit "st" /\ In d [1; 21; 31]) \/ (s = lit "nd" /\ In d [2; 22]) \/ (s = lit "rd" /\ In d [3; 23]).

(** s writes the date y-m-d. *)
Inductive written_date (y m d : Z) : bytes -> Prop :=
  | iso_date : written_date y m d (pad4 y ++ lit "-" ++ pad2 m ++ lit "-" ++ pad2 d)
  | dashed_date : forall yy, year_number y yy -> written_date y m d (pad2 d ++ lit "-" ++ pad2 m ++ lit "-" ++ yy)
  | slashed_date : forall mm dd yy, short_number m mm -> short_number d dd -> year_number y yy -> written_date y m d (mm ++ lit "/" ++ dd ++ lit "/" ++ yy)
  | dotted_date : forall mm dd yy, short_number m mm -> short_number d dd -> year_number y yy -> written_date y m d (dd ++ lit "." ++ mm ++ lit "." ++ yy)
  | day_name_date : forall dd e w, short_number d dd -> ending d e -> month_word m w -> written_date y m d (dd ++ e ++ lit " " ++ w ++ lit " " ++ pad4 y)
  | name_day_date : forall dd e w, short_number d dd -> ending d e -> month_word m w -> written_date y m d (w ++ lit " " ++ dd ++ e ++ lit " " ++ pad4 y).
(** s writes the month y-m. *)
Inductive written_month (y m : Z) : bytes -> Prop :=
  | iso_month : written_month y m (pad4 y ++ lit "-" ++ pad2 m)
  | dashed_month : written_month y m (pad2 m ++ lit "-" ++ pad4 y)
  | slashed_month : forall mm, short_number m mm -> written_month y m (mm ++ lit "/" ++ pad4 y)
  | name_month : forall w, month_word m w -> written_month y m (w ++ lit " " ++ pad4 y).

(** s writes the time of day with this hour, minute and (perhaps) second; a 12-hour time has am or pm. *)
Definition hour_of_12 (k : Z) (pm : bool) : Z := (if k =? 12 then 0 else k) + (if pm then 12 else 0).
Definition half (pm : bool) : bytes := if pm then lit "pm" else lit "am".
Inductive written_time : Z -> Z -> option Z -> bytes -> Prop :=
  | time_24 : forall h m hh, 0 <= h <= 23 -> 0 <= m <= 59 -> short_number h hh -> written_time h m None (hh ++ lit ":" ++ pad2 m)
  | time_24_seconds : forall h m s hh, 0 <= h <= 23 -> 0 <= m <= 59 -> 0 <= s <= 59 -> short_number h hh ->
      written_time h m (Some s) (hh ++ lit ":" ++ pad2 m ++ lit ":" ++ pad2 s)
  | time_12 : forall k m pm kk sp w, 1 <= k <= 12 -> 0 <= m <= 59 -> short_number k kk -> sp = [] \/ sp = lit " " -> map tolower w = half pm ->
      written_time (hour_of_12 k pm) m None (kk ++ lit ":" ++ pad2 m ++ sp ++ w)
  | time_12_seconds : forall k m s pm kk sp w, 1 <= k <= 12 -> 0 <= m <= 59 -> 0 <= s <= 59 -> short_number k kk -> sp = [] \/ sp = lit " " -> map tolower w = half pm ->
      written_time (hour_of_12 k pm) m (Some s) (kk ++ lit ":" ++ pad2 m ++ lit ":" ++ pad2 s ++ sp ++ w)
  | hour_12 : forall k pm kk sp w, 1 <= k <= 12 -> short_number k kk -> sp = [] \/ sp = lit " " -> map tolower w = half pm ->
      written_time (hour_of_12 k pm) 0 (Some 0) (kk ++ sp ++ w)
  | time_noon : forall w, map tolower w = lit "noon" -> written_time 12 0 (Some 0) w
  | time_midnight : forall w, map tolower w = lit "midnight" -> written_time 0 0 (Some 0) w.
(** HHMMSS. *)
Definition six_digits (h m s : Z) : bytes := pad2 h ++ pad2 m ++ pad2 s.
