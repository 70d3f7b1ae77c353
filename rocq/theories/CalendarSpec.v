(** The civil (proleptic Gregorian) calendar, stated independently of Calendar.v: the day
    after a given day, and the divisions of time in a zone at a fixed offset from UTC. *)
From Coq Require Import ZArith Bool.
Open Scope Z_scope.

Definition leap_year (y : Z) : Prop := (4 | y) /\ (~ (100 | y) \/ (400 | y)).
(** the last day of a month. *)
Inductive last_day (y : Z) : Z -> Z -> Prop :=
| Last31 : forall m, m = 1 \/ m = 3 \/ m = 5 \/ m = 7 \/ m = 8 \/ m = 10 \/ m = 12 -> last_day y m 31
| Last30 : forall m, m = 4 \/ m = 6 \/ m = 9 \/ m = 11 -> last_day y m 30
| LastFebLeap : leap_year y -> last_day y 2 29
| LastFeb : ~ leap_year y -> last_day y 2 28.
Definition valid_date (y m d : Z) : Prop := exists l, last_day y m l /\ 1 <= d <= l.
(** the calendar day after year, month, day. *)
Inductive next_date : Z * Z * Z -> Z * Z * Z -> Prop :=
| NextDay : forall y m d l, last_day y m l -> 1 <= d < l -> next_date (y, m, d) (y, m, d + 1)
| NextMonth : forall y m d, last_day y m d -> m < 12 -> next_date (y, m, d) (y, m + 1, 1)
| NextYear : forall y, next_date (y, 12, 31) (y + 1, 1, 1).

(** [Civil c]: [c] gives the date of each day, counted from the first of January 1970. *)
Definition Civil (c : Z -> Z * Z * Z) : Prop :=
  c 0 = (1970, 1, 1) /\ forall n, next_date (c n) (c (n + 1)).

(** The periods into which a time zone [z] seconds east of UTC divides time, numbered
    consecutively; times are counted in seconds from 1970-01-01 00:00:00 UTC.  The first of
    January 1970 was a Thursday; weeks begin on Sunday. *)
Inductive unit_of_time := Second | Minute | Hour | Day | Week | Month | Year.
Definition period (c : Z -> Z * Z * Z) (z : Z) (u : unit_of_time) (t : Z) : Z :=
  let '(y, m, _) := c ((t + z) / 86400) in
  match u with
  | Second => t
  | Minute => (t + z) / 60
  | Hour => (t + z) / 3600
  | Day => (t + z) / 86400
  | Week => ((t + z) / 86400 + 4) / 7
  | Month => 12 * y + m
  | Year => y
  end.
