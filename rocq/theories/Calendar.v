(** The C library's calendar (external): timegm(3), gmtime_r(3), and, with the local time
    zone taken as a fixed offset from UTC (no daylight saving time), mktime(3) and
    localtime_r(3).  Proleptic Gregorian calendar, no leap seconds. *)
From Coq Require Import ZArith Bool List.
Import ListNotations.
Open Scope Z_scope.

(** Gregorian leap year (C library, localtime/mktime). *)
Definition leap (y : Z) : bool := (y mod 4 =? 0) && (negb (y mod 100 =? 0) || (y mod 400 =? 0)).
(** days from 1970-01-01 to the first day of year [y]. *)
Definition dby (y : Z) : Z := 365 * (y - 1970) + ((y - 1) / 4 - (y - 1) / 100 + (y - 1) / 400) - 477.
(** days from the first day of year [y] to the first day of month [m] (1 to 12; 13 is the year's end). *)
Definition cum (m : Z) : Z := nth (Z.to_nat (m - 1)) [0; 31; 59; 90; 120; 151; 181; 212; 243; 273; 304; 334; 365] 0.
(** days before month m of year y (C library). *)
Definition dbm (y m : Z) : Z := cum m + (if leap y && (2 <? m) then 1 else 0).
(** day number of a date; the day of the month may be out of range. *)
Definition day_number (y m d : Z) : Z := dby y + dbm y m + d - 1.

(** year containing day d counted from the epoch (C library). *)
Definition year_of (d : Z) : Z :=
  let g := 1970 + d * 400 / 146097 in
  if d <? dby g then g - 1 else if dby (g + 1) <=? d then g + 1 else g.
(** month containing day yd of a year (C library). *)
Definition month_of (y yd : Z) : Z :=
  if yd <? dbm y 2 then 1 else if yd <? dbm y 3 then 2 else if yd <? dbm y 4 then 3 else if yd <? dbm y 5 then 4
  else if yd <? dbm y 6 then 5 else if yd <? dbm y 7 then 6 else if yd <? dbm y 8 then 7 else if yd <? dbm y 9 then 8
  else if yd <? dbm y 10 then 9 else if yd <? dbm y 11 then 10 else if yd <? dbm y 12 then 11 else 12.

(** struct tm, with the month 1 to 12 and the full year ([tm_mon + 1], [tm_year + 1900]). *)
Record tm := mk_tm { t_sec : Z; t_min : Z; t_hour : Z; t_mday : Z; t_mon : Z; t_year : Z; t_wday : Z }.
(** gmtime (C library). *)
Definition break_down (t : Z) : tm :=
  let d := t / 86400 in let s := t mod 86400 in let y := year_of d in let m := month_of y (d - dby y) in
  mk_tm (s mod 60) (s / 60 mod 60) (s / 3600) (d - dby y - dbm y m + 1) m y ((d + 4) mod 7).
(** seconds since the epoch; every member but the year may be out of its range. *)
Definition seconds (b : tm) : Z :=
  let y := t_year b + (t_mon b - 1) / 12 in let m := (t_mon b - 1) mod 12 + 1 in
  ((day_number y m (t_mday b) * 24 + t_hour b) * 60 + t_min b) * 60 + t_sec b.

(** INT_MAX (limits.h). *)
Definition int_max : Z := 2147483647.
(** value representable as int (C language). *)
Definition fits_int (z : Z) : bool := (- int_max - 1 <=? z) && (z <=? int_max).

(** gmtime_r: fails when the year does not fit. *)
Definition gmtime (t : Z) : option tm := let b := break_down t in if fits_int (t_year b - 1900) then Some b else None.
(** timegm: -1 when the year of the result does not fit. *)
Definition timegm (b : tm) : Z := let t := seconds b in match gmtime t with Some _ => t | None => -1 end.
(** in a zone [off] seconds east of UTC. *)
Definition localtime (off t : Z) : option tm := gmtime (t + off).
(** mktime for a zone with a fixed offset (C library; parse-time-string.c:1260-1270); SIMPLIFICATION: no daylight saving. *)
Definition mktime (off : Z) (b : tm) : Z := let t := seconds b - off in match localtime off t with Some _ => t | None => -1 end.
