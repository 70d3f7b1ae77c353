(** How a time should be shown relative to now (C66; notmuch-time.c:23-33). *)
From Verif Require Import Bytes Decimal CalendarSpec.
From Coq Require Import ZArith.
Local Open Scope Z_scope.

(** Two digits. *)
Definition digits2 (n : Z) (s : bytes) : Prop :=
  exists a b, 0 <= a <= 9 /\ 0 <= b <= 9 /\ n = 10 * a + b /\ s = [chr (Z.to_N (48 + a)); chr (Z.to_N (48 + b))].

(** Weekdays by their number from Sunday, months by their number. *)
Inductive weekday : Z -> bytes -> Prop :=
| wd0 : weekday 0 (lit "Sun") | wd1 : weekday 1 (lit "Mon") | wd2 : weekday 2 (lit "Tue") | wd3 : weekday 3 (lit "Wed")
| wd4 : weekday 4 (lit "Thu") | wd5 : weekday 5 (lit "Fri") | wd6 : weekday 6 (lit "Sat").
Inductive month_name : Z -> bytes -> Prop :=
| mn1 : month_name 1 (lit "January") | mn2 : month_name 2 (lit "February") | mn3 : month_name 3 (lit "March")
| mn4 : month_name 4 (lit "April") | mn5 : month_name 5 (lit "May") | mn6 : month_name 6 (lit "June")
| mn7 : month_name 7 (lit "July") | mn8 : month_name 8 (lit "August") | mn9 : month_name 9 (lit "September")
| mn10 : month_name 10 (lit "October") | mn11 : month_name 11 (lit "November") | mn12 : month_name 12 (lit "December").

Section S.
(** The calendar, and the zone: seconds east of UTC at each time. *)
Variable c : Z -> Z * Z * Z.
Variable zone : Z -> Z.
Definition local (t : Z) : Z := t + zone t.
(** The number of the local day (day 0 is 1970-01-01, a Thursday). *)
Definition day (t : Z) : Z := local t / 86400.
(** The time of day, hours and minutes. *)
Definition clock (t : Z) (s : bytes) : Prop :=
  exists h m hs ms, 0 <= local t - 86400 * day t - 3600 * h - 60 * m < 60 /\ 0 <= h < 24 /\ 0 <= m < 60 /\
    digits2 h hs /\ digits2 m ms /\ s = hs ++ lit ":" ++ ms.

Inductive shown (now t : Z) : bytes -> Prop :=
| sh_future : now < t -> shown now t (lit "the future")
| sh_minutes n : 0 <= now - t < 3600 -> 60 * n <= now - t < 60 * n + 60 ->
    shown now t (decz n ++ lit " mins. ago")
| sh_today s : 3600 <= now - t -> day t = day now -> clock t s -> shown now t (lit "Today " ++ s)
| sh_yesterday s : 3600 <= now - t -> day t = day now - 1 -> clock t s -> shown now t (lit "Yest. " ++ s)
| sh_week w s : day now - 6 <= day t <= day now - 2 -> weekday ((day t + 4) mod 7) w -> clock t s ->
    shown now t (w ++ lit ". " ++ s)
| sh_month y m d ms ds : day t <= day now - 7 -> now - t <= 180 * 86400 ->
    c (day t) = (y, m, d) -> month_name m ms -> digits2 d ds -> shown now t (ms ++ lit " " ++ ds)
| sh_date y m d ms ds : 180 * 86400 < now - t -> c (day t) = (y, m, d) -> digits2 m ms -> digits2 d ds ->
    shown now t (decz y ++ lit "-" ++ ms ++ lit "-" ++ ds).
End S.
