(** Model of notmuch-time.c: dates as notmuch search prints them.

    The local time zone is a function giving the seconds east of UTC at each time;
    localtime_r does not fail (the year fits an int).  strftime is that of the C locale.
    Allocation does not fail. *)
From Verif Require Import Bytes Decimal Calendar.
From Coq Require Import ZArith.
Local Open Scope Z_scope.

(** localtime_r(3) in a zone. *)
Definition local_tm (zone : Z -> Z) (t : Z) : tm := break_down (t + zone t).

(** "%02d" of a number of two digits; strftime's names. *)
Definition two (n : Z) : bytes := [digit (Z.to_N (n / 10)); digit (Z.to_N (n mod 10))].
(** strftime %R (C library). *)
Definition fmt_R (b : tm) : bytes := two (t_hour b) ++ lit ":" ++ two (t_min b).
(** strftime %F (C library). *)
Definition fmt_F (b : tm) : bytes := decz (t_year b) ++ lit "-" ++ two (t_mon b) ++ lit "-" ++ two (t_mday b).
(** strftime %a, C locale. *)
Definition day_names : list bytes := [lit "Sun"; lit "Mon"; lit "Tue"; lit "Wed"; lit "Thu"; lit "Fri"; lit "Sat"].
(** strftime %B, C locale. *)
Definition month_names : list bytes :=
  [lit "January"; lit "February"; lit "March"; lit "April"; lit "May"; lit "June"; lit "July"; lit "August";
   lit "September"; lit "October"; lit "November"; lit "December"].
(** strftime %a (C library). *)
Definition fmt_a (b : tm) : bytes := nth (Z.to_nat (t_wday b)) day_names [].
(** strftime %B (C library). *)
Definition fmt_B (b : tm) : bytes := nth (Z.to_nat (t_mon b - 1)) month_names [].

(** notmuch-time.c:43. *)
Definition DAY : Z := 24 * (60 * 60).

(** notmuch-time.c:41-104 [notmuch_time_relative_date]; [time (NULL)] is [now].  strftime
    and snprintf into 20 bytes: see C66_fits. *)
Definition relative_date (zone : Z -> Z) (now then_ : Z) : bytes :=
  let tm_now := local_tm zone now in
  let tm_then := local_tm zone then_ in
  if now <? then_ then lit "the future"
  else
    let delta := now - then_ in
    if 180 * DAY <? delta then fmt_F tm_then
    else if delta <? 3600 then dec (Z.to_N (delta / 60)) ++ lit " mins. ago"
    else
      let date := fmt_B tm_then ++ lit " " ++ two (t_mday tm_then) in
      if delta <=? 7 * DAY then
        if (t_wday tm_then =? t_wday tm_now) && (delta <? DAY) then lit "Today " ++ fmt_R tm_then
        else if (t_wday tm_now + 7 - t_wday tm_then) mod 7 =? 1 then lit "Yest. " ++ fmt_R tm_then
        else if negb (t_wday tm_then =? t_wday tm_now) then fmt_a tm_then ++ lit ". " ++ fmt_R tm_then
        else date
      else date.

(** notmuch-time.c:104-128 [notmuch_time_print_formatted_seconds], with the time in
    microseconds (a difference of two struct timeval) and exact arithmetic in place of
    double; the number of seconds fits an int. *)
Definition formatted_seconds (usec : Z) : bytes :=
  if usec <? 1000000 then lit "almost no time"
  else
    let '(out1, u1) := if 3600 * 1000000 <? usec
                       then let hours := usec / 1000000 / 3600 in (decz hours ++ lit "h ", usec - hours * 3600 * 1000000)
                       else ([], usec) in
    let '(out2, u2) := if 60 * 1000000 <? u1
                       then let minutes := u1 / 1000000 / 60 in (decz minutes ++ lit "m ", u1 - minutes * 60 * 1000000)
                       else ([], u1) in
    out1 ++ out2 ++ decz (u2 / 1000000) ++ lit "s".
