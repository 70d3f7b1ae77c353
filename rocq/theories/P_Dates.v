(** Property C45: date expressions and date: ranges. *)
From Verif Require Import Bytes Decimal Calendar CalendarSpec CalendarProofs Dates DatesSpec DatesProofs DatesProofs2 DatesProofs3 DatesProofs4 DatesProofs5 DatesProofs6 DatesProofs7 DatesProofs8 DatesProofs9 DatesProofs10 DatesProofs11.
From Coq Require Import ZArith Lia.
Open Scope Z_scope.

(** There is exactly one civil calendar; all statements below are about any such. *)
Theorem C45_calendar : exists c, Civil c /\ forall c', Civil c' -> forall n, c' n = c n.
Proof. exists date_of. split; [exact date_of_civil|]. intros c' H n. apply civil_unique; [exact H|exact date_of_civil]. Qed.
Print Assumptions C45_calendar.

(** Every expression that is understood selects one whole period -- second, minute, hour,
    day, week, month or year -- of the civil calendar, in the local zone or in a zone named
    in the expression (at most 14 hours 45 minutes from UTC). *)
Theorem C45_selects_a_period :
  forall c off now s r, Civil c -> date_single off now s = Ok r ->
  exists z u t0, (z = off \/ -53100 <= z <= 53100) /\
    forall ts, in_range r ts = true <-> period c z u ts = period c z u t0.
Proof.
  intros c off now s r C H. unfold date_single in H. apply bind_ok in H. destruct H as (L & HL & H). apply bind_ok in H. destruct H as (U & HU & H). apply Ok_inj in H. subst r.
  assert (PI : exists st, parse_input s = Ok st) by (unfold parse_time_string in HL; apply bind_ok in HL; destruct HL as (st & P & _); eauto).
  destruct PI as (st & P). pose proof (single_period off now s st L U P HL HU) as K.
  assert (ZR : zone off st = off \/ -53100 <= zone off st <= 53100).
  { unfold zone. destruct (is_set st TZ) eqn:TS; [right|left; reflexivity].
    assert (GI : good_input true None 100 s) by (split; [reflexivity|intro X; contradiction X; reflexivity]).
    pose proof (parse_input_inv true None 100 s ltac:(lia) I GI) as Q. rewrite P in Q. cbn [post] in Q. destruct Q as [_ Q]. specialize (Q TZ).
    unfold is_set in TS. destruct (fset_ st TZ); [discriminate| |lia]. cbn [ok] in Q. lia. }
  exists (zone off st). destruct (finest st) as [u|].
  - exists u, L. split; [exact ZR|]. intro ts. rewrite !(period_ext c) by exact C. rewrite <- (proj2 K ts).
    unfold in_range. cbn [fst snd above below]. rewrite Bool.andb_true_iff, !Z.leb_le. reflexivity.
  - exists Second, L. split; [exact ZR|]. intro ts. subst U. unfold in_range. cbn [fst snd above below]. rewrite Bool.andb_true_iff, !Z.leb_le.
    unfold period. destruct (c _) as [[? ?] ?], (c _) as [[? ?] ?]. lia.
Qed.
Print Assumptions C45_selects_a_period.

(** date:A..B covers exactly the times from the first one of A to the last one of B. *)
Theorem C45_range :
  forall off now A B ra rb, A <> [] -> B <> [] -> B <> lit "!" ->
  date_single off now A = Ok ra -> date_single off now B = Ok rb ->
  exists r, date_range off now A B = Ok r /\
    forall ts, in_range r ts = true <->
      (exists a, in_range ra a = true /\ a <= ts) /\ (exists b, in_range rb b = true /\ ts <= b).
Proof.
  intros off now A B ra rb NA NB NX HA HB.
  assert (SP : forall s x, date_single off now s = Ok x -> exists L U, parse_time_string off now ROUND_DOWN s = Ok L /\ parse_time_string off now ROUND_UP_INCLUSIVE s = Ok U /\ x = (At L, At U) /\ L <= U).
  { intros s x H. unfold date_single in H. apply bind_ok in H. destruct H as (L & HL & H). apply bind_ok in H. destruct H as (U & HU & H). apply Ok_inj in H. exists L, U.
    split; [exact HL|]. split; [exact HU|]. split; [symmetry; exact H|].
    assert (PI : exists st, parse_input s = Ok st) by (unfold parse_time_string in HL; apply bind_ok in HL; destruct HL as (st & P & _); eauto).
    destruct PI as (st & P). pose proof (single_period off now s st L U P HL HU) as K. destruct (finest st); [exact (proj1 K)|subst; apply Z.le_refl]. }
  destruct (SP A ra HA) as (LA & UA & PA & _ & -> & OA). destruct (SP B rb HB) as (LB & UB & _ & PB & -> & OB).
  exists (At LA, At UB). split.
  - unfold date_range. destruct A as [|a0 A]; [contradiction|]. rewrite PA. cbn [bind]. destruct B as [|b0 B]; [contradiction|].
    assert (NE : bseq (b0 :: B) (lit "!") = false) by (destruct (bseq (b0 :: B) (lit "!")) eqn:X; [apply bseq_eq in X; contradiction|reflexivity]).
    rewrite NE. cbn [andb]. rewrite PB. reflexivity.
  - intro ts. unfold in_range. cbn [fst snd above below]. rewrite Bool.andb_true_iff, !Z.leb_le. split.
    + intros [H1 H2]. split; [exists LA|exists UB]; rewrite Bool.andb_true_iff, !Z.leb_le; lia.
    + intros [(a & H1 & H2) (b & H3 & H4)]. rewrite Bool.andb_true_iff, !Z.leb_le in H1, H3. lia.
Qed.
Print Assumptions C45_range.

(** date:A..! is date:A; date:A.. is everything from A on; a range with an end that is not
    understood is refused. *)
Theorem C45_range_abbreviations :
  forall off now A, A <> [] ->
  date_range off now A (lit "!") = date_single off now A /\
  (forall ra, date_single off now A = Ok ra -> exists r, date_range off now A [] = Ok r /\
     forall ts, in_range r ts = true <-> exists a, in_range ra a = true /\ a <= ts) /\
  (forall B, parse_input A = Err -> date_range off now A B = Err) /\
  (forall B x, parse_input A = Err -> B <> lit "!" -> date_range off now B [] = Ok x -> date_range off now B A = Err).
Proof.
  intros off now A NA. split; [|split; [|split]].
  - destruct A as [|a0 A]; [contradiction|]. unfold date_range, date_single. change (bseq (lit "!") (lit "!")) with true. change (negb (bseq (a0 :: A) [])) with true. cbn [andb lit String.list_ascii_of_string].
    destruct (parse_time_string off now ROUND_DOWN (a0 :: A)); [|reflexivity|reflexivity]. cbn [bind]. destruct (parse_time_string off now ROUND_UP_INCLUSIVE (a0 :: A)); reflexivity.
  - intros ra H. unfold date_single in H. apply bind_ok in H. destruct H as (L & HL & H). apply bind_ok in H. destruct H as (U & HU & H). apply Ok_inj in H. subst ra.
    assert (PI : exists st, parse_input A = Ok st) by (unfold parse_time_string in HL; apply bind_ok in HL; destruct HL as (st & P & _); eauto).
    destruct PI as (st & P). pose proof (single_period off now A st L U P HL HU) as K.
    assert (L <= U) as LU by (destruct (finest st); [exact (proj1 K)|subst; apply Z.le_refl]).
    exists (At L, DblMax). split; [unfold date_range; destruct A; [contradiction|]; rewrite HL; reflexivity|].
    intro ts. unfold in_range. cbn [fst snd above below]. rewrite Bool.andb_true_r, Z.leb_le. split.
    + intro H. exists L. rewrite Bool.andb_true_iff, !Z.leb_le. lia.
    + intros (a & H1 & H2). rewrite Bool.andb_true_iff, !Z.leb_le in H1. lia.
  - intros B P. unfold date_range. destruct A as [|a0 A]; [contradiction|]. unfold parse_time_string at 1. rewrite P. reflexivity.
  - intros B x P NB H. unfold date_range in *. destruct A as [|a0 A]; [contradiction|].
    apply bind_ok in H. destruct H as (f & HF & _). rewrite HF. cbn [bind].
    destruct (bseq (a0 :: A) (lit "!") && negb (bseq B [])) eqn:X.
    + apply Bool.andb_true_iff in X as [X _]. apply bseq_eq in X. rewrite X in P. discriminate P.
    + unfold parse_time_string. rewrite P. reflexivity.
Qed.
Print Assumptions C45_range_abbreviations.

(** Only expressions made of known words are understood: any other word, anywhere in the
    expression, makes the search fail. *)
Theorem C45_unknown_words_rejected :
  forall off now s w, In w (words s) -> ~ known_word w -> date_single off now s = Err \/ date_single off now s = Undef.
Proof.
  intros off now s w I N. destruct (date_single off now s) as [r| |] eqn:H; auto. exfalso. apply N.
  unfold date_single in H. apply bind_ok in H. destruct H as (L & HL & _). unfold parse_time_string in HL. apply bind_ok in HL. destruct HL as (st & P & _).
  eapply parse_loop_words; eassumption.
Qed.
Print Assumptions C45_unknown_words_rejected.

(** No arithmetic overflows, as long as the numbers in the expression are moderate: at most
    M, where M times the length of the expression is at most 100 million. *)
Theorem C45_no_overflow :
  forall off now s M, 100 <= M -> M * Z.of_nat (List.length s) <= 100000000 -> small_numbers M s ->
  0 <= now <= 800000000000000 -> -900000 <= off <= 900000 -> date_single off now s <> Undef.
Proof.
  intros off now s M HM HL SN HN HO. unfold date_single.
  pose proof (no_overflow off now s ROUND_DOWN M (or_introl eq_refl) HM HL SN HN HO) as K1.
  pose proof (no_overflow off now s ROUND_UP_INCLUSIVE M (or_intror eq_refl) HM HL SN HN HO) as K2.
  destruct (parse_time_string off now ROUND_DOWN s); [|discriminate|contradiction]. cbn [bind].
  destruct (parse_time_string off now ROUND_UP_INCLUSIVE s); [discriminate|discriminate|contradiction].
Qed.
Print Assumptions C45_no_overflow.

(** ** The documented forms.  The zone is a whole number of minutes, less than a day, from
    UTC; the current time is before the year 25 million. *)

(** YYYY-MM-DD selects exactly that day. *)
Theorem C45_year_month_day :
  forall c off now y m d, Civil c -> near off -> fair_now now -> 1970 <= y <= 9999 -> valid_date y m d ->
  exists r, date_single off now (pad4 y ++ lit "-" ++ pad2 m ++ lit "-" ++ pad2 d) = Ok r /\
    forall ts, in_range r ts = true <-> c ((ts + off) / 86400) = (y, m, d).
Proof.
  intros c off now y m d C HO HN Y V. pose proof V as (l & LD & D). apply last_day_inv in LD as [M ->]. pose proof (month_len_range y m M).
  destruct (ymd_selects off now y m d HO HN Y M ltac:(lia)) as (r & E1 & E2). exists r. split; [exact E1|]. intro ts. rewrite E2.
  destruct (valid_first c y m d C V) as [_ V2]. split; [intros ->; exact V2|].
  rewrite (civil_unique c date_of C date_of_civil) in *. intro K. apply date_of_iff in K. apply date_of_iff in V2. destruct K as (_ & _ & ->). symmetry. apply V2.
Qed.
Print Assumptions C45_year_month_day.

(** Years before 1970, months other than 1 to 12 and days other than 1 to 31 are refused. *)
Theorem C45_bad_dates_rejected :
  forall off now y m d, 0 <= y <= 9999 -> 0 <= m <= 99 -> 0 <= d <= 99 -> ~ (1970 <= y /\ 1 <= m <= 12 /\ 1 <= d <= 31) ->
  date_single off now (pad4 y ++ lit "-" ++ pad2 m ++ lit "-" ++ pad2 d) = Err.
Proof. exact ymd_refused. Qed.
Print Assumptions C45_bad_dates_rejected.

(** A day of the month that the month lacks runs on into the next month. *)
Theorem C45_day_overrun :
  forall c off now y m d first, Civil c -> near off -> fair_now now -> 1970 <= y <= 9999 -> 1 <= m <= 12 -> 1 <= d <= 31 -> c first = (y, m, 1) ->
  exists r, date_single off now (pad4 y ++ lit "-" ++ pad2 m ++ lit "-" ++ pad2 d) = Ok r /\
    forall ts, in_range r ts = true <-> (ts + off) / 86400 = first + (d - 1).
Proof.
  intros c off now y m d first C HO HN Y M D F. rewrite (first_of_month c first y m C M F). exact (ymd_selects off now y m d HO HN Y M D).
Qed.
Print Assumptions C45_day_overrun.

(** YYYY-MM selects exactly that month, YYYY exactly that year. *)
Theorem C45_year_month :
  forall c off now y m, Civil c -> near off -> fair_now now -> 1970 <= y <= 9999 -> 1 <= m <= 12 ->
  exists r, date_single off now (pad4 y ++ lit "-" ++ pad2 m) = Ok r /\
    forall ts, in_range r ts = true <-> exists d, c ((ts + off) / 86400) = (y, m, d).
Proof.
  intros c off now y m C HO HN Y M. destruct (ym_selects off now y m HO HN Y M) as (r & E1 & E2). exists r. split; [exact E1|]. intro ts. rewrite E2.
  rewrite (civil_unique c date_of C date_of_civil). pose proof (month_period ((ts + off) / 86400) y m M) as K.
  destruct (D0_month m y) as (Y' & M' & HM & HE & E3 & E4). assert (Y' = y) by lia. assert (M' = m) by lia. subst. rewrite E3, E4, <- K.
  pose proof (day_number_date ((ts + off) / 86400)) as DN. destruct (date_of ((ts + off) / 86400)) as [[y' m'] d']. destruct DN as (_ & DN & _). split.
  - intro H. assert (y' = y) by lia. assert (m' = m) by lia. subst. eauto.
  - intros (d & [= -> -> ->]). reflexivity.
Qed.
Print Assumptions C45_year_month.
Theorem C45_year :
  forall c off now y, Civil c -> near off -> fair_now now -> 1970 <= y <= 9999 ->
  exists r, date_single off now (pad4 y) = Ok r /\
    forall ts, in_range r ts = true <-> exists m d, c ((ts + off) / 86400) = (y, m, d).
Proof.
  intros c off now y C HO HN Y. destruct (year_selects off now y HO HN Y) as (r & E1 & E2). exists r. split; [exact E1|]. intro ts. rewrite E2.
  rewrite (civil_unique c date_of C date_of_civil). pose proof (year_period ((ts + off) / 86400) y) as K. rewrite <- K.
  destruct (date_of ((ts + off) / 86400)) as [[y' m'] d']. split; [intros ->; eauto|]. intros (m & d & [= -> _ _]). reflexivity.
Qed.
Print Assumptions C45_year.

(** A date and a time of day: the second, or the minute. *)
Theorem C45_date_time :
  forall c off now y m d hh mm ss, Civil c -> near off -> fair_now now -> 1970 <= y <= 9999 -> valid_date y m d -> (1970 < y \/ 1 < d) ->
  0 <= hh <= 23 -> 0 <= mm <= 59 -> 0 <= ss <= 59 ->
  exists r, date_single off now ((pad4 y ++ lit "-" ++ pad2 m ++ lit "-" ++ pad2 d) ++ lit " " ++ pad2 hh ++ lit ":" ++ pad2 mm ++ lit ":" ++ pad2 ss) = Ok r /\
    forall ts, in_range r ts = true <->
      c ((ts + off) / 86400) = (y, m, d) /\ (ts + off) mod 86400 = 3600 * hh + 60 * mm + ss.
Proof.
  intros c off now y m d hh mm ss C HO HN Y V Y1 Hh Hm Hs. pose proof V as (l & LD & D). apply last_day_inv in LD as [M ->]. pose proof (month_len_range y m M).
  assert (F1 : 1 <= D0 m y + (d - 1)).
  { pose proof (D0_range m y M ltac:(lia)). destruct Y1; [|lia]. rewrite D0_plain by exact M. unfold day_number. pose proof (dbm_range y m M). pose proof (dby_mono 1970 y ltac:(lia)) as K. change (dby 1970) with 0 in K. lia. }
  destruct (dhms_selects off now y m d hh mm ss HO HN Y M ltac:(lia)) as (r & E1 & E2); try lia.
  { apply valid_time_iff; lia. }
  { unfold clock, near in *. lia. }
  exists r. split; [exact E1|]. intro ts. rewrite E2.
  destruct (valid_first c y m d C V) as [_ V2]. rewrite (civil_unique c date_of C date_of_civil) in *. apply date_of_iff in V2. destruct V2 as (V3 & V4 & V5).
  rewrite date_of_iff. unfold clock. rewrite <- V5. clear - V3 V4 Hh Hm Hs. generalize (D0 m y + (d - 1)). intro q. split.
  - intro E. rewrite E. split; [split; [exact V3|split; [exact V4|zdm]]|zdm].
  - intros [(_ & _ & E) F]. zdm.
Qed.
Print Assumptions C45_date_time.
Theorem C45_date_minute :
  forall c off now y m d hh mm, Civil c -> near off -> fair_now now -> 1970 <= y <= 9999 -> valid_date y m d -> (1970 < y \/ 1 < d) ->
  0 <= hh <= 23 -> 0 <= mm <= 59 ->
  exists r, date_single off now ((pad4 y ++ lit "-" ++ pad2 m ++ lit "-" ++ pad2 d) ++ lit " " ++ pad2 hh ++ lit ":" ++ pad2 mm) = Ok r /\
    forall ts, in_range r ts = true <->
      c ((ts + off) / 86400) = (y, m, d) /\ (ts + off) mod 86400 / 60 = 60 * hh + mm.
Proof.
  intros c off now y m d hh mm C HO HN Y V Y1 Hh Hm. pose proof V as (l & LD & D). apply last_day_inv in LD as [M ->]. pose proof (month_len_range y m M).
  destruct (dhm_selects off now y m d hh mm HO HN Y M ltac:(lia)) as (r & E1 & E2); try lia.
  { apply valid_time_iff; lia. }
  exists r. split; [exact E1|]. intro ts. rewrite E2.
  destruct (valid_first c y m d C V) as [_ V2]. rewrite (civil_unique c date_of C date_of_civil) in *. apply date_of_iff in V2. destruct V2 as (V3 & V4 & V5).
  rewrite date_of_iff. unfold clock. rewrite <- V5. clear - V3 V4 Hh Hm. generalize (D0 m y + (d - 1)). intro q. split.
  - intro E. split; [split; [exact V3|split; [exact V4|zdm]]|zdm].
  - intros [(_ & _ & E) F]. zdm.
Qed.
Print Assumptions C45_date_minute.
(** Impossible times of day are refused; 24:00:00 is the end of the day. *)
Theorem C45_bad_times_rejected :
  forall off now y m d hh mm ss, 1970 <= y <= 9999 -> 1 <= m <= 12 -> 1 <= d <= 31 -> 0 <= hh <= 99 -> 0 <= mm <= 99 -> 0 <= ss <= 99 ->
  ~ (hh <= 23 /\ mm <= 59 /\ ss <= 59) -> ~ (hh = 24 /\ mm = 0 /\ ss = 0) ->
  date_single off now ((pad4 y ++ lit "-" ++ pad2 m ++ lit "-" ++ pad2 d) ++ lit " " ++ pad2 hh ++ lit ":" ++ pad2 mm ++ lit ":" ++ pad2 ss) = Err.
Proof.
  intros off now y m d hh mm ss Y M D Hh Hm Hs N1 N2.
  assert (P : parse_input (dt (ymd y m d) (hms hh mm ss)) = Err).
  { rewrite parse_dhms by assumption. destruct (is_valid_time hh mm ss) eqn:V; [|reflexivity]. apply valid_time_iff in V; lia. }
  unfold date_single, parse_time_string. change ((pad4 y ++ lit "-" ++ pad2 m ++ lit "-" ++ pad2 d) ++ lit " " ++ pad2 hh ++ lit ":" ++ pad2 mm ++ lit ":" ++ pad2 ss) with (dt (ymd y m d) (hms hh mm ss)).
  rewrite P. reflexivity.
Qed.
Print Assumptions C45_bad_times_rejected.

(** @N selects exactly the N-th second since 1970. *)
Theorem C45_time_stamp :
  forall off now n, fair_now now -> Z.of_N n <= 800000000000000 ->
  exists r, date_single off now (lit "@" ++ dec n) = Ok r /\ forall ts, in_range r ts = true <-> ts = Z.of_N n.
Proof. exact at_selects. Qed.
Print Assumptions C45_time_stamp.

(** "N units", or "N units ago", selects the whole N-th second, minute, hour, day, week,
    month or year before the current one (as long as that is after 1970). *)
Theorem C45_ago :
  forall c off now n w u (ago : bool), Civil c -> near off -> fair_now now -> In (w, u) unit_words -> Z.of_N n <= 100000000 ->
  (Z.of_N n + 2) * length_of u + 86400 <= now ->
  exists r, date_single off now (dec n ++ lit " " ++ w ++ (if ago then lit " ago" else [])) = Ok r /\
    forall ts, in_range r ts = true <-> period c off u ts = period c off u now - Z.of_N n.
Proof.
  intros c off now n w u a C HO HN I B LE. destruct (ago_selects off now n w u a (proj1 HO) HN I B LE) as (r & E1 & E2). exists r. split; [exact E1|].
  intro ts. rewrite !(period_ext c) by exact C. apply E2.
Qed.
Print Assumptions C45_ago.

(** today, yesterday, and the days of the week: the last such day before today. *)
Theorem C45_today_yesterday :
  forall off now, near off -> fair_now now -> 400000 <= now ->
  (exists r, date_single off now (lit "today") = Ok r /\ forall ts, in_range r ts = true <-> (ts + off) / 86400 = (now + off) / 86400) /\
  (exists r, date_single off now (lit "yesterday") = Ok r /\ forall ts, in_range r ts = true <-> (ts + off) / 86400 = (now + off) / 86400 - 1).
Proof.
  intros off now HO HN LE. split; [apply today_selects; [exact HO|exact HN|lia]|].
  destruct (yesterday_selects off now (proj1 HO) HN LE) as (r & E1 & E2). exists r. split; [exact E1|]. intro ts. rewrite E2.
  unfold period. destruct (date_of _) as [[? ?] ?], (date_of _) as [[? ?] ?]. reflexivity.
Qed.
Print Assumptions C45_today_yesterday.
Theorem C45_weekdays :
  forall off now w k, near off -> fair_now now -> 1000000 <= now -> In (w, k) weekday_words ->
  exists r, date_single off now w = Ok r /\
    forall ts, in_range r ts = true <->
      (now + off) / 86400 - 7 <= (ts + off) / 86400 < (now + off) / 86400 /\ ((ts + off) / 86400 + 4) mod 7 = k.
Proof. exact weekday_selects. Qed.
Print Assumptions C45_weekdays.

(** ** What fails. *)
(** a.m. and p.m., with the dots, are in the table of keywords but are never understood. *)
Theorem C45_am_with_dots_refuted : forall off now, date_single off now (lit "10 a.m.") = Err /\ date_single off now (lit "10 p.m.") = Err.
Proof. split; reflexivity. Qed.
Print Assumptions C45_am_with_dots_refuted.
(** Large numbers overflow (undefined behaviour in C). *)
Theorem C45_overflow_refuted : forall off now, date_single off now (lit "2147483647 days 2147483647 days") = Undef.
Proof.
  assert (P1 : parse_input (lit "2147483647 days 2147483647 days") = Undef) by (vm_compute; reflexivity).
  intros off now. unfold date_single, parse_time_string. rewrite P1. reflexivity.
Qed.
Print Assumptions C45_overflow_refuted.
(** An expression without any date in it is accepted, and stands for the first second
    of 1970. *)
Theorem C45_empty_accepted_refuted :
  date_single 3600 1700000000 (lit "ago") = Ok (At (-3600), At (-3600)) /\
  date_single 3600 1700000000 (lit "-- ,;") = Ok (At (-3600), At (-3600)).
Proof. split; vm_compute; reflexivity. Qed.
Print Assumptions C45_empty_accepted_refuted.
(** A day that does not exist is accepted. *)
Theorem C45_nonexistent_day_refuted :
  ~ valid_date 2021 2 31 /\ date_single 0 1700000000 (lit "2021-02-31") = date_single 0 1700000000 (lit "2021-03-03") /\
  exists r, date_single 0 1700000000 (lit "2021-02-31") = Ok r.
Proof.
  split; [intros (l & L & H); inversion L; lia|]. split; [vm_compute; reflexivity|]. eexists. vm_compute. reflexivity.
Qed.
Print Assumptions C45_nonexistent_day_refuted.
(** The last second before 1970 cannot be named. *)
Theorem C45_minus_one_refuted : date_single 3600 1700000000 (lit "1970-01-01 00:59:59") = Err.
Proof. vm_compute. reflexivity. Qed.
Print Assumptions C45_minus_one_refuted.
(** date:..B leaves out messages dated 0, which is how messages without a usable Date header
    are stored. *)
Theorem C45_open_start_refuted : forall off now B r, date_range off now [] B = Ok r -> in_range r 0 = false.
Proof.
  intros off now B r H. unfold date_range in H. cbn [bind] in H. apply bind_ok in H. destruct H as (to & _ & H). apply Ok_inj in H. subst r. reflexivity.
Qed.
Print Assumptions C45_open_start_refuted.

(** ** Non-trivial cases. *)
Example C45_leap_day : date_single 3600 1700000000 (lit "2020-02-29") = Ok (At 1582930800, At 1583017199).
Proof. vm_compute. reflexivity. Qed.
Example C45_range_example : date_range 0 1700000000 (lit "2019-12") (lit "2 weeks ago") = Ok (At 1575158400, At 1699142399).
Proof. vm_compute. reflexivity. Qed.
Example C45_rfc_example : date_single (-18000) 1700000000 (lit "Tue, 14 Nov 2023 22:13:20 +0000") = Ok (At 1700000000, At 1700000000).
Proof. vm_compute. reflexivity. Qed.
Example C45_units_example : In (lit "months", Month) unit_words /\ (3 + 2) * length_of Month + 86400 <= 1700000000 /\ valid_date 2024 2 29.
Proof. split; [cbn; tauto|]. split; [cbn; lia|]. exists 29. split; [apply LastFebLeap; split; [exists 506; reflexivity|left; intros [k K]; lia]|lia]. Qed.
Example C45_unknown_example : In (lit "moon") (words (lit "3 moons; moon")) /\ ~ known_word (lit "moon").
Proof.
  split; [vm_compute; tauto|]. intros [H|[H|(a & b & b' & b'' & I & E & K)]]; [discriminate|discriminate|].
  assert (L : map tolower (lit "moon") = lit "moon") by reflexivity. rewrite L in K. clear L.
  cbn [vocabulary In] in I. unfold W in I.
  repeat (destruct I as [I|I]; [injection I as <- <-; cbn in K, E; first [discriminate K|destruct b' as [|x b']; [discriminate K|]; cbn in E; congruence]|]). contradiction.
Qed.
