(** C45, continued: every documented way to write a date, a month, a time of day, a time zone
    and a number in words means what it says.  The forms are listed in DatesForms.v. *)
From Verif Require Import Bytes Decimal Calendar CalendarSpec CalendarProofs Dates DatesSpec DatesForms DatesProofs DatesProofs2 DatesProofs3 DatesProofs4 DatesProofs5 DatesProofs6 DatesProofs7 DatesProofs8 DatesProofs9 DatesProofs10 DatesProofs11 DatesProofs12 DatesProofs13 DatesProofs14 DatesProofs15 DatesProofs16.
From Coq Require Import ZArith Lia.
Open Scope Z_scope.

(** this, last, one, two, ..., ten, dozen, hundred, before a unit: the same as the number. *)
Theorem C45_number_words :
  forall c off now nw n w u (ago : bool), Civil c -> near off -> fair_now now -> In (nw, n) number_words -> In (w, u) unit_words ->
  (n + 2) * length_of u + 86400 <= now ->
  exists r, date_single off now (nw ++ lit " " ++ w ++ (if ago then lit " ago" else [])) = Ok r /\
    forall ts, in_range r ts = true <-> period c off u ts = period c off u now - n.
Proof.
  intros c off now nw n w u a C HO HN I J LE. destruct (word_ago_selects off now nw n w u a (proj1 HO) HN I J LE) as (r & E1 & E2). exists r. split; [exact E1|].
  intro ts. rewrite !(period_ext c) by exact C. apply E2.
Qed.
Print Assumptions C45_number_words.

(** Every documented form of a date selects exactly that day. *)
Theorem C45_documented_dates :
  forall c off now y m d s, Civil c -> near off -> fair_now now -> 1970 <= y <= 9999 -> valid_date y m d -> written_date y m d s ->
  exists r, date_single off now s = Ok r /\ forall ts, in_range r ts = true <-> c ((ts + off) / 86400) = (y, m, d).
Proof.
  intros c off now y m d s C HO HN Y V W. pose proof V as (l & LD & D). apply last_day_inv in LD as [M ->]. pose proof (month_len_range y m M).
  destruct (date_selects off now y m d s HO HN Y M ltac:(lia) W) as (r & E1 & E2). exists r. split; [exact E1|]. intro ts. rewrite E2.
  destruct (valid_first c y m d C V) as [_ V2]. split; [intros ->; exact V2|].
  rewrite (civil_unique c date_of C date_of_civil) in *. intro K. apply date_of_iff in K. apply date_of_iff in V2. destruct K as (_ & _ & ->). symmetry. apply V2.
Qed.
Print Assumptions C45_documented_dates.

(** Every documented form of a month selects exactly that month. *)
Theorem C45_documented_months :
  forall c off now y m s, Civil c -> near off -> fair_now now -> 1970 <= y <= 9999 -> 1 <= m <= 12 -> written_month y m s ->
  exists r, date_single off now s = Ok r /\ forall ts, in_range r ts = true <-> exists d, c ((ts + off) / 86400) = (y, m, d).
Proof.
  intros c off now y m s C HO HN Y M W. destruct (month_selects off now y m s HO HN Y M W) as (r & E1 & E2). exists r. split; [exact E1|]. intro ts. rewrite E2.
  rewrite (civil_unique c date_of C date_of_civil). pose proof (month_period ((ts + off) / 86400) y m M) as K.
  destruct (D0_month m y) as (Y' & M' & HM & HE & E3 & E4). assert (Y' = y) by lia. assert (M' = m) by lia. subst. rewrite E3, E4, <- K.
  pose proof (day_number_date ((ts + off) / 86400)) as DN. destruct (date_of ((ts + off) / 86400)) as [[y' m'] d']. destruct DN as (_ & DN & _). split.
  - intro H. assert (y' = y) by lia. assert (m' = m) by lia. subst. eauto.
  - intros (d & [= -> -> ->]). reflexivity.
Qed.
Print Assumptions C45_documented_months.

(** A date, a time of day and perhaps a time zone, each in any documented form: the messages of
    that second (or minute), by the clock of that zone (or of the local zone). *)
Theorem C45_documented_moments :
  forall c off now y m d h mi sec s t zone, Civil c -> near off -> fair_now now -> 1970 <= y <= 9999 -> valid_date y m d -> (1970 < y \/ 1 < d) ->
  written_date y m d s -> written_time h mi sec t -> (forall e w, zone = Some (e, w) -> written_zone e w) ->
  let z := match zone with Some (e, _) => 60 * e | None => off end in
  exists r, date_single off now (s ++ lit " " ++ t ++ (match zone with Some (_, w) => lit " " ++ w | None => [] end)) = Ok r /\
    forall ts, in_range r ts = true <->
      c ((ts + z) / 86400) = (y, m, d) /\
      match sec with
      | Some x => (ts + z) mod 86400 = 3600 * h + 60 * mi + x
      | None => (ts + z) mod 86400 / 60 = 60 * h + mi
      end.
Proof.
  intros c off now y m d h mi sec s t zone C HO HN Y V Y1 WD WT WZ z. pose proof V as (l & LD & D). apply last_day_inv in LD as [M ->]. pose proof (month_len_range y m M).
  destruct (moment_selects off now y m d h mi sec s t zone HO HN Y M ltac:(lia) Y1 WD WT WZ) as (r & E1 & E2). exists r. split; [exact E1|]. intro ts. rewrite E2.
  change (match zone with Some (e, _) => 60 * e | None => off end) with z.
  assert (R : 0 <= h <= 23 /\ 0 <= mi <= 59 /\ match sec with Some x => 0 <= x <= 59 | None => True end).
  { destruct (time_ranges h mi sec t WT) as [R1 R2]. split; [|split; [exact R1|destruct sec as [x|]; [apply R2; reflexivity|exact I]]].
    destruct WT; try lia; unfold hour_of_12; destruct (Z.eqb_spec k 12), pm; lia. }
  destruct R as (R1 & R2 & R3).
  destruct (valid_first c y m d C V) as [_ V2]. rewrite (civil_unique c date_of C date_of_civil) in *. apply date_of_iff in V2. destruct V2 as (V3 & V4 & V5).
  rewrite date_of_iff. unfold clock. rewrite <- V5. clear - V3 V4 R1 R2 R3. generalize (D0 m y + (d - 1)). intro q. destruct sec as [x|]; cbn [from upto]; split.
  - intro E. split; [split; [exact V3|split; [exact V4|zdm]]|zdm].
  - intros [(_ & _ & E) F]. zdm.
  - intro E. split; [split; [exact V3|split; [exact V4|zdm]]|zdm].
  - intros [(_ & _ & E) F]. zdm.
Qed.
Print Assumptions C45_documented_moments.
(** HHMMSS after a date. *)
Theorem C45_six_digit_time :
  forall c off now y m d h mi x s, Civil c -> near off -> fair_now now -> 1970 <= y <= 9999 -> valid_date y m d -> (1970 < y \/ 1 < d) ->
  written_date y m d s -> 0 <= h <= 23 -> 0 <= mi <= 59 -> 0 <= x <= 59 ->
  exists r, date_single off now (s ++ lit " " ++ pad2 h ++ pad2 mi ++ pad2 x) = Ok r /\
    forall ts, in_range r ts = true <-> c ((ts + off) / 86400) = (y, m, d) /\ (ts + off) mod 86400 = 3600 * h + 60 * mi + x.
Proof.
  intros c off now y m d h mi x s C HO HN Y V Y1 WD H M' X. pose proof V as (l & LD & D). apply last_day_inv in LD as [M ->]. pose proof (month_len_range y m M).
  destruct (six_selects off now y m d h mi x s HO HN Y M ltac:(lia) Y1 WD H M' X) as (r & E1 & E2). exists r. split; [exact E1|]. intro ts. rewrite E2.
  destruct (valid_first c y m d C V) as [_ V2]. rewrite (civil_unique c date_of C date_of_civil) in *. apply date_of_iff in V2. destruct V2 as (V3 & V4 & V5).
  rewrite date_of_iff. unfold clock. rewrite <- V5. clear - V3 V4 H M' X. generalize (D0 m y + (d - 1)). intro q. split.
  - intro E. split; [split; [exact V3|split; [exact V4|zdm]]|zdm].
  - intros [(_ & _ & E) F]. zdm.
Qed.
Print Assumptions C45_six_digit_time.
(** ... but HHMMSS cannot be combined with a zone written +HH:MM, although +HHMM is understood. *)
Theorem C45_six_digits_and_zone_refuted :
  forall off now, date_single off now (lit "2012-03-04 101112 +05:30") = Err.
Proof. intros. unfold date_single, parse_time_string. assert (P : parse_input (lit "2012-03-04 101112 +05:30") = Err) by (vm_compute; reflexivity). rewrite P. reflexivity. Qed.
Print Assumptions C45_six_digits_and_zone_refuted.

(** Examples of the forms. *)
Example C45_forms_nontrivial :
  written_date 2012 8 3 (lit "August 3rd 2012") /\ written_date 2012 7 31 (lit "7/31/2012") /\ written_date 2012 7 31 (lit "31-07-12") /\
  written_time 17 5 None (lit "5:05 PM") /\ written_time 17 0 (Some 0) (lit "5pm") /\ written_zone (-300) (lit "EST") /\ written_zone 330 (lit "+05:30") /\
  written_month 2012 2 (lit "Febr 2012").
Proof.
  repeat split.
  - apply (name_day_date 2012 8 3 (lit "3") (lit "rd") (lit "August")).
    + right. split; reflexivity.
    + right. right. right. right. split; [reflexivity|left; reflexivity].
    + exists (lit "aug"), (lit "ust"), (lit "ust"), []. repeat split. cbn [In month_names]. tauto.
  - apply (slashed_date 2012 7 31 (lit "7") (lit "31") (lit "2012")); [right; split; reflexivity|left; reflexivity|left; reflexivity].
  - apply (dashed_date 2012 7 31 (lit "12")). right. split; [lia|reflexivity].
  - apply (time_12 5 5 true (lit "5") (lit " ") (lit "PM")); try lia; [right; split; reflexivity|right; reflexivity|reflexivity].
  - apply (hour_12 5 true (lit "5") [] (lit "pm")); try lia; [right; split; reflexivity|left; reflexivity|reflexivity].
  - apply zone_code. cbn [In zone_codes]. change (map tolower (lit "EST")) with (lit "est"). tauto.
  - apply (zone_colon 5 30); [lia|cbn [In]; tauto].
  - apply (name_month 2012 2 (lit "Febr")). exists (lit "feb"), (lit "ruary"), (lit "r"), (lit "uary"). repeat split. cbn [In month_names]. tauto.
Qed.
