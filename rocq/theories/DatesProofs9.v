(** Proofs about Dates.v: what relative expressions, times and time stamps select. *)
From Verif Require Import Bytes Decimal Calendar CalendarSpec CalendarProofs Dates DatesSpec DatesProofs DatesProofs2 DatesProofs3 DatesProofs4 DatesProofs5 DatesProofs6 DatesProofs7 DatesProofs8.
From Coq Require Import ZArith Lia.
Open Scope Z_scope.

Lemma break_down_parts T : let b := break_down T in
  1 <= t_mon b <= 12 /\ D0 (t_mon b) (t_year b) + t_mday b - 1 = T / 86400 /\ t_hour b = T mod 86400 / 3600 /\ t_min b = T mod 86400 / 60 mod 60 /\ t_sec b = T mod 86400 mod 60 /\
  dby (t_year b) <= T / 86400 < dby (t_year b + 1) /\ 1 <= t_mday b <= month_len (t_year b) (t_mon b) /\ t_wday b = (T / 86400 + 4) mod 7.
Proof.
  intro b. pose proof (break_down_date T) as K. fold b in K. pose proof (day_number_date (T / 86400)) as D. rewrite <- K in D. destruct D as (D1 & D2 & D3).
  split; [exact D2|]. split; [rewrite D0_plain by exact D2; rewrite <- D1; rewrite (day_number_lin _ _ (t_mday b)); lia|]. split; [reflexivity|]. split; [reflexivity|]. split; [reflexivity|].
  split; [apply year_of_spec|]. split; [exact D3|reflexivity].
Qed.
Lemma seconds_break_down T : let b := break_down T in seconds (mk_tm (t_sec b) (t_min b) (t_hour b) (t_mday b) (t_mon b) (t_year b) 0) = T.
Proof. intro b. rewrite seconds_lin. destruct (break_down_parts T) as (_ & D & H & M & S & _). fold b in D, H, M, S. rewrite D, H, M, S. zdm. Qed.

(** the period numbers of an instant. *)
Lemma date_of_parts T : exists d, date_of (T / 86400) = (t_year (break_down T), t_mon (break_down T), d).
Proof. exists (t_mday (break_down T)). symmetry. apply break_down_date. Qed.

Definition rel_field (u : unit_of_time) : field :=
  match u with Second => RSEC | Minute => RMIN | Hour => RHOUR | Day => RDAY | Week => RWEEK | Month => RMON | Year => RYEAR end.
(** at least as long as the unit. *)
Definition at_most (u : unit_of_time) : Z :=
  match u with Second => 1 | Minute => 60 | Hour => 3600 | Day => 86400 | Week => 604800 | Month => 2678400 | Year => 31622400 end.

Section Relative.
Context (off now n : Z) (s : bytes) (c : byte).
Context (HO : -86400 < off < 86400) (HN : 0 <= now <= 800000000000000) (Hn : 0 <= n <= 100000000).
Let T := now + off.
Let b := break_down T.
Let st u := set_delim (E init (rel_field u) n) c.
Lemma rel_prep u : prep b (st u) = Ok (st u).
Proof.
  unfold st. rewrite prep_simple by (destruct u; reflexivity). rewrite fill_now_id; [reflexivity|]. intro f. destruct u, f; reflexivity.
Qed.
Lemma rel_bounded u : bounded (st u) 100000000.
Proof. intro f. unfold st. cbn [set_delim val]. rewrite val_E. destruct (field_eqb f (rel_field u)); cbn; lia. Qed.
Theorem rel_selects u : parse_input s = Ok (st u) -> (n + 2) * at_most u + 86400 <= now ->
  exists r, date_single off now s = Ok r /\
    forall ts, in_range r ts = true <-> period date_of off u ts = period date_of off u now - n.
Proof.
  intros P LE. pose proof (rel_prep u) as PR. pose proof (rel_bounded u) as B.
  destruct (break_down_parts T) as (M & D & H & Mi & S & Y & _ & _). fold b in M, D, H, Mi, S, Y.
  destruct (date_of_parts T) as (dd & DP). fold b in DP.
  assert (ZO : zone off (st u) = off) by (destruct u; reflexivity).
  assert (RT : rng (now + off)) by (unfold rng; lia).
  destruct u; cbn [at_most] in LE.
  - (* Second *)
    assert (SD : forall r, seconds (moment b r (st Second)) = T - n).
    { intro r. assert (K : moment b r (st Second) = mk_tm (t_sec b - (n + 0)) (t_min b - 0) (t_hour b - 0) (t_mday b - 0 - 0) (t_mon b - 0) (t_year b - 0) 0).
      { destruct r; reflexivity. }
      rewrite K, seconds_lin. replace (t_mon b - 0) with (t_mon b) by lia. replace (t_year b - 0) with (t_year b) by lia. rewrite H, Mi, S. zdm. }
    destruct (plain_bounds off now s (st Second) (st Second) Second 100000000 off (T - n) (T - n) P PR B ltac:(lia) ZO RT eq_refl ltac:(discriminate) (SD _) (SD _)) as (r & E1 & E2); unfold rng, T in *; try lia.
    exists r. split; [exact E1|]. intro ts. rewrite E2. unfold period. destruct (date_of _) as [[? ?] ?], (date_of _) as [[? ?] ?]. lia.
  - (* Minute *)
    assert (SD : seconds (moment b ROUND_DOWN (st Minute)) = 60 * (T / 60 - n)).
    { assert (K : moment b ROUND_DOWN (st Minute) = mk_tm 0 (t_min b - (n + 0)) (t_hour b - 0) (t_mday b - 0 - 0) (t_mon b - 0) (t_year b - 0) 0) by reflexivity.
      rewrite K, seconds_lin. replace (t_mon b - 0) with (t_mon b) by lia. replace (t_year b - 0) with (t_year b) by lia. rewrite H, Mi. zdm. }
    assert (SU : seconds (moment b ROUND_UP_INCLUSIVE (st Minute)) = 60 * (T / 60 - n) + 59).
    { assert (K : moment b ROUND_UP_INCLUSIVE (st Minute) = mk_tm (-1) (t_min b - (n + -1)) (t_hour b - 0) (t_mday b - 0 - 0) (t_mon b - 0) (t_year b - 0) 0) by reflexivity.
      rewrite K, seconds_lin. replace (t_mon b - 0) with (t_mon b) by lia. replace (t_year b - 0) with (t_year b) by lia. rewrite H, Mi. zdm. }
    destruct (plain_bounds off now s (st Minute) (st Minute) Minute 100000000 off _ _ P PR B ltac:(lia) ZO RT eq_refl ltac:(discriminate) SD SU) as (r & E1 & E2); unfold rng, T in *; try (zdm; fail).
    exists r. split; [exact E1|]. intro ts. rewrite E2. unfold period. destruct (date_of _) as [[? ?] ?], (date_of _) as [[? ?] ?]. zdm.
  - (* Hour *)
    assert (SD : seconds (moment b ROUND_DOWN (st Hour)) = 3600 * (T / 3600 - n)).
    { assert (K : moment b ROUND_DOWN (st Hour) = mk_tm 0 0 (t_hour b - (n + 0)) (t_mday b - 0 - 0) (t_mon b - 0) (t_year b - 0) 0) by reflexivity.
      rewrite K, seconds_lin. replace (t_mon b - 0) with (t_mon b) by lia. replace (t_year b - 0) with (t_year b) by lia. rewrite H. zdm. }
    assert (SU : seconds (moment b ROUND_UP_INCLUSIVE (st Hour)) = 3600 * (T / 3600 - n) + 3599).
    { assert (K : moment b ROUND_UP_INCLUSIVE (st Hour) = mk_tm (-1) 0 (t_hour b - (n + -1)) (t_mday b - 0 - 0) (t_mon b - 0) (t_year b - 0) 0) by reflexivity.
      rewrite K, seconds_lin. replace (t_mon b - 0) with (t_mon b) by lia. replace (t_year b - 0) with (t_year b) by lia. rewrite H. zdm. }
    destruct (plain_bounds off now s (st Hour) (st Hour) Hour 100000000 off _ _ P PR B ltac:(lia) ZO RT eq_refl ltac:(discriminate) SD SU) as (r & E1 & E2); unfold rng, T in *; try (zdm; fail).
    exists r. split; [exact E1|]. intro ts. rewrite E2. unfold period. destruct (date_of _) as [[? ?] ?], (date_of _) as [[? ?] ?]. zdm.
  - (* Day *)
    assert (SD : seconds (moment b ROUND_DOWN (st Day)) = 86400 * (T / 86400 - n)).
    { assert (K : moment b ROUND_DOWN (st Day) = mk_tm 0 0 0 (t_mday b - (n + 0) - 0) (t_mon b - 0) (t_year b - 0) 0) by reflexivity.
      rewrite K, seconds_lin. replace (t_mon b - 0) with (t_mon b) by lia. replace (t_year b - 0) with (t_year b) by lia. zdm. }
    assert (SU : seconds (moment b ROUND_UP_INCLUSIVE (st Day)) = 86400 * (T / 86400 - n) + 86399).
    { assert (K : moment b ROUND_UP_INCLUSIVE (st Day) = mk_tm (-1) 0 0 (t_mday b - (n + -1) - 0) (t_mon b - 0) (t_year b - 0) 0) by reflexivity.
      rewrite K, seconds_lin. replace (t_mon b - 0) with (t_mon b) by lia. replace (t_year b - 0) with (t_year b) by lia. zdm. }
    destruct (plain_bounds off now s (st Day) (st Day) Day 100000000 off _ _ P PR B ltac:(lia) ZO RT eq_refl ltac:(discriminate) SD SU) as (r & E1 & E2); unfold rng, T in *; try (zdm; fail).
    exists r. split; [exact E1|]. intro ts. rewrite E2. unfold period. destruct (date_of _) as [[? ?] ?], (date_of _) as [[? ?] ?]. zdm.
  - (* Week *)
    assert (SD : forall r, seconds (moment b r (st Week)) = 86400 * (T / 86400 - 7 * n)).
    { intro r. assert (K : moment b r (st Week) = mk_tm 0 0 0 (t_mday b - 0 - 7 * (n + 0)) (t_mon b - 0) (t_year b - 0) 0) by (destruct r; reflexivity).
      rewrite K, seconds_lin. replace (t_mon b - 0) with (t_mon b) by lia. replace (t_year b - 0) with (t_year b) by lia. zdm. }
    assert (FD : forall r, final off r b (st Week) = (sunday (T / 86400 - 7 * n) + (if rounds_up r then 7 else 0)) * 86400 - (if rounds_up r then 1 else 0) - off).
    { intro r. unfold final. change (is_week (finest0 (st Week))) with true. cbv iota. rewrite SD, ZO. rewrite (Z.mul_comm 86400), Z.div_mul by lia. reflexivity. }
    destruct (single_bounds off now s (st Week) (st Week) 100000000 P ltac:(rewrite ZO; exact PR) B ltac:(lia)) as (r & E1 & E2).
    + rewrite ZO. exact RT.
    + rewrite ZO. fold T. fold b. intros r HR. rewrite SD, FD. unfold sunday, rng, T in *. destruct HR as [-> | ->]; cbn [rounds_up]; repeat split; zdm.
    + exists r. split; [exact E1|]. intro ts. rewrite E2, ZO. fold T. fold b. rewrite !FD. cbn [rounds_up]. unfold period. destruct (date_of _) as [[? ?] ?], (date_of _) as [[? ?] ?]. fold T.
      unfold sunday. clear. set (q := T / 86400). zdm.
  - (* Month *)
    pose proof (D0_back n (t_mon b) (t_year b) ltac:(lia)) as DB. pose proof (D0_step (t_mon b - n) (t_year b)) as DS.
    destruct (break_down_parts T) as (_ & _ & _ & _ & _ & _ & MB & _). fold b in MB. pose proof (month_len_range (t_year b) (t_mon b) M) as ML.
    assert (SD : seconds (moment b ROUND_DOWN (st Month)) = 86400 * D0 (t_mon b - n) (t_year b)).
    { assert (K : moment b ROUND_DOWN (st Month) = mk_tm 0 0 0 1 (t_mon b - (n + 0)) (t_year b - 0) 0) by reflexivity.
      rewrite K, seconds_lin. replace (t_mon b - (n + 0)) with (t_mon b - n) by lia. replace (t_year b - 0) with (t_year b) by lia. lia. }
    assert (SU : seconds (moment b ROUND_UP_INCLUSIVE (st Month)) = 86400 * D0 (t_mon b - n + 1) (t_year b) - 1).
    { assert (K : moment b ROUND_UP_INCLUSIVE (st Month) = mk_tm (-1) 0 0 1 (t_mon b - (n + -1)) (t_year b - 0) 0) by reflexivity.
      rewrite K, seconds_lin. replace (t_mon b - (n + -1)) with (t_mon b - n + 1) by lia. replace (t_year b - 0) with (t_year b) by lia. lia. }
    destruct (plain_bounds off now s (st Month) (st Month) Month 100000000 off _ _ P PR B ltac:(lia) ZO RT eq_refl ltac:(discriminate) SD SU) as (r & E1 & E2); unfold rng, T in *; try (zdm; fail).
    exists r. split; [exact E1|]. intro ts. rewrite E2. unfold period. rewrite DP.
    destruct (D0_month (t_mon b - n) (t_year b)) as (Y' & M' & HM & HE & E3 & E4). rewrite E3, E4.
    pose proof (month_period ((ts + off) / 86400) Y' M' HM) as K. destruct (date_of ((ts + off) / 86400)) as [[y' m'] d'].
    replace (12 * t_year b + t_mon b - n) with (12 * Y' + M') by lia. rewrite K. zdm.
  - (* Year *)
    pose proof (dby_back n (t_year b) ltac:(lia)) as DB. pose proof (dby_step (t_year b - n)) as DS. pose proof (dby_step (t_year b)) as DS0.
    assert (SD : seconds (moment b ROUND_DOWN (st Year)) = 86400 * dby (t_year b - n)).
    { assert (K : moment b ROUND_DOWN (st Year) = mk_tm 0 0 0 1 1 (t_year b - (n + 0)) 0) by reflexivity.
      rewrite K, seconds_lin. rewrite D0_year. replace (t_year b - (n + 0)) with (t_year b - n) by lia. lia. }
    assert (SU : seconds (moment b ROUND_UP_INCLUSIVE (st Year)) = 86400 * dby (t_year b - n + 1) - 1).
    { assert (K : moment b ROUND_UP_INCLUSIVE (st Year) = mk_tm (-1) 0 0 1 1 (t_year b - (n + -1)) 0) by reflexivity.
      rewrite K, seconds_lin. rewrite D0_year. replace (t_year b - (n + -1)) with (t_year b - n + 1) by lia. lia. }
    destruct (plain_bounds off now s (st Year) (st Year) Year 100000000 off _ _ P PR B ltac:(lia) ZO RT eq_refl ltac:(discriminate) SD SU) as (r & E1 & E2); unfold rng, T in *; try (zdm; fail).
    exists r. split; [exact E1|]. intro ts. rewrite E2. unfold period. rewrite DP.
    pose proof (year_period ((ts + off) / 86400) (t_year b - n)) as K. destruct (date_of ((ts + off) / 86400)) as [[y' m'] d']. rewrite K. zdm.
Qed.
End Relative.
