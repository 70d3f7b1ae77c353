(** Proofs about Dates.v: what the documented forms select. *)
From Verif Require Import Bytes Decimal Calendar CalendarSpec CalendarProofs Dates DatesSpec DatesProofs DatesProofs2 DatesProofs3 DatesProofs4 DatesProofs5 DatesProofs6 DatesProofs7.
From Coq Require Import ZArith Lia.
Open Scope Z_scope.

(** ** Ranges. *)
Lemma month_len_range y m : 1 <= m <= 12 -> 28 <= month_len y m <= 31.
Proof. intro H. pose proof (last_day_len y m H) as K. inversion K; lia. Qed.
Lemma D0_step mo y : D0 mo y + 28 <= D0 (mo + 1) y <= D0 mo y + 31.
Proof. destruct (D0_month mo y) as (Y & M & HM & _ & E1 & E2). pose proof (month_len_range Y M HM). lia. Qed.
Lemma D0_back_nat k : forall mo y, D0 mo y - 31 * Z.of_nat k <= D0 (mo - Z.of_nat k) y <= D0 mo y.
Proof.
  induction k as [|k IH]; intros mo y; [replace (mo - Z.of_nat 0) with mo by lia; lia|].
  specialize (IH mo y). pose proof (D0_step (mo - Z.of_nat (S k)) y) as S. replace (mo - Z.of_nat (Datatypes.S k) + 1) with (mo - Z.of_nat k) in S by lia. lia.
Qed.
Lemma D0_back k mo y : 0 <= k -> D0 mo y - 31 * k <= D0 (mo - k) y <= D0 mo y.
Proof. intro H. pose proof (D0_back_nat (Z.to_nat k) mo y) as K. rewrite Z2Nat.id in K by exact H. exact K. Qed.
Lemma dby_step y : dby y + 365 <= dby (y + 1) <= dby y + 366.
Proof. rewrite dby_succ. destruct (leap y); lia. Qed.
Lemma dby_back_nat k : forall y, dby y - 366 * Z.of_nat k <= dby (y - Z.of_nat k) <= dby y.
Proof.
  induction k as [|k IH]; intros y; [replace (y - Z.of_nat 0) with y by lia; lia|].
  specialize (IH y). pose proof (dby_step (y - Z.of_nat (S k))) as S. replace (y - Z.of_nat (Datatypes.S k) + 1) with (y - Z.of_nat k) in S by lia. lia.
Qed.
Lemma dby_back k y : 0 <= k -> dby y - 366 * k <= dby (y - k) <= dby y.
Proof. intro H. pose proof (dby_back_nat (Z.to_nat k) y) as K. rewrite Z2Nat.id in K by exact H. exact K. Qed.
Lemma dby_range y : 1970 <= y -> 0 <= dby y <= 366 * (y - 1970).
Proof.
  intro H. pose proof (dby_back (y - 1970) y ltac:(lia)) as K. replace (y - (y - 1970)) with 1970 in K by lia. change (dby 1970) with 0 in K.
  pose proof (dby_mono 1970 y ltac:(lia)) as M. change (dby 1970) with 0 in M. lia.
Qed.
Lemma dbm_range y m : 1 <= m <= 12 -> 0 <= dbm y m <= 335.
Proof. intro H. apply months in H. unfold dbm, cum. repeat (destruct H as [->|H]; [destruct (leap y); split; vm_compute; intro K; discriminate K|]). subst. destruct (leap y); split; vm_compute; intro K; discriminate K. Qed.
Lemma D0_plain m y : 1 <= m <= 12 -> D0 m y = day_number y m 1.
Proof. intro H. unfold D0. replace ((m - 1) / 12) with 0 by zdm. replace ((m - 1) mod 12) with (m - 1) by zdm. f_equal; lia. Qed.
Lemma day_number_lin y m d : day_number y m d = day_number y m 1 + d - 1.
Proof. unfold day_number. lia. Qed.
Lemma D0_range m y : 1 <= m <= 12 -> 1970 <= y -> 0 <= D0 m y <= 366 * (y - 1970) + 335.
Proof. intros H Y. rewrite D0_plain by exact H. unfold day_number. pose proof (dby_range y Y). pose proof (dbm_range y m H). lia. Qed.

(** the civil date of the first of a month. *)
Lemma first_of_month c n y m : Civil c -> 1 <= m <= 12 -> c n = (y, m, 1) -> n = D0 m y.
Proof.
  intros C H E. rewrite (civil_unique c date_of C date_of_civil) in E. apply date_of_iff in E. rewrite D0_plain by exact H. apply E.
Qed.
Lemma valid_first c y m d : Civil c -> valid_date y m d -> c (D0 m y) = (y, m, 1) /\ c (D0 m y + (d - 1)) = (y, m, d).
Proof.
  intros C (l & L & H). apply last_day_inv in L as [HM ->]. rewrite !(civil_unique c date_of C date_of_civil), D0_plain by exact HM.
  pose proof (month_len_range y m HM). split; apply date_of_iff; repeat split; try lia. rewrite (day_number_lin y m d). lia.
Qed.

(** ** Absolute dates. *)
Ltac both := let r := fresh "r" in let HR := fresh "HR" in intros r HR; destruct HR as [-> | ->].
Ltac not_week := let K := fresh in intro K; discriminate K.
Lemma finest_final off r b st u : finest0 st = Some u -> u <> Week -> final off r b st = seconds (moment b r st) - zone off st.
Proof. intros F N. unfold final. rewrite F. destruct u; try reflexivity. contradiction. Qed.

Definition near (off : Z) : Prop := -86400 < off < 86400 /\ off mod 60 = 0.
Definition fair_now (now : Z) : Prop := 0 <= now <= 800000000000000.

Lemma moment_ymd b y m d :
  moment b ROUND_DOWN (st_ymd init y m d) = mk_tm 0 0 0 (d - 0 - 0) (m - 0) (y - 0) 0 /\
  moment b ROUND_UP_INCLUSIVE (st_ymd init y m d) = mk_tm (-1) 0 0 (d - -1 - 0) (m - 0) (y - 0) 0.
Proof. split; reflexivity. Qed.

Theorem ymd_selects off now y m d : near off -> fair_now now -> 1970 <= y <= 9999 -> 1 <= m <= 12 -> 1 <= d <= 31 ->
  exists r, date_single off now (ymd y m d) = Ok r /\
    forall ts, in_range r ts = true <-> (ts + off) / 86400 = D0 m y + (d - 1).
Proof.
  intros [O1 O2] N Y M D. unfold fair_now in N.
  assert (P : parse_input (ymd y m d) = Ok (st_ymd init y m d)).
  { rewrite parse_ymd by lia. unfold valid3, is_valid_year, is_valid_mon, is_valid_mday. rewrite !(proj2 (Z.leb_le _ _)) by lia. reflexivity. }
  set (st := st_ymd init y m d) in *. set (b := break_down (now + off)).
  assert (FN : fill_now st b = st) by (apply fill_now_id; intro f; destruct f; reflexivity).
  assert (PR : prep b st = Ok st) by (rewrite prep_simple by reflexivity; rewrite FN; reflexivity).
  assert (B : bounded st 40000000) by (unfold st, st_ymd; repeat apply bounded_E; try lia; intro f; cbn; lia).
  pose proof (D0_range m y M ltac:(lia)) as DR. destruct (moment_ymd b y m d) as [MD MU]. fold st in MD, MU.
  assert (FD : forall r, final off r b st = seconds (moment b r st) - off) by (intro r; apply (finest_final off r b st Day); [reflexivity|discriminate]).
  assert (SD : seconds (moment b ROUND_DOWN st) = (D0 m y + (d - 1)) * 86400) by (rewrite MD, seconds_lin; replace (m - 0) with m by lia; replace (y - 0) with y by lia; lia).
  assert (SU : seconds (moment b ROUND_UP_INCLUSIVE st) = (D0 m y + d) * 86400 - 1) by (rewrite MU, seconds_lin; replace (m - 0) with m by lia; replace (y - 0) with y by lia; lia).
  destruct (single_exists off now (ymd y m d) st st Day 40000000 P) as (L & U & DS & EL & IR).
  - exact PR.
  - exact B.
  - lia.
  - change (zone off st) with off. unfold rng. lia.
  - reflexivity.
  - change (zone off st) with off. fold b. both; rewrite FD, ?SD, ?SU; unfold rng; repeat split; try lia; try not_week.
    intro K. assert (K2 : off = (D0 m y + (d - 1)) * 86400 + 1) by lia. rewrite K2 in O2. zdm.
  - exists (At L, At U). split; [exact DS|]. intro ts. rewrite IR. change (zone off st) with off in *. fold b in EL. rewrite FD, SD in EL. subst L.
    unfold period. destruct (date_of _) as [[? ?] ?], (date_of _) as [[? ?] ?].
    replace ((D0 m y + (d - 1)) * 86400 - off + off) with ((D0 m y + (d - 1)) * 86400) by lia. rewrite Z.div_mul by lia. reflexivity.
Qed.
Theorem ymd_refused off now y m d : 0 <= y <= 9999 -> 0 <= m <= 99 -> 0 <= d <= 99 -> ~ (1970 <= y /\ 1 <= m <= 12 /\ 1 <= d <= 31) ->
  date_single off now (ymd y m d) = Err.
Proof.
  intros Y M D H. unfold date_single, parse_time_string. rewrite parse_ymd by assumption. unfold valid3, is_valid_year, is_valid_mon, is_valid_mday.
  destruct (Z.leb_spec 1970 y), (Z.leb_spec 1 m), (Z.leb_spec m 12), (Z.leb_spec 1 d), (Z.leb_spec d 31); try reflexivity. exfalso. apply H. lia.
Qed.

(** Both ends of the range of an expression that parses to [st]. *)
Lemma single_bounds off now s st st2 m : parse_input s = Ok st -> prep (break_down (now + zone off st)) st = Ok st2 -> bounded st2 m -> 40000000 <= m <= 150000000 ->
  rng (now + zone off st) ->
  let b := break_down (now + zone off st) in
  (forall r, r = ROUND_DOWN \/ r = ROUND_UP_INCLUSIVE ->
     rng (seconds (moment b r st2)) /\ (is_week (finest st) = true -> seconds (moment b r st2) - off <> -1) /\ rng (final off r b st2 + zone off st) /\ rng (final off r b st2) /\ final off r b st2 <> -1) ->
  exists r, date_single off now s = Ok r /\
    forall ts, in_range r ts = true <-> final off ROUND_DOWN b st2 <= ts <= final off ROUND_UP_INCLUSIVE b st2.
Proof.
  intros P PR B Hm G b H. fold b in PR. pose proof (parse_input_clean s st P) as [C _].
  pose proof (prep_spec b st st2 C PR) as (C2 & F2 & T2 & V2).
  assert (Z2 : zone off st2 = zone off st) by (unfold zone; rewrite T2, V2; reflexivity).
  assert (PT : forall r, r = ROUND_DOWN \/ r = ROUND_UP_INCLUSIVE -> parse_time_string off now r s = Ok (final off r b st2)).
  { intros r HR. unfold parse_time_string. rewrite P. cbn [bind]. unfold create_output. rewrite initialize_rng by exact G. fold b. rewrite PR. cbn [bind].
    destruct (H r HR) as (H1 & H2 & H3 & H4 & H5). apply finish_exists with (m := m); auto.
    - intros f A. apply tm_get_bound; [exact G|exact A].
    - rewrite F2. exact H2.
    - rewrite Z2. exact H3. }
  exists (At (final off ROUND_DOWN b st2), At (final off ROUND_UP_INCLUSIVE b st2)). split.
  - unfold date_single. rewrite (PT ROUND_DOWN) by auto. cbn [bind]. rewrite (PT ROUND_UP_INCLUSIVE) by auto. reflexivity.
  - intro ts. unfold in_range. cbn [fst snd above below]. rewrite Bool.andb_true_iff, !Z.leb_le. reflexivity.
Qed.
(** ... when the finest unit is not the week. *)
Lemma plain_bounds off now s st st2 u m z SD SU : parse_input s = Ok st -> prep (break_down (now + z)) st = Ok st2 -> bounded st2 m -> 40000000 <= m <= 150000000 ->
  zone off st = z -> rng (now + z) -> finest st = Some u -> u <> Week ->
  let b := break_down (now + z) in
  seconds (moment b ROUND_DOWN st2) = SD -> seconds (moment b ROUND_UP_INCLUSIVE st2) = SU ->
  rng SD -> rng SU -> rng (SD - z) -> rng (SU - z) -> SD - z <> -1 -> SU - z <> -1 ->
  exists r, date_single off now s = Ok r /\ forall ts, in_range r ts = true <-> SD <= ts + z <= SU.
Proof.
  intros P PR B Hm HZ G F NW b HD HU G1 G2 G3 G4 G5 G6. subst z. pose proof (parse_input_clean s st P) as [C _].
  pose proof (prep_spec _ st st2 C PR) as (C2 & F2 & T2 & V2). rewrite F in F2.
  assert (Z2 : zone off st2 = zone off st) by (unfold zone; rewrite T2, V2; reflexivity).
  assert (FD : forall r, final off r b st2 = seconds (moment b r st2) - zone off st) by (intro r; rewrite <- Z2; apply (finest_final off r b st2 u); assumption).
  destruct (single_bounds off now s st st2 m P PR B Hm G) as (r & DS & IR).
  - both; fold b; rewrite FD, ?HD, ?HU; repeat split; try (unfold rng in *; lia); rewrite F; destruct u; try discriminate; contradiction.
  - exists r. split; [exact DS|]. intro ts. rewrite IR. fold b. rewrite !FD, HD, HU. lia.
Qed.

Theorem ym_selects off now y m : near off -> fair_now now -> 1970 <= y <= 9999 -> 1 <= m <= 12 ->
  exists r, date_single off now (ym y m) = Ok r /\
    forall ts, in_range r ts = true <-> D0 m y <= (ts + off) / 86400 < D0 (m + 1) y.
Proof.
  intros [O1 O2] N Y M. unfold fair_now in N.
  assert (P : parse_input (ym y m) = Ok (E (E init YEAR y) MON m)).
  { rewrite parse_ym by lia. unfold is_valid_year, is_valid_mon. rewrite !(proj2 (Z.leb_le _ _)) by lia. reflexivity. }
  set (st := E (E init YEAR y) MON m) in *. set (b := break_down (now + off)).
  assert (FN : fill_now st b = st) by (apply fill_now_id; intro f; destruct f; reflexivity).
  assert (PR : prep b st = Ok st) by (rewrite prep_simple by reflexivity; rewrite FN; reflexivity).
  assert (B : bounded st 40000000) by (unfold st; repeat apply bounded_E; try lia; intro f; cbn; lia).
  pose proof (D0_range m y M ltac:(lia)) as DR. pose proof (D0_step m y) as DS.
  assert (MD : moment b ROUND_DOWN st = mk_tm 0 0 0 1 (m - 0) (y - 0) 0) by reflexivity.
  assert (MU : moment b ROUND_UP_INCLUSIVE st = mk_tm (-1) 0 0 1 (m - -1) (y - 0) 0) by reflexivity.
  assert (SD : seconds (moment b ROUND_DOWN st) = D0 m y * 86400) by (rewrite MD, seconds_lin; replace (m - 0) with m by lia; replace (y - 0) with y by lia; lia).
  assert (SU : seconds (moment b ROUND_UP_INCLUSIVE st) = D0 (m + 1) y * 86400 - 1) by (rewrite MU, seconds_lin; replace (m - -1) with (m + 1) by lia; replace (y - 0) with y by lia; lia).
  destruct (plain_bounds off now (ym y m) st st Month 40000000 off _ _ P PR B ltac:(lia) eq_refl ltac:(unfold rng; lia) eq_refl ltac:(discriminate) SD SU) as (r & E1 & E2);
    unfold rng; try lia.
  - intro K. assert (K2 : off = D0 m y * 86400 + 1) by lia. rewrite K2 in O2. zdm.
  - exists r. split; [exact E1|]. intro ts. rewrite E2. zdm.
Qed.
