(** Proofs about Dates.v: dates with a time of day, and years. *)
From Verif Require Import Bytes Decimal Calendar CalendarSpec CalendarProofs Dates DatesSpec DatesProofs DatesProofs2 DatesProofs3 DatesProofs4 DatesProofs5 DatesProofs6 DatesProofs7 DatesProofs8 DatesProofs9 DatesProofs10.
From Coq Require Import ZArith Lia.
Open Scope Z_scope.

Definition hms (h m s : Z) : bytes := pad2 h ++ ":"%char :: pad2 m ++ ":"%char :: pad2 s.
Definition hm (h m : Z) : bytes := pad2 h ++ ":"%char :: pad2 m.
Lemma plus_not c : beq c "+"%char || beq c "-"%char = false -> forall x, x && (beq c "+"%char || beq c "-"%char) = false.
Proof. intros -> x. apply Bool.andb_false_r. Qed.
Lemma parse_number_hms st h m s rest : 0 <= h <= 99 -> 0 <= m <= 99 -> 0 <= s <= 99 -> isdigit (peek rest) = false ->
  plen st = 0 -> is_set st HOUR = false -> is_set st MIN = false -> is_set st SEC = false ->
  parse_number st (hms h m s ++ rest) = if is_valid_time h m s then Ok (E (E (E st HOUR h) MIN m) SEC s, rest) else Err.
Proof.
  intros Hh Hm Hs HR P S1 S2 S3. destruct (pad2_ok h Hh) as [Y1 Y2]. destruct (pad2_ok m Hm) as [M1 M2]. destruct (pad2_ok s Hs) as [D1 D2].
  unfold hms. rewrite <- app_assoc. cbn [app]. rewrite <- app_assoc. cbn [app].
  unfold parse_number. rewrite (strtoul_app (pad2 h) (":"%char :: _) h Y1 eq_refl Y2) by lia. cbn [peek tl].
  assert (PM : forall x, isdigit (peek (pad2 m ++ x)) = true) by (intro x; exact (pad2_digit m Hm)).
  assert (PD : forall x, isdigit (peek (pad2 s ++ x)) = true) by (intro x; exact (pad2_digit s Hs)).
  rewrite PM. change (negb (is_sep ":"%char) || negb true) with false. cbv iota.
  rewrite (strtoul_app (pad2 m) (":"%char :: _) m M1 eq_refl M2) by lia. cbn [peek tl]. rewrite PD. change (beq ":"%char ":"%char && true) with true. cbv iota.
  rewrite (strtoul_app (pad2 s) rest s D1 HR D2) by lia.
  change (Z.of_nat (List.length (pad2 h))) with 2. change (Z.of_nat (List.length (pad2 m))) with 2. change (Z.of_nat (List.length (pad2 s))) with 2.
  change (beq ":"%char ":"%char) with true. cbv iota. unfold parse_time. change (negb (one_or_two 2) || negb (2 =? 2) || negb ((2 =? 0) || (2 =? 2))) with false. cbv iota.
  rewrite S1. cbn [andb]. change (2 =? 0) with false. cbv iota.
  destruct (is_valid_time h m s); [|reflexivity]. cbn [app]. rewrite set3 by first [assumption|reflexivity]. reflexivity.
Qed.
Lemma parse_number_hm st h m rest : 0 <= h <= 99 -> 0 <= m <= 99 -> isdigit (peek rest) = false -> peek rest <> ":"%char ->
  plen st = 0 -> is_set st HOUR = false -> is_set st MIN = false ->
  parse_number st (hm h m ++ rest) = if is_valid_time h m 0 then Ok (E (E st HOUR h) MIN m, rest) else Err.
Proof.
  intros Hh Hm HR HS P S1 S2. destruct (pad2_ok h Hh) as [Y1 Y2]. destruct (pad2_ok m Hm) as [M1 M2].
  unfold hm. rewrite <- app_assoc. cbn [app].
  unfold parse_number. rewrite (strtoul_app (pad2 h) (":"%char :: _) h Y1 eq_refl Y2) by lia. cbn [peek tl].
  assert (PM : forall x, isdigit (peek (pad2 m ++ x)) = true) by (intro x; exact (pad2_digit m Hm)).
  rewrite PM. change (negb (is_sep ":"%char) || negb true) with false. cbv iota.
  rewrite (strtoul_app (pad2 m) rest m M1 HR M2) by lia.
  destruct (beq (peek rest) ":"%char) eqn:BE; [apply beq_eq in BE; contradiction|]. cbn [andb].
  change (Z.of_nat (List.length (pad2 h))) with 2. change (Z.of_nat (List.length (pad2 m))) with 2.
  change (beq ":"%char ":"%char) with true. cbv iota. unfold parse_time. change (negb (one_or_two 2) || negb (2 =? 2) || negb ((0 =? 0) || (0 =? 2))) with false. cbv iota.
  rewrite S1. cbn [andb]. change (0 =? 0) with true. cbv iota.
  destruct (is_valid_time h m 0); [|reflexivity]. cbn [app]. rewrite set2 by first [assumption|reflexivity]. reflexivity.
Qed.
Definition dt (d t : bytes) : bytes := d ++ " "%char :: t.
Definition st_dhm (y mo d h m : Z) : state := E (E (st_ymd init y mo d) HOUR h) MIN m.
Definition st_dhms (y mo d h m s : Z) : state := E (E (E (st_ymd init y mo d) HOUR h) MIN m) SEC s.
Lemma E_delim st c f v : E (set_delim st c) f v = E st f v. Proof. reflexivity. Qed.
Lemma hms_peek h m s : 0 <= h <= 99 -> isdigit (peek (hms h m s)) = true.
Proof. intro H. exact (pad2_digit h H). Qed.
Lemma digit_alnum c : isdigit c = true -> isalnum c = true.
Proof. unfold isalnum. intros ->. destruct (isupper c), (islower c); reflexivity. Qed.
Lemma parse_dhms y mo d h m s : 1970 <= y <= 9999 -> 1 <= mo <= 12 -> 1 <= d <= 31 -> 0 <= h <= 99 -> 0 <= m <= 99 -> 0 <= s <= 99 ->
  parse_input (dt (ymd y mo d) (hms h m s)) = if is_valid_time h m s then Ok (st_dhms y mo d h m s) else Err.
Proof.
  intros Y Mo D Hh Hm Hs. unfold parse_input, dt. change (List.length (ymd y mo d ++ " "%char :: hms h m s)) with 19%nat.
  rewrite loop_number by (cbn [ymd pad4 app peek]; apply digit_ok; zdm).
  rewrite parse_number_ymd by (lia || reflexivity).
  assert (V : valid3 y mo d = true) by (unfold valid3, is_valid_year, is_valid_mon, is_valid_mday; rewrite !(proj2 (Z.leb_le _ _)) by lia; reflexivity).
  rewrite V. cbn [bind fst snd]. rewrite loop_space by (apply digit_alnum, hms_peek, Hh). rewrite loop_number by apply hms_peek, Hh.
  rewrite <- (app_nil_r (hms h m s)). rewrite parse_number_hms by (assumption || reflexivity). rewrite E_delim.
  destruct (is_valid_time h m s); [|reflexivity]. cbn [bind fst snd]. apply loop_end. reflexivity.
Qed.
Lemma parse_dhm y mo d h m : 1970 <= y <= 9999 -> 1 <= mo <= 12 -> 1 <= d <= 31 -> 0 <= h <= 99 -> 0 <= m <= 99 ->
  parse_input (dt (ymd y mo d) (hm h m)) = if is_valid_time h m 0 then Ok (st_dhm y mo d h m) else Err.
Proof.
  intros Y Mo D Hh Hm. unfold parse_input, dt. change (List.length (ymd y mo d ++ " "%char :: hm h m)) with 16%nat.
  rewrite loop_number by (cbn [ymd pad4 app peek]; apply digit_ok; zdm).
  rewrite parse_number_ymd by (lia || reflexivity).
  assert (V : valid3 y mo d = true) by (unfold valid3, is_valid_year, is_valid_mon, is_valid_mday; rewrite !(proj2 (Z.leb_le _ _)) by lia; reflexivity).
  rewrite V. cbn [bind fst snd]. rewrite loop_space by (apply digit_alnum; exact (pad2_digit h Hh)). rewrite loop_number by exact (pad2_digit h Hh).
  rewrite <- (app_nil_r (hm h m)). rewrite parse_number_hm by (assumption || reflexivity || discriminate). rewrite E_delim.
  destruct (is_valid_time h m 0); [|reflexivity]. cbn [bind fst snd]. apply loop_end. reflexivity.
Qed.
Lemma valid_time_iff h m s : 0 <= h -> 0 <= m -> 0 <= s -> is_valid_time h m s = true <-> (h <= 23 /\ m <= 59 /\ s <= 59) \/ (h = 24 /\ m = 0 /\ s = 0).
Proof.
  intros. unfold is_valid_time. rewrite Bool.orb_true_iff, !Bool.andb_true_iff, !Z.eqb_eq, !Z.leb_le. lia.
Qed.
(** the instant (in the zone's clock) of a day number and a time of day. *)
Definition clock (day h m s : Z) : Z := 86400 * day + 3600 * h + 60 * m + s.
Theorem dhms_selects off now y mo d h m s : near off -> fair_now now -> 1970 <= y <= 9999 -> 1 <= mo <= 12 -> 1 <= d <= 31 -> is_valid_time h m s = true -> 0 <= h -> 0 <= m -> 0 <= s ->
  clock (D0 mo y + (d - 1)) h m s - off <> -1 ->
  exists r, date_single off now (dt (ymd y mo d) (hms h m s)) = Ok r /\
    forall ts, in_range r ts = true <-> ts + off = clock (D0 mo y + (d - 1)) h m s.
Proof.
  intros [O1 O2] N Y M D VT H0 M0 S0 NM. unfold fair_now in N. pose proof (proj1 (valid_time_iff h m s H0 M0 S0) VT) as VT'.
  assert (P : parse_input (dt (ymd y mo d) (hms h m s)) = Ok (st_dhms y mo d h m s)) by (rewrite parse_dhms by lia; rewrite VT; reflexivity).
  set (st := st_dhms y mo d h m s) in *. set (b := break_down (now + off)).
  assert (FN : fill_now st b = st) by (apply fill_now_id; intro f; destruct f; reflexivity).
  assert (PR : prep b st = Ok st) by (rewrite prep_simple by reflexivity; rewrite FN; reflexivity).
  assert (B : bounded st 40000000) by (unfold st, st_dhms, st_ymd; repeat apply bounded_E; try lia; intro f; cbn; lia).
  pose proof (D0_range mo y M ltac:(lia)) as DR.
  assert (SD : forall r, seconds (moment b r st) = clock (D0 mo y + (d - 1)) h m s).
  { intro r. assert (K : moment b r st = mk_tm (s - 0) (m - 0) (h - 0) (d - 0 - 0) (mo - 0) (y - 0) 0) by (destruct r; reflexivity).
    rewrite K, seconds_lin, !Z.sub_0_r. unfold clock. lia. }
  destruct (plain_bounds off now _ st st Second 40000000 off _ _ P PR B ltac:(lia) eq_refl ltac:(unfold rng; lia) eq_refl ltac:(discriminate) (SD _) (SD _)) as (r & E1 & E2);
    unfold rng, clock in *; try lia.
  exists r. split; [exact E1|]. intro ts. rewrite E2. lia.
Qed.
Theorem dhm_selects off now y mo d h m : near off -> fair_now now -> 1970 <= y <= 9999 -> 1 <= mo <= 12 -> 1 <= d <= 31 -> is_valid_time h m 0 = true -> 0 <= h -> 0 <= m ->
  (1970 < y \/ 1 < d) ->
  exists r, date_single off now (dt (ymd y mo d) (hm h m)) = Ok r /\
    forall ts, in_range r ts = true <-> clock (D0 mo y + (d - 1)) h m 0 <= ts + off <= clock (D0 mo y + (d - 1)) h m 59.
Proof.
  intros [O1 O2] N Y M D VT H0 M0 Y1. unfold fair_now in N. pose proof (proj1 (valid_time_iff h m 0 H0 M0 ltac:(lia)) VT) as VT'.
  assert (P : parse_input (dt (ymd y mo d) (hm h m)) = Ok (st_dhm y mo d h m)) by (rewrite parse_dhm by lia; rewrite VT; reflexivity).
  set (st := st_dhm y mo d h m) in *. set (b := break_down (now + off)).
  assert (FN : fill_now st b = st) by (apply fill_now_id; intro f; destruct f; reflexivity).
  assert (PR : prep b st = Ok st) by (rewrite prep_simple by reflexivity; rewrite FN; reflexivity).
  assert (B : bounded st 40000000) by (unfold st, st_dhm, st_ymd; repeat apply bounded_E; try lia; intro f; cbn; lia).
  pose proof (D0_range mo y M ltac:(lia)) as DR.
  assert (SD : seconds (moment b ROUND_DOWN st) = clock (D0 mo y + (d - 1)) h m 0).
  { assert (K : moment b ROUND_DOWN st = mk_tm 0 (m - 0) (h - 0) (d - 0 - 0) (mo - 0) (y - 0) 0) by reflexivity.
    rewrite K, seconds_lin, !Z.sub_0_r. unfold clock. lia. }
  assert (SU : seconds (moment b ROUND_UP_INCLUSIVE st) = clock (D0 mo y + (d - 1)) h m 59).
  { assert (K : moment b ROUND_UP_INCLUSIVE st = mk_tm (-1) (m - -1) (h - 0) (d - 0 - 0) (mo - 0) (y - 0) 0) by reflexivity.
    rewrite K, seconds_lin, !Z.sub_0_r. unfold clock. lia. }
  assert (F1 : 1 <= D0 mo y + (d - 1)).
  { destruct Y1; [|lia]. rewrite D0_plain by exact M. unfold day_number. pose proof (dbm_range y mo M). pose proof (dby_mono 1970 y ltac:(lia)) as K. change (dby 1970) with 0 in K. lia. }
  destruct (plain_bounds off now _ st st Minute 40000000 off _ _ P PR B ltac:(lia) eq_refl ltac:(unfold rng; lia) eq_refl ltac:(discriminate) SD SU) as (r & E1 & E2);
    unfold rng, clock in *; try lia.
  exists r. split; [exact E1|]. intro ts. rewrite E2. lia.
Qed.

(** ** Years. *)
Lemma parse_year y : 1970 <= y <= 9999 -> parse_input (pad4 y) = Ok (E init YEAR y).
Proof.
  intro Y. destruct (pad4_ok y ltac:(lia)) as [Y1 Y2]. unfold parse_input. change (List.length (pad4 y)) with 4%nat.
  rewrite loop_number by (cbn [pad4 app peek]; apply digit_ok; zdm). rewrite <- (app_nil_r (pad4 y)).
  rewrite parse_number_single by (try exact Y1; try reflexivity; rewrite Y2; lia). rewrite Y2. change (Z.of_nat (List.length (pad4 y))) with 4.
  unfold parse_single_number. change (beq (delim init) "@"%char) with false. cbv iota. destruct (Z.ltb_spec int_max y); [unfold int_max in *; lia|].
  unfold set_postponed. change (parse_postponed init) with (Ok init). cbn [bind fst snd parse_loop]. unfold parse_postponed. cbn [plen pval pdelim last].
  change (4 =? 0) with false. change ((4 =? 1) || (4 =? 2)) with false. change (4 =? 4) with true. cbv iota zeta.
  assert (V : is_valid_year y = true) by (unfold is_valid_year; apply Z.leb_le; lia). rewrite V. reflexivity.
Qed.
Theorem year_selects off now y : near off -> fair_now now -> 1970 <= y <= 9999 ->
  exists r, date_single off now (pad4 y) = Ok r /\
    forall ts, in_range r ts = true <-> dby y <= (ts + off) / 86400 < dby (y + 1).
Proof.
  intros [O1 O2] N Y. unfold fair_now in N. pose proof (parse_year y Y) as P.
  set (st := E init YEAR y) in *. set (b := break_down (now + off)).
  assert (FN : fill_now st b = st) by (apply fill_now_id; intro f; destruct f; reflexivity).
  assert (PR : prep b st = Ok st) by (rewrite prep_simple by reflexivity; rewrite FN; reflexivity).
  assert (B : bounded st 40000000) by (unfold st; repeat apply bounded_E; try lia; intro f; cbn; lia).
  pose proof (dby_range y ltac:(lia)) as DR. pose proof (dby_step y) as DS.
  assert (SD : seconds (moment b ROUND_DOWN st) = dby y * 86400).
  { assert (K : moment b ROUND_DOWN st = mk_tm 0 0 0 1 1 (y - 0) 0) by reflexivity. rewrite K, seconds_lin, Z.sub_0_r, D0_year. lia. }
  assert (SU : seconds (moment b ROUND_UP_INCLUSIVE st) = dby (y + 1) * 86400 - 1).
  { assert (K : moment b ROUND_UP_INCLUSIVE st = mk_tm (-1) 0 0 1 1 (y - -1) 0) by reflexivity. rewrite K, seconds_lin, D0_year. replace (y - -1) with (y + 1) by lia. lia. }
  destruct (plain_bounds off now _ st st Year 40000000 off _ _ P PR B ltac:(lia) eq_refl ltac:(unfold rng; lia) eq_refl ltac:(discriminate) SD SU) as (r & E1 & E2);
    unfold rng; try lia.
  - intro K. assert (K2 : off = dby y * 86400 + 1) by lia. rewrite K2 in O2. zdm.
  - exists r. split; [exact E1|]. intro ts. rewrite E2. zdm.
Qed.
