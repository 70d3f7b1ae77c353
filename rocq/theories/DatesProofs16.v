(** Proofs about Dates.v: whole documented expressions. *)
From Verif Require Import Bytes Decimal Calendar CalendarSpec CalendarProofs Dates DatesSpec DatesForms DatesProofs DatesProofs2 DatesProofs3 DatesProofs4 DatesProofs5 DatesProofs6 DatesProofs7 DatesProofs8 DatesProofs9 DatesProofs10 DatesProofs11 DatesProofs12 DatesProofs13 DatesProofs14 DatesProofs15.
From Coq Require Import ZArith Lia.
Open Scope Z_scope.

Lemma time_peek h mi sec t : written_time h mi sec t -> isalnum (peek t) = true.
Proof.
  assert (G : forall n ds r, 0 <= n <= 99 -> short_number n ds -> isalnum (peek (ds ++ r)) = true) by (intros n ds r H SN; apply digit_alnum, (numeral_peek _ n), short_numeral; assumption).
  intros [h' m' hh Hh Hm SN|h' m' s hh Hh Hm Hs SN|k m' pm kk sp w Hk Hm SN SP EW|k m' s pm kk sp w Hk Hm Hs SN SP EW|k pm kk sp w Hk SN SP EW|w EW|w EW];
    try (eapply G; [|exact SN]; lia).
  - destruct (noon_found true w [] EW eq_refl) as (c & w' & kw & -> & A & _). apply alpha_alnum, A.
  - destruct (noon_found false w [] EW eq_refl) as (c & w' & kw & -> & A & _). apply alpha_alnum, A.
Qed.
Lemma time_ranges h mi sec t : written_time h mi sec t -> 0 <= mi <= 59 /\ forall x, sec = Some x -> 0 <= x <= 59.
Proof. intros [ | | | | | | ]; split; try assumption; try lia; intros x [= <-]; lia. Qed.
Lemma zone_range e z : written_zone e z -> -900 <= e <= 900.
Proof.
  intros [w e' I|h m H M|h m H M|h m H M|h m H M|h H|h H]; try lia; try (cbn [In] in M; lia).
  unfold zone_codes in I. cbn [In] in I. repeat (destruct I as [I|I]; [injection I as _ <-; lia|]). contradiction.
Qed.
Definition zone_part (z : option (Z * bytes)) : bytes := match z with Some (_, w) => " "%char :: w | None => [] end.
Theorem moment_selects off now y m d h mi sec s t z : near off -> fair_now now -> 1970 <= y <= 9999 -> 1 <= m <= 12 -> 1 <= d <= 31 -> (1970 < y \/ 1 < d) ->
  written_date y m d s -> written_time h mi sec t -> (forall e w, z = Some (e, w) -> written_zone e w) ->
  exists r, date_single off now (s ++ " "%char :: t ++ zone_part z) = Ok r /\
    forall ts, in_range r ts = true <->
      clock (D0 m y + (d - 1)) h mi (from sec) <= ts + match z with Some (e, _) => 60 * e | None => off end <= clock (D0 m y + (d - 1)) h mi (upto sec).
Proof.
  intros HO HN Y M D Y1 WD WT WZ. destruct (time_ranges h mi sec t WT) as [HM HS].
  destruct (date_prefix y m d s (" "%char :: t ++ zone_part z) Y M D WD (or_intror (ex_intro _ _ eq_refl))) as (st1 & D1 & PS).
  assert (RC : exists st h0 ap, parses st1 (" "%char :: t ++ zone_part z) st /\ plen st = 0 /\ hour_fits h0 ap h /\ same st (final_clock y m d h0 mi sec ap (match z with Some (e, _) => Some e | None => None end))).
  { assert (RR : reach st1 (" "%char :: t ++ zone_part z) (fun st => exists h0 ap, plen st = 0 /\ hour_fits h0 ap h /\ same st (final_clock y m d h0 mi sec ap (match z with Some (e, _) => Some e | None => None end)))).
    { apply reach_space; [pose proof (time_peek h mi sec t WT) as K; destruct t; [discriminate K|exact K]|].
      apply (time_parses _ y m d h mi sec); [lia|apply dated_delim; [discriminate|exact D1]|exact WT|destruct z as [[e w]|]; repeat split|].
      intros h0 ap st2 HF T. destruct z as [[e w]|]; cbn [zone_part].
      - apply (zone_parses st2 y m d h0 mi sec ap e w); [exact T|apply WZ; reflexivity|]. intros st3 P3 S3. exists h0, ap. split; [exact P3|]. split; [exact HF|exact S3].
      - destruct T as (_ & P2 & S2 & _). eapply (reach_nil st2 st2); [unfold parse_postponed; rewrite P2; reflexivity|]. exists h0, ap. split; [exact P2|]. split; [exact HF|exact S2]. }
    destruct RR as (st & K & h0 & ap & K1 & K2 & K3). exists st, h0, ap. auto. }
  destruct RC as (st & h0 & ap & P & PL & HF & S). apply PS, parses_input in P.
  destruct (clock_selects off now _ st y m d h0 h mi sec ap _ HO HN Y M D Y1 P PL S HF HM HS) as (r & E1 & E2).
  { intros x EX. destruct z as [[e w]|]; [|discriminate EX]. injection EX as <-. apply (zone_range e w), WZ. reflexivity. }
  exists r. split; [exact E1|]. intro ts. rewrite E2. destruct z as [[e w]|]; reflexivity.
Qed.

(** ** HHMMSS. *)
Lemma six_numeral h mi s : 0 <= h <= 23 -> 0 <= mi <= 59 -> 0 <= s <= 59 -> numeral (six_digits h mi s) (10000 * h + 100 * mi + s).
Proof.
  intros H M S. destruct (pad2_ok h ltac:(lia)) as [A1 A2]. destruct (pad2_ok mi ltac:(lia)) as [B1 B2]. destruct (pad2_ok s ltac:(lia)) as [C1 C2]. unfold six_digits.
  split; [rewrite !forallb_app, A1, B1, C1; reflexivity|]. split; [discriminate|]. split; [|lia].
  revert A2 B2 C2. unfold pad2, digits_value. cbn [app fold_left]. lia.
Qed.
Theorem six_selects off now y m d h mi s ds : near off -> fair_now now -> 1970 <= y <= 9999 -> 1 <= m <= 12 -> 1 <= d <= 31 -> (1970 < y \/ 1 < d) ->
  written_date y m d ds -> 0 <= h <= 23 -> 0 <= mi <= 59 -> 0 <= s <= 59 ->
  exists r, date_single off now (ds ++ " "%char :: six_digits h mi s) = Ok r /\ forall ts, in_range r ts = true <-> ts + off = clock (D0 m y + (d - 1)) h mi s.
Proof.
  intros HO HN Y M D Y1 WD H HM HS. pose proof (six_numeral h mi s H HM HS) as N.
  destruct (date_prefix y m d ds (" "%char :: six_digits h mi s) Y M D WD (or_intror (ex_intro _ _ eq_refl))) as (st1 & D1 & PS).
  assert (RC : exists st, parses st1 (" "%char :: six_digits h mi s) st /\ plen st = 0 /\ same st (final_clock y m d h mi (Some s) None None)).
  { assert (RR : reach st1 (" "%char :: six_digits h mi s) (fun st => plen st = 0 /\ same st (final_clock y m d h mi (Some s) None None))).
    { apply reach_space; [apply digit_alnum; rewrite <- (app_nil_r (six_digits h mi s)); apply (numeral_peek _ _ _ N)|]. rewrite <- (app_nil_r (six_digits h mi s)).
      destruct (dated_postpone (set_delim st1 " "%char) y m d (10000 * h + 100 * mi + s) 6 ltac:(lia) ltac:(apply dated_delim; [discriminate|exact D1])) as (st2 & E2 & P2 & V2 & _ & _ & S2 & _).
      eapply reach_number; [apply (numeral_peek _ _ _ N)|rewrite (num_one (set_delim st1 " "%char) _ _ [] N eq_refl eq_refl ltac:(discriminate)); change (Z.of_nat (List.length (six_digits h mi s))) with 6; rewrite E2; reflexivity|apply app_lt, (numeral_len _ _ N)|].
      set (np := no_postponed st2). assert (SN : same np (st_ymd init y m d)) by exact S2.
      assert (SP : forall st f v st0, same st st0 -> is_set st0 f = false -> set_plain st f v = Ok (E st f v) /\ same (E st f v) (E st0 f v)) by (intros st f v st0 SS F; unfold set_plain; rewrite (same_set _ _ f SS), F; split; [reflexivity|apply same_E, SS]).
      destruct (SP np HOUR h _ SN eq_refl) as [Ea Sa]. destruct (SP _ MIN mi _ Sa eq_refl) as [Eb Sb]. destruct (SP _ SEC s _ Sb eq_refl) as [Ec Sc].
      eapply (reach_nil st2 (E (E (E np HOUR h) MIN mi) SEC s)); [|split; [reflexivity|exact Sc]].
      unfold parse_postponed. rewrite P2, V2. cbn [Z.eqb Pos.eqb orb]. cbv zeta. fold np.
      replace ((10000 * h + 100 * mi + s) / 10000) with h by zdm. replace ((10000 * h + 100 * mi + s) / 100 mod 100) with mi by zdm. replace ((10000 * h + 100 * mi + s) mod 100) with s by zdm.
      assert (V : is_valid_time h mi s = true) by (apply valid_time_iff; lia). rewrite V. cbn [set_all]. rewrite Ea. cbn [bind]. rewrite Eb. cbn [bind]. rewrite Ec. reflexivity. }
    destruct RR as (st & K & K1 & K2). exists st. auto. }
  destruct RC as (st & P & PL & S). apply PS, parses_input in P.
  destruct (clock_selects off now _ st y m d h h mi (Some s) None None HO HN Y M D Y1 P PL S (or_introl (conj eq_refl (conj eq_refl H))) HM) as (r & E1 & E2).
  { intros x [= <-]. exact HS. }
  { discriminate. }
  exists r. split; [exact E1|]. intro ts. rewrite E2. cbn [from upto]. lia.
Qed.

(** ** Months. *)
Lemma month_state_selects off now s st y m : near off -> fair_now now -> 1970 <= y <= 9999 -> 1 <= m <= 12 -> parse_input s = Ok st -> same st (E (E init YEAR y) MON m) ->
  exists r, date_single off now s = Ok r /\ forall ts, in_range r ts = true <-> D0 m y <= (ts + off) / 86400 < D0 (m + 1) y.
Proof.
  intros [O1 O2] N Y M P S. unfold fair_now in N. set (X := E (E init YEAR y) MON m) in *.
  assert (B : bounded X 40000000) by (unfold X; repeat apply bounded_E; try lia; intro f; cbn; lia).
  pose proof (D0_range m y M ltac:(lia)) as DR. pose proof (D0_step m y) as DS.
  assert (MD : forall b, moment b ROUND_DOWN X = mk_tm 0 0 0 1 (m - 0) (y - 0) 0) by reflexivity.
  assert (MU : forall b, moment b ROUND_UP_INCLUSIVE X = mk_tm (-1) 0 0 1 (m - -1) (y - 0) 0) by reflexivity.
  assert (SD : forall b, seconds (moment b ROUND_DOWN X) = D0 m y * 86400) by (intro b; rewrite MD, seconds_lin, !Z.sub_0_r; lia).
  assert (SU : forall b, seconds (moment b ROUND_UP_INCLUSIVE X) = D0 (m + 1) y * 86400 - 1) by (intro b; rewrite MU, seconds_lin, !Z.sub_0_r; replace (m - -1) with (m + 1) by lia; lia).
  assert (N0 : forall f, is_now X f = false) by (intro f; destruct f; reflexivity).
  destruct (plain_like off now s st X Month off _ _ P S N0 eq_refl eq_refl B eq_refl ltac:(unfold rng; lia) eq_refl ltac:(discriminate) SD SU) as (r & E1 & E2);
    try (unfold rng; lia).
  - intro K. assert (K2 : off = D0 m y * 86400 + 1) by lia. rewrite K2 in O2. zdm.
  - exists r. split; [exact E1|]. intro ts. rewrite E2. zdm.
Qed.
Lemma month_parses_whole y m s : 1970 <= y <= 9999 -> 1 <= m <= 12 -> written_month y m s -> reach init s (fun st => same st (E (E init YEAR y) MON m)).
Proof.
  intros Y M W.
  assert (V : is_valid_year y && is_valid_mon m && true = true) by (unfold is_valid_year, is_valid_mon; rewrite !(proj2 (Z.leb_le _ _)) by lia; reflexivity).
  assert (NUM : forall sep d1 d2 v1 v2, is_sep sep = true -> beq sep ":"%char = false -> numeral d1 v1 -> numeral d2 v2 ->
     date_fields sep v1 v2 0 (Z.of_nat (List.length d1)) (Z.of_nat (List.length d2)) 0 = Some (Some y, Some m, None) ->
     reach init (d1 ++ [sep] ++ d2) (fun st => same st (E (E init YEAR y) MON m))).
  { intros sep d1 d2 v1 v2 S1 S2 N1 N2 DF. cbn [app]. rewrite <- (app_nil_r d2). eapply (reach_number init _ (E (E init YEAR y) MON m) []).
    - apply (numeral_peek _ _ _ N1).
    - rewrite (num_two init sep d1 d2 v1 v2 [] N1 N2 S1 (digit_sep sep S1) eq_refl eq_refl), S2. unfold parse_date. rewrite DF. cbn [opt_valid]. rewrite V. cbn [opt_field app]. rewrite set2 by reflexivity. reflexivity.
    - rewrite app_length. cbn [List.length]. lia.
    - eapply reach_nil; [reflexivity|apply same_refl]. }
  destruct W as [| |mm SM|w MW].
  - apply (NUM "-"%char (pad4 y) (pad2 m) y m); try reflexivity; [apply pad4_numeral|apply pad2_numeral]; lia.
  - apply (NUM "-"%char (pad2 m) (pad4 y) m y); try reflexivity; [apply pad2_numeral|apply pad4_numeral]; lia.
  - destruct (short_numeral m mm ltac:(lia) SM) as [NM OM]. apply (NUM "/"%char mm (pad4 y) m y); try reflexivity; [exact NM|apply pad4_numeral; lia|].
    unfold date_fields. change (beq "/"%char "/"%char) with true. cbv iota. rewrite OM. reflexivity.
  - change (w ++ lit " " ++ pad4 y) with (w ++ " "%char :: pad4 y). pose proof (pad4_numeral y ltac:(lia)) as N4.
    destruct (month_found m w (" "%char :: pad4 y) MW eq_refl) as (c & w' & kw & -> & A & FK & MK).
    eapply reach_app; [exact A|exact FK|apply month_apply; [exact MK|reflexivity|reflexivity]|].
    apply reach_space; [apply digit_alnum; rewrite <- (app_nil_r (pad4 y)); apply (numeral_peek _ _ _ N4)|]. rewrite <- (app_nil_r (pad4 y)).
    eapply reach_number; [apply (numeral_peek _ _ _ N4)|rewrite (num_one (set_delim (E init MON m) " "%char) _ _ [] N4 eq_refl eq_refl ltac:(discriminate)); reflexivity|apply app_lt, (numeral_len _ _ N4)|].
    eapply reach_nil; [apply (postponed_year _ y); [reflexivity|reflexivity|lia|reflexivity]|]. intro f. destruct f; split; reflexivity.
Qed.
Theorem month_selects off now y m s : near off -> fair_now now -> 1970 <= y <= 9999 -> 1 <= m <= 12 -> written_month y m s ->
  exists r, date_single off now s = Ok r /\ forall ts, in_range r ts = true <-> D0 m y <= (ts + off) / 86400 < D0 (m + 1) y.
Proof.
  intros HO HN Y M W. destruct (month_parses_whole y m s Y M W) as (st & P & S). apply parses_input in P. apply (month_state_selects off now s st); assumption.
Qed.
