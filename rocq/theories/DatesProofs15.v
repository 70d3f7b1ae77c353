(** Proofs about Dates.v: what the documented dates, months, times and zones select. *)
From Verif Require Import Bytes Decimal Calendar CalendarSpec CalendarProofs Dates DatesSpec DatesForms DatesProofs DatesProofs2 DatesProofs3 DatesProofs4 DatesProofs5 DatesProofs6 DatesProofs7 DatesProofs8 DatesProofs9 DatesProofs10 DatesProofs11 DatesProofs12 DatesProofs13 DatesProofs14.
From Coq Require Import ZArith Lia.
Open Scope Z_scope.

Lemma same_finest0 st st0 : same st st0 -> finest0 st = finest0 st0.
Proof. intro S. apply finest0_ext. intro f. apply same_set, S. Qed.
Lemma same_finest st st0 : same st st0 -> finest st = finest st0.
Proof. intro S. unfold finest, given. cbn [existsb]. rewrite !(same_set _ _ _ S). reflexivity. Qed.
Lemma same_zone off st st0 : same st st0 -> zone off st = zone off st0.
Proof. intro S. unfold zone. rewrite (same_set _ _ TZ S), (proj1 (S TZ)). reflexivity. Qed.
Lemma same_moment b r st st0 : same st st0 -> moment b r st = moment b r st0.
Proof.
  intro S. unfold moment, V, R, now_or. rewrite (same_finest0 _ _ S), !(same_set _ _ _ S), !(fun f => proj1 (S f)). reflexivity.
Qed.
Lemma same_bounded st st0 m : same st st0 -> bounded st0 m -> bounded st m.
Proof. intros S B f. rewrite (proj1 (S f)). apply B. Qed.
Lemma same_fill b st st0 : same st st0 -> (forall f, is_now st0 f = false) -> fill_now st b = st.
Proof. intros S N. apply fill_now_id. intro f. unfold is_now. rewrite (proj2 (S f)). apply N. Qed.

(** a state like a given one without am or pm. *)
Lemma plain_like off now s st st0 u z SD SU : parse_input s = Ok st -> same st st0 -> (forall f, is_now st0 f = false) -> is_set st0 WDAY = false -> is_set st0 AMPM = false ->
  bounded st0 40000000 -> zone off st0 = z -> rng (now + z) -> finest st0 = Some u -> u <> Week ->
  (forall b, seconds (moment b ROUND_DOWN st0) = SD) -> (forall b, seconds (moment b ROUND_UP_INCLUSIVE st0) = SU) ->
  rng SD -> rng SU -> rng (SD - z) -> rng (SU - z) -> SD - z <> -1 -> SU - z <> -1 ->
  exists r, date_single off now s = Ok r /\ forall ts, in_range r ts = true <-> SD <= ts + z <= SU.
Proof.
  intros P S N W A B Z0 G F NW HD HU. intros.
  eapply (plain_bounds off now s st st u 40000000 z SD SU); try assumption; try lia.
  - rewrite prep_simple; [rewrite (same_fill _ _ _ S N); reflexivity|rewrite !(same_set _ _ _ S), W; reflexivity|rewrite (same_set _ _ _ S); exact A].
  - apply (same_bounded _ _ _ S B).
  - rewrite (same_zone _ _ _ S). exact Z0.
  - rewrite (same_finest _ _ S). exact F.
  - rewrite (same_moment _ _ _ _ S). apply HD.
  - rewrite (same_moment _ _ _ _ S). apply HU.
Qed.

(** ** Dates. *)
Lemma finish_date st y m d : 1970 <= y -> dated st y m d -> reach st [] (fun st1 => same st1 (st_ymd init y m d)).
Proof. intros Y D. destruct (dated_settle st y m d Y D) as (st1 & PP & _ & _ & S & _). eapply reach_nil; [exact PP|exact S]. Qed.
Theorem date_selects off now y m d s : near off -> fair_now now -> 1970 <= y <= 9999 -> 1 <= m <= 12 -> 1 <= d <= 31 -> written_date y m d s ->
  exists r, date_single off now s = Ok r /\ forall ts, in_range r ts = true <-> (ts + off) / 86400 = D0 m y + (d - 1).
Proof.
  intros [O1 O2] N Y M D W. unfold fair_now in N. destruct (date_prefix y m d s [] Y M D W (or_introl eq_refl)) as (st1 & D1 & PS). rewrite app_nil_r in PS.
  destruct (finish_date st1 y m d ltac:(lia) D1) as (st & P & S). apply PS, parses_input in P.
  pose proof (D0_range m y M ltac:(lia)) as DR.
  assert (B : bounded (st_ymd init y m d) 40000000) by (unfold st_ymd; repeat apply bounded_E; try lia; intro f; cbn; lia).
  assert (N0 : forall f, is_now (st_ymd init y m d) f = false) by (intro f; destruct f; reflexivity).
  assert (SD : forall b, seconds (moment b ROUND_DOWN (st_ymd init y m d)) = (D0 m y + (d - 1)) * 86400) by (intro b; rewrite (proj1 (moment_ymd b y m d)), seconds_lin, !Z.sub_0_r; lia).
  assert (SU : forall b, seconds (moment b ROUND_UP_INCLUSIVE (st_ymd init y m d)) = (D0 m y + d) * 86400 - 1) by (intro b; rewrite (proj2 (moment_ymd b y m d)), seconds_lin, !Z.sub_0_r; lia).
  destruct (plain_like off now s st (st_ymd init y m d) Day off _ _ P S N0 eq_refl eq_refl B eq_refl ltac:(unfold rng; lia) eq_refl ltac:(discriminate) SD SU) as (r & E1 & E2);
    try (unfold rng; lia).
  - intro K. assert (K2 : off = (D0 m y + (d - 1)) * 86400 + 1) by lia. rewrite K2 in O2. zdm.
  - exists r. split; [exact E1|]. intro ts. rewrite E2. zdm.
Qed.

(** ** Times. *)
Definition final_clock (y m d h mi : Z) (sec ap e : option Z) : state := opt_E (clock_state y m d h mi sec ap) TZ e.
(** the fields of the time, after am and pm are resolved. *)
Definition shift (h0 : Z) (ap : option Z) : option Z :=
  match ap with
  | None => None
  | Some a => Some (- (if negb (a =? 0) then (if negb (h0 =? 12) then 12 else 0) else (if h0 =? 12 then -12 else 0)))
  end.
Lemma prep_clock b st y m d h0 mi sec ap e h : plen st = 0 -> hour_fits h0 ap h -> same st (final_clock y m d h0 mi sec ap e) ->
  exists st2, prep b st = Ok st2 /\ same st2 (opt_E (final_clock y m d h0 mi sec ap e) RHOUR (shift h0 ap)).
Proof.
  intros P HF S.
  assert (FN : fill_now st b = st) by (apply (same_fill _ _ _ S); intro f; destruct sec, ap, e, f; reflexivity).
  assert (WD : is_set st WDAY = false) by (rewrite (same_set _ _ _ S); destruct sec, ap, e; reflexivity).
  destruct ap as [a|].
  - unfold prep. rewrite FN, weekday_none by (rewrite WD; reflexivity). cbn [bind]. unfold fixup_ampm.
    assert (A1 : is_set st AMPM = true) by (rewrite (same_set _ _ _ S); destruct sec, e; reflexivity).
    assert (H1 : is_set st HOUR = true) by (rewrite (same_set _ _ _ S); destruct sec, e; reflexivity).
    assert (V1 : val st HOUR = h0) by (rewrite (proj1 (S HOUR)); destruct sec, e; reflexivity).
    assert (V2 : val st AMPM = a) by (rewrite (proj1 (S AMPM)); destruct sec, e; reflexivity).
    assert (V3 : val st RHOUR = 0) by (rewrite (proj1 (S RHOUR)); destruct sec, e; reflexivity).
    rewrite A1, H1, V1, V2. cbn [negb]. destruct HF as [[K _]|(pm & _ & HR & _)]; [discriminate K|].
    assert (V12 : is_valid_12hour h0 = true) by (unfold is_valid_12hour; rewrite !(proj2 (Z.leb_le _ _)) by lia; reflexivity). rewrite V12. cbn [negb]. cbv zeta.
    rewrite add_clean by exact P. rewrite V3, Z.add_0_l.
    set (k := - (if negb (a =? 0) then _ else _)).
    assert (KB : fits_int k = true) by (unfold k; destruct (negb (a =? 0)), (h0 =? 12); reflexivity). rewrite KB.
    eexists. split; [reflexivity|]. cbn [shift opt_E]. apply same_E, S.
  - exists st. split; [|exact S]. rewrite prep_simple; [rewrite FN; reflexivity|rewrite WD; reflexivity|rewrite (same_set _ _ _ S); destruct sec, e; reflexivity].
Qed.
Lemma hour_shift h0 ap h : hour_fits h0 ap h -> h0 - match shift h0 ap with Some k => k | None => 0 end = h /\ 0 <= h <= 23 /\ 0 <= h0 <= 23.
Proof.
  intros [(-> & -> & H)|(pm & -> & H & ->)]; cbn [shift]; [lia|]. unfold hour_of_12, pm_value. destruct pm; cbn [Z.eqb negb]; destruct (Z.eqb_spec h0 12); cbn [negb]; lia.
Qed.
Definition upto (sec : option Z) : Z := match sec with Some s => s | None => 59 end.
Definition from (sec : option Z) : Z := match sec with Some s => s | None => 0 end.
Theorem clock_selects off now s st y m d h0 h mi sec ap e : near off -> fair_now now -> 1970 <= y <= 9999 -> 1 <= m <= 12 -> 1 <= d <= 31 -> (1970 < y \/ 1 < d) ->
  parse_input s = Ok st -> plen st = 0 -> same st (final_clock y m d h0 mi sec ap e) -> hour_fits h0 ap h -> 0 <= mi <= 59 -> (forall x, sec = Some x -> 0 <= x <= 59) -> (forall x, e = Some x -> -900 <= x <= 900) ->
  let z := match e with Some x => 60 * x | None => off end in
  exists r, date_single off now s = Ok r /\ forall ts, in_range r ts = true <-> clock (D0 m y + (d - 1)) h mi (from sec) <= ts + z <= clock (D0 m y + (d - 1)) h mi (upto sec).
Proof.
  intros [O1 O2] N Y M D Y1 P PL S HF HM HS HE z. unfold fair_now in N. destruct (hour_shift h0 ap h HF) as (HX & HR & HR0).
  set (b := break_down (now + z)). destruct (prep_clock b st y m d h0 mi sec ap e h PL HF S) as (st2 & PR & S2).
  set (X := opt_E (final_clock y m d h0 mi sec ap e) RHOUR (shift h0 ap)) in *.
  assert (KR : match shift h0 ap with Some k => -12 <= k <= 12 | None => True end) by (destruct ap as [a|]; cbn [shift]; [destruct (negb (a =? 0)), (h0 =? 12); cbn [negb]; lia|exact I]).
  assert (ZR : -86400 < z < 86400) by (unfold z; destruct e as [x|]; [specialize (HE x eq_refl); lia|lia]).
  assert (AB : match ap with Some a => 0 <= a <= 1 | None => True end) by (destruct HF as [(-> & _)|(pm & -> & _)]; [exact I|destruct pm; cbn; lia]).
  assert (SB : match sec with Some x => 0 <= x <= 59 | None => True end) by (destruct sec as [x|]; [apply HS; reflexivity|exact I]).
  assert (EB : match e with Some x => -900 <= x <= 900 | None => True end) by (destruct e as [x|]; [apply HE; reflexivity|exact I]).
  assert (BX : bounded X 40000000).
  { unfold X, final_clock, clock_state, st_ymd. destruct (shift h0 ap) as [k|], ap as [a|], sec as [x|], e as [ee|]; cbn [opt_E]; repeat apply bounded_E; try lia; intro f; cbn; lia. }
  pose proof (D0_range m y M ltac:(lia)) as DR.
  assert (F1 : 1 <= D0 m y + (d - 1)).
  { destruct Y1; [|lia]. rewrite D0_plain by exact M. unfold day_number. pose proof (dbm_range y m M). pose proof (dby_mono 1970 y ltac:(lia)) as K. change (dby 1970) with 0 in K. lia. }
  assert (SD : forall sh, h0 - match sh with Some k => k | None => 0 end = h -> seconds (moment b ROUND_DOWN (opt_E (final_clock y m d h0 mi sec ap e) RHOUR sh)) = clock (D0 m y + (d - 1)) h mi (from sec)).
  { intros sh HH. assert (K : moment b ROUND_DOWN (opt_E (final_clock y m d h0 mi sec ap e) RHOUR sh) = mk_tm (from sec - 0) (mi - 0) (h0 - match sh with Some k => k | None => 0 end - 0) (d - 0 - 0) (m - 0) (y - 0) 0 \/
      moment b ROUND_DOWN (opt_E (final_clock y m d h0 mi sec ap e) RHOUR sh) = mk_tm (from sec) (mi - 0) (h0 - (match sh with Some k => k | None => 0 end + 0)) (d - 0 - 0) (m - 0) (y - 0) 0 \/
      moment b ROUND_DOWN (opt_E (final_clock y m d h0 mi sec ap e) RHOUR sh) = mk_tm (from sec - 0) (mi - 0) (h0 - (match sh with Some k => k | None => 0 end + 0)) (d - 0 - 0) (m - 0) (y - 0) 0)
      by (destruct sh, sec, ap, e; first [left; reflexivity|right; left; reflexivity|right; right; reflexivity]).
    destruct K as [-> |[-> | ->]]; rewrite seconds_lin, !Z.sub_0_r, ?Z.add_0_r, HH; unfold clock; lia. }
  assert (SU : forall sh, h0 - match sh with Some k => k | None => 0 end = h -> seconds (moment b ROUND_UP_INCLUSIVE (opt_E (final_clock y m d h0 mi sec ap e) RHOUR sh)) = clock (D0 m y + (d - 1)) h mi (upto sec)).
  { intros sh HH. assert (K : moment b ROUND_UP_INCLUSIVE (opt_E (final_clock y m d h0 mi sec ap e) RHOUR sh) =
       match sec with Some x => mk_tm (x - 0) (mi - 0) (h0 - (match sh with Some k => k | None => 0 end + 0)) (d - 0 - 0) (m - 0) (y - 0) 0
                    | None => mk_tm (-1) (mi - -1) (h0 - (match sh with Some k => k | None => 0 end + 0)) (d - 0 - 0) (m - 0) (y - 0) 0 end)
      by (destruct sh, sec, ap, e; reflexivity).
    rewrite K. destruct sec as [x|]; rewrite seconds_lin, !Z.sub_0_r, Z.add_0_r, HH; unfold clock; cbn [upto]; lia. }
  assert (FN : finest st = Some (match sec with Some _ => Second | None => Minute end)) by (rewrite (same_finest _ _ S); destruct sec, ap, e; reflexivity).
  assert (ZO : zone off st = z) by (rewrite (same_zone _ _ _ S); unfold z; destruct sec, ap, e; reflexivity).
  destruct (plain_bounds off now s st st2 _ 40000000 z (clock (D0 m y + (d - 1)) h mi (from sec)) (clock (D0 m y + (d - 1)) h mi (upto sec)) P PR (same_bounded _ _ _ S2 BX) ltac:(lia) ZO ltac:(unfold rng; lia) FN ltac:(destruct sec; discriminate)) as (r & E1 & E2).
  - fold b. rewrite (same_moment _ _ _ _ S2). apply SD, HX.
  - fold b. rewrite (same_moment _ _ _ _ S2). apply SU, HX.
  - unfold rng, clock, from. destruct sec; lia.
  - unfold rng, clock, upto. destruct sec; lia.
  - unfold rng, clock, from. destruct sec; lia.
  - unfold rng, clock, upto. destruct sec; lia.
  - unfold clock, from. destruct sec; lia.
  - unfold clock, upto. destruct sec; lia.
  - exists r. split; [exact E1|exact E2].
Qed.
