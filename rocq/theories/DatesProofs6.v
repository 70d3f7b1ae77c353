(** Proofs about Dates.v: documented forms. *)
From Verif Require Import Bytes Decimal Calendar CalendarSpec CalendarProofs Dates DatesSpec DatesProofs DatesProofs2 DatesProofs3 DatesProofs4 DatesProofs5.
From Coq Require Import ZArith Lia.
Open Scope Z_scope.

Lemma set_field_clean st f v : plen st = 0 -> is_set st f = false -> set_field st f v = Ok (E st f v).
Proof.
  intros P S. unfold set_field. rewrite S. unfold parse_postponed. cbn [mark plen]. rewrite P. reflexivity.
Qed.
Definition rng (x : Z) : Prop := -1000000 <= x <= 900000000000000.
Lemma gmtime_rng x : rng x -> gmtime x = Some (break_down x).
Proof. intro H. unfold gmtime. pose proof (tm_get_bound x YEAR H eq_refl) as K. cbn [tm_get] in K. rewrite (proj2 (fits_iff _)) by lia. reflexivity. Qed.
Lemma mktime_rng off b : rng (seconds b) -> mktime off b = seconds b - off.
Proof. intro H. unfold mktime, localtime. replace (seconds b - off + off) with (seconds b) by lia. rewrite gmtime_rng by exact H. reflexivity. Qed.
Lemma timegm_rng b : rng (seconds b) -> timegm b = seconds b.
Proof. intro H. unfold timegm. rewrite gmtime_rng by exact H. reflexivity. Qed.
Lemma emit_exists off st t1 : rng (seconds t1) -> rng (seconds t1 - zone off st) -> seconds t1 - zone off st <> -1 ->
  (is_set st TZ = true -> fits_int (t_min t1 - val st TZ) = true) -> emit off st t1 = Ok (seconds t1 - zone off st).
Proof.
  intros H1 H2 H3 H4. unfold emit, zone, int in *. destruct (is_set st TZ).
  - rewrite H4 by reflexivity. cbn [bind]. pose proof (seconds_min t1 (t_min t1 - val st TZ)) as SM.
    rewrite timegm_rng by (rewrite SM; replace (seconds t1 + 60 * (t_min t1 - val st TZ - t_min t1)) with (seconds t1 - 60 * val st TZ) by lia; exact H2).
    rewrite SM. replace (seconds t1 + 60 * (t_min t1 - val st TZ - t_min t1)) with (seconds t1 - 60 * val st TZ) by lia.
    apply Z.eqb_neq in H3. rewrite H3. reflexivity.
  - cbn [bind]. rewrite mktime_rng by exact H1. apply Z.eqb_neq in H3. rewrite H3. reflexivity.
Qed.
Lemma finish_exists off r b st m : r = ROUND_DOWN \/ r = ROUND_UP_INCLUSIVE -> Clean st -> bounded st m -> 40000000 <= m <= 150000000 ->
  (forall f, is_abs f = true -> 0 <= tm_get b f <= 40000000) ->
  rng (seconds (moment b r st)) -> (is_week (finest0 st) = true -> seconds (moment b r st) - off <> -1) ->
  rng (final off r b st + zone off st) -> rng (final off r b st) -> final off r b st <> -1 ->
  finish off r b st = Ok (final off r b st).
Proof.
  intros HR C B Hm T G1 G2 G3 G4 G5. pose proof (finish_no_overflow off r b st m HR C B Hm T) as NO.
  destruct (finish off r b st) as [t| |] eqn:F; [apply finish_value in F; auto; congruence| |congruence].
  exfalso. revert F NO. unfold finish.
  assert (K : exists st3 r', round_fields b (st, r, NO_ROUND) abs_fields = Ok (st3, r', week_of r (finest0 st)) /\ rounded b st r st3).
  { destruct HR as [-> | ->]; [apply round_down_spec, C|].
    pose proof (round_up_spec b st (proj1 C)) as K. destruct (round_fields b (st, ROUND_UP_INCLUSIVE, NO_ROUND) abs_fields) as [[[st3 r'] w]| |].
    - destruct K as [-> K]. eauto.
    - contradiction.
    - exfalso. apply K. eapply bounded_le; [exact B|lia]. }
  destruct K as (st3 & r' & E3 & P3 & A3 & R3 & T3). rewrite E3. cbn [bind].
  rewrite siu_fold_set by (intros f F; apply A3; cbn in F; intuition; subst; reflexivity).
  replace (if no_round (week_of r (finest0 st)) then st3 else st3) with st3 by (destruct (no_round _); reflexivity).
  destruct (output_tm st3) as [t0| |] eqn:O; [|intros _; exfalso|intro; discriminate].
  2: { revert O. unfold output_tm, int. repeat match goal with |- (bind (if ?x then _ else _) _) = _ -> _ => destruct x; cbn [bind]; [|discriminate] end. discriminate. }
  cbn [bind]. apply output_ok in O.
  assert (O' : t0 = moment b r st).
  { rewrite O. unfold moment, V, R. rewrite <- !R3 by reflexivity.
    rewrite (proj2 (A3 SEC eq_refl)), (proj2 (A3 MIN eq_refl)), (proj2 (A3 HOUR eq_refl)), (proj2 (A3 MDAY eq_refl)), (proj2 (A3 MON eq_refl)), (proj2 (A3 YEAR eq_refl)). reflexivity. }
  clear O. subst t0.
  assert (Z3 : zone off st3 = zone off st).
  { unfold zone. rewrite T3, R3 by reflexivity. unfold up_change. destruct (rounds_up r), (is_set st TZ); try lia. destruct (finest0 st) as [[]|]; cbn [up_field field_eqb]; lia. }
  assert (WA : exists t1, week_adjust off (week_of r (finest0 st)) (moment b r st) = Ok t1 /\ seconds t1 = final off r b st + zone off st).
  { unfold week_of, final. destruct (is_week (finest0 st)).
    - rewrite week_adjust_eq by (destruct HR as [-> | ->]; reflexivity). unfold week_tail. rewrite mktime_rng by exact G1.
      specialize (G2 eq_refl). apply Z.eqb_neq in G2. rewrite G2. unfold localtime.
      replace (seconds (moment b r st) - off + off) with (seconds (moment b r st)) by lia. rewrite gmtime_rng by exact G1.
      exists (week_tm r (break_down (seconds (moment b r st)))). split.
      + unfold week_tm. destruct (rounds_up r); reflexivity.
      + rewrite week_tm_seconds by exact HR. lia.
    - exists (moment b r st). split; [reflexivity|lia]. }
  destruct WA as (t1 & WA & S1). rewrite WA. cbn [bind]. intros EE NO.
  assert (FT : is_set st3 TZ = true -> fits_int (t_min t1 - val st3 TZ) = true).
  { intro S. destruct (fits_int (t_min t1 - val st3 TZ)) eqn:FI; [reflexivity|]. exfalso. unfold emit, int in EE. rewrite S, FI in EE. discriminate EE. }
  rewrite emit_exists in EE; [discriminate EE| | | |exact FT]; rewrite ?Z3, ?S1; [exact G3| |].
  - replace (final off r b st + zone off st - zone off st) with (final off r b st) by lia. exact G4.
  - lia.
Qed.

Lemma prep_simple b st : is_set st WDAY && negb (is_set st MDAY) = false -> is_set st AMPM = false -> prep b st = Ok (fill_now st b).
Proof.
  intros W A. unfold prep. rewrite weekday_none by (rewrite !fill_now_set; exact W). cbn [bind]. unfold fixup_ampm. rewrite fill_now_set, A. reflexivity.
Qed.
Lemma initialize_rng off now st : rng (now + zone off st) -> initialize_now off now st = Some (break_down (now + zone off st)).
Proof.
  intro H. unfold initialize_now, localtime, zone in *. destruct (is_set st TZ); [|apply gmtime_rng, H].
  replace (now + val st TZ * 60) with (now + 60 * val st TZ) by lia. apply gmtime_rng, H.
Qed.
(** the state made by [fill_now], for expressions without now or today. *)
Lemma fill_now_id b st : (forall f, is_now st f = false) -> fill_now st b = st.
Proof.
  intro N. rewrite fill_now_eq. unfold abs_fields. cbn [fold_left].
  assert (I1 : forall f, fill1 b st f = st). { intro f. specialize (N f). unfold is_now in N. unfold fill1. destruct (fset_ st f); [reflexivity|reflexivity|discriminate]. }
  rewrite !I1. reflexivity.
Qed.

(** One expression that parses to [st], with both roundings in range. *)
Theorem single_exists off now s st st2 u m : parse_input s = Ok st -> prep (break_down (now + zone off st)) st = Ok st2 -> bounded st2 m -> 40000000 <= m <= 150000000 ->
  rng (now + zone off st) -> finest st = Some u ->
  let b := break_down (now + zone off st) in
  (forall r, r = ROUND_DOWN \/ r = ROUND_UP_INCLUSIVE ->
     rng (seconds (moment b r st2)) /\ (u = Week -> seconds (moment b r st2) - off <> -1) /\ rng (final off r b st2 + zone off st) /\ rng (final off r b st2) /\ final off r b st2 <> -1) ->
  exists L U, date_single off now s = Ok (At L, At U) /\ L = final off ROUND_DOWN b st2 /\
    forall ts, in_range (At L, At U) ts = true <-> period date_of (zone off st) u ts = period date_of (zone off st) u L.
Proof.
  intros P PR B Hm G F b H. fold b in PR. pose proof (parse_input_clean s st P) as [C _].
  pose proof (prep_spec b st st2 C PR) as (C2 & F2 & T2 & V2).
  assert (Z2 : zone off st2 = zone off st) by (unfold zone; rewrite T2, V2; reflexivity).
  assert (PT : forall r, r = ROUND_DOWN \/ r = ROUND_UP_INCLUSIVE -> parse_time_string off now r s = Ok (final off r b st2)).
  { intros r HR. unfold parse_time_string. rewrite P. cbn [bind]. unfold create_output. rewrite initialize_rng by exact G. fold b. rewrite PR. cbn [bind].
    destruct (H r HR) as (H1 & H2 & H3 & H4 & H5). apply finish_exists with (m := m); auto.
    - intros f A. apply tm_get_bound; [exact G|exact A].
    - rewrite F2, F. intro W. apply H2. destruct u; try discriminate W. reflexivity.
    - rewrite Z2. exact H3. }
  exists (final off ROUND_DOWN b st2), (final off ROUND_UP_INCLUSIVE b st2).
  split; [|split; [reflexivity|]].
  - unfold date_single. rewrite (PT ROUND_DOWN) by auto. cbn [bind]. rewrite (PT ROUND_UP_INCLUSIVE) by auto. reflexivity.
  - intro ts. pose proof (final_period off b st2 C2) as K. cbv zeta in K. rewrite F2, F, Z2 in K. destruct K as [_ K]. rewrite <- K.
    unfold in_range. cbn [fst snd above below]. rewrite Bool.andb_true_iff, !Z.leb_le. reflexivity.
Qed.
