(** Proofs about Dates.v: no overflow; the periods of expressions. *)
From Verif Require Import Bytes Calendar CalendarSpec CalendarProofs Dates DatesProofs DatesProofs2 DatesProofs3.
From Coq Require Import ZArith Lia.
Open Scope Z_scope.

Lemma bounded_E st f v m : bounded st m -> - m <= v <= m -> bounded (E st f v) m.
Proof. intros B H g. rewrite val_E. destruct (field_eqb g f); [exact H|apply B]. Qed.
Lemma bounded_le st m m' : bounded st m -> m <= m' -> bounded st m'.
Proof. intros B H g. pose proof (B g). lia. Qed.
Lemma initialize_ok off now st b : initialize_now off now st = Some b ->
  b = break_down (now + zone off st).
Proof.
  unfold initialize_now, zone. destruct (is_set st TZ).
  - unfold gmtime. destruct (fits_int _); [|discriminate]. intros [= <-]. f_equal. lia.
  - apply localtime_ok.
Qed.
Lemma tm_get_bound t f : -1000000 <= t <= 900000000000000 -> is_abs f = true -> 0 <= tm_get (break_down t) f <= 40000000.
Proof.
  intros H A. pose proof (break_down_ranges t) as R. cbv zeta in R. destruct R as (R1 & R2 & R3 & R4 & R5).
  assert (Y : 1000 <= t_year (break_down t) <= 40000000).
  { unfold break_down. cbn [t_year]. set (d := t / 86400). assert (D : -12 <= d <= 11574074074) by (unfold d; zdm).
    pose proof (year_of_spec d) as Y. set (y := year_of d) in *. split.
    - destruct (Z_le_gt_dec 1000 y); [assumption|]. pose proof (dby_mono (y + 1) 1970 ltac:(lia)) as K. change (dby 1970) with 0 in K. lia.
    - destruct (Z_le_gt_dec y 40000000); [assumption|]. pose proof (dby_mono 1970 y ltac:(lia)) as K. change (dby 1970) with 0 in K. lia. }
  destruct f; try discriminate A; cbn [tm_get]; lia.
Qed.
Lemma wday_bound t : 0 <= t_wday (break_down t) <= 6.
Proof. unfold break_down. cbn [t_wday]. zdm. Qed.

Lemma prep_bounded b st m : Clean st -> bounded st m -> 40000000 <= m <= 150000000 ->
  (forall f, is_abs f = true -> 0 <= tm_get b f <= 40000000) -> 0 <= t_wday b <= 6 -> (is_set st WDAY = true -> 0 <= val st WDAY <= 6) ->
  match prep b st with Ok st2 => bounded st2 (m + 25) | Err => True | Undef => False end.
Proof.
  intros C B Hm T W WD. unfold prep.
  pose proof (fill_now_clean b st C) as Ca. 
  assert (Ba : bounded (fill_now st b) m).
  { intro f. rewrite fill_now_val. destruct (is_abs f) eqn:A; cbn [andb]; [|apply B]. destruct (is_now st f); [|apply B]. pose proof (T f A). lia. }
  assert (WDa : is_set st WDAY = true -> 0 <= val (fill_now st b) WDAY <= 6) by (rewrite fill_now_val; exact WD).
  assert (H1 : match weekday (fill_now st b) b with Ok st1 => Clean st1 /\ bounded st1 (m + 7) | Err => True | Undef => False end).
  { unfold weekday. rewrite !fill_now_set. destruct (is_set st WDAY && negb (is_set st MDAY)) eqn:K; [|split; [exact Ca|eapply bounded_le; [exact Ba|lia]]].
    apply Bool.andb_true_iff in K as [K _]. specialize (WDa K). rewrite add_clean by apply Ca. cbv zeta. pose proof (Ba RDAY) as BR.
    set (rd := if val (fill_now st b) WDAY <? t_wday b then _ else _).
    assert (0 <= rd <= 7) by (unfold rd; destruct (Z.ltb_spec (val (fill_now st b) WDAY) (t_wday b)); lia).
    rewrite (proj2 (fits_iff _)) by lia. cbn [bind]. split.
    - pose proof (E_clean _ RDAY (val (fill_now st b) RDAY + rd) Ca) as Ce. split; [apply Ce|]. intros g G. fold (week_clear (E (fill_now st b) RDAY (val (fill_now st b) RDAY + rd))) in *.
      rewrite set_wc in G. rewrite val_wc. destruct (field_eqb g WDAY); [reflexivity|]. apply Ce, G.
    - fold (week_clear (E (fill_now st b) RDAY (val (fill_now st b) RDAY + rd))). intro g. rewrite val_wc, val_E. destruct (field_eqb g WDAY); [lia|]. destruct (field_eqb g RDAY); [lia|]. pose proof (Ba g). lia. }
  destruct (weekday (fill_now st b) b) as [st1| |]; cbn [bind]; auto. destruct H1 as [C1 B1].
  unfold fixup_ampm. destruct (is_set st1 AMPM); cbn [negb]; [|eapply bounded_le; [exact B1|lia]].
  destruct (is_set st1 HOUR); cbn [negb]; auto. destruct (is_valid_12hour _); cbn [negb]; auto.
  rewrite add_clean by apply C1. pose proof (B1 RHOUR) as BR.
  set (hd := if negb (val st1 AMPM =? 0) then _ else _). assert (-12 <= hd <= 12) by (unfold hd; destruct (negb _), (_ =? 12); cbn [negb]; lia).
  rewrite (proj2 (fits_iff _)) by lia. apply bounded_E; [eapply bounded_le; [exact B1|lia]|lia].
Qed.
Lemma epoch_bound f : 0 <= epoch f <= 1970. Proof. destruct f; cbn; lia. Qed.
Lemma finish_no_overflow off r b st m : r = ROUND_DOWN \/ r = ROUND_UP_INCLUSIVE -> Clean st -> bounded st m -> 40000000 <= m <= 150000000 ->
  (forall f, is_abs f = true -> 0 <= tm_get b f <= 40000000) -> finish off r b st <> Undef.
Proof.
  intros HR C B Hm T. unfold finish.
  assert (K : exists st3 r', round_fields b (st, r, NO_ROUND) abs_fields = Ok (st3, r', week_of r (finest0 st)) /\ rounded b st r st3).
  { destruct HR as [-> | ->]; [apply round_down_spec, C|].
    pose proof (round_up_spec b st (proj1 C)) as K. destruct (round_fields b (st, ROUND_UP_INCLUSIVE, NO_ROUND) abs_fields) as [[[st3 r'] w]| |].
    - destruct K as [-> K]. eauto.
    - contradiction.
    - exfalso. apply K. eapply bounded_le; [exact B|lia]. }
  destruct K as (st3 & r' & E3 & P3 & A3 & R3 & T3). rewrite E3. cbn [bind].
  rewrite siu_fold_set by (intros f F; apply A3; cbn in F; intuition; subst; reflexivity).
  replace (if no_round (week_of r (finest0 st)) then st3 else st3) with st3 by (destruct (no_round _); reflexivity).
  assert (UC : forall f, -1 <= up_change r (finest0 st) f <= 1).
  { intro f. unfold up_change. destruct (rounds_up r); [|lia]. destruct (up_field _); [|lia]. destruct (field_eqb f f0); [lia|]. destruct (field_eqb f RSEC); lia. }
  assert (B3 : bounded st3 (m + 1)).
  { intro f. destruct (is_abs f) eqn:A.
    - rewrite (proj2 (A3 f A)). pose proof (epoch_bound f). destruct (frank f <? _); [lia|]. unfold now_or. destruct (is_set st f); [pose proof (B f); lia|pose proof (T f A); lia].
    - rewrite (R3 f A). pose proof (B f). pose proof (UC f). lia. }
  destruct (output_bounded st3 (m + 1) B3 ltac:(lia)) as [t0 O]. rewrite O. cbn [bind]. apply output_ok in O.
  assert (MB : -1000000000 <= t_min t0 <= 1000000000).
  { rewrite O. cbn [t_min]. pose proof (B3 MIN). pose proof (B3 RMIN). lia. }
  assert (EM : forall t1, -1000000000 <= t_min t1 <= 1000000000 -> emit off st3 t1 <> Undef).
  { intros t1 H1. unfold emit, int. pose proof (B3 TZ). destruct (is_set st3 TZ).
    - rewrite (proj2 (fits_iff _)) by lia. cbn [bind]. generalize (timegm (mk_tm (t_sec t1) (t_min t1 - val st3 TZ) (t_hour t1) (t_mday t1) (t_mon t1) (t_year t1) 0)). intro z. destruct (z =? -1); discriminate.
    - cbn [bind]. generalize (mktime off t1). intro z. destruct (z =? -1); discriminate. }
  destruct (no_round (week_of r (finest0 st))) eqn:NW.
  - unfold week_adjust. rewrite NW. cbn [bind]. apply EM, MB.
  - rewrite week_adjust_eq by exact NW. destruct (week_tail off (week_of r (finest0 st)) (mktime off t0)) as [t1| |] eqn:WT; cbn [bind]; try discriminate.
    + apply week_tail_ok in WT. destruct WT as (_ & n & _ & ->). apply EM. unfold week_tm. destruct (rounds_up _); cbn [t_min]; lia.
    + exfalso. revert WT. unfold week_tail. generalize (mktime off t0). intro z. destruct (z =? -1); [discriminate|]. destruct (localtime off z); [|discriminate]. destruct (rounds_up _); discriminate.
Qed.
Theorem no_overflow off now s r M : r = ROUND_DOWN \/ r = ROUND_UP_INCLUSIVE ->
  100 <= M -> M * Z.of_nat (List.length s) <= 100000000 -> small_numbers M s -> 0 <= now <= 800000000000000 -> -900000 <= off <= 900000 ->
  parse_time_string off now r s <> Undef.
Proof.
  intros HR HM HL SN HN HO. unfold parse_time_string.
  destruct (Nat.eq_dec (List.length s) 0) as [L0|L0].
  { destruct s; [|discriminate L0]. cbn [parse_input parse_loop List.length]. change (parse_postponed init) with (Ok init). cbn [bind].
    unfold create_output. destruct (initialize_now off now init) as [b|] eqn:IN; [|discriminate].
    apply initialize_ok in IN. change (zone off init) with off in IN.
    change (prep b init) with (Ok (fill_now init b)). cbn [bind]. apply finish_no_overflow with (m := 40000000); try assumption; try lia.
    - apply fill_now_clean. split; reflexivity.
    - intro f. rewrite fill_now_val. change (is_now init f) with false. rewrite Bool.andb_false_r. cbn. lia.
    - intros f A. subst b. apply tm_get_bound; [lia|exact A]. }
  assert (GI : good_input true (Some 0) M s) by (split; [reflexivity|intros _; exact SN]).
  pose proof (parse_input_inv true (Some 0) M s ltac:(nia) ltac:(cbn [enough]; lia) GI) as P.
  destruct (parse_input s) as [st| |] eqn:PI; cbn [post bind] in *; try discriminate.
  pose proof (parse_input_clean s st PI) as [C _]. destruct P as [_ P].
  assert (B : bounded st 100000000). { intro f. specialize (P f). destruct (fset_ st f); [lia| |lia]. destruct f; cbn [ok] in P; lia. }
  unfold create_output. destruct (initialize_now off now st) as [b|] eqn:IN; [|discriminate]. apply initialize_ok in IN.
  assert (ZB : -900000 <= zone off st <= 900000).
  { unfold zone. destruct (is_set st TZ) eqn:TS; [|lia]. specialize (P TZ). unfold is_set in TS. destruct (fset_ st TZ); [discriminate TS| |rewrite P; lia]. cbn [ok] in P. lia. }
  assert (TB : forall f, is_abs f = true -> 0 <= tm_get b f <= 40000000) by (intros f A; subst b; apply tm_get_bound; [lia|exact A]).
  assert (WB : 0 <= t_wday b <= 6) by (subst b; apply wday_bound).
  assert (WS : is_set st WDAY = true -> 0 <= val st WDAY <= 6).
  { intro S. specialize (P WDAY). unfold is_set in S. destruct (fset_ st WDAY); [discriminate| |lia]. exact P. }
  pose proof (prep_bounded b st 100000000 C B ltac:(lia) TB WB WS) as PB.
  destruct (prep b st) as [st2| |] eqn:PR; cbn [bind]; [|discriminate|contradiction].
  apply prep_spec in PR; [|exact C]. eapply finish_no_overflow; [exact HR|apply PR|exact PB|lia|exact TB].
Qed.

(** ** The period of an expression. *)
Theorem single_period off now s st L U :
  parse_input s = Ok st ->
  parse_time_string off now ROUND_DOWN s = Ok L -> parse_time_string off now ROUND_UP_INCLUSIVE s = Ok U ->
  match finest st with
  | Some u => L <= U /\ forall t, L <= t <= U <-> period date_of (zone off st) u t = period date_of (zone off st) u L
  | None => U = L
  end.
Proof.
  intros P HL HU. unfold parse_time_string in *. rewrite P in *. cbn [bind] in *. unfold create_output in *.
  destruct (initialize_now off now st) as [b|]; [|discriminate]. apply bind_ok in HL, HU. destruct HL as (st2 & P2 & HL), HU as (st2' & P2' & HU).
  rewrite P2 in P2'. apply Ok_inj in P2'. subst st2'. pose proof (parse_input_clean s st P) as [C _].
  apply prep_spec in P2; [|exact C]. destruct P2 as (C2 & F2 & T2 & V2).
  apply finish_value in HL; [|auto|exact C2]. apply finish_value in HU; [|auto|exact C2].
  pose proof (final_period off b st2 C2) as K. cbv zeta in K. rewrite <- HL, <- HU, F2 in K.
  assert (Z2 : zone off st2 = zone off st) by (unfold zone; rewrite T2, V2; reflexivity). rewrite Z2 in K. exact K.
Qed.
Lemma period_ext c z u t : Civil c -> period c z u t = period date_of z u t.
Proof. intro H. unfold period. rewrite (civil_unique c date_of H date_of_civil). reflexivity. Qed.
