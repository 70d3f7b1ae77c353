(** The calendar of Calendar.v is the civil calendar. *)
From Coq Require Import ZArith Bool List Lia.
From Verif Require Import Calendar CalendarSpec.
Open Scope Z_scope.

Ltac zdm := Z.div_mod_to_equations; lia.
Lemma leap_spec y : leap y = true <-> leap_year y.
Proof.
  unfold leap, leap_year. rewrite Bool.andb_true_iff, Bool.orb_true_iff, Bool.negb_true_iff, Z.eqb_neq, !Z.eqb_eq.
  rewrite <- !Z.mod_divide by lia. tauto.
Qed.
Lemma dby_succ y : dby (y + 1) = dby y + (if leap y then 366 else 365).
Proof.
  unfold dby, leap. replace (y + 1 - 1) with y by lia.
  destruct (Z.eqb_spec (y mod 4) 0), (Z.eqb_spec (y mod 100) 0), (Z.eqb_spec (y mod 400) 0); cbn [andb orb negb]; zdm.
Qed.
Lemma dby_lt y : dby y < dby (y + 1).
Proof. rewrite dby_succ. destruct (leap y); lia. Qed.
Lemma dby_mono_nat n y : dby y + 365 * Z.of_nat n <= dby (y + Z.of_nat n).
Proof.
  induction n as [|n IH]; [replace (y + Z.of_nat 0) with y by lia; lia|].
  replace (y + Z.of_nat (S n)) with (y + Z.of_nat n + 1) by lia. rewrite dby_succ. destruct (leap _); lia.
Qed.
Lemma dby_mono a b : a <= b -> dby a + 365 * (b - a) <= dby b.
Proof. intro H. generalize (dby_mono_nat (Z.to_nat (b - a)) a). rewrite Z2Nat.id by lia. replace (a + (b - a)) with b by lia. lia. Qed.

Lemma year_of_spec d : dby (year_of d) <= d < dby (year_of d + 1).
Proof.
  unfold year_of. set (g := 1970 + d * 400 / 146097).
  assert (H1 : dby (g - 1) <= d) by (unfold g, dby; zdm).
  assert (H2 : d < dby (g + 2)) by (unfold g, dby; zdm).
  destruct (Z.ltb_spec d (dby g)); [replace (g - 1 + 1) with g by lia; lia|].
  destruct (Z.leb_spec (dby (g + 1)) d); [replace (g + 1 + 1) with (g + 2) by lia; lia|lia].
Qed.
Lemma year_of_unique d y : dby y <= d < dby (y + 1) -> year_of d = y.
Proof.
  intro H. pose proof (year_of_spec d) as H'.
  destruct (Z.lt_trichotomy (year_of d) y) as [L|[E|L]]; auto.
  - pose proof (dby_mono (year_of d + 1) y ltac:(lia)). lia.
  - pose proof (dby_mono (y + 1) (year_of d) ltac:(lia)). lia.
Qed.
Lemma year_of_iff d y : year_of d = y <-> dby y <= d < dby (y + 1).
Proof. split; [intros <-; apply year_of_spec|apply year_of_unique]. Qed.

Definition month_len (y m : Z) : Z := dbm y (m + 1) - dbm y m.
Lemma months m : 1 <= m <= 12 -> m = 1 \/ m = 2 \/ m = 3 \/ m = 4 \/ m = 5 \/ m = 6 \/ m = 7 \/ m = 8 \/ m = 9 \/ m = 10 \/ m = 11 \/ m = 12.
Proof. lia. Qed.
Ltac each_month H := apply months in H; repeat (destruct H as [H|H]); subst.
Lemma dbm_values y :
  dbm y 1 = 0 /\ dbm y 2 = 31 /\ dbm y 13 = (if leap y then 366 else 365) /\
  let k := if leap y then 1 else 0 in
  dbm y 3 = 59 + k /\ dbm y 4 = 90 + k /\ dbm y 5 = 120 + k /\ dbm y 6 = 151 + k /\ dbm y 7 = 181 + k /\
  dbm y 8 = 212 + k /\ dbm y 9 = 243 + k /\ dbm y 10 = 273 + k /\ dbm y 11 = 304 + k /\ dbm y 12 = 334 + k.
Proof. unfold dbm. destruct (leap y); repeat split; reflexivity. Qed.
Lemma month_of_iff y yd m : 1 <= m <= 12 -> 0 <= yd < dbm y 13 -> (month_of y yd = m <-> dbm y m <= yd < dbm y (m + 1)).
Proof.
  intros H Hy. destruct (dbm_values y) as (E1 & E2 & E13 & E). cbv zeta in E.
  destruct E as (E3 & E4 & E5 & E6 & E7 & E8 & E9 & E10 & E11 & E12).
  unfold month_of. rewrite E13 in Hy.
  each_month H;
  (match goal with |- context [dbm y (?a + 1)] => let v := eval compute in (a + 1) in change (a + 1) with v end);
  rewrite ?E1, ?E2, ?E3, ?E4, ?E5, ?E6, ?E7, ?E8, ?E9, ?E10, ?E11, ?E12, ?E13;
  destruct (leap y);
  repeat (match goal with |- context [?a <? ?b] => destruct (Z.ltb_spec a b) end); lia.
Qed.
Lemma month_of_range y yd : 1 <= month_of y yd <= 12.
Proof. unfold month_of. repeat (match goal with |- context [if ?b then _ else _] => destruct b end); lia. Qed.
Lemma last_day_len y m : 1 <= m <= 12 -> last_day y m (month_len y m).
Proof.
  intro H. unfold month_len. destruct (dbm_values y) as (E1 & E2 & E13 & E). cbv zeta in E.
  destruct E as (E3 & E4 & E5 & E6 & E7 & E8 & E9 & E10 & E11 & E12).
  each_month H;
  (match goal with |- context [dbm y (?a + 1)] => let v := eval compute in (a + 1) in change (a + 1) with v end);
  rewrite ?E1, ?E2, ?E3, ?E4, ?E5, ?E6, ?E7, ?E8, ?E9, ?E10, ?E11, ?E12, ?E13.
  2: { destruct (leap y) eqn:L.
       - apply LastFebLeap, leap_spec, L.
       - apply LastFeb. rewrite <- leap_spec, L. discriminate. }
  all: destruct (leap y); (apply Last31; lia) || (apply Last30; lia).
Qed.
Lemma last_day_inv y m l : last_day y m l -> 1 <= m <= 12 /\ l = month_len y m.
Proof.
  intro H. assert (B : 1 <= m <= 12) by (destruct H; lia). split; [exact B|].
  pose proof (last_day_len y m B) as K.
  destruct H; inversion K; subst; try lia; try contradiction.
Qed.

(** the date of a day. *)
Definition date_of (n : Z) : Z * Z * Z :=
  let y := year_of n in let m := month_of y (n - dby y) in (y, m, n - dby y - dbm y m + 1).
Lemma date_of_iff n y m d : date_of n = (y, m, d) <-> 1 <= m <= 12 /\ 1 <= d <= month_len y m /\ n = day_number y m d.
Proof.
  unfold date_of, day_number, month_len.
  pose proof (year_of_spec n) as HY. set (Y := year_of n) in *.
  pose proof (dby_succ Y) as HS. destruct (dbm_values Y) as (_ & _ & E13 & _).
  pose proof (month_of_range Y (n - dby Y)) as HR.
  pose proof (proj1 (month_of_iff Y (n - dby Y) _ HR ltac:(lia)) eq_refl) as HM.
  split.
  - intro H. injection H as <- <- <-. repeat split; lia.
  - intros (Hm & Hd & ->).
    assert (EY : Y = y).
    { unfold Y. apply year_of_unique. pose proof (dby_succ y) as HS'. destruct (dbm_values y) as (E1 & E2 & E13' & E). cbv zeta in E.
      destruct E as (E3 & E4 & E5 & E6 & E7 & E8 & E9 & E10 & E11 & E12).
      revert Hd. each_month Hm;
      (match goal with |- context [dbm y (?a + 1)] => let v := eval compute in (a + 1) in change (a + 1) with v end);
      rewrite ?E1, ?E2, ?E3, ?E4, ?E5, ?E6, ?E7, ?E8, ?E9, ?E10, ?E11, ?E12, ?E13'; destruct (leap y); lia. }
    rewrite EY in *.
    assert (EM : month_of y (dby y + dbm y m + d - 1 - dby y) = m).
    { apply month_of_iff; auto; lia. }
    rewrite EM. f_equal. lia.
Qed.
Lemma day_number_date n : let '(y, m, d) := date_of n in day_number y m d = n /\ 1 <= m <= 12 /\ 1 <= d <= month_len y m.
Proof. destruct (date_of n) as [[y m] d] eqn:E. apply date_of_iff in E. intuition. Qed.

Lemma dbm_next y m : 1 <= m <= 12 -> day_number y m 1 + month_len y m = (if m =? 12 then day_number (y + 1) 1 1 else day_number y (m + 1) 1).
Proof.
  intro H. unfold day_number, month_len. destruct (Z.eqb_spec m 12) as [->|N]; [|lia].
  rewrite dby_succ. destruct (dbm_values y) as (_ & _ & E13 & _). destruct (dbm_values (y + 1)) as (E1 & _).
  change (12 + 1) with 13. rewrite E13, E1. lia.
Qed.
Theorem date_of_civil : Civil date_of.
Proof.
  split; [vm_compute; reflexivity|]. intro n.
  destruct (date_of n) as [[y m] d] eqn:E. apply date_of_iff in E. destruct E as (Hm & Hd & ->).
  pose proof (last_day_len y m Hm) as HL.
  assert (Pos : forall y m, 1 <= m <= 12 -> 1 <= month_len y m) by
    (intros y' m' H'; pose proof (last_day_len y' m' H') as K; inversion K; lia).
  destruct (Z.eq_dec d (month_len y m)) as [->|N].
  - pose proof (dbm_next y m Hm) as K.
    destruct (Z.eqb_spec m 12) as [->|N12].
    + assert (E2 : date_of (day_number y 12 (month_len y 12) + 1) = (y + 1, 1, 1)).
      { apply date_of_iff. pose proof (Pos (y + 1) 1). unfold day_number in *. lia. }
      rewrite E2. assert (month_len y 12 = 31) as -> by (inversion HL; lia). apply NextYear.
    + assert (E2 : date_of (day_number y m (month_len y m) + 1) = (y, m + 1, 1)).
      { apply date_of_iff. pose proof (Pos y (m + 1)). unfold day_number in *. lia. }
      rewrite E2. apply NextMonth; [exact HL|lia].
  - assert (E2 : date_of (day_number y m d + 1) = (y, m, d + 1)).
    { apply date_of_iff. unfold day_number in *. lia. }
    rewrite E2. eapply NextDay; [exact HL|lia].
Qed.

(** the calendar is determined. *)
Lemma december y : month_len y 12 = 31.
Proof. unfold month_len. change (12 + 1) with 13. destruct (dbm_values y) as (_ & _ & E13 & E). cbv zeta in E. destruct (leap y); lia. Qed.
Lemma next_date_fun a b c : next_date a b -> next_date a c -> b = c.
Proof.
  intros H K.
  destruct H as [y m d l L R|y m d L R|y]; inversion K as [y' m' d' l' L' R'|y' m' d' L' R'|y']; subst; try reflexivity;
  repeat match goal with X : last_day _ _ _ |- _ => apply last_day_inv in X; destruct X as [? ?] end; try lia;
  try pose proof (december y'); try pose proof (december y); subst; lia.
Qed.
Lemma next_date_inj a b c : next_date a c -> next_date b c -> a = b.
Proof.
  intros H K.
  destruct H as [y m d l L R|y m d L R|y]; inversion K as [y' m' d' l' L' R'|y' m' d' L' R'|y']; subst;
  repeat match goal with X : last_day _ _ _ |- _ => apply last_day_inv in X; destruct X as [? ?] end; try lia.
  - f_equal. lia.
  - assert (m' = m) by lia. subst. reflexivity.
  - assert (y' = y) by lia. subst. reflexivity.
Qed.
Theorem civil_unique c1 c2 : Civil c1 -> Civil c2 -> forall n, c1 n = c2 n.
Proof.
  intros [A1 B1] [A2 B2].
  assert (P : forall k, c1 (Z.of_nat k) = c2 (Z.of_nat k)).
  { induction k as [|k IH]; [change (c1 0 = c2 0); congruence|]. replace (Z.of_nat (S k)) with (Z.of_nat k + 1) by lia.
    eapply next_date_fun; [apply B1|rewrite IH; apply B2]. }
  assert (Q : forall k, c1 (- Z.of_nat k) = c2 (- Z.of_nat k)).
  { induction k as [|k IH]; [exact (P O)|].
    eapply next_date_inj; [apply B1|]. replace (- Z.of_nat (S k) + 1) with (- Z.of_nat k) by lia. rewrite IH.
    replace (- Z.of_nat k) with (- Z.of_nat (S k) + 1) by lia. apply B2. }
  intro n. destruct (Z_le_gt_dec 0 n).
  - rewrite <- (Z2Nat.id n) by lia. apply P.
  - replace n with (- Z.of_nat (Z.to_nat (- n))) by lia. apply Q.
Qed.

(** ** broken-down times. *)
Lemma break_down_date t : (t_year (break_down t), t_mon (break_down t), t_mday (break_down t)) = date_of (t / 86400).
Proof. reflexivity. Qed.
Lemma seconds_norm y m d h mi s : 1 <= m <= 12 ->
  seconds (mk_tm s mi h d m y 0) = day_number y m d * 86400 + h * 3600 + mi * 60 + s.
Proof.
  intro H. unfold seconds. cbn [t_sec t_min t_hour t_mday t_mon t_year].
  replace ((m - 1) / 12) with 0 by zdm. replace ((m - 1) mod 12) with (m - 1) by zdm.
  replace (y + 0) with y by lia. replace (m - 1 + 1) with m by lia. lia.
Qed.
