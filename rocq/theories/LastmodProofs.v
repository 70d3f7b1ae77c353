From Verif Require Import Bytes Decimal Lastmod LastmodSpec.
Local Open Scope Z_scope.

Lemma round53_ge n : 2 ^ 53 <= n -> 2 ^ 53 <= round53 n.
Proof.
  intros H. unfold round53. rewrite (proj2 (Z.ltb_ge n (2 ^ 53)) H). cbv zeta.
  assert (Hl : 53 <= Z.log2 n) by (apply Z.log2_le_pow2; lia).
  set (e := Z.log2 n - 52). assert (He : 1 <= e) by (unfold e; lia).
  assert (Hp : 0 < 2 ^ e) by (apply Z.pow_pos_nonneg; lia).
  assert (Hq : 2 ^ 52 <= n / 2 ^ e).
  { apply Z.div_le_lower_bound; [exact Hp|]. rewrite <- Z.pow_add_r by lia. replace (e + 52) with (Z.log2 n) by (unfold e; lia).
    apply Z.log2_spec. lia. }
  assert (K : forall q', n / 2 ^ e <= q' -> 2 ^ 53 <= q' * 2 ^ e).
  { intros q' Hq'. change (2 ^ 53) with (2 ^ 52 * 2 ^ 1). apply Z.mul_le_mono_nonneg; [lia|lia|lia|apply Z.pow_le_mono_r; lia]. }
  destruct (_ <? _); [apply K; lia|]. destruct (_ <? _); [apply K; lia|]. destruct (Z.even _); apply K; lia.
Qed.
Lemma round53_small n : n < 2 ^ 53 -> round53 n = n.
Proof. intros H. unfold round53. now rewrite (proj2 (Z.ltb_lt n (2 ^ 53)) H). Qed.
Lemma round53_at : round53 (2 ^ 53) = 2 ^ 53.
Proof. vm_compute. reflexivity. Qed.
Lemma to_double_id z : - 2 ^ 53 <= z <= 2 ^ 53 -> to_double z = z.
Proof.
  intros H. unfold to_double. destruct (Z.ltb_spec z 0).
  - destruct (Z.eq_dec (- z) (2 ^ 53)) as [E|E]; [rewrite E, round53_at; lia|rewrite round53_small; lia].
  - destruct (Z.eq_dec z (2 ^ 53)) as [E|E]; [rewrite E; exact round53_at|rewrite round53_small; lia].
Qed.
Lemma to_double_le r z : 0 <= r <= 2 ^ 53 -> (to_double z <= to_double r <-> z <= r \/ (r = 2 ^ 53 /\ to_double z <= 2 ^ 53)).
Proof.
  intros Hr. rewrite (to_double_id r) by lia.
  destruct (Z.le_gt_cases (- 2 ^ 53) z) as [A|A]; [destruct (Z.le_gt_cases z (2 ^ 53)) as [B|B]|].
  - rewrite to_double_id by lia. lia.
  - unfold to_double. rewrite (proj2 (Z.ltb_ge z 0)) by lia. pose proof (round53_ge z ltac:(lia)). lia.
  - unfold to_double. rewrite (proj2 (Z.ltb_lt z 0)) by lia. pose proof (round53_ge (- z) ltac:(lia)). lia.
Qed.

(** With fewer than 2^53 revisions the comparison is exact. *)
Lemma range_exact from to rev : 0 <= rev < 2 ^ 53 ->
  value_range from to (Some rev) = true <-> from <= rev <= to.
Proof.
  intros H. cbn [value_range]. rewrite andb_true_iff, !Z.leb_le. rewrite (to_double_le rev from) by lia.
  rewrite (to_double_id rev) by lia.
  assert (rev <= to_double to <-> rev <= to).
  { destruct (Z.le_gt_cases (- 2 ^ 53) to) as [A|A]; [destruct (Z.le_gt_cases to (2 ^ 53)) as [B|B]|].
    - rewrite to_double_id by lia. lia.
    - unfold to_double. rewrite (proj2 (Z.ltb_ge to 0)) by lia. pose proof (round53_ge to ltac:(lia)). lia.
    - unfold to_double. rewrite (proj2 (Z.ltb_lt to 0)) by lia. pose proof (round53_ge (- to) ltac:(lia)). lia. }
  lia.
Qed.

Lemma read_digits_run ds : Forall (fun c => 48 <= Z.of_N (N_of_ascii c) <= 57) ds ->
  forall a rest, isdigit (peek rest) = false ->
  Z.of_N (fst (read_digits a (ds ++ rest))) =
  fold_left (fun acc c => 10 * acc + (Z.of_N (N_of_ascii c) - 48)) ds (Z.of_N a).
Proof.
  induction 1 as [|c ds Hc _ IH]; intros a rest Hr.
  - cbn [app fold_left]. destruct rest as [|c r]; [reflexivity|]. cbn [read_digits]. cbn [peek] in Hr. now rewrite Hr.
  - cbn [app read_digits fold_left].
    assert (isdigit c = true) as ->.
    { unfold isdigit, code. apply andb_true_iff. split; apply N.leb_le; lia. }
    rewrite IH by exact Hr. f_equal. unfold code. lia.
Qed.

Lemma digit_props c : 48 <= Z.of_N (N_of_ascii c) <= 57 ->
  isdigit c = true /\ isspace c = false /\ beq c "-"%char = false /\ beq c "+"%char = false.
Proof.
  intros H. repeat split.
  - unfold isdigit, code. apply andb_true_iff. split; apply N.leb_le; lia.
  - unfold isspace, code. apply orb_false_iff. split; [apply N.eqb_neq; lia|]. apply andb_false_iff. right. apply N.leb_gt. lia.
  - apply beq_neq. intros ->. cbn in H. lia.
  - apply beq_neq. intros ->. cbn in H. lia.
Qed.

(** [stol] reads a number, ignoring whatever follows that is not a digit. *)
Lemma stol_number s z rest : number_text s z -> isdigit (peek rest) = false ->
  stol (s ++ rest) = if (LONG_MIN <=? z) && (z <=? LONG_MAX) then Some z else None.
Proof.
  intros (ds & (Hne & Hd) & Hs) Hr. destruct ds as [|d ds']; [congruence|].
  assert (Pd : 48 <= Z.of_N (N_of_ascii d) <= 57) by (inversion Hd; assumption).
  destruct (digit_props d Pd) as (D1 & D2 & D3 & D4).
  pose proof (read_digits_run (d :: ds') Hd 0%N rest Hr) as RD. change (Z.of_N 0) with 0 in RD. fold (digits_value (d :: ds')) in RD.
  unfold stol. destruct Hs as [[-> ->]|[[-> ->]|[-> ->]]].
  - cbn [app dropwhile]. rewrite D2. cbv beta iota. rewrite D3, D4. cbn [peek]. rewrite D1. cbv zeta. cbn [app] in RD. rewrite RD. reflexivity.
  - cbn [app dropwhile]. change (isspace "+") with false. cbv iota.
    change (beq "+" "-") with false. change (beq "+" "+") with true. cbv iota. cbn [peek]. rewrite D1. cbv zeta. cbn [app] in RD. rewrite RD. reflexivity.
  - cbn [app dropwhile]. change (isspace "-") with false. cbv iota.
    change (beq "-" "-") with true. cbv iota. cbn [peek]. rewrite D1. cbv zeta. cbn [app] in RD. rewrite RD. reflexivity.
Qed.

Lemma number_nonempty s z : number_text s z -> s <> [].
Proof. intros (ds & (H & _) & [[-> _]|[[-> _]|[-> _]]]); [exact H|discriminate|discriminate]. Qed.

Lemma in_long_b z : in_long z -> (LONG_MIN <=? z) && (z <=? LONG_MAX) = true.
Proof. unfold in_long, LONG_MIN, LONG_MAX. intros H. apply andb_true_iff. rewrite !Z.leb_le. lia. Qed.

Lemma bound_eq cur z : (if z <? 0 then z + cur else z) = bound cur z.
Proof. unfold bound. destruct (z <? 0); lia. Qed.

Lemma query_numbers cur a za b zb : number_text a za -> number_text b zb -> in_long za -> in_long zb ->
  lastmod_strings_to_query cur a b = Some (value_range (bound cur za) (bound cur zb)).
Proof.
  intros Ha Hb La Lb. unfold lastmod_strings_to_query.
  pose proof (stol_number a za [] Ha eq_refl) as Sa. pose proof (stol_number b zb [] Hb eq_refl) as Sb.
  rewrite app_nil_r, in_long_b in Sa, Sb by assumption.
  pose proof (number_nonempty a za Ha). pose proof (number_nonempty b zb Hb).
  destruct a; [congruence|]. destruct b; [congruence|]. rewrite Sa, Sb, !bound_eq. reflexivity.
Qed.
Lemma query_from cur a za : number_text a za -> in_long za ->
  lastmod_strings_to_query cur a [] = Some (value_range (bound cur za) LONG_MAX).
Proof.
  intros Ha La. unfold lastmod_strings_to_query. pose proof (stol_number a za [] Ha eq_refl) as Sa.
  rewrite app_nil_r, in_long_b in Sa by assumption. pose proof (number_nonempty a za Ha). destruct a; [congruence|].
  rewrite Sa, bound_eq. reflexivity.
Qed.
Lemma query_to cur b zb : number_text b zb -> in_long zb ->
  lastmod_strings_to_query cur [] b = Some (value_range 0 (bound cur zb)).
Proof.
  intros Ha La. unfold lastmod_strings_to_query. pose proof (stol_number b zb [] Ha eq_refl) as Sa.
  rewrite app_nil_r, in_long_b in Sa by assumption. pose proof (number_nonempty b zb Ha). destruct b; [congruence|].
  rewrite Sa. cbv beta zeta. rewrite (bound_eq cur zb). reflexivity.
Qed.

(** Numbers printed by notmuch are such texts. *)
Lemma dec_number n : digit_run (dec n) /\ digits_value (dec n) = Z.of_N n.
Proof.
  destruct (dec_fuel_spec (S (N.to_nat (N.log2 n))) n ltac:(lia)) as (H1 & H2 & H3 & _).
  assert (F : Forall (fun c => 48 <= Z.of_N (N_of_ascii c) <= 57) (dec n)).
  { apply Forall_forall. intros c Hc. pose proof (forallb_In _ _ _ H2 Hc) as D. unfold isdigit, code in D.
    apply andb_true_iff in D. rewrite !N.leb_le in D. lia. }
  split; [split; [exact H3|exact F]|].
  pose proof (read_digits_run (dec n) F 0%N [] eq_refl) as R. change (Z.of_N 0) with 0 in R. fold (digits_value (dec n)) in R.
  rewrite <- R. fold (dec n) in H1. rewrite H1. cbn [read_digits fst]. f_equal.
Qed.
Lemma decz_number z : number_text (decz z) z.
Proof.
  destruct z as [|p|p]; cbn [decz].
  - destruct (dec_number 0) as [A B]. exists (dec 0). split; [exact A|]. left. split; [reflexivity|]. now rewrite B.
  - destruct (dec_number (Npos p)) as [A B]. exists (dec (Npos p)). split; [exact A|]. left. split; [reflexivity|]. now rewrite B.
  - destruct (dec_number (Npos p)) as [A B]. exists (dec (Npos p)). split; [exact A|]. right. right. split; [reflexivity|]. now rewrite B.
Qed.
