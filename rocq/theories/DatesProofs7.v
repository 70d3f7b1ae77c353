(** Proofs about Dates.v: documented forms. *)
From Verif Require Import Bytes Decimal Calendar CalendarSpec CalendarProofs Dates DatesSpec DatesProofs DatesProofs2 DatesProofs3 DatesProofs4 DatesProofs5 DatesProofs6.
From Coq Require Import ZArith Lia.
Open Scope Z_scope.

(** ** Numerals. *)
Lemma digit_cases k : 0 <= k <= 9 -> k = 0 \/ k = 1 \/ k = 2 \/ k = 3 \/ k = 4 \/ k = 5 \/ k = 6 \/ k = 7 \/ k = 8 \/ k = 9.
Proof. lia. Qed.
Lemma digit_ok k : 0 <= k <= 9 -> isdigit (DatesSpec.digit k) = true /\ Z.of_N (code (DatesSpec.digit k)) - 48 = k.
Proof. intro H. apply digit_cases in H. repeat (destruct H as [->|H]; [vm_compute; auto|]). subst. vm_compute. auto. Qed.
Lemma pad2_ok n : 0 <= n <= 99 -> forallb isdigit (pad2 n) = true /\ digits_value (pad2 n) = n.
Proof.
  intro H. destruct (digit_ok (n / 10) ltac:(zdm)) as [A1 A2]. destruct (digit_ok (n mod 10) ltac:(zdm)) as [B1 B2].
  unfold pad2, digits_value. cbn [forallb fold_left]. rewrite A1, B1, A2, B2. split; [reflexivity|zdm].
Qed.
Lemma pad4_ok n : 0 <= n <= 9999 -> forallb isdigit (pad4 n) = true /\ digits_value (pad4 n) = n.
Proof.
  intro H. destruct (digit_ok (n / 1000) ltac:(zdm)) as [A1 A2]. destruct (digit_ok (n / 100 mod 10) ltac:(zdm)) as [B1 B2].
  destruct (digit_ok (n / 10 mod 10) ltac:(zdm)) as [C1 C2]. destruct (digit_ok (n mod 10) ltac:(zdm)) as [D1 D2].
  unfold pad4, digits_value. cbn [forallb fold_left]. rewrite A1, B1, C1, D1, A2, B2, C2, D2. split; [reflexivity|zdm].
Qed.
Lemma strtoul_app ds rest v : forallb isdigit ds = true -> isdigit (peek rest) = false -> digits_value ds = v -> v <= 2 ^ 64 - 1 ->
  strtoul_len (ds ++ rest) = (v, Z.of_nat (List.length ds), rest).
Proof.
  intros A P <- B. unfold strtoul_len. rewrite takewhile_app_stop by auto. rewrite dropwhile_app_stop by auto. rewrite Z.min_l by lia. reflexivity.
Qed.
Lemma digits_value_read ds : forall acc, forallb isdigit ds = true ->
  fold_left (fun a c => 10 * a + (Z.of_N (code c) - 48)) ds (Z.of_N acc) = Z.of_N (fst (read_digits acc ds)).
Proof.
  induction ds as [|c ds IH]; intros acc H; [reflexivity|]. cbn [forallb] in H. apply Bool.andb_true_iff in H as [H1 H2].
  cbn [fold_left read_digits]. rewrite H1. rewrite <- (IH _ H2). f_equal.
  pose proof (digit_value c H1). unfold isdigit in H1. apply Bool.andb_true_iff in H1 as [H1 _]. apply N.leb_le in H1. lia.
Qed.
Lemma dec_value n : digits_value (dec n) = Z.of_N n.
Proof.
  unfold digits_value. etransitivity; [exact (digits_value_read (dec n) 0%N (dec_digits n))|].
  pose proof (read_dec_end n [] eq_refl) as K. rewrite app_nil_r in K. rewrite K. reflexivity.
Qed.
Lemma pad2_digit n : 0 <= n <= 99 -> isdigit (peek (pad2 n)) = true.
Proof. intro H. cbn [pad2 peek]. apply digit_ok. zdm. Qed.

(** ** Dates. *)
Definition ymd (y m d : Z) : bytes := pad4 y ++ "-"%char :: pad2 m ++ "-"%char :: pad2 d.
Definition ym (y m : Z) : bytes := pad4 y ++ "-"%char :: pad2 m.
Lemma set3 f1 v1 f2 v2 f3 v3 st : plen st = 0 -> is_set st f1 = false -> is_set st f2 = false -> is_set st f3 = false ->
  field_eqb f2 f1 = false -> field_eqb f3 f1 = false -> field_eqb f3 f2 = false ->
  set_all set_field st [(f1, v1); (f2, v2); (f3, v3)] = Ok (E (E (E st f1 v1) f2 v2) f3 v3).
Proof.
  intros P S1 S2 S3 N1 N2 N3. cbn [set_all]. rewrite set_field_clean by assumption. cbn [bind].
  rewrite set_field_clean by (rewrite ?set_E, ?N1; assumption). cbn [bind]. rewrite set_field_clean by (rewrite ?set_E, ?N2, ?N3; assumption). reflexivity.
Qed.
Lemma set2 f1 v1 f2 v2 st : plen st = 0 -> is_set st f1 = false -> is_set st f2 = false -> field_eqb f2 f1 = false ->
  set_all set_field st [(f1, v1); (f2, v2)] = Ok (E (E st f1 v1) f2 v2).
Proof.
  intros P S1 S2 N1. cbn [set_all]. rewrite set_field_clean by assumption. cbn [bind]. rewrite set_field_clean by (rewrite ?set_E, ?N1; assumption). reflexivity.
Qed.
Lemma digit_not_alpha c : isdigit c = true -> isalpha c = false.
Proof. exact (digit_not_letter c). Qed.
(** one round of the loop on a number. *)
Lemma loop_number fuel st s : isdigit (peek s) = true ->
  parse_loop (S fuel) st s = do p <- parse_number st s; parse_loop fuel (fst p) (snd p).
Proof.
  destruct s as [|c s]; [discriminate|]. cbn [peek]. intro D. cbn [parse_loop]. rewrite (digit_not_alpha c D), D. reflexivity.
Qed.
Definition valid3 (y m d : Z) : bool := is_valid_year y && is_valid_mon m && is_valid_mday d.
Definition st_ymd (st : state) (y m d : Z) : state := E (E (E st YEAR y) MON m) MDAY d.
Lemma parse_number_ymd st y m d rest : 0 <= y <= 9999 -> 0 <= m <= 99 -> 0 <= d <= 99 -> isdigit (peek rest) = false ->
  plen st = 0 -> is_set st YEAR = false -> is_set st MON = false -> is_set st MDAY = false ->
  parse_number st (ymd y m d ++ rest) = if valid3 y m d then Ok (st_ymd st y m d, rest) else Err.
Proof.
  intros Hy Hm Hd HR P S1 S2 S3. destruct (pad4_ok y Hy) as [Y1 Y2]. destruct (pad2_ok m Hm) as [M1 M2]. destruct (pad2_ok d Hd) as [D1 D2].
  unfold ymd. rewrite <- app_assoc. cbn [app]. rewrite <- app_assoc. cbn [app].
  unfold parse_number. rewrite (strtoul_app (pad4 y) ("-"%char :: _) y Y1 eq_refl Y2) by lia. cbn [peek tl].
  assert (PM : forall x, isdigit (peek (pad2 m ++ x)) = true) by (intro x; exact (pad2_digit m Hm)).
  assert (PD : forall x, isdigit (peek (pad2 d ++ x)) = true) by (intro x; exact (pad2_digit d Hd)).
  rewrite PM. change (negb (is_sep "-"%char) || negb true) with false. cbv iota.
  rewrite (strtoul_app (pad2 m) ("-"%char :: _) m M1 eq_refl M2) by lia. cbn [peek tl]. rewrite PD. change (beq "-"%char "-"%char && true) with true. cbv iota.
  rewrite (strtoul_app (pad2 d) rest d D1 HR D2) by lia.
  change (Z.of_nat (List.length (pad4 y))) with 4. change (Z.of_nat (List.length (pad2 m))) with 2. change (Z.of_nat (List.length (pad2 d))) with 2.
  change (beq "-"%char ":"%char) with false. cbv iota. unfold parse_date.
  change (date_fields "-"%char y m d 4 2 2) with (Some (Some y, Some m, Some d)). cbv iota. cbn [opt_valid].
  fold (valid3 y m d). destruct (valid3 y m d); [|reflexivity]. cbn [opt_field app]. rewrite set3 by first [assumption|reflexivity]. reflexivity.
Qed.
Lemma parse_number_ym st y m rest : 0 <= y <= 9999 -> 0 <= m <= 99 -> isdigit (peek rest) = false -> peek rest <> "-"%char ->
  plen st = 0 -> is_set st YEAR = false -> is_set st MON = false ->
  parse_number st (ym y m ++ rest) = if is_valid_year y && is_valid_mon m then Ok (E (E st YEAR y) MON m, rest) else Err.
Proof.
  intros Hy Hm HR HS P S1 S2. destruct (pad4_ok y Hy) as [Y1 Y2]. destruct (pad2_ok m Hm) as [M1 M2].
  unfold ym. rewrite <- app_assoc. cbn [app].
  unfold parse_number. rewrite (strtoul_app (pad4 y) ("-"%char :: _) y Y1 eq_refl Y2) by lia. cbn [peek tl].
  assert (PM : forall x, isdigit (peek (pad2 m ++ x)) = true) by (intro x; exact (pad2_digit m Hm)).
  rewrite PM. change (negb (is_sep "-"%char) || negb true) with false. cbv iota.
  rewrite (strtoul_app (pad2 m) rest m M1 HR M2) by lia.
  destruct (beq (peek rest) "-"%char) eqn:BE; [apply beq_eq in BE; contradiction|]. cbn [andb].
  change (Z.of_nat (List.length (pad4 y))) with 4. change (Z.of_nat (List.length (pad2 m))) with 2.
  change (beq "-"%char ":"%char) with false. cbv iota. unfold parse_date.
  change (date_fields "-"%char y m 0 4 2 0) with (Some (Some y, Some m, @None Z)). cbv iota. cbn [opt_valid]. rewrite Bool.andb_true_r.
  destruct (is_valid_year y && is_valid_mon m); [|reflexivity]. cbn [opt_field app]. rewrite set2 by first [assumption|reflexivity]. reflexivity.
Qed.
Lemma parse_ymd y m d : 0 <= y <= 9999 -> 0 <= m <= 99 -> 0 <= d <= 99 ->
  parse_input (ymd y m d) = if valid3 y m d then Ok (st_ymd init y m d) else Err.
Proof.
  intros Hy Hm Hd. unfold parse_input. change (List.length (ymd y m d)) with 10%nat. rewrite loop_number by (cbn [ymd pad4 app peek]; apply digit_ok; zdm).
  rewrite <- (app_nil_r (ymd y m d)). rewrite parse_number_ymd by (assumption || reflexivity). destruct (valid3 y m d); reflexivity.
Qed.
Lemma parse_ym y m : 0 <= y <= 9999 -> 0 <= m <= 99 ->
  parse_input (ym y m) = if is_valid_year y && is_valid_mon m then Ok (E (E init YEAR y) MON m) else Err.
Proof.
  intros Hy Hm. unfold parse_input. change (List.length (ym y m)) with 7%nat. rewrite loop_number by (cbn [ym pad4 app peek]; apply digit_ok; zdm).
  rewrite <- (app_nil_r (ym y m)). rewrite parse_number_ym by (assumption || reflexivity || discriminate). destruct (is_valid_year y && is_valid_mon m); reflexivity.
Qed.
