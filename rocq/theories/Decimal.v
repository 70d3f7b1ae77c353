(** Decimal output of integers (external: printf "%u", "%d", PRId64) and reading digits. *)
From Verif Require Import Bytes.
Local Open Scope N_scope.

(** one digit of printf %d (C library). *)
Definition digit (d : N) : byte := chr (48 + d).
(** printf %d by repeated division (C library). *)
Fixpoint dec_fuel (fuel : nat) (n : N) : bytes :=
  match fuel with
  | O => []
  | S f => if N.ltb n 10 then [digit n] else dec_fuel f (n / 10) ++ [digit (n mod 10)]
  end.
(** "%u". *)
Definition dec (n : N) : bytes := dec_fuel (S (N.to_nat (N.log2 n))) n.
(** "%d". *)
Definition decz (z : Z) : bytes :=
  match z with Z0 => dec 0 | Zpos p => dec (Npos p) | Zneg p => "-"%char :: dec (Npos p) end.

(** The value of a run of digits. *)
Fixpoint read_digits (acc : N) (s : bytes) : N * bytes :=
  match s with
  | c :: s' => if isdigit c then read_digits (10 * acc + (code c - 48)) s' else (acc, s)
  | [] => (acc, [])
  end.

Lemma digit_code d : d < 10 -> code (digit d) = 48 + d.
Proof. intros H. unfold digit. apply code_chr. lia. Qed.
Lemma digit_isdigit d : d < 10 -> isdigit (digit d) = true.
Proof. intros H. unfold isdigit. rewrite digit_code by lia. apply andb_true_iff. split; apply N.leb_le; lia. Qed.
Lemma digit_cases d : d < 10 -> In d [0;1;2;3;4;5;6;7;8;9].
Proof. intros H. cbn. lia. Qed.

Lemma log2_div10 n : 10 <= n -> (N.to_nat (N.log2 (n / 10)) < N.to_nat (N.log2 n))%nat.
Proof.
  intros H. assert (A : N.log2 (n / 10) < N.log2 n); [|lia]. apply N.log2_lt_pow2; [apply N.div_str_pos; lia|].
  pose proof (N.log2_spec n ltac:(lia)) as [L1 L2]. apply N.lt_le_trans with (n / 2).
  - assert (n / 10 < n / 2); [|lia]. apply N.le_lt_trans with (n / 5); [apply N.div_le_compat_l; lia|].
    apply N.lt_le_trans with (n/5 + 1); [lia|]. apply N.div_le_lower_bound; [lia|]. pose proof (N.mul_div_le n 5 ltac:(lia)). assert (2 <= n / 5) by (apply N.div_le_lower_bound; lia). lia.
  - rewrite N.pow_succ_r' in L2. apply N.lt_le_incl, N.div_lt_upper_bound; lia.
Qed.
Lemma dec_fuel_spec f : forall n, (N.to_nat (N.log2 n) < f)%nat ->
  (forall a s, read_digits a (dec_fuel f n ++ s) = read_digits (a * 10 ^ N.of_nat (length (dec_fuel f n)) + n) s) /\
  forallb isdigit (dec_fuel f n) = true /\ dec_fuel f n <> [] /\ (0 < n -> peek (dec_fuel f n) <> "0"%char).
Proof.
  induction f as [|f IH]; intros n H; [lia|]. cbn [dec_fuel]. destruct (N.ltb_spec n 10) as [L|L].
  - split; [|split; [|split]].
    + intros a s. cbn [app read_digits length]. rewrite digit_isdigit by lia. rewrite digit_code by lia. f_equal. change (N.of_nat 1) with 1. lia.
    + cbn. rewrite digit_isdigit by lia. reflexivity.
    + discriminate.
    + intros Hn X. apply (f_equal code) in X. cbn [peek] in X. rewrite digit_code in X by lia. change (code "0") with 48 in X. lia.
  - assert (Hm : n mod 10 < 10) by (apply N.mod_lt; lia).
    destruct (IH (n / 10)) as (I1 & I2 & I3 & I4). { pose proof (log2_div10 n L). lia. }
    split; [|split; [|split]].
    + intros a s. rewrite <- app_assoc, I1. cbn [app read_digits]. rewrite digit_isdigit by exact Hm. rewrite digit_code by exact Hm.
      f_equal. rewrite app_length. cbn [length]. rewrite Nat2N.inj_add. change (N.of_nat 1) with 1. rewrite N.pow_add_r, N.pow_1_r.
      pose proof (N.div_mod' n 10) as D. rewrite N.mul_assoc. generalize dependent (a * 10 ^ N.of_nat (length (dec_fuel f (n / 10)))). intros P. clear -D Hm. revert D Hm. generalize (n / 10) (n mod 10). intros q m D Hm. replace (48 + m - 48) with m by lia. lia.
    + rewrite forallb_app, I2. cbn. rewrite digit_isdigit by exact Hm. reflexivity.
    + destruct (dec_fuel f (n / 10)); discriminate.
    + intros _. destruct (dec_fuel f (n / 10)) eqn:E; [congruence|]. cbn [app peek] in *. apply I4. apply N.div_str_pos. lia.
Qed.
Lemma read_dec a n s : read_digits a (dec n ++ s) = read_digits (a * 10 ^ N.of_nat (length (dec n)) + n) s.
Proof. apply dec_fuel_spec. lia. Qed.
Lemma dec_digits n : forallb isdigit (dec n) = true.
Proof. apply dec_fuel_spec. lia. Qed.
Lemma dec_nonempty n : dec n <> [].
Proof. apply dec_fuel_spec. lia. Qed.
Lemma dec_no_zero n : 0 < n -> peek (dec n) <> "0"%char.
Proof. apply dec_fuel_spec. lia. Qed.
Lemma dec_zero : dec 0 = ["0"%char].
Proof. reflexivity. Qed.
Lemma read_dec_end n s : isdigit (peek s) = false -> read_digits 0 (dec n ++ s) = (n, s).
Proof. intros H. rewrite read_dec. rewrite N.mul_0_l, N.add_0_l. destruct s as [|c s]; [reflexivity|]. cbn [peek] in H. cbn. now rewrite H. Qed.
Lemma dec_inj a b : dec a = dec b -> a = b.
Proof.
  intros H. assert (X : read_digits 0 (dec a ++ []) = read_digits 0 (dec b ++ [])) by now rewrite H.
  rewrite !read_dec_end in X by reflexivity. congruence.
Qed.
