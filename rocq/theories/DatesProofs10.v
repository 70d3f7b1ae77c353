(** Proofs about Dates.v: parsing of relative expressions, words, times. *)
From Verif Require Import Bytes Decimal Calendar CalendarSpec CalendarProofs Dates DatesSpec DatesProofs DatesProofs2 DatesProofs3 DatesProofs4 DatesProofs5 DatesProofs6 DatesProofs7 DatesProofs8 DatesProofs9.
From Coq Require Import ZArith Lia.
Open Scope Z_scope.

Lemma loop_word fuel st c s : isalpha c = true ->
  parse_loop (S fuel) st (c :: s) = do p <- parse_keyword st (c :: s); parse_loop fuel (fst p) (snd p).
Proof. intro A. cbn [parse_loop]. rewrite A. reflexivity. Qed.
(** a space, then something else. *)
Lemma loop_space fuel st s : isalnum (peek s) = true ->
  parse_loop (S fuel) st (" "%char :: s) = parse_loop fuel (set_delim st " "%char) s.
Proof.
  intro A. cbn [parse_loop]. change (isalpha " "%char) with false. change (isdigit " "%char) with false. cbv iota.
  cbn [parse_delim]. change (isalnum " "%char) with false. cbv iota. destruct s as [|c s]; [discriminate A|]. cbn [peek] in A. cbn [parse_delim]. rewrite A. reflexivity.
Qed.
Lemma parse_number_single st ds rest : forallb isdigit ds = true -> isdigit (peek rest) = false -> is_sep (peek rest) = false -> digits_value ds <= 2 ^ 64 - 1 ->
  parse_number st (ds ++ rest) = do st' <- parse_single_number st (digits_value ds) (Z.of_nat (List.length ds)); Ok (st', rest).
Proof.
  intros D R S B. unfold parse_number. rewrite (strtoul_app ds rest (digits_value ds) D R eq_refl B). rewrite S. reflexivity.
Qed.
Lemma dec_len n : 1 <= Z.of_nat (List.length (dec n)).
Proof. pose proof (dec_nonempty n). destruct (dec n); [contradiction|]. cbn [List.length]. lia. Qed.
(** the state with a postponed number. *)
Definition pending (v n : Z) (d : byte) : state := mk_state (val init) (fset_ init) None d n v NUL.
Lemma number_first n rest : Z.of_N n <= int_max -> isdigit (peek rest) = false -> is_sep (peek rest) = false ->
  parse_number init (dec n ++ rest) = Ok (pending (Z.of_N n) (Z.of_nat (List.length (dec n))) NUL, rest).
Proof.
  intros B R S. rewrite parse_number_single; [|apply dec_digits|exact R|exact S|rewrite dec_value; unfold int_max in B; lia].
  rewrite dec_value. unfold parse_single_number. change (beq (delim init) "@"%char) with false. cbv iota.
  destruct (Z.ltb_spec int_max (Z.of_N n)); [lia|]. reflexivity.
Qed.
Lemma dec_peek n rest : isdigit (peek (dec n ++ rest)) = true.
Proof. pose proof (dec_nonempty n). pose proof (dec_digits n) as D. destruct (dec n) as [|c l]; [contradiction|]. cbn [forallb app peek] in *. apply Bool.andb_true_iff in D. apply D. Qed.

Definition rel_kw (f : field) (kw : keyword) : Prop := kw_set kw = K_REL /\ kw_field kw = f /\ kw_value kw = 1.
Lemma rel_apply kw f v n d : rel_kw f kw -> n <> 0 -> 0 <= v <= int_max -> kw_apply (pending v n d) kw = Ok (E init f v).
Proof.
  intros (S & F & V) N B. unfold kw_apply. rewrite S, V, F. cbn [plen pending pval]. apply Z.eqb_neq in N. rewrite N. cbv iota.
  replace (v * 1) with v by lia. assert (FI : fits_int v = true) by (apply fits_iff; unfold int_max in *; lia). rewrite FI.
  unfold add_to_field. change (parse_postponed (mark (no_postponed (pending v n d)) f SET_)) with (Ok (mark (no_postponed (pending v n d)) f SET_)). cbn [bind].
  change (val (mark (no_postponed (pending v n d)) f SET_) f) with 0. change (0 + v) with v. rewrite FI. reflexivity.
Qed.
(** the words for units, alone and before " ago". *)
Definition unit_table : list (bytes * unit_of_time) := unit_words.
Lemma unit_found w u tail : In (w, u) unit_words -> tail = [] \/ tail = lit " ago" ->
  exists kw, find_keyword keywords (w ++ tail) = Some (kw, List.length w) /\ rel_kw (rel_field u) kw.
Proof.
  intros I HT. unfold unit_words in I. cbn [In] in I.
  repeat (destruct I as [I|I]; [injection I as <- <-; destruct HT as [-> | ->]; (eexists; split; [vm_compute; reflexivity|repeat split])|]).
  contradiction.
Qed.
Lemma unit_alpha w u : In (w, u) unit_words -> exists c w', w = c :: w' /\ isalpha c = true.
Proof.
  intro I. unfold unit_words in I. cbn [In] in I.
  repeat (destruct I as [I|I]; [injection I as <- <-; cbn [lit]; eexists; eexists; split; [reflexivity|reflexivity]|]). contradiction.
Qed.
Lemma alpha_alnum c : isalpha c = true -> isalnum c = true.
Proof. unfold isalpha, isalnum. destruct (isupper c), (islower c), (isdigit c); cbn; congruence. Qed.
Definition ago (n : N) (w : bytes) (with_ago : bool) : bytes := dec n ++ " "%char :: w ++ (if with_ago then lit " ago" else []).
Theorem parse_ago n w u a : Z.of_N n <= int_max -> In (w, u) unit_words ->
  exists c, parse_input (ago n w a) = Ok (set_delim (E init (rel_field u) (Z.of_N n)) c).
Proof.
  intros B I. destruct (unit_alpha w u I) as (c0 & w' & -> & A0).
  set (tail := if a then lit " ago" else []). assert (HT : tail = [] \/ tail = lit " ago") by (unfold tail; destruct a; auto).
  destruct (unit_found (c0 :: w') u tail I HT) as (kw & FK & RK).
  unfold parse_input, ago. fold tail.
  assert (FL : exists k, List.length (dec n ++ " "%char :: (c0 :: w') ++ tail) = S (S (S (k + List.length tail)))).
  { pose proof (dec_nonempty n) as NE. destruct (dec n) as [|d0 l]; [contradiction|]. exists (List.length l + List.length w')%nat. rewrite app_length. cbn [List.length app]. rewrite app_length. lia. }
  destruct FL as (k & ->).
  rewrite loop_number by apply dec_peek. rewrite number_first by (assumption || reflexivity). cbn [bind fst snd].
  rewrite loop_space by (cbn [app peek]; apply alpha_alnum, A0). cbn [app]. rewrite loop_word by exact A0.
  unfold parse_keyword. change (c0 :: w' ++ tail) with ((c0 :: w') ++ tail). rewrite FK.
  change (set_delim (pending (Z.of_N n) (Z.of_nat (List.length (dec n))) NUL) " "%char) with (pending (Z.of_N n) (Z.of_nat (List.length (dec n))) " "%char).
  rewrite (rel_apply kw _ _ _ _ RK) by (pose proof (dec_len n); lia). cbn [bind fst snd].
  rewrite skipn_app, skipn_all, Nat.sub_diag. cbn [skipn app].
  destruct a; cbn [tail].
  - exists " "%char. unfold tail. cbn [lit String.list_ascii_of_string List.length]. rewrite Nat.add_succ_r.
    change (lit " ago") with (" "%char :: lit "ago"). rewrite loop_space by reflexivity. rewrite !Nat.add_succ_r. cbn [lit String.list_ascii_of_string]. rewrite loop_word by reflexivity.
    unfold parse_keyword. assert (FA : find_keyword keywords ["a"; "g"; "o"]%char = Some (K "ago" SEC 0 K_IGNORE, 3%nat)) by (vm_compute; reflexivity). rewrite FA.
    destruct u; reflexivity.
  - exists NUL. unfold tail. destruct (k + List.length (A := byte) [])%nat; destruct u; reflexivity.
Qed.
Theorem ago_selects off now n w u a : -86400 < off < 86400 -> fair_now now -> In (w, u) unit_words -> Z.of_N n <= 100000000 ->
  (Z.of_N n + 2) * length_of u + 86400 <= now ->
  exists r, date_single off now (ago n w a) = Ok r /\
    forall ts, in_range r ts = true <-> period date_of off u ts = period date_of off u now - Z.of_N n.
Proof.
  intros HO HN I B LE. destruct (parse_ago n w u a ltac:(unfold int_max; lia) I) as (c & P).
  apply rel_selects with (c := c); try assumption; lia.
Qed.
(** yesterday. *)
Theorem yesterday_selects off now : -86400 < off < 86400 -> fair_now now -> 400000 <= now ->
  exists r, date_single off now (lit "yesterday") = Ok r /\
    forall ts, in_range r ts = true <-> period date_of off Day ts = period date_of off Day now - 1.
Proof.
  intros HO HN LE. apply rel_selects with (c := NUL); try assumption; try lia; first [reflexivity|cbn [at_most]; lia].
Qed.

(** ** @N. *)
Lemma loop_delim fuel st c s : isalpha c = false -> isdigit c = false ->
  parse_loop (S fuel) st (c :: s) = parse_loop fuel (fst (parse_delim st (c :: s))) (snd (parse_delim st (c :: s))).
Proof. intros A D. cbn [parse_loop]. rewrite A, D. reflexivity. Qed.
Lemma loop_end fuel st : plen st = 0 -> parse_loop fuel st [] = Ok st.
Proof. intro P. destruct fuel; cbn [parse_loop]; unfold parse_postponed; rewrite P; reflexivity. Qed.
Definition at_ (n : N) : bytes := "@"%char :: dec n.
Definition st_at (t : Z) (b : tm) : state :=
  E (E (E (E (E (E (E init SEC (t_sec b)) MIN (t_min b)) HOUR (t_hour b)) MDAY (t_mday b)) MON (t_mon b)) YEAR (t_year b)) TZ 0.
Lemma at_fields a1 a2 a3 a4 a5 a6 :
  set_all set_field (set_delim init "@"%char) [(SEC, a1); (MIN, a2); (HOUR, a3); (MDAY, a4); (MON, a5); (YEAR, a6); (TZ, 0)] =
  Ok (E (E (E (E (E (E (E init SEC a1) MIN a2) HOUR a3) MDAY a4) MON a5) YEAR a6) TZ 0).
Proof.
  cbn [set_all]. rewrite set_field_clean by reflexivity. change (E (set_delim init "@"%char) SEC a1) with (E init SEC a1). cbn [bind].
  do 6 (rewrite set_field_clean by (first [reflexivity|rewrite !set_E; reflexivity]); cbn [bind]). reflexivity.
Qed.
Lemma number_at n : Z.of_N n <= 800000000000000 ->
  parse_number (set_delim init "@"%char) (dec n ++ []) = Ok (st_at (Z.of_N n) (break_down (Z.of_N n)), []).
Proof.
  intro B. rewrite parse_number_single; [|apply dec_digits|reflexivity|reflexivity|rewrite dec_value; lia].
  rewrite dec_value. unfold parse_single_number. change (beq (delim (set_delim init "@"%char)) "@"%char) with true. cbv iota.
  unfold to_time_t. destruct (Z.ltb_spec (Z.of_N n) (2 ^ 63)); [|lia].
  unfold set_timestamp. rewrite gmtime_rng by (unfold rng; lia).
  pose proof (tm_get_bound (Z.of_N n) YEAR ltac:(lia) eq_refl) as YB. cbn [tm_get] in YB. rewrite (proj2 (fits_iff _)) by lia.
  unfold st_at. set (b := break_down (Z.of_N n)). clearbody b. cbv zeta. cbn [negb]. rewrite at_fields. reflexivity.
Qed.
Lemma parse_at n : Z.of_N n <= 800000000000000 -> parse_input (at_ n) = Ok (st_at (Z.of_N n) (break_down (Z.of_N n))).
Proof.
  intro B. unfold parse_input, at_. cbn [List.length]. assert (FL : exists k, List.length (dec n) = S k) by (pose proof (dec_nonempty n); destruct (dec n); [contradiction|eexists; reflexivity]).
  destruct FL as (k & FL). rewrite FL. rewrite loop_delim by reflexivity.
  assert (PD0 : parse_delim init ("@"%char :: dec n) = parse_delim (set_delim init "@"%char) (dec n)) by reflexivity. rewrite PD0.
  assert (PD : parse_delim (set_delim init "@"%char) (dec n) = (set_delim init "@"%char, dec n)).
  { pose proof (dec_peek n []) as D. rewrite app_nil_r in D. destruct (dec n) as [|c l]; [reflexivity|]. cbn [peek] in D. cbn [parse_delim].
    assert (A : isalnum c = true) by (unfold isalnum; rewrite D; destruct (isupper c), (islower c); reflexivity). rewrite A. reflexivity. }
  rewrite PD. cbn [fst snd].
  rewrite loop_number by (pose proof (dec_peek n []) as D; rewrite app_nil_r in D; exact D).
  pose proof (number_at n B) as PN. rewrite app_nil_r in PN. rewrite PN. cbn [bind fst snd]. apply loop_end. reflexivity.
Qed.
Theorem at_selects off now n : fair_now now -> Z.of_N n <= 800000000000000 ->
  exists r, date_single off now (at_ n) = Ok r /\ forall ts, in_range r ts = true <-> ts = Z.of_N n.
Proof.
  intros HN B. pose proof (parse_at n B) as P. set (b0 := break_down (Z.of_N n)) in *. set (st := st_at (Z.of_N n) b0) in *. unfold fair_now in HN.
  set (b := break_down (now + 0)).
  assert (FN : fill_now st b = st) by (apply fill_now_id; intro f; destruct f; reflexivity).
  assert (PR : prep b st = Ok st) by (rewrite prep_simple by reflexivity; rewrite FN; reflexivity).
  assert (Bd : bounded st 40000000).
  { assert (TB : forall f, is_abs f = true -> 0 <= tm_get b0 f <= 40000000) by (intros f A; apply tm_get_bound; [lia|exact A]).
    pose proof (TB SEC eq_refl). pose proof (TB MIN eq_refl). pose proof (TB HOUR eq_refl). pose proof (TB MDAY eq_refl). pose proof (TB MON eq_refl). pose proof (TB YEAR eq_refl). cbn [tm_get] in *.
    unfold st, st_at. repeat apply bounded_E; try lia. intro f. cbn. lia. }
  assert (SD : forall r, seconds (moment b r st) = Z.of_N n).
  { intro r. assert (K : moment b r st = mk_tm (t_sec b0 - 0) (t_min b0 - 0) (t_hour b0 - 0) (t_mday b0 - 0 - 0) (t_mon b0 - 0) (t_year b0 - 0) 0) by (destruct r; reflexivity).
    rewrite K. rewrite !Z.sub_0_r. apply seconds_break_down. }
  destruct (plain_bounds off now (at_ n) st st Second 40000000 0 _ _ P PR Bd ltac:(lia) eq_refl ltac:(unfold rng; lia) eq_refl ltac:(discriminate) (SD _) (SD _)) as (r & E1 & E2);
    unfold rng; try lia.
  exists r. split; [exact E1|]. intro ts. rewrite E2. lia.
Qed.

(** ** Today, and the days of the week. *)
Definition st_today : state :=
  Eval cbv in match parse_input (lit "today") with Ok st => st | _ => init end.
Lemma today_parse : parse_input (lit "today") = Ok st_today.
Proof. vm_compute. reflexivity. Qed.
Lemma day_near T : rng T -> -12 <= T / 86400 <= 10416666667.
Proof. unfold rng. intro H. zdm. Qed.
Theorem today_selects off now : near off -> fair_now now -> 86400 <= now ->
  exists r, date_single off now (lit "today") = Ok r /\
    forall ts, in_range r ts = true <-> (ts + off) / 86400 = (now + off) / 86400.
Proof.
  intros [HO HO2] HN LE. unfold fair_now in HN. set (T := now + off). set (b := break_down T).
  destruct (break_down_parts T) as (M & D & _). fold b in M, D.
  assert (PR : prep b st_today = Ok (fill_now st_today b)) by (rewrite prep_simple by reflexivity; reflexivity).
  assert (B : bounded (fill_now st_today b) 40000000).
  { intro f. rewrite fill_now_val. destruct (is_abs f && is_now st_today f) eqn:A; [|destruct f; cbn; lia]. apply Bool.andb_true_iff in A as [A _].
    pose proof (tm_get_bound T f ltac:(unfold T; lia) A) as K. fold b in K. lia. }
  assert (SD : seconds (moment b ROUND_DOWN (fill_now st_today b)) = 86400 * (T / 86400)).
  { assert (K : moment b ROUND_DOWN (fill_now st_today b) = mk_tm 0 0 0 (t_mday b - 0 - 0) (t_mon b - 0) (t_year b - 0) 0) by reflexivity.
    rewrite K, seconds_lin, !Z.sub_0_r. lia. }
  assert (SU : seconds (moment b ROUND_UP_INCLUSIVE (fill_now st_today b)) = 86400 * (T / 86400) + 86399).
  { assert (K : moment b ROUND_UP_INCLUSIVE (fill_now st_today b) = mk_tm (-1) 0 0 (t_mday b - -1 - 0) (t_mon b - 0) (t_year b - 0) 0) by reflexivity.
    rewrite K, seconds_lin, !Z.sub_0_r. lia. }
  destruct (plain_bounds off now (lit "today") st_today (fill_now st_today b) Day 40000000 off _ _ today_parse PR B ltac:(lia) eq_refl ltac:(unfold rng; lia) eq_refl ltac:(discriminate) SD SU) as (r & E1 & E2); unfold rng, T in *; try (zdm; fail).
  exists r. split; [exact E1|]. intro ts. rewrite E2. zdm.
Qed.
Lemma weekday_parse w k : In (w, k) weekday_words -> parse_input w = Ok (E init WDAY k).
Proof.
  intro I. unfold weekday_words in I. cbn [In] in I.
  repeat (destruct I as [I|I]; [injection I as <- <-; reflexivity|]). contradiction.
Qed.
Lemma weekday_range w k : In (w, k) weekday_words -> 0 <= k <= 6.
Proof. intro I. unfold weekday_words in I. cbn [In] in I. repeat (destruct I as [I|I]; [injection I as <- <-; lia|]). contradiction. Qed.
Theorem weekday_selects off now w k : near off -> fair_now now -> 1000000 <= now -> In (w, k) weekday_words ->
  exists r, date_single off now w = Ok r /\
    forall ts, in_range r ts = true <->
      (now + off) / 86400 - 7 <= (ts + off) / 86400 < (now + off) / 86400 /\ ((ts + off) / 86400 + 4) mod 7 = k.
Proof.
  intros [HO HO2] HN LE I. unfold fair_now in HN. set (T := now + off). set (b := break_down T).
  pose proof (weekday_parse w k I) as P. pose proof (weekday_range w k I) as KR.
  destruct (break_down_parts T) as (M & D & _ & _ & _ & _ & MB & WD). fold b in M, D, WD, MB.
  set (rd := if k <? t_wday b then t_wday b - k else t_wday b + 7 - k).
  assert (RD : 1 <= rd <= 7 /\ (t_wday b - rd - k) mod 7 = 0) by (unfold rd; destruct (Z.ltb_spec k (t_wday b)); split; rewrite WD in *; zdm).
  set (st2 := week_clear (E (E init WDAY k) RDAY rd)).
  assert (PR : prep b (E init WDAY k) = Ok st2).
  { unfold prep. rewrite fill_now_id by (intro f; destruct f; reflexivity). unfold weekday.
    change (is_set (E init WDAY k) WDAY && negb (is_set (E init WDAY k) MDAY)) with true. cbv iota. change (val (E init WDAY k) WDAY) with k. fold rd.
    rewrite add_clean by reflexivity. change (val (E init WDAY k) RDAY + rd) with rd. rewrite (proj2 (fits_iff rd)) by lia. reflexivity. }
  assert (B : bounded st2 40000000).
  { intro f. unfold st2. rewrite val_wc, !val_E. destruct (field_eqb f WDAY); [lia|]. destruct (field_eqb f RDAY); [lia|]. cbn. lia. }
  assert (SD : seconds (moment b ROUND_DOWN st2) = 86400 * (T / 86400 - rd)).
  { assert (K : moment b ROUND_DOWN st2 = mk_tm 0 0 0 (t_mday b - (rd + 0) - 0) (t_mon b - 0) (t_year b - 0) 0) by reflexivity.
    rewrite K, seconds_lin, !Z.sub_0_r. lia. }
  assert (SU : seconds (moment b ROUND_UP_INCLUSIVE st2) = 86400 * (T / 86400 - rd) + 86399).
  { assert (K : moment b ROUND_UP_INCLUSIVE st2 = mk_tm (-1) 0 0 (t_mday b - (rd + -1) - 0) (t_mon b - 0) (t_year b - 0) 0) by reflexivity.
    rewrite K, seconds_lin, !Z.sub_0_r. lia. }
  destruct RD as [RD1 RD2]. rewrite WD in RD2. clearbody rd.
  destruct (plain_bounds off now w (E init WDAY k) st2 Day 40000000 off _ _ P PR B ltac:(lia) eq_refl ltac:(unfold rng; lia) eq_refl ltac:(discriminate) SD SU) as (r & E1 & E2); unfold rng, T in *; try (zdm; fail).
  exists r. split; [exact E1|]. intro ts. rewrite E2. clear - RD1 RD2 KR. set (t := (now + off) / 86400) in *. zdm.
Qed.
