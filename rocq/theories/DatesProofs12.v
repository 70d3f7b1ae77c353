(** Proofs about Dates.v: number words, and the documented ways to write a date. *)
From Verif Require Import Bytes Decimal Calendar CalendarSpec CalendarProofs Dates DatesSpec DatesForms DatesProofs DatesProofs2 DatesProofs3 DatesProofs4 DatesProofs5 DatesProofs6 DatesProofs7 DatesProofs8 DatesProofs9 DatesProofs10 DatesProofs11.
From Coq Require Import ZArith Lia.
Open Scope Z_scope.

(** ** Number words. *)
Lemma parse_word_ago nw n w u (a : bool) : In (nw, n) number_words -> In (w, u) unit_words ->
  parse_input (nw ++ lit " " ++ w ++ (if a then lit " ago" else [])) = Ok (set_delim (E init (rel_field u) n) (if a then " "%char else NUL)).
Proof.
  intros I J. unfold number_words in I. unfold unit_words in J. cbn [In] in I, J.
  repeat (destruct I as [I|I]; [injection I as <- <-; repeat (destruct J as [J|J]; [injection J as <- <-; destruct a; vm_compute; reflexivity|]); contradiction|]).
  contradiction.
Qed.
Lemma number_words_range nw n : In (nw, n) number_words -> 0 <= n <= 100.
Proof.
  intro I. unfold number_words in I. cbn [In] in I. repeat (destruct I as [I|I]; [injection I as <- <-; lia|]). contradiction.
Qed.
Theorem word_ago_selects off now nw n w u (a : bool) : -86400 < off < 86400 -> fair_now now -> In (nw, n) number_words -> In (w, u) unit_words ->
  (n + 2) * length_of u + 86400 <= now ->
  exists r, date_single off now (nw ++ lit " " ++ w ++ (if a then lit " ago" else [])) = Ok r /\
    forall ts, in_range r ts = true <-> period date_of off u ts = period date_of off u now - n.
Proof.
  intros HO HN I J LE. pose proof (parse_word_ago nw n w u a I J) as P. pose proof (number_words_range nw n I).
  apply rel_selects with (c := if a then " "%char else NUL); try assumption; lia.
Qed.

(** ** The parser in steps, with enough fuel. *)
Definition parses (st : state) (s : bytes) (st' : state) : Prop := forall fuel, (List.length s <= fuel)%nat -> parse_loop fuel st s = Ok st'.
Lemma parses_input s st : parses init s st -> parse_input s = Ok st.
Proof. intro H. apply H. lia. Qed.
Lemma parses_nil st st' : parse_postponed st = Ok st' -> parses st [] st'.
Proof. intros H fuel _. destruct fuel; exact H. Qed.
Lemma parses_number st s st1 rest st' : isdigit (peek s) = true -> parse_number st s = Ok (st1, rest) -> (List.length rest < List.length s)%nat -> parses st1 rest st' -> parses st s st'.
Proof.
  intros D N L H fuel F. destruct fuel as [|fuel]; [lia|]. rewrite loop_number by exact D. rewrite N. cbn [bind fst snd]. apply H. lia.
Qed.
Lemma parses_word st c s st1 n st' kw : isalpha c = true -> find_keyword keywords (c :: s) = Some (kw, S n) -> kw_apply st kw = Ok st1 -> parses st1 (skipn n s) st' -> parses st (c :: s) st'.
Proof.
  intros A FK K H fuel F. destruct fuel as [|fuel]; [cbn [List.length] in F; lia|]. rewrite loop_word by exact A. unfold parse_keyword. rewrite FK, K. cbn [bind fst snd skipn].
  apply H. rewrite skipn_length. cbn [List.length] in F. lia.
Qed.
Lemma parses_space st s st' : isalnum (peek s) = true -> parses (set_delim st " "%char) s st' -> parses st (" "%char :: s) st'.
Proof.
  intros A H fuel F. cbn [List.length] in F. destruct fuel as [|fuel]; [lia|]. rewrite loop_space by exact A. apply H. lia.
Qed.
(** a space and a sign. *)
Lemma parses_sign st c s st' : isalnum c = false -> isalnum (peek s) = true -> parses (set_delim st c) s st' -> parses st (" "%char :: c :: s) st'.
Proof.
  intros C A H fuel F. cbn [List.length] in F. destruct fuel as [|fuel]; [lia|]. cbn [parse_loop]. change (isalpha " "%char) with false. change (isdigit " "%char) with false. cbv iota.
  cbn [bind]. assert (PD : parse_delim st (" "%char :: c :: s) = (set_delim st c, s)).
  { cbn [parse_delim]. change (isalnum " "%char) with false. cbv iota. rewrite C. destruct s as [|c' s']; [discriminate A|]. cbn [peek] in A. cbn [parse_delim]. rewrite A. reflexivity. }
  rewrite PD. cbn [fst snd]. apply H. lia.
Qed.

(** ** Numerals. *)
Definition numeral (ds : bytes) (v : Z) : Prop := forallb isdigit ds = true /\ ds <> [] /\ digits_value ds = v /\ 0 <= v <= 999999.
Lemma numeral_peek ds v rest : numeral ds v -> isdigit (peek (ds ++ rest)) = true.
Proof. intros (D & N & _). destruct ds as [|c ds]; [contradiction|]. cbn [forallb app peek] in *. apply Bool.andb_true_iff in D. apply D. Qed.
Lemma numeral_strtoul ds v rest : numeral ds v -> isdigit (peek rest) = false -> strtoul_len (ds ++ rest) = (v, Z.of_nat (List.length ds), rest).
Proof. intros (D & N & V & B) R. apply strtoul_app; try assumption. lia. Qed.
Lemma numeral_len ds v : numeral ds v -> (0 < List.length ds)%nat.
Proof. intros (_ & N & _). destruct ds; [contradiction|cbn; lia]. Qed.
Lemma pad2_numeral n : 0 <= n <= 99 -> numeral (pad2 n) n.
Proof. intro H. destruct (pad2_ok n H). repeat split; try assumption; try lia. discriminate. Qed.
Lemma pad4_numeral n : 0 <= n <= 9999 -> numeral (pad4 n) n.
Proof. intro H. destruct (pad4_ok n H). repeat split; try assumption; try lia. discriminate. Qed.
Lemma digit_numeral n : 0 <= n <= 9 -> numeral [DatesSpec.digit n] n.
Proof.
  intro H. destruct (digit_ok n H) as [D V]. repeat split; try lia; try discriminate.
  - cbn [forallb]. rewrite D. reflexivity.
  - unfold digits_value. cbn [fold_left]. rewrite V. lia.
Qed.
Lemma short_numeral n ds : 0 <= n <= 99 -> short_number n ds -> numeral ds n /\ one_or_two (Z.of_nat (List.length ds)) = true.
Proof.
  intros H [-> |[L ->]]; (split; [|reflexivity]); [apply pad2_numeral|apply digit_numeral]; lia.
Qed.
Lemma num_three st sep d1 d2 d3 v1 v2 v3 rest : numeral d1 v1 -> numeral d2 v2 -> numeral d3 v3 -> is_sep sep = true -> isdigit sep = false -> isdigit (peek rest) = false ->
  parse_number st (d1 ++ sep :: d2 ++ sep :: d3 ++ rest) =
  (do st' <- (if beq sep ":"%char then parse_time st v1 v2 v3 (Z.of_nat (List.length d1)) (Z.of_nat (List.length d2)) (Z.of_nat (List.length d3))
              else parse_date st sep v1 v2 v3 (Z.of_nat (List.length d1)) (Z.of_nat (List.length d2)) (Z.of_nat (List.length d3)));
   Ok (st', rest)).
Proof.
  intros N1 N2 N3 S D R. unfold parse_number. rewrite (numeral_strtoul d1 v1 (sep :: _) N1 D). cbn [peek tl]. rewrite S, (numeral_peek d2 v2 _ N2). cbn [negb orb].
  rewrite (numeral_strtoul d2 v2 (sep :: _) N2 D). cbn [peek tl]. rewrite (proj2 (beq_eq _ _) eq_refl), (numeral_peek d3 v3 _ N3). cbn [andb].
  rewrite (numeral_strtoul d3 v3 rest N3 R). reflexivity.
Qed.
Lemma num_two st sep d1 d2 v1 v2 rest : numeral d1 v1 -> numeral d2 v2 -> is_sep sep = true -> isdigit sep = false -> isdigit (peek rest) = false -> is_sep (peek rest) = false ->
  parse_number st (d1 ++ sep :: d2 ++ rest) =
  (do st' <- (if beq sep ":"%char then parse_time st v1 v2 0 (Z.of_nat (List.length d1)) (Z.of_nat (List.length d2)) 0
              else parse_date st sep v1 v2 0 (Z.of_nat (List.length d1)) (Z.of_nat (List.length d2)) 0);
   Ok (st', rest)).
Proof.
  intros N1 N2 S D R RS. unfold parse_number. rewrite (numeral_strtoul d1 v1 (sep :: _) N1 D). cbn [peek tl]. rewrite S, (numeral_peek d2 v2 _ N2). cbn [negb orb].
  rewrite (numeral_strtoul d2 v2 rest N2 R). destruct (beq (peek rest) sep) eqn:K; [|reflexivity]. apply beq_eq in K. rewrite K in RS. congruence.
Qed.
Lemma num_one st d1 v1 rest : numeral d1 v1 -> isdigit (peek rest) = false -> is_sep (peek rest) = false -> delim st <> "@"%char ->
  parse_number st (d1 ++ rest) = (do st' <- set_postponed st v1 (Z.of_nat (List.length d1)); Ok (st', rest)).
Proof.
  intros (D & N & V & B) R S DL. rewrite parse_number_single by (try assumption; lia). rewrite V. unfold parse_single_number.
  destruct (beq (delim st) "@"%char) eqn:K; [apply beq_eq in K; contradiction|]. destruct (Z.ltb_spec int_max v1); [unfold int_max in *; lia|]. reflexivity.
Qed.

(** ** Words in either case. *)
Lemma tolower_idem c : tolower (tolower c) = tolower c.
Proof. apply beq_eq. revert c. apply (byte_sweep (fun c => beq (tolower (tolower c)) (tolower c))). vm_compute. reflexivity. Qed.
Lemma tolower_alpha c : isalpha (tolower c) = isalpha c.
Proof. apply Bool.eqb_prop. revert c. apply (byte_sweep (fun c => Bool.eqb (isalpha (tolower c)) (isalpha c))). vm_compute. reflexivity. Qed.
Lemma match_lower kw : forall w pm n, match_keyword false pm (map tolower w) kw n = match_keyword false pm w kw n.
Proof.
  induction kw as [|k kw IH]; intros w pm n; cbn [match_keyword].
  - destruct w as [|c w]; [reflexivity|]. cbn [map peek]. rewrite tolower_alpha. reflexivity.
  - destruct (beq k "|"%char); [apply IH|]. destruct w as [|c w]; cbn [map peek tl]; [rewrite <- (IH []); reflexivity|].
    rewrite tolower_alpha, tolower_idem, IH. reflexivity.
Qed.
Lemma match_rest mc kw : forall w pm n rest, forallb isalpha w = true -> isalpha (peek rest) = false -> match_keyword mc pm (w ++ rest) kw n = match_keyword mc pm w kw n.
Proof.
  induction kw as [|k kw IH]; intros w pm n rest A R; cbn [match_keyword].
  - destruct w as [|c w]; cbn [app peek]; [rewrite R|]; reflexivity.
  - destruct (beq k "|"%char); [apply IH; assumption|]. destruct w as [|c w]; cbn [app peek tl]; [rewrite R; reflexivity|].
    cbn [forallb] in A. apply Bool.andb_true_iff in A as [A1 A2]. rewrite A1. cbn [negb]. rewrite IH by assumption. reflexivity.
Qed.
Lemma find_ext l s s' : (forall kw, In kw l -> kw_match s kw = kw_match s' kw) -> find_keyword l s = find_keyword l s'.
Proof.
  induction l as [|kw l IH]; intro H; [reflexivity|]. cbn [find_keyword]. rewrite (H kw (or_introl eq_refl)), IH by (intros k K; apply H; right; exact K). reflexivity.
Qed.
(** the keywords with case are single letters. *)
Lemma cased_single kw : In kw keywords -> kw_case kw = true -> exists k, kw_name kw = [k] /\ beq k "|"%char = false.
Proof.
  intros I. assert (K : forallb (fun kw => if kw_case kw then match kw_name kw with [k] => negb (beq k "|"%char) | _ => false end else true) keywords = true) by (vm_compute; reflexivity).
  rewrite forallb_forall in K. specialize (K kw I). intro C. rewrite C in K. destruct (kw_name kw) as [|k [|]]; try discriminate. exists k. split; [reflexivity|]. apply Bool.negb_true_iff, K.
Qed.
Lemma cased_long mc pm c1 c2 w k n : isalpha c2 = true -> beq k "|"%char = false -> match_keyword mc pm (c1 :: c2 :: w) [k] n = if negb (isalpha c1) then if pm then n else 0%nat else 0%nat.
Proof.
  intros A B. cbn [match_keyword]. rewrite B. cbn [peek tl]. destruct (isalpha c1); [|reflexivity]. cbn [negb]. rewrite A. match goal with |- (if ?x then _ else _) = _ => destruct x end; reflexivity.
Qed.
Lemma find_word w rest : forallb isalpha w = true -> (2 <= List.length w)%nat -> isalpha (peek rest) = false -> find_keyword keywords (w ++ rest) = find_keyword keywords (map tolower w).
Proof.
  intros A L R. apply find_ext. intros kw I. unfold kw_match. rewrite match_rest by assumption. destruct (kw_case kw) eqn:C; [|symmetry; apply match_lower].
  destruct (cased_single kw I C) as (k & -> & B). destruct w as [|c1 [|c2 w]]; cbn [List.length] in L; try lia. cbn [map forallb] in *.
  apply Bool.andb_true_iff in A as [A1 A2]. apply Bool.andb_true_iff in A2 as [A2 _]. rewrite !cased_long by (rewrite ?tolower_alpha; assumption). rewrite tolower_alpha. reflexivity.
Qed.
Lemma lower_alpha w : forallb isalpha (map tolower w) = forallb isalpha w.
Proof. induction w as [|c w IH]; [reflexivity|]. cbn [map forallb]. rewrite tolower_alpha, IH. reflexivity. Qed.
Lemma prefixes (b : bytes) : forall b' b'', b = b' ++ b'' -> In b' (map (fun k => firstn k b) (seq 0 (S (List.length b)))).
Proof.
  intros b' b'' ->. apply in_map_iff. exists (List.length b'). split; [rewrite firstn_app, Nat.sub_diag, firstn_O, app_nil_r; apply firstn_all|].
  apply in_seq. rewrite app_length. lia.
Qed.
Definition is_month_kw (m : Z) (kw : keyword) : Prop := kw_set kw = K_MONTH /\ kw_field kw = MON /\ kw_value kw = m.
Lemma month_found m w rest : month_word m w -> isalpha (peek rest) = false ->
  exists c w' kw, w = c :: w' /\ isalpha c = true /\ find_keyword keywords (w ++ rest) = Some (kw, List.length w) /\ is_month_kw m kw.
Proof.
  intros (a & b & b' & b'' & I & EB & EW) R. apply prefixes in EB.
  assert (K : forallb (fun p => let '(a, b, m) := p in forallb (fun b' =>
               forallb isalpha (a ++ b') && (2 <=? List.length (a ++ b'))%nat &&
               match find_keyword keywords (a ++ b') with
               | Some (kw, n) => (n =? List.length (a ++ b'))%nat && match kw_set kw with K_MONTH => true | _ => false end && field_eqb (kw_field kw) MON && (kw_value kw =? m)
               | None => false
               end) (map (fun k => firstn k b) (seq 0 (S (List.length b))))) month_names = true) by (vm_compute; reflexivity).
  rewrite forallb_forall in K. specialize (K _ I). cbv beta iota in K. rewrite forallb_forall in K. specialize (K _ EB). rewrite <- EW in K.
  apply Bool.andb_true_iff in K as [K K3]. apply Bool.andb_true_iff in K as [K1 K2]. apply Nat.leb_le in K2. rewrite map_length in K2, K3. rewrite lower_alpha in K1.
  destruct (find_keyword keywords (map tolower w)) as [[kw n]|] eqn:FK; [|discriminate K3].
  apply Bool.andb_true_iff in K3 as [K3 K7]. apply Bool.andb_true_iff in K3 as [K3 K6]. apply Bool.andb_true_iff in K3 as [K4 K5].
  apply Nat.eqb_eq in K4. apply field_eqb_eq in K6. apply Z.eqb_eq in K7. subst n.
  destruct w as [|c w']; [cbn in K2; lia|]. exists c, w', kw. split; [reflexivity|]. split; [cbn [forallb] in K1; apply Bool.andb_true_iff in K1; apply K1|].
  split; [rewrite find_word by assumption; exact FK|]. repeat split; try assumption. destruct (kw_set kw); try discriminate; reflexivity.
Qed.
