(** Proofs about Dates.v: the state after a documented date and time, and zone. *)
From Verif Require Import Bytes Decimal Calendar CalendarSpec CalendarProofs Dates DatesSpec DatesForms DatesProofs DatesProofs2 DatesProofs3 DatesProofs4 DatesProofs5 DatesProofs6 DatesProofs7 DatesProofs8 DatesProofs9 DatesProofs10 DatesProofs11 DatesProofs12 DatesProofs13.
From Coq Require Import ZArith Lia.
Open Scope Z_scope.

Definition opt_E (st : state) (f : field) (v : option Z) : state := match v with Some v => E st f v | None => st end.
(** the date, the time and am or pm are known. *)
Definition clock_state (y m d h mi : Z) (sec ap : option Z) : state := opt_E (opt_E (E (E (st_ymd init y m d) HOUR h) MIN mi) SEC sec) AMPM ap.
Definition timed (st : state) (y m d h mi : Z) (sec ap : option Z) : Prop :=
  delim st <> "@"%char /\ plen st = 0 /\ same st (clock_state y m d h mi sec ap) /\ last st <> Some MON.
Lemma set_next st st0 f v : plen st = 0 -> same st st0 -> is_set st0 f = false -> set_field st f v = Ok (E st f v) /\ same (E st f v) (E st0 f v).
Proof. intros P S F. split; [apply set_field_clean; [exact P|rewrite (same_set _ _ f S); exact F]|apply same_E, S]. Qed.
Lemma same_opt_E st st0 f v : same st st0 -> same (opt_E st f v) (opt_E st0 f v).
Proof. destruct v; [apply same_E|exact (fun x => x)]. Qed.

(** setting hour, minute and perhaps second after the date. *)
Lemma set_clock st y m d h mi sec : 1970 <= y -> dated st y m d ->
  exists st1, set_all set_field st ([(HOUR, h); (MIN, mi)] ++ match sec with None => [] | Some s => [(SEC, s)] end) = Ok st1 /\ timed st1 y m d h mi sec None.
Proof.
  intros Y D. destruct (dated_set_field st y m d HOUR h Y D eq_refl) as (st1 & E1 & P1 & S1). cbn [app set_all]. rewrite E1. cbn [bind].
  destruct (set_next st1 _ MIN mi P1 S1 eq_refl) as [E2 S2]. rewrite E2. cbn [bind].
  destruct sec as [s|]; cbn [set_all].
  - destruct (set_next (E st1 MIN mi) _ SEC s P1 S2 eq_refl) as [E3 S3]. rewrite E3. cbn [bind]. eexists. split; [reflexivity|].
    split; [discriminate|]. split; [exact P1|]. split; [exact S3|discriminate].
  - eexists. split; [reflexivity|]. split; [discriminate|]. split; [exact P1|]. split; [exact S2|discriminate].
Qed.
Lemma dated_no_hour st y m d : dated st y m d -> is_set st HOUR = false.
Proof. intros [_ [(_ & S & _)|(_ & _ & S)]]; rewrite (same_set _ _ HOUR S); reflexivity. Qed.
Lemma time_ok st y m d h mi sec n1 : 1970 <= y -> dated st y m d -> 0 <= h <= 23 -> 0 <= mi <= 59 -> (forall s, sec = Some s -> 0 <= s <= 59) -> one_or_two n1 = true ->
  exists st1, parse_time st h mi (match sec with Some s => s | None => 0 end) n1 2 (match sec with Some _ => 2 | None => 0 end) = Ok st1 /\ timed st1 y m d h mi sec None.
Proof.
  intros Y D H M S O. destruct (set_clock st y m d h mi sec Y D) as (st1 & E1 & T1). exists st1. split; [|exact T1].
  unfold parse_time. rewrite O, (dated_no_hour _ _ _ _ D). change (2 =? 2) with true. cbn [andb negb orb].
  assert (V : is_valid_time h mi match sec with Some s => s | None => 0 end = true).
  { apply valid_time_iff; try lia; destruct sec as [s|]; try lia; specialize (S s eq_refl); lia. }
  destruct sec as [s|]; cbn [Z.eqb Pos.eqb orb negb]; rewrite V; exact E1.
Qed.

(** words again: am, pm, noon, midnight and the zones. *)
Lemma word_found l (P : bytes -> keyword -> bool) : forallb (fun w => forallb isalpha w && (2 <=? List.length w)%nat && match find_keyword keywords w with Some (kw, n) => (n =? List.length w)%nat && P w kw | None => false end) l = true ->
  forall w rest, In (map tolower w) l -> isalpha (peek rest) = false ->
  exists c w' kw, w = c :: w' /\ isalpha c = true /\ find_keyword keywords (w ++ rest) = Some (kw, List.length w) /\ P (map tolower w) kw = true.
Proof.
  intros K w rest I R. rewrite forallb_forall in K. specialize (K _ I). apply Bool.andb_true_iff in K as [K K3]. apply Bool.andb_true_iff in K as [K1 K2].
  apply Nat.leb_le in K2. rewrite map_length in K2, K3. rewrite lower_alpha in K1. destruct (find_keyword keywords (map tolower w)) as [[kw n]|] eqn:FK; [|discriminate K3].
  apply Bool.andb_true_iff in K3 as [K4 K5]. apply Nat.eqb_eq in K4. subst n.
  destruct w as [|c w']; [cbn in K2; lia|]. exists c, w', kw. split; [reflexivity|]. split; [cbn [forallb] in K1; apply Bool.andb_true_iff in K1; apply K1|].
  split; [rewrite find_word by assumption; exact FK|exact K5].
Qed.
Definition pm_value (pm : bool) : Z := if pm then 1 else 0.
Lemma half_found pm w rest : map tolower w = half pm -> isalpha (peek rest) = false ->
  exists c w' kw, w = c :: w' /\ isalpha c = true /\ find_keyword keywords (w ++ rest) = Some (kw, List.length w) /\ kw_set kw = K_AMPM /\ kw_field kw = AMPM /\ kw_value kw = pm_value pm.
Proof.
  intros EW R. destruct (word_found [half true; half false] (fun w kw => match kw_set kw with K_AMPM => true | _ => false end && field_eqb (kw_field kw) AMPM && (kw_value kw =? pm_value (bseq w (half true)))) ltac:(vm_compute; reflexivity) w rest) as (c & w' & kw & Hw & A & FK & K).
  - rewrite EW. destruct pm; cbn [In]; auto.
  - exact R.
  - exists c, w', kw. split; [exact Hw|]. split; [exact A|]. split; [exact FK|]. apply Bool.andb_true_iff in K as [K K3]. apply Bool.andb_true_iff in K as [K1 K2].
    apply field_eqb_eq in K2. apply Z.eqb_eq in K3. rewrite EW in K3. repeat split; [destruct (kw_set kw); try discriminate K1; reflexivity|exact K2|]. rewrite K3. destruct pm; reflexivity.
Qed.
Lemma noon_found (noon : bool) w rest : map tolower w = (if noon then lit "noon" else lit "midnight") -> isalpha (peek rest) = false ->
  exists c w' kw, w = c :: w' /\ isalpha c = true /\ find_keyword keywords (w ++ rest) = Some (kw, List.length w) /\ kw_set kw = K_TIMEOFDAY /\ kw_value kw = if noon then 12 else 0.
Proof.
  intros EW R. destruct (word_found [lit "noon"; lit "midnight"] (fun w kw => match kw_set kw with K_TIMEOFDAY => true | _ => false end && (kw_value kw =? if bseq w (lit "noon") then 12 else 0)) ltac:(vm_compute; reflexivity) w rest) as (c & w' & kw & Hw & A & FK & K).
  - rewrite EW. destruct noon; cbn [In]; auto.
  - exact R.
  - exists c, w', kw. split; [exact Hw|]. split; [exact A|]. split; [exact FK|]. apply Bool.andb_true_iff in K as [K1 K3].
    apply Z.eqb_eq in K3. rewrite EW in K3. split; [destruct (kw_set kw); try discriminate K1; reflexivity|]. rewrite K3. destruct noon; reflexivity.
Qed.
Lemma code_found w e rest : In (map tolower w, e) zone_codes -> isalpha (peek rest) = false ->
  exists c w' kw, w = c :: w' /\ isalpha c = true /\ find_keyword keywords (w ++ rest) = Some (kw, List.length w) /\ kw_set kw = K_FIELD /\ kw_field kw = TZ /\ kw_value kw = e.
Proof.
  intros I R. destruct (word_found (map fst zone_codes) (fun w kw => match kw_set kw with K_FIELD => true | _ => false end && field_eqb (kw_field kw) TZ && forallb (fun p => if bseq (fst p) w then kw_value kw =? snd p else true) zone_codes) ltac:(vm_compute; reflexivity) w rest) as (c & w' & kw & Hw & A & FK & K).
  - apply (in_map fst) in I. exact I.
  - exact R.
  - exists c, w', kw. split; [exact Hw|]. split; [exact A|]. split; [exact FK|]. apply Bool.andb_true_iff in K as [K K3]. apply Bool.andb_true_iff in K as [K1 K2].
    apply field_eqb_eq in K2. rewrite forallb_forall in K3. specialize (K3 _ I). cbn [fst snd] in K3. rewrite (proj2 (bseq_eq _ _) eq_refl) in K3. apply Z.eqb_eq in K3.
    split; [destruct (kw_set kw); try discriminate K1; reflexivity|]. auto.
Qed.

(** parsing to a state with some property. *)
Definition reach (st : state) (s : bytes) (Q : state -> Prop) : Prop := exists st', parses st s st' /\ Q st'.
Lemma reach_nil st st' (Q : state -> Prop) : parse_postponed st = Ok st' -> Q st' -> reach st [] Q.
Proof. intros P H. exists st'. split; [apply parses_nil, P|exact H]. Qed.
Lemma reach_number st s st1 rest Q : isdigit (peek s) = true -> parse_number st s = Ok (st1, rest) -> (List.length rest < List.length s)%nat -> reach st1 rest Q -> reach st s Q.
Proof. intros D N L (st' & H & K). exists st'. split; [eapply parses_number; eauto|exact K]. Qed.
Lemma reach_app st c w r st1 kw Q : isalpha c = true -> find_keyword keywords ((c :: w) ++ r) = Some (kw, List.length (c :: w)) -> kw_apply st kw = Ok st1 -> reach st1 r Q -> reach st ((c :: w) ++ r) Q.
Proof. intros A FK KA (st' & H & K). exists st'. split; [eapply parses_app; eauto|exact K]. Qed.
Lemma reach_space st s Q : isalnum (peek s) = true -> reach (set_delim st " "%char) s Q -> reach st (" "%char :: s) Q.
Proof. intros A (st' & H & K). exists st'. split; [apply parses_space; assumption|exact K]. Qed.
Lemma reach_sign st c s Q : isalnum c = false -> isalnum (peek s) = true -> reach (set_delim st c) s Q -> reach st (" "%char :: c :: s) Q.
Proof. intros C A (st' & H & K). exists st'. split; [apply parses_sign; assumption|exact K]. Qed.

(** am and pm after a complete time. *)
Lemma ampm_after st y m d h mi sec pm sp w rest Q : timed st y m d h mi sec None -> sp = [] \/ sp = lit " " -> map tolower w = half pm -> isalpha (peek rest) = false ->
  (forall st1, timed st1 y m d h mi sec (Some (pm_value pm)) -> reach st1 rest Q) -> reach st (sp ++ w ++ rest) Q.
Proof.
  intros (D & P & S & L) SP EW R H. destruct (half_found pm w rest EW R) as (c & w' & kw & -> & A & FK & K1 & K2 & K3).
  assert (G : forall stx, plen stx = 0 -> same stx (clock_state y m d h mi sec None) -> reach stx ((c :: w') ++ rest) Q).
  { intros stx PX SX. destruct (set_next stx _ AMPM (pm_value pm) PX SX) as [E1 S1]; [destruct sec; reflexivity|]. eapply reach_app; [exact A|exact FK| |].
    - unfold kw_apply. rewrite K1, K2, K3, PX. cbn [Z.eqb orb bind]. exact E1.
    - apply H. split; [discriminate|]. split; [exact PX|]. split; [exact S1|discriminate]. }
  destruct SP as [-> | ->]; [apply G; assumption|]. change (reach st (" "%char :: (c :: w') ++ rest) Q). apply reach_space; [apply alpha_alnum, A|]. apply G; assumption.
Qed.
(** one number and am or pm. *)
Lemma hour_ampm st y m d k kk pm sp w rest Q : 1970 <= y -> dated st y m d -> 1 <= k <= 12 -> short_number k kk -> sp = [] \/ sp = lit " " -> map tolower w = half pm -> isalpha (peek rest) = false ->
  (forall st1, timed st1 y m d k 0 (Some 0) (Some (pm_value pm)) -> reach st1 rest Q) -> reach st (kk ++ sp ++ w ++ rest) Q.
Proof.
  intros Y D KR SN SP EW R H. destruct (short_numeral k kk ltac:(lia) SN) as [N O]. destruct (half_found pm w rest EW R) as (c & w' & kw & -> & A & FK & K1 & K2 & K3).
  destruct (dated_postpone st y m d k (Z.of_nat (List.length kk)) Y D) as (st1 & E1 & P1 & V1 & _ & D1 & S1 & L1).
  assert (G : forall stx, plen stx = plen st1 -> pval stx = k -> same stx (st_ymd init y m d) -> reach stx ((c :: w') ++ rest) Q).
  { intros stx PX VX SX. eapply reach_app; [exact A|exact FK| |].
    - unfold kw_apply. rewrite K1, K2, K3, PX, VX, P1. fold (one_or_two (Z.of_nat (List.length kk))). rewrite O.
      assert (V12 : is_valid_12hour k = true) by (unfold is_valid_12hour; rewrite !(proj2 (Z.leb_le _ _)) by lia; reflexivity). rewrite V12.
      destruct (set_next (no_postponed stx) _ HOUR k eq_refl SX eq_refl) as [Ea Sa]. destruct (set_next (E (no_postponed stx) HOUR k) _ MIN 0 eq_refl Sa eq_refl) as [Eb Sb].
      destruct (set_next (E (E (no_postponed stx) HOUR k) MIN 0) _ SEC 0 eq_refl Sb eq_refl) as [Ec Sc]. cbn [set_all]. rewrite Ea. cbn [bind]. rewrite Eb. cbn [bind]. rewrite Ec. cbn [bind].
      destruct (set_next (E (E (E (no_postponed stx) HOUR k) MIN 0) SEC 0) _ AMPM (pm_value pm) eq_refl Sc eq_refl) as [Ed Sd]. rewrite Ed. reflexivity.
    - apply H. split; [discriminate|]. split; [reflexivity|]. split; [|discriminate]. unfold clock_state, opt_E. repeat apply same_E. exact SX. }
  assert (RS : isdigit (peek (sp ++ (c :: w') ++ rest)) = false /\ is_sep (peek (sp ++ (c :: w') ++ rest)) = false).
  { destruct SP as [-> | ->]; [|split; reflexivity]. cbn [app peek]. split; [destruct (isdigit c) eqn:K; [apply digit_not_alpha in K; congruence|reflexivity]|].
    unfold is_sep, is_date_sep. destruct (_ || _) eqn:K; [|reflexivity]. rewrite !Bool.orb_true_iff, !beq_eq in K. destruct K as [-> |[[-> | ->]| ->]]; discriminate A. }
  eapply reach_number; [apply (numeral_peek _ _ _ N)|rewrite (num_one st kk k _ N (proj1 RS) (proj2 RS) (proj1 D)), E1; reflexivity|apply app_lt, (numeral_len _ _ N)|].
  destruct SP as [-> | ->]; [apply G; [reflexivity|exact V1|exact S1]|]. change (reach st1 (" "%char :: (c :: w') ++ rest) Q). apply reach_space; [apply alpha_alnum, A|]. apply G; [reflexivity|exact V1|exact S1].
Qed.

(** ** Times. *)
Definition hour_fits (h0 : Z) (ap : option Z) (h : Z) : Prop :=
  (ap = None /\ h0 = h /\ 0 <= h <= 23) \/ exists pm, ap = Some (pm_value pm) /\ 1 <= h0 <= 12 /\ h = hour_of_12 h0 pm.
Definition clear_rest (rest : bytes) : Prop := isdigit (peek rest) = false /\ is_sep (peek rest) = false /\ isalpha (peek rest) = false.
Lemma alpha_not_sep c : isalpha c = true -> isdigit c = false /\ is_sep c = false.
Proof.
  intro A. split; [destruct (isdigit c) eqn:K; [apply digit_not_alpha in K; congruence|reflexivity]|].
  unfold is_sep, is_date_sep. destruct (_ || _) eqn:K; [|reflexivity]. rewrite !Bool.orb_true_iff, !beq_eq in K. destruct K as [-> |[[-> | ->]| ->]]; discriminate A.
Qed.
(** the clock part, before am or pm. *)
Lemma clock_parses st y m d h mi sec hh rest Q : 1970 <= y -> dated st y m d -> 0 <= h <= 23 -> 0 <= mi <= 59 -> (forall s, sec = Some s -> 0 <= s <= 59) -> short_number h hh ->
  isdigit (peek rest) = false -> is_sep (peek rest) = false ->
  (forall st1, timed st1 y m d h mi sec None -> reach st1 rest Q) ->
  reach st (hh ++ ":"%char :: pad2 mi ++ match sec with Some s => ":"%char :: pad2 s ++ rest | None => rest end) Q.
Proof.
  intros Y D H M S SN R1 R2 G. destruct (short_numeral h hh ltac:(lia) SN) as [N O]. destruct (time_ok st y m d h mi sec (Z.of_nat (List.length hh)) Y D H M S O) as (st1 & E1 & T1).
  destruct sec as [s|].
  - specialize (S s eq_refl). eapply reach_number; [apply (numeral_peek _ _ _ N)| |apply three_lt|apply G, T1].
    rewrite (num_three st ":"%char hh (pad2 mi) (pad2 s) h mi s rest N (pad2_numeral mi ltac:(lia)) (pad2_numeral s ltac:(lia)) eq_refl eq_refl R1).
    change (beq ":"%char ":"%char) with true. cbv iota. change (Z.of_nat (List.length (pad2 mi))) with 2. change (Z.of_nat (List.length (pad2 s))) with 2. rewrite E1. reflexivity.
  - eapply reach_number; [apply (numeral_peek _ _ _ N)| | |apply G, T1].
    + rewrite (num_two st ":"%char hh (pad2 mi) h mi rest N (pad2_numeral mi ltac:(lia)) eq_refl eq_refl R1 R2).
      change (beq ":"%char ":"%char) with true. cbv iota. change (Z.of_nat (List.length (pad2 mi))) with 2. rewrite E1. reflexivity.
    + rewrite app_length. cbn [List.length]. rewrite app_length. lia.
Qed.
Lemma half_clear pm sp w rest : sp = [] \/ sp = lit " " -> map tolower w = half pm -> isdigit (peek (sp ++ w ++ rest)) = false /\ is_sep (peek (sp ++ w ++ rest)) = false.
Proof.
  intros [-> | ->] EW; [|split; reflexivity]. destruct (half_found pm w [] EW eq_refl) as (c & w' & kw & -> & A & _). cbn [app peek]. apply alpha_not_sep, A.
Qed.
Lemma noon_state st y m d h : 1970 <= y -> dated st y m d -> exists st1, set_all set_field st [(HOUR, h); (MIN, 0); (SEC, 0)] = Ok st1 /\ timed st1 y m d h 0 (Some 0) None.
Proof. intros Y D. exact (set_clock st y m d h 0 (Some 0) Y D). Qed.
Theorem time_parses st y m d h mi sec t rest Q : 1970 <= y -> dated st y m d -> written_time h mi sec t -> clear_rest rest ->
  (forall h0 ap st1, hour_fits h0 ap h -> timed st1 y m d h0 mi sec ap -> reach st1 rest Q) -> reach st (t ++ rest) Q.
Proof.
  intros Y D W (R1 & R2 & R3) G.
  destruct W as [h m' hh Hh Hm SN|h m' s hh Hh Hm Hs SN|k m' pm kk sp w Hk Hm SN SP EW|k m' s pm kk sp w Hk Hm Hs SN SP EW|k pm kk sp w Hk SN SP EW|w EW|w EW].
  - replace ((hh ++ lit ":" ++ pad2 m') ++ rest) with (hh ++ ":"%char :: pad2 m' ++ rest) by (rewrite <- !app_assoc; reflexivity).
    apply (clock_parses st y m d h m' None); try assumption; [discriminate|]. intros st1 T. apply (G h None); [left; auto|exact T].
  - replace ((hh ++ lit ":" ++ pad2 m' ++ lit ":" ++ pad2 s) ++ rest) with (hh ++ ":"%char :: pad2 m' ++ ":"%char :: pad2 s ++ rest) by (rewrite <- !app_assoc; reflexivity).
    apply (clock_parses st y m d h m' (Some s)); try assumption; [intros s0 [= <-]; exact Hs|]. intros st1 T. apply (G h None); [left; auto|exact T].
  - replace ((kk ++ lit ":" ++ pad2 m' ++ sp ++ w) ++ rest) with (kk ++ ":"%char :: pad2 m' ++ sp ++ w ++ rest) by (rewrite <- !app_assoc; reflexivity).
    destruct (half_clear pm sp w rest SP EW) as [C1 C2].
    apply (clock_parses st y m d k m' None); try assumption; [lia|discriminate|]. intros st1 T. apply (ampm_after st1 y m d k m' None pm); try assumption. intros st2 T2. apply (G k (Some (pm_value pm))); [right; exists pm; auto|exact T2].
  - replace ((kk ++ lit ":" ++ pad2 m' ++ lit ":" ++ pad2 s ++ sp ++ w) ++ rest) with (kk ++ ":"%char :: pad2 m' ++ ":"%char :: pad2 s ++ sp ++ w ++ rest) by (rewrite <- !app_assoc; reflexivity).
    destruct (half_clear pm sp w rest SP EW) as [C1 C2].
    apply (clock_parses st y m d k m' (Some s)); try assumption; [lia|intros s0 [= <-]; exact Hs|]. intros st1 T. apply (ampm_after st1 y m d k m' (Some s) pm); try assumption. intros st2 T2. apply (G k (Some (pm_value pm))); [right; exists pm; auto|exact T2].
  - replace ((kk ++ sp ++ w) ++ rest) with (kk ++ sp ++ w ++ rest) by (rewrite <- !app_assoc; reflexivity).
    apply (hour_ampm st y m d k kk pm); try assumption. intros st1 T. apply (G k (Some (pm_value pm))); [right; exists pm; auto|exact T].
  - destruct (noon_found true w rest EW R3) as (c & w' & kw & -> & A & FK & K1 & K2). destruct (noon_state st y m d 12 Y D) as (st1 & E1 & T1).
    eapply reach_app; [exact A|exact FK|unfold kw_apply; rewrite K1, K2; exact E1|]. apply (G 12 None); [left; repeat split; lia|exact T1].
  - destruct (noon_found false w rest EW R3) as (c & w' & kw & -> & A & FK & K1 & K2). destruct (noon_state st y m d 0 Y D) as (st1 & E1 & T1).
    eapply reach_app; [exact A|exact FK|unfold kw_apply; rewrite K1, K2; exact E1|]. apply (G 0 None); [left; repeat split; lia|exact T1].
Qed.

(** ** Zones. *)
(** a zone after a time: the state is the time's with the zone. *)
Lemma user_tz_ok c h mi : 0 <= h <= 14 -> In mi [0; 15; 30; 45] -> user_tz c h mi = Some (if beq c "-"%char then - (60 * h + mi) else 60 * h + mi).
Proof.
  intros H I. unfold user_tz. assert (M : (mi <? 0) = false /\ (59 <? mi) = false /\ (mi mod 15 =? 0) = true) by (cbn [In] in I; destruct I as [<-|[<-|[<-|[<-|[]]]]]; repeat split; reflexivity).
  destruct M as (M1 & M2 & M3). rewrite M1, M2, M3. destruct (Z.ltb_spec h 0); [lia|]. destruct (Z.ltb_spec 14 h); [lia|]. cbn [orb negb]. replace (h * 60 + mi) with (60 * h + mi) by lia. reflexivity.
Qed.
Lemma clock_no_tz y m d h mi sec ap : is_set (clock_state y m d h mi sec ap) TZ = false.
Proof. destruct sec, ap; reflexivity. Qed.
Lemma clock_hm y m d h mi sec ap : is_set (clock_state y m d h mi sec ap) HOUR = true /\ is_set (clock_state y m d h mi sec ap) MIN = true.
Proof. destruct sec, ap; split; reflexivity. Qed.
Theorem zone_parses st y m d h mi sec ap e z (Q : state -> Prop) : timed st y m d h mi sec ap -> written_zone e z ->
  (forall st1, plen st1 = 0 -> same st1 (E (clock_state y m d h mi sec ap) TZ e) -> Q st1) -> reach st (" "%char :: z) Q.
Proof.
  intros (DL & P & S & L) W G.
  assert (TZS : forall c v, set_field (set_delim st c) TZ v = Ok (E (set_delim st c) TZ v) /\ same (E (set_delim st c) TZ v) (E (clock_state y m d h mi sec ap) TZ v))
    by (intros c v; apply (set_next (set_delim st c)); [exact P|exact S|apply clock_no_tz]).
  assert (FIN : forall st1 v, set_field st TZ v = set_field st TZ v -> plen st1 = 0 -> parse_postponed st1 = Ok st1) by (intros st1 v _ P1; unfold parse_postponed; rewrite P1; reflexivity).
  assert (COLON : forall c h' mi', beq c "+"%char || beq c "-"%char = true -> 0 <= h' <= 14 -> In mi' [0; 15; 30; 45] ->
            (if beq c "-"%char then - (60 * h' + mi') else 60 * h' + mi') = e -> reach st (" "%char :: c :: pad2 h' ++ ":"%char :: pad2 mi') Q).
  { intros c h' mi' C H M EE. assert (MR : 0 <= mi' <= 59) by (cbn [In] in M; lia).
    assert (CA : isalnum c = false) by (apply Bool.orb_true_iff in C; rewrite !beq_eq in C; destruct C as [-> | ->]; reflexivity).
    pose proof (pad2_numeral h' ltac:(lia)) as N1. pose proof (pad2_numeral mi' ltac:(lia)) as N2.
    apply reach_sign; [exact CA|apply digit_alnum, (numeral_peek _ _ _ N1)|].
    destruct (TZS c e) as [T1 T2]. rewrite <- (app_nil_r (pad2 mi')). eapply reach_number; [apply (numeral_peek _ _ _ N1)| | |eapply reach_nil; [|apply (G (E (set_delim st c) TZ e) P T2)]].
    - rewrite (num_two _ ":"%char (pad2 h') (pad2 mi') h' mi' [] N1 N2 eq_refl eq_refl eq_refl eq_refl). change (beq ":"%char ":"%char) with true. cbv iota.
      unfold parse_time. change (is_set (set_delim st c) HOUR) with (is_set st HOUR). change (is_set (set_delim st c) MIN) with (is_set st MIN). rewrite (same_set _ _ HOUR S), (same_set _ _ MIN S).
      destruct (clock_hm y m d h mi sec ap) as [-> ->]. change (Z.of_nat (List.length (pad2 h'))) with 2. change (Z.of_nat (List.length (pad2 mi'))) with 2. change (delim (set_delim st c)) with c. rewrite C.
      cbn [one_or_two Z.eqb Pos.eqb orb andb negb]. rewrite user_tz_ok by assumption. rewrite EE, T1. reflexivity.
    - rewrite app_length. cbn [List.length]. lia.
    - unfold parse_postponed. change (plen (E (set_delim st c) TZ e)) with (plen st). rewrite P. reflexivity. }
  assert (NUMZ : forall c ds v h' mi', beq c "+"%char || beq c "-"%char = true -> 0 <= h' <= 14 -> In mi' [0; 15; 30; 45] -> numeral ds v ->
            (List.length ds = 4%nat /\ v = 100 * h' + mi') \/ (List.length ds = 2%nat /\ v = h' /\ mi' = 0) ->
            (if beq c "-"%char then - (60 * h' + mi') else 60 * h' + mi') = e -> reach st (" "%char :: c :: ds) Q).
  { intros c ds v h' mi' C H M N LV EE. assert (MR : 0 <= mi' <= 59) by (cbn [In] in M; lia).
    assert (CA : isalnum c = false /\ c <> "@"%char) by (apply Bool.orb_true_iff in C; rewrite !beq_eq in C; destruct C as [-> | ->]; split; (reflexivity || discriminate)). destruct CA as [CA CAT].
    apply reach_sign; [exact CA|apply digit_alnum; rewrite <- (app_nil_r ds); apply (numeral_peek _ _ _ N)|].
    rewrite <- (app_nil_r ds). eapply reach_number; [apply (numeral_peek _ _ _ N)| |apply app_lt, (numeral_len _ _ N)|].
    - rewrite (num_one (set_delim st c) ds v [] N eq_refl eq_refl CAT). unfold set_postponed, parse_postponed. change (plen (set_delim st c)) with (plen st). rewrite P. cbn [Z.eqb bind]. reflexivity.
    - set (sp := mk_state _ _ _ _ _ _ _). assert (SS : same (no_postponed sp) (clock_state y m d h mi sec ap)) by exact S.
      assert (PL : set_plain (no_postponed sp) TZ e = Ok (E (no_postponed sp) TZ e)) by (unfold set_plain; rewrite (same_set _ _ TZ SS), clock_no_tz; reflexivity).
      eapply reach_nil; [|apply (G (E (no_postponed sp) TZ e)); [reflexivity|apply same_E, SS]].
      unfold parse_postponed. change (plen sp) with (Z.of_nat (List.length ds)). change (pval sp) with v. change (pdelim sp) with c.
      assert (LM : match last (no_postponed sp) with Some MON => true | _ => false end = false) by (change (last (no_postponed sp)) with (last st); destruct (last st) as [f|]; [destruct f; try reflexivity; contradiction|reflexivity]).
      destruct LV as [[LL VV]|(LL & VV & M0)]; rewrite LL.
      + change (Z.of_nat 4) with 4. cbn [Z.eqb Pos.eqb orb]. cbv zeta. assert (VY : is_valid_year v = false) by (apply Z.leb_gt; lia). rewrite VY, C. cbn [negb].
        replace (v / 100) with h' by (subst v; rewrite Z.add_comm, Z.mul_comm, Z.div_add by lia; rewrite Z.div_small by lia; lia).
        replace (v mod 100) with mi' by (subst v; rewrite Z.add_comm, Z.mul_comm, Z.mod_add by lia; rewrite Z.mod_small by lia; lia).
        rewrite user_tz_ok by assumption. rewrite EE. exact PL.
      + change (Z.of_nat 2) with 2. cbn [Z.eqb Pos.eqb orb andb]. cbv zeta. rewrite LM, C. subst v mi'. rewrite user_tz_ok by assumption. rewrite EE. exact PL. }
  assert (N4 : forall h' mi', 0 <= h' <= 14 -> In mi' [0; 15; 30; 45] -> numeral (pad2 h' ++ pad2 mi') (100 * h' + mi')).
  { intros h' mi' H M. assert (MR : 0 <= mi' <= 59) by (cbn [In] in M; lia). destruct (pad2_ok h' ltac:(lia)) as [A1 A2]. destruct (pad2_ok mi' ltac:(lia)) as [B1 B2].
    split; [rewrite forallb_app, A1, B1; reflexivity|]. split; [discriminate|]. split; [|lia].
    revert A2 B2. unfold pad2, digits_value. cbn [app fold_left]. lia. }
  destruct W as [w e I|h' mi' H M|h' mi' H M|h' mi' H M|h' mi' H M|h' H|h' H].
  - destruct (code_found w e [] I eq_refl) as (c & w' & kw & -> & A & FK & K1 & K2 & K3). apply reach_space; [apply alpha_alnum, A|].
    destruct (TZS " "%char e) as [T1 T2]. rewrite <- (app_nil_r (c :: w')). eapply reach_app; [exact A|exact FK|unfold kw_apply; rewrite K1, K2, K3; exact T1|].
    eapply reach_nil; [|apply (G (E (set_delim st " "%char) TZ e) P T2)]. unfold parse_postponed. change (plen (E (set_delim st " "%char) TZ e)) with (plen st). rewrite P. reflexivity.
  - apply (COLON "+"%char h' mi'); try assumption; reflexivity.
  - apply (COLON "-"%char h' mi'); try assumption; reflexivity.
  - apply (NUMZ "+"%char (pad2 h' ++ pad2 mi') (100 * h' + mi') h' mi'); try assumption; try reflexivity; [apply N4; assumption|left; split; reflexivity].
  - apply (NUMZ "-"%char (pad2 h' ++ pad2 mi') (100 * h' + mi') h' mi'); try assumption; try reflexivity; [apply N4; assumption|left; split; reflexivity].
  - apply (NUMZ "+"%char (pad2 h') h' h' 0); try assumption; try reflexivity; [left; reflexivity|apply pad2_numeral; lia|right; repeat split|cbn; lia].
  - apply (NUMZ "-"%char (pad2 h') h' h' 0); try assumption; try reflexivity; [left; reflexivity|apply pad2_numeral; lia|right; repeat split|cbn; lia].
Qed.
