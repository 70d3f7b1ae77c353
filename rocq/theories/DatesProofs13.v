(** Proofs about Dates.v: the state after a documented date. *)
From Verif Require Import Bytes Decimal Calendar CalendarSpec CalendarProofs Dates DatesSpec DatesForms DatesProofs DatesProofs2 DatesProofs3 DatesProofs4 DatesProofs5 DatesProofs6 DatesProofs7 DatesProofs8 DatesProofs9 DatesProofs10 DatesProofs11 DatesProofs12.
From Coq Require Import ZArith Lia.
Open Scope Z_scope.

(** the same fields with the same values. *)
Definition same (st st0 : state) : Prop := forall f, val st f = val st0 f /\ fset_ st f = fset_ st0 f.
Lemma same_refl st : same st st. Proof. intro f. split; reflexivity. Qed.
Lemma same_trans a b c : same a b -> same b c -> same a c.
Proof. intros H K f. destruct (H f), (K f). split; congruence. Qed.
Lemma same_set st st0 f : same st st0 -> is_set st f = is_set st0 f.
Proof. intro H. unfold is_set. rewrite (proj2 (H f)). reflexivity. Qed.
Lemma same_E st st0 f v : same st st0 -> same (E st f v) (E st0 f v).
Proof. intros H g. destruct (H g) as [H1 H2]. split; cbn [val fset_ E put mark]; unfold upd; destruct (field_eqb g f); auto. Qed.
Lemma same_delim st st0 c : same st st0 -> same (set_delim st c) st0.
Proof. intros H. exact H. Qed.
Lemma E_comm st f g v w : field_eqb f g = false -> same (E (E st f v) g w) (E (E st g w) f v).
Proof.
  intros N h. cbn [val fset_ E put mark]. unfold upd. destruct (field_eqb h g) eqn:A, (field_eqb h f) eqn:B; split; try reflexivity.
  apply field_eqb_eq in A, B. subst. subst. rewrite field_eqb_refl in N. discriminate N.
Qed.
Lemma no_postponed_plain st : plen (no_postponed st) = 0 /\ same (no_postponed st) st /\ delim (no_postponed st) = delim st.
Proof. repeat split. Qed.

(** a whole date is known; its year may still be a postponed number. *)
Definition dated (st : state) (y m d : Z) : Prop :=
  delim st <> "@"%char /\
  ((plen st = 0 /\ same st (st_ymd init y m d) /\ last st <> Some MON) \/ (plen st = 4 /\ pval st = y /\ same st (E (E init MDAY d) MON m))).
Lemma dated_delim st y m d c : c <> "@"%char -> dated st y m d -> dated (set_delim st c) y m d.
Proof. intros C [_ H]. split; [exact C|exact H]. Qed.
Lemma ymd_order y m d : same (E (E (E init MDAY d) MON m) YEAR y) (st_ymd init y m d).
Proof. intro f. destruct f; split; reflexivity. Qed.
Lemma dmy_order y m d : same (E (E (E init MDAY d) YEAR y) MON m) (st_ymd init y m d).
Proof. intro f. destruct f; split; reflexivity. Qed.

(** the postponed year. *)
Lemma postponed_year st y : plen st = 4 -> pval st = y -> 1970 <= y -> is_set st YEAR = false ->
  parse_postponed st = Ok (E (no_postponed st) YEAR y).
Proof.
  intros P V Y S. unfold parse_postponed. rewrite P, V. change (4 =? 0) with false. change ((4 =? 1) || (4 =? 2)) with false. change (4 =? 4) with true. cbv iota zeta.
  assert (VY : is_valid_year y = true) by (apply Z.leb_le; lia). rewrite VY. cbn [negb]. unfold set_plain.
  change (is_set (no_postponed st) YEAR) with (is_set st YEAR). rewrite S. reflexivity.
Qed.
Lemma dated_settle st y m d : 1970 <= y -> dated st y m d -> exists st1, parse_postponed st = Ok st1 /\ plen st1 = 0 /\ delim st1 <> "@"%char /\ same st1 (st_ymd init y m d) /\ last st1 <> Some MON.
Proof.
  intros Y [DL [(P & S & LM)|(P & V & S)]].
  - exists st. unfold parse_postponed. rewrite P. auto.
  - exists (E (no_postponed st) YEAR y). split; [apply postponed_year; auto; rewrite (same_set _ _ YEAR S); reflexivity|]. split; [reflexivity|]. split; [discriminate|].
    split; [|discriminate]. eapply same_trans; [|apply ymd_order]. apply same_E. exact S.
Qed.
(** setting a field after the date. *)
Lemma dated_set_field st y m d f v : 1970 <= y -> dated st y m d -> existsb (field_eqb f) [YEAR; MON; MDAY] = false ->
  exists st1, set_field st f v = Ok st1 /\ plen st1 = 0 /\ same st1 (E (st_ymd init y m d) f v).
Proof.
  intros Y D NF. cbn [existsb] in NF. rewrite !Bool.orb_false_iff in NF. destruct NF as (N1 & N2 & N3 & _). destruct D as [DL [(P & S & LM)|(P & V & S)]].
  - exists (E st f v). rewrite set_field_clean; [split; [reflexivity|split; [exact P|apply same_E, S]]|exact P|].
    rewrite (same_set _ _ f S). unfold st_ymd. rewrite !set_E, N1, N2, N3. reflexivity.
  - assert (F0 : is_set st f = false) by (rewrite (same_set _ _ f S), !set_E, N3, N2; reflexivity).
    unfold set_field. rewrite F0. rewrite (postponed_year (mark st f SET_) y); [|exact P|exact V|exact Y|].
    + cbn [bind]. eexists. split; [reflexivity|]. split; [reflexivity|]. intro g. destruct (S g) as [S1 S2].
      unfold st_ymd. cbn [val fset_ E put mark no_postponed] in *. unfold upd in *.
      destruct (field_eqb g f) eqn:GF; [apply field_eqb_eq in GF; subst g; rewrite ?N1, ?N2, ?N3; split; reflexivity|].
      destruct (field_eqb g YEAR) eqn:GY; [apply field_eqb_eq in GY; subst g; split; reflexivity|].
      rewrite S1, S2. destruct (field_eqb g MON) eqn:GM; [apply field_eqb_eq in GM; subst g; split; reflexivity|].
      destruct (field_eqb g MDAY); split; reflexivity.
    + unfold is_set, mark. cbn [fset_]. unfold upd. destruct (field_eqb YEAR f) eqn:K; [apply field_eqb_eq in K; subst f; discriminate N1|].
      rewrite (proj2 (S YEAR)). reflexivity.
Qed.
(** another number after the date. *)
Lemma dated_postpone st y m d v n : 1970 <= y -> dated st y m d ->
  exists st1, set_postponed st v n = Ok st1 /\ plen st1 = n /\ pval st1 = v /\ pdelim st1 = delim st /\ delim st1 <> "@"%char /\ same st1 (st_ymd init y m d) /\ last st1 <> Some MON.
Proof.
  intros Y D. destruct (dated_settle st y m d Y D) as (st1 & PP & P1 & DL & S & LM). unfold set_postponed. rewrite PP. cbn [bind].
  eexists. split; [reflexivity|]. cbn [plen pval pdelim delim last]. split; [reflexivity|]. split; [reflexivity|]. split; [reflexivity|]. split; [exact DL|]. split; [exact S|exact LM].
Qed.

(** ** The dates. *)
(** what may follow a date. *)
Definition after (rest : bytes) : Prop := rest = [] \/ exists r, rest = " "%char :: r.
Lemma after_peek rest : after rest -> isdigit (peek rest) = false /\ is_sep (peek rest) = false /\ isalpha (peek rest) = false.
Proof. intros [-> |(r & ->)]; repeat split. Qed.
Lemma year_numeral y yy : 1970 <= y <= 9999 -> year_number y yy ->
  exists v n, numeral yy v /\ Z.of_nat (List.length yy) = n /\ zero_two_four n = true /\ (n =? 0) = false /\ expand_year v n = Some y.
Proof.
  intros Y [-> |[H ->]].
  - exists y, 4. split; [apply pad4_numeral; lia|]. repeat split.
  - exists (y mod 100), 2. split; [apply pad2_numeral; zdm|]. repeat split. unfold expand_year. change (2 =? 2) with true. cbv iota.
    destruct (Z.ltb_spec (y mod 100) 70); f_equal; zdm.
Qed.
Lemma valid3_true y m d : 1970 <= y -> 1 <= m <= 12 -> 1 <= d <= 31 -> is_valid_year y && is_valid_mon m && is_valid_mday d = true.
Proof. intros. unfold is_valid_year, is_valid_mon, is_valid_mday. rewrite !(proj2 (Z.leb_le _ _)) by lia. reflexivity. Qed.
Lemma parse_date_ok sep v1 v2 v3 n1 n2 n3 y m d : 1970 <= y -> 1 <= m <= 12 -> 1 <= d <= 31 ->
  date_fields sep v1 v2 v3 n1 n2 n3 = Some (Some y, Some m, Some d) -> parse_date init sep v1 v2 v3 n1 n2 n3 = Ok (st_ymd init y m d).
Proof.
  intros Y M D DF. unfold parse_date. rewrite DF. cbn [opt_valid]. rewrite valid3_true by assumption. cbn [opt_field app]. apply set3; reflexivity.
Qed.
Lemma dated_ymd y m d : dated (st_ymd init y m d) y m d.
Proof. split; [discriminate|]. left. split; [reflexivity|]. split; [apply same_refl|discriminate]. Qed.
Lemma app_lt (a b : bytes) : (0 < List.length a)%nat -> (List.length b < List.length (a ++ b))%nat.
Proof. rewrite app_length. lia. Qed.
Lemma three_lt (d1 d2 d3 rest : bytes) c : (List.length rest < List.length (d1 ++ c :: d2 ++ c :: d3 ++ rest))%nat.
Proof. rewrite app_length. cbn [List.length]. rewrite app_length. cbn [List.length]. rewrite app_length. lia. Qed.

(** the ends of ordinals. *)
Lemma ending_found d e rest : ending d e -> e <> [] -> isalpha (peek rest) = false ->
  exists kw, find_keyword keywords (e ++ rest) = Some (kw, List.length e) /\ kw_set kw = K_ORDINAL /\ (1 <= d <= 31 -> forall st n, plen st = n -> one_or_two n = true -> pval st = d -> kw_apply st kw = set_field (no_postponed st) MDAY d).
Proof.
  intros H NE R.
  assert (G : forall kw, kw_set kw = K_ORDINAL -> (kw_name kw = lit "th" \/ (kw_name kw = lit "st" /\ In d [1; 21; 31]) \/ (kw_name kw = lit "nd" /\ In d [2; 22]) \/ (kw_name kw = lit "rd" /\ In d [3; 23])) ->
             1 <= d <= 31 -> forall st n, plen st = n -> one_or_two n = true -> pval st = d -> kw_apply st kw = set_field (no_postponed st) MDAY d).
  { intros kw KS NM D st n P O V. unfold kw_apply. rewrite KS, P, V. unfold one_or_two in O. rewrite O.
    assert (Z0 : n =? 0 = false) by (apply Z.eqb_neq; apply Bool.orb_true_iff in O; rewrite !Z.eqb_eq in O; lia). rewrite Z0. cbn [negb]. cbv zeta.
    assert (MV : is_valid_mday d = true) by (unfold is_valid_mday; rewrite !(proj2 (Z.leb_le _ _)) by lia; reflexivity).
    destruct NM as [-> |[[-> I]|[[-> I]|[-> I]]]].
    - change (bseq (lit "th") (lit "st")) with false. change (bseq (lit "th") (lit "nd")) with false. change (bseq (lit "th") (lit "rd")) with false. rewrite MV. reflexivity.
    - cbn [In] in I. destruct I as [<-|[<-|[<-|[]]]]; reflexivity.
    - cbn [In] in I. destruct I as [<-|[<-|[]]]; reflexivity.
    - cbn [In] in I. destruct I as [<-|[<-|[]]]; reflexivity. }
  assert (F : forall x, forallb isalpha x = true -> (2 <= List.length x)%nat -> map tolower x = x -> find_keyword keywords (x ++ rest) = find_keyword keywords x)
    by (intros x X1 X2 X3; rewrite find_word by assumption; rewrite X3; reflexivity).
  destruct H as [H|[H|[[H I]|[[H I]|[H I]]]]]; [contradiction|..]; subst e.
  - exists (K "th" SEC 0 K_ORDINAL). split; [rewrite F by (reflexivity || (cbn; lia)); vm_compute; reflexivity|]. split; [reflexivity|]. apply G; [reflexivity|left; reflexivity].
  - exists (K "st" SEC 0 K_ORDINAL). split; [rewrite F by (reflexivity || (cbn; lia)); vm_compute; reflexivity|]. split; [reflexivity|]. apply G; [reflexivity|right; left; split; [reflexivity|exact I]].
  - exists (K "nd" SEC 0 K_ORDINAL). split; [rewrite F by (reflexivity || (cbn; lia)); vm_compute; reflexivity|]. split; [reflexivity|]. apply G; [reflexivity|right; right; left; split; [reflexivity|exact I]].
  - exists (K "rd" SEC 0 K_ORDINAL). split; [rewrite F by (reflexivity || (cbn; lia)); vm_compute; reflexivity|]. split; [reflexivity|]. apply G; [reflexivity|right; right; right; split; [reflexivity|exact I]].
Qed.

Lemma parses_app st c w r st1 st' kw : isalpha c = true -> find_keyword keywords ((c :: w) ++ r) = Some (kw, List.length (c :: w)) -> kw_apply st kw = Ok st1 -> parses st1 r st' -> parses st ((c :: w) ++ r) st'.
Proof.
  intros A FK K H. cbn [List.length] in FK. cbn [app] in *. eapply parses_word; [exact A|exact FK|exact K|]. rewrite skipn_app, skipn_all, Nat.sub_diag. exact H.
Qed.
(** a day, with or without an ending. *)
Lemma one_two_cases n : one_or_two n = true -> n = 1 \/ n = 2.
Proof. unfold one_or_two. rewrite Bool.orb_true_iff, !Z.eqb_eq. tauto. Qed.
Definition day_known (st0 st : state) (d : Z) : Prop :=
  delim st <> "@"%char /\ ((plen st = 0 /\ same st (E st0 MDAY d)) \/ (one_or_two (plen st) = true /\ pval st = d /\ last st = last st0 /\ same st st0)).
Lemma day_parses st0 d dd e r : plen st0 = 0 -> delim st0 <> "@"%char -> is_set st0 MDAY = false -> 1 <= d <= 31 -> short_number d dd -> ending d e ->
  exists st1, day_known st0 st1 d /\ forall st', parses st1 (" "%char :: r) st' -> parses st0 (dd ++ e ++ " "%char :: r) st'.
Proof.
  intros P DL MS D SN EN. destruct (short_numeral d dd ltac:(lia) SN) as [N O]. set (n := Z.of_nat (List.length dd)) in *.
  assert (SP : set_postponed st0 d n = Ok (mk_state (val st0) (fset_ st0) (last st0) (delim st0) n d (delim st0))).
  { unfold set_postponed, parse_postponed. rewrite P. reflexivity. }
  set (sp := mk_state (val st0) (fset_ st0) (last st0) (delim st0) n d (delim st0)) in *.
  assert (PN : forall r', isdigit (peek r') = false -> is_sep (peek r') = false -> parse_number st0 (dd ++ r') = Ok (sp, r')) by (intros r' R1 R2; rewrite (num_one st0 dd d r' N R1 R2 DL); fold n; rewrite SP; reflexivity).
  destruct e as [|c e'].
  - exists sp. split; [split; [exact DL|]; right; repeat split; try reflexivity; exact O|]. intros st' H. cbn [app].
    eapply parses_number; [apply (numeral_peek dd d _ N)|apply PN; reflexivity|apply app_lt, (numeral_len dd d N)|exact H].
  - destruct (ending_found d (c :: e') (" "%char :: r) EN ltac:(discriminate) eq_refl) as (kw & FK & KS & KA). specialize (KA D sp n eq_refl O eq_refl).
    assert (SF : set_field (no_postponed sp) MDAY d = Ok (E (no_postponed sp) MDAY d)) by (apply set_field_clean; [reflexivity|exact MS]).
    assert (CA : isalpha c = true) by (destruct EN as [K|[K|[[K _]|[[K _]|[K _]]]]]; try discriminate K; injection K as -> _; reflexivity).
    assert (CD : isdigit c = false /\ is_sep c = false) by (destruct EN as [K|[K|[[K _]|[[K _]|[K _]]]]]; try discriminate K; injection K as -> _; split; reflexivity).
    exists (E (no_postponed sp) MDAY d). split; [split; [discriminate|]; left; split; [reflexivity|]; apply same_E; intro f; split; reflexivity|].
    intros st' H. eapply parses_number; [apply (numeral_peek dd d _ N)|apply PN; apply CD|apply app_lt, (numeral_len dd d N)|].
    eapply parses_app; [exact CA|exact FK|rewrite KA; exact SF|exact H].
Qed.
(** a month after the start or after a day. *)
Lemma month_apply st m kw : is_month_kw m kw -> plen st = 0 -> is_set st MON = false -> kw_apply st kw = Ok (E st MON m).
Proof. intros (K1 & K2 & K3) P S. unfold kw_apply. rewrite K1, K2, K3, P. cbn [Z.eqb orb bind]. apply set_field_clean; assumption. Qed.
Lemma month_parses st m w r st' : month_word m w -> isalpha (peek r) = false ->
  (forall kw, is_month_kw m kw -> exists st1, kw_apply st kw = Ok st1 /\ parses st1 r st') -> parses st (w ++ r) st'.
Proof.
  intros MW R H. destruct (month_found m w r MW R) as (c & w' & kw & -> & A & FK & MK). destruct (H kw MK) as (st1 & KA & PS).
  eapply parses_app; [exact A|exact FK|exact KA|exact PS].
Qed.
Lemma month_peek m w r : month_word m w -> isalnum (peek (w ++ r)) = true.
Proof. intro MW. destruct (month_found m w [] MW eq_refl) as (c & w' & kw & -> & A & _). apply alpha_alnum, A. Qed.
(** the year at the end of a date. *)
Lemma year_parses st y m d rest : 1970 <= y <= 9999 -> after rest -> delim st <> "@"%char -> plen st = 0 -> same st (E (E init MDAY d) MON m) \/ same st (E (E init MON m) MDAY d) ->
  exists st1, dated st1 y m d /\ forall st', parses st1 rest st' -> parses st (pad4 y ++ rest) st'.
Proof.
  intros Y AF DL P S. destruct (after_peek rest AF) as (A1 & A2 & A3). pose proof (pad4_numeral y ltac:(lia)) as N.
  exists (mk_state (val st) (fset_ st) (last st) (delim st) 4 y (delim st)). split.
  - split; [exact DL|]. right. split; [reflexivity|]. split; [reflexivity|]. destruct S as [S|S]; [exact S|]. intro f. destruct (S f) as [S1 S2]. cbn [val fset_]. rewrite S1, S2. destruct f; split; reflexivity.
  - intros st' H. eapply parses_number; [apply (numeral_peek _ _ _ N)| |apply app_lt, (numeral_len _ _ N)|exact H].
    rewrite (num_one st (pad4 y) y rest N A1 A2 DL). unfold set_postponed, parse_postponed. rewrite P. reflexivity.
Qed.
Lemma digit_sep c : is_sep c = true -> isdigit c = false.
Proof. unfold is_sep, is_date_sep. rewrite !Bool.orb_true_iff, !beq_eq. intros [-> |[[-> | ->]| ->]]; reflexivity. Qed.
Theorem date_prefix y m d s rest : 1970 <= y <= 9999 -> 1 <= m <= 12 -> 1 <= d <= 31 -> written_date y m d s -> after rest ->
  exists st1, dated st1 y m d /\ forall st', parses st1 rest st' -> parses init (s ++ rest) st'.
Proof.
  intros Y M D W AF. destruct (after_peek rest AF) as (A1 & A2 & A3).
  assert (NUM : forall sep d1 d2 d3 v1 v2 v3, is_sep sep = true -> beq sep ":"%char = false -> numeral d1 v1 -> numeral d2 v2 -> numeral d3 v3 ->
     date_fields sep v1 v2 v3 (Z.of_nat (List.length d1)) (Z.of_nat (List.length d2)) (Z.of_nat (List.length d3)) = Some (Some y, Some m, Some d) ->
     exists st1, dated st1 y m d /\ forall st', parses st1 rest st' -> parses init ((d1 ++ [sep] ++ d2 ++ [sep] ++ d3) ++ rest) st').
  { intros sep d1 d2 d3 v1 v2 v3 S1 S2 N1 N2 N3 DF. exists (st_ymd init y m d). split; [apply dated_ymd|]. intros st' H.
    replace ((d1 ++ [sep] ++ d2 ++ [sep] ++ d3) ++ rest) with (d1 ++ sep :: d2 ++ sep :: d3 ++ rest) by (rewrite <- app_assoc; cbn [app]; rewrite <- app_assoc; reflexivity).
    eapply parses_number; [apply (numeral_peek _ _ _ N1)| |apply three_lt|exact H].
    rewrite (num_three init sep d1 d2 d3 v1 v2 v3 rest N1 N2 N3 S1 (digit_sep sep S1) A1), S2. rewrite (parse_date_ok _ _ _ _ _ _ _ y m d) by (assumption || lia). reflexivity. }
  assert (YV : is_valid_year y = true) by (apply Z.leb_le; lia).
  destruct W as [|yy YN|mm dd yy SM SD YN|mm dd yy SM SD YN|dd e w SD EN MW|dd e w SD EN MW].
  - apply (NUM "-"%char (pad4 y) (pad2 m) (pad2 d) y m d); try reflexivity; try apply pad4_numeral; try apply pad2_numeral; lia.
  - destruct (year_numeral y yy Y YN) as (v & n & N & L & Z1 & Z2 & EY).
    apply (NUM "-"%char (pad2 d) (pad2 m) yy d m v); try reflexivity; try (apply pad2_numeral; lia); [exact N|].
    rewrite L. unfold date_fields. change (beq "-"%char "/"%char) with false. change (beq "-"%char "-"%char) with true. cbv iota.
    change (Z.of_nat (List.length (pad2 d)) =? 4) with false. cbn [andb]. change (Z.of_nat (List.length (pad2 d)) =? 2) with true. change (Z.of_nat (List.length (pad2 m)) =? 2) with true. rewrite Z1. cbn [andb]. rewrite EY. reflexivity.
  - destruct (year_numeral y yy Y YN) as (v & n & N & L & Z1 & Z2 & EY). destruct (short_numeral m mm ltac:(lia) SM) as [NM OM]. destruct (short_numeral d dd ltac:(lia) SD) as [ND OD].
    apply (NUM "/"%char mm dd yy m d v); try reflexivity; try assumption.
    rewrite L. unfold date_fields. change (beq "/"%char "/"%char) with true. cbv iota. rewrite OM, OD, Z1. cbn [negb andb]. rewrite EY. reflexivity.
  - destruct (year_numeral y yy Y YN) as (v & n & N & L & Z1 & Z2 & EY). destruct (short_numeral m mm ltac:(lia) SM) as [NM OM]. destruct (short_numeral d dd ltac:(lia) SD) as [ND OD].
    apply (NUM "."%char dd mm yy d m v); try reflexivity; try assumption.
    rewrite L. unfold date_fields. change (beq "."%char "/"%char) with false. change (beq "."%char "-"%char) with false. cbv iota. rewrite OM, OD, Z1. cbn [negb orb]. rewrite EY. reflexivity.
  - (* day, month, year *)
    destruct (day_parses init d dd e (w ++ " "%char :: pad4 y ++ rest) eq_refl ltac:(discriminate) eq_refl D SD EN) as (st1 & [DL1 DK] & DP).
    assert (AP : forall kw, is_month_kw m kw -> exists st2, kw_apply (set_delim st1 " "%char) kw = Ok st2 /\ plen st2 = 0 /\ delim st2 = NUL /\ same st2 (E (E init MDAY d) MON m)).
    { intros kw MK. destruct DK as [[P S]|(O & V & L & S)].
      - exists (E (set_delim st1 " "%char) MON m). split; [apply month_apply; [exact MK|exact P|change (is_set (set_delim st1 " "%char) MON) with (is_set st1 MON); rewrite (same_set _ _ MON S); reflexivity]|].
        split; [exact P|]. split; [reflexivity|]. apply same_E. exact S.
      - destruct MK as (K1 & K2 & K3). unfold kw_apply. rewrite K1, K2, K3. change (plen (set_delim st1 " "%char)) with (plen st1). change (pval (set_delim st1 " "%char)) with (pval st1).
        fold (one_or_two (plen st1)). rewrite O, V. assert (VD : is_valid_mday d = true) by (unfold is_valid_mday; rewrite !(proj2 (Z.leb_le _ _)) by lia; reflexivity). rewrite VD.
        rewrite set_field_clean; [|reflexivity|change (is_set (no_postponed (set_delim st1 " "%char)) MDAY) with (is_set st1 MDAY); rewrite (same_set _ _ MDAY S); reflexivity].
        cbn [bind]. rewrite set_field_clean; [|reflexivity|rewrite set_E; cbn [field_eqb]; change (is_set (no_postponed (set_delim st1 " "%char)) MON) with (is_set st1 MON); rewrite (same_set _ _ MON S); reflexivity].
        eexists. split; [reflexivity|]. split; [reflexivity|]. split; [reflexivity|]. apply same_E, same_E. exact S. }
    assert (exists st2, plen st2 = 0 /\ delim st2 = NUL /\ same st2 (E (E init MDAY d) MON m) /\ forall kw, is_month_kw m kw -> kw_apply (set_delim st1 " "%char) kw = Ok st2) as (st2 & P2 & D2 & S2 & AP2).
    { destruct (month_found m w [] MW eq_refl) as (_ & _ & kw & _ & _ & _ & MK). destruct (AP kw MK) as (st2 & K & P2 & D2 & S2). exists st2. repeat split; try assumption; try apply S2.
      intros kw' MK'. rewrite <- K. destruct MK as (K1 & K2 & K3), MK' as (K1' & K2' & K3'). unfold kw_apply. rewrite K1, K2, K3, K1', K2', K3'. reflexivity. }
    destruct (year_parses (set_delim st2 " "%char) y m d rest Y AF ltac:(discriminate) P2 (or_introl S2)) as (st3 & D3 & YP).
    exists st3. split; [exact D3|]. intros st' H.
    replace ((dd ++ e ++ lit " " ++ w ++ lit " " ++ pad4 y) ++ rest) with (dd ++ e ++ " "%char :: w ++ " "%char :: pad4 y ++ rest) by (rewrite <- !app_assoc; reflexivity).
    apply DP. apply parses_space; [apply (month_peek m); exact MW|]. apply (month_parses _ m); [exact MW|reflexivity|]. intros kw MK. exists st2. split; [apply AP2, MK|].
    apply parses_space; [apply digit_alnum, (numeral_peek _ y), pad4_numeral; lia|]. apply YP, H.
  - (* month, day, year *)
    assert (MN : E init MON m = E init MON m) by reflexivity.
    destruct (day_parses (set_delim (E init MON m) " "%char) d dd e (pad4 y ++ rest) eq_refl ltac:(discriminate) eq_refl D SD EN) as (st1 & [DL1 DK] & DP).
    assert (exists st3, dated st3 y m d /\ forall st', parses st3 rest st' -> parses (set_delim st1 " "%char) (pad4 y ++ rest) st') as (st3 & D3 & YP).
    { destruct DK as [[P S]|(O & V & L & S)].
      - apply year_parses; try assumption; [discriminate|]. right. exact S.
      - assert (PP : parse_postponed (set_delim st1 " "%char) = Ok (E (no_postponed (set_delim st1 " "%char)) MDAY d)).
        { unfold parse_postponed. change (plen (set_delim st1 " "%char)) with (plen st1). change (pval (set_delim st1 " "%char)) with (pval st1).
          fold (one_or_two (plen st1)). assert (Z0 : plen st1 =? 0 = false) by (apply Z.eqb_neq; apply one_two_cases in O; lia). rewrite Z0, O, V. cbv zeta.
          change (last (no_postponed (set_delim st1 " "%char))) with (last st1). rewrite L. cbn [last set_delim E put].
          assert (VD : is_valid_mday d = true) by (unfold is_valid_mday; rewrite !(proj2 (Z.leb_le _ _)) by lia; reflexivity). rewrite VD.
          unfold set_plain. change (is_set (no_postponed (set_delim st1 " "%char)) MDAY) with (is_set st1 MDAY). rewrite (same_set _ _ MDAY S). reflexivity. }
        pose proof (pad4_numeral y ltac:(lia)) as N. eexists. split.
        2:{ intros st' H. eapply parses_number; [apply (numeral_peek _ _ _ N)| |apply app_lt, (numeral_len _ _ N)|exact H].
            rewrite (num_one (set_delim st1 " "%char) (pad4 y) y rest N A1 A2 ltac:(discriminate)). unfold set_postponed. rewrite PP. reflexivity. }
        split; [discriminate|]. right. split; [reflexivity|]. split; [reflexivity|]. intro f. destruct (S f) as [Sa Sb]. cbn [val fset_ E put mark no_postponed set_delim] in *. unfold upd in *. rewrite Sa, Sb. destruct f; split; reflexivity. }
    exists st3. split; [exact D3|]. intros st' H.
    replace ((w ++ lit " " ++ dd ++ e ++ lit " " ++ pad4 y) ++ rest) with (w ++ " "%char :: dd ++ e ++ " "%char :: pad4 y ++ rest) by (rewrite <- !app_assoc; reflexivity).
    apply (month_parses _ m); [exact MW|reflexivity|]. intros kw MK. exists (E init MON m). split; [apply month_apply; [exact MK|reflexivity|reflexivity]|].
    apply parses_space; [apply digit_alnum; apply (numeral_peek _ d); apply short_numeral; [lia|exact SD]|]. apply DP.
    apply parses_space; [apply digit_alnum, (numeral_peek _ y), pad4_numeral; lia|]. apply YP, H.
Qed.
