(** Proofs about Dates.v: the times denoted. *)
From Verif Require Import Bytes Calendar CalendarSpec CalendarProofs Dates DatesProofs.
From Coq Require Import ZArith Lia.
Open Scope Z_scope.

(** ** Before rounding. *)
Definition fill1 (b : tm) (st : state) (f : field) : state :=
  match fset_ st f with
  | NOW_ => mk_state (upd (val st) f (tm_get b f)) (upd (fset_ st) f SET_) (last st) (delim st) (plen st) (pval st) (pdelim st)
  | _ => st
  end.
Lemma fill_now_eq st b : fill_now st b = fold_left (fill1 b) abs_fields st. Proof. reflexivity. Qed.
Lemma fill1_set b st f g : is_set (fill1 b st f) g = is_set st g.
Proof.
  unfold fill1. destruct (fset_ st f) eqn:F; try reflexivity. unfold is_set. cbn [fset_]. unfold upd.
  destruct (field_eqb g f) eqn:G; [|reflexivity]. apply field_eqb_eq in G. subst. rewrite F. reflexivity.
Qed.
Lemma fill1_plen b st f : plen (fill1 b st f) = plen st.
Proof. unfold fill1. destruct (fset_ st f); reflexivity. Qed.
Lemma fill1_val b st f g : val (fill1 b st f) g = if field_eqb g f && (match fset_ st f with NOW_ => true | _ => false end) then tm_get b g else val st g.
Proof.
  unfold fill1. destruct (fset_ st f) eqn:F; rewrite ?Bool.andb_false_r; try reflexivity. rewrite Bool.andb_true_r. cbn [val]. unfold upd.
  destruct (field_eqb g f) eqn:G; [|reflexivity]. apply field_eqb_eq in G. subst. reflexivity.
Qed.
Lemma fill1_fset b st f g : field_eqb g f = false -> fset_ (fill1 b st f) g = fset_ st g.
Proof. intro G. unfold fill1. destruct (fset_ st f); try reflexivity. cbn [fset_]. unfold upd. rewrite G. reflexivity. Qed.
Lemma fills_set b l : forall st g, is_set (fold_left (fill1 b) l st) g = is_set st g.
Proof. induction l as [|f l IH]; intros st g; [reflexivity|]. cbn [fold_left]. rewrite IH. apply fill1_set. Qed.
Lemma fills_plen b l : forall st, plen (fold_left (fill1 b) l st) = plen st.
Proof. induction l as [|f l IH]; intros st; [reflexivity|]. cbn [fold_left]. rewrite IH. apply fill1_plen. Qed.
Definition is_now (st : state) (f : field) : bool := match fset_ st f with NOW_ => true | _ => false end.
Lemma fills_val b l : NoDup l -> forall st g, val (fold_left (fill1 b) l st) g = if existsb (field_eqb g) l && is_now st g then tm_get b g else val st g.
Proof.
  induction 1 as [|f l N D IH]; intros st g; [reflexivity|]. cbn [fold_left existsb]. rewrite IH, fill1_val. unfold is_now.
  destruct (field_eqb g f) eqn:G; cbn [orb andb].
  - apply field_eqb_eq in G. subst g.
    assert (existsb (field_eqb f) l = false) as ->.
    { apply Bool.not_true_iff_false. rewrite existsb_exists. intros (x & Hx & Ex). apply field_eqb_eq in Ex. subst. contradiction. }
    cbn [andb]. reflexivity.
  - rewrite fill1_fset by exact G. reflexivity.
Qed.
Lemma fill_now_val b st g : val (fill_now st b) g = if is_abs g && is_now st g then tm_get b g else val st g.
Proof. rewrite fill_now_eq, fills_val by nodup. reflexivity. Qed.
Lemma fill_now_set b st g : is_set (fill_now st b) g = is_set st g.
Proof. rewrite fill_now_eq. apply fills_set. Qed.
Lemma fill_now_clean b st : Clean st -> Clean (fill_now st b).
Proof.
  intros [P U]. split; [rewrite fill_now_eq, fills_plen; exact P|]. intros f F. rewrite fill_now_set in F. rewrite fill_now_val.
  unfold is_now. unfold is_set in F. destruct (fset_ st f) eqn:K; try discriminate. rewrite Bool.andb_false_r. apply U. unfold is_set. rewrite K. reflexivity.
Qed.
Lemma E_clean st f v : Clean st -> Clean (E st f v).
Proof. intros [P U]. split; [exact P|]. intros g G. rewrite set_E in G. rewrite val_E. destruct (field_eqb g f); [discriminate|]. apply U, G. Qed.

(** the finest unit that the expression gives. *)
Definition given (st : state) (l : list field) : bool := existsb (is_set st) l.
Definition finest (st : state) : option unit_of_time :=
  if given st [SEC; RSEC] then Some Second
  else if given st [MIN; RMIN] then Some Minute
  else if given st [HOUR; RHOUR] then Some Hour
  else if given st [MDAY; RDAY; WDAY] then Some Day
  else if given st [RWEEK] then Some Week
  else if given st [MON; RMON] then Some Month
  else if given st [YEAR; RYEAR] then Some Year
  else None.
Lemma hit_or st f : hit st f = given st [f; rel f].
Proof. unfold hit, given. cbn [existsb]. rewrite Bool.orb_false_r. reflexivity. Qed.

Definition week_clear (st : state) : state :=
  mk_state (upd (val st) WDAY 0) (upd (fset_ st) WDAY UNSET_) (last st) (delim st) (plen st) (pval st) (pdelim st).
Lemma weekday_spec b st st1 : Clean st -> weekday st b = Ok st1 ->
  (st1 = st /\ is_set st WDAY && negb (is_set st MDAY) = false) \/ (is_set st WDAY = true /\ is_set st MDAY = false /\ exists k, st1 = week_clear (E st RDAY k)).
Proof.
  intros [P U]. unfold weekday. destruct (is_set st WDAY && negb (is_set st MDAY)) eqn:C.
  - apply Bool.andb_true_iff in C as [C1 C2]. apply Bool.negb_true_iff in C2. rewrite add_clean by exact P.
    destruct (fits_int _); [|discriminate]. cbn [bind]. intros [= <-]. right. split; [exact C1|]. split; [exact C2|]. eexists. reflexivity.
  - intros [= <-]. left. auto.
Qed.
Lemma weekday_none b st : is_set st WDAY && negb (is_set st MDAY) = false -> weekday st b = Ok st.
Proof. intro C. unfold weekday. rewrite C. reflexivity. Qed.
Lemma set_wc st g : is_set (week_clear st) g = if field_eqb g WDAY then false else is_set st g.
Proof. unfold is_set, week_clear. cbn [fset_]. unfold upd. destruct (field_eqb g WDAY); reflexivity. Qed.
Lemma val_wc st g : val (week_clear st) g = if field_eqb g WDAY then 0 else val st g.
Proof. reflexivity. Qed.
Lemma fixup_spec st st2 : Clean st -> fixup_ampm st = Ok st2 -> st2 = st \/ (is_set st HOUR = true /\ exists k, st2 = E st RHOUR k).
Proof.
  intros [P U]. unfold fixup_ampm. destruct (is_set st AMPM); cbn [negb]; [|intros [= <-]; auto].
  destruct (is_set st HOUR); cbn [negb]; [|discriminate].
  destruct (is_valid_12hour _); cbn [negb]; [|discriminate].
  rewrite add_clean by exact P. destruct (fits_int _); [|discriminate]. intros [= <-]. right. split; [reflexivity|]. eexists. reflexivity.
Qed.
Lemma finest0_ext st st' : (forall f, is_set st f = is_set st' f) -> finest0 st = finest0 st'.
Proof. intro H. unfold finest0, hit. rewrite !H. reflexivity. Qed.
Lemma prep_spec b st st2 : Clean st -> prep b st = Ok st2 ->
  Clean st2 /\ finest0 st2 = finest st /\ is_set st2 TZ = is_set st TZ /\ val st2 TZ = val st TZ.
Proof.
  intros C H. unfold prep in H. destruct (weekday (fill_now st b) b) as [st1| |] eqn:W; try discriminate. cbn [bind] in H.
  pose proof (fill_now_clean b st C) as Ca. set (sa := fill_now st b) in *.
  assert (S : forall g, is_set sa g = is_set st g) by (intro g; apply fill_now_set).
  assert (T : val sa TZ = val st TZ) by (unfold sa; rewrite fill_now_val; reflexivity).
  assert (K1 : Clean st1 /\ is_set st1 TZ = is_set st TZ /\ val st1 TZ = val st TZ /\
               finest0 st1 = finest st /\ is_set st1 HOUR = is_set st HOUR).
  { apply weekday_spec in W; [|exact Ca]. destruct W as [[-> W1]|(W1 & W2 & k & ->)].
    - split; [exact Ca|]. rewrite !S in *. rewrite T. repeat split; auto.
      unfold finest0, finest, hit, given. cbn [existsb rel]. rewrite !S, !Bool.orb_false_r.
      destruct (is_set st WDAY); [|rewrite !Bool.orb_false_r; reflexivity].
      cbn [andb] in W1. apply Bool.negb_false_iff in W1. rewrite W1. reflexivity.
    - rewrite !S in *. split; [|].
      + split; [exact (proj1 Ca)|]. intros g G. rewrite set_wc, set_E in G. rewrite val_wc, val_E.
        destruct (field_eqb g WDAY) eqn:?; [reflexivity|]. destruct (field_eqb g RDAY) eqn:?; [discriminate|]. apply (proj2 Ca), G.
      + rewrite !set_wc, !set_E, val_wc, val_E. cbn [field_eqb]. rewrite !S, T. repeat split; auto.
        unfold finest0, finest, hit, given. cbn [existsb rel]. rewrite !set_wc, !set_E. cbn [field_eqb]. rewrite !S, !Bool.orb_false_r, W1, W2.
        cbn [orb]. rewrite !Bool.orb_true_r. reflexivity. }
  destruct K1 as (C1 & K2 & K3 & K4 & K5).
  apply fixup_spec in H; [|exact C1]. destruct H as [->|(H1 & k & ->)].
  - repeat split; auto; apply C1.
  - split; [apply E_clean, C1|]. rewrite set_E, val_E. cbn [field_eqb]. repeat split; auto. rewrite <- K4.
    unfold finest0, hit. cbn [rel]. rewrite !set_E. cbn [field_eqb]. rewrite H1, !Bool.orb_true_r. reflexivity.
Qed.

(** ** After rounding. *)
Definition week_tm (week : rounding) (n : tm) : tm :=
  if rounds_up week then mk_tm (if inclusive week then -1 else 0) 0 0 (t_mday n + 7 - t_wday n) (t_mon n) (t_year n) 0
  else mk_tm 0 0 0 (t_mday n - t_wday n) (t_mon n) (t_year n) 0.
Definition V (b : tm) (st : state) (f : field) : Z := if frank f <? rank (finest0 st) then epoch f else now_or b st f.
Definition R (r : rounding) (st : state) (f : field) : Z := val st f + up_change r (finest0 st) f.
Definition moment (b : tm) (r : rounding) (st : state) : tm :=
  mk_tm (V b st SEC - R r st RSEC) (V b st MIN - R r st RMIN) (V b st HOUR - R r st RHOUR)
        (V b st MDAY - R r st RDAY - 7 * R r st RWEEK) (V b st MON - R r st RMON) (V b st YEAR - R r st RYEAR) 0.
Definition zone (off : Z) (st : state) : Z := if is_set st TZ then 60 * val st TZ else off.

Lemma output_ok st t : output_tm st = Ok t ->
  t = mk_tm (val st SEC - val st RSEC) (val st MIN - val st RMIN) (val st HOUR - val st RHOUR)
            (val st MDAY - val st RDAY - 7 * val st RWEEK) (val st MON - val st RMON) (val st YEAR - val st RYEAR) 0.
Proof.
  unfold output_tm, int. intro H.
  repeat match type of H with (bind (if ?x then _ else _) _) = _ => destruct x; cbn [bind] in H; [|discriminate] end.
  injection H as <-. f_equal; lia.
Qed.
Lemma output_bounded st m : bounded st m -> m <= 200000000 -> exists t, output_tm st = Ok t.
Proof.
  intros B L. unfold output_tm, int.
  pose proof (B SEC); pose proof (B RSEC); pose proof (B MIN); pose proof (B RMIN); pose proof (B HOUR); pose proof (B RHOUR);
  pose proof (B MDAY); pose proof (B RDAY); pose proof (B RWEEK); pose proof (B MON); pose proof (B RMON); pose proof (B YEAR); pose proof (B RYEAR).
  do 10 (match goal with |- context [bind (if fits_int ?x then _ else _) _] => rewrite (proj2 (fits_iff x)) by lia end; cbn [bind]).
  eexists. reflexivity.
Qed.
Lemma siu_fold_set (b : tm) st l : (forall f, In f l -> is_set st f = true) -> fold_left (fun st f => set_if_unset st f (tm_get b f)) l st = st.
Proof.
  revert st. induction l as [|f l IH]; intros st H; [reflexivity|]. cbn [fold_left]. rewrite siu_set by (apply H; left; reflexivity).
  apply IH. intros g G. apply H. right. exact G.
Qed.
Lemma seconds_min b m : seconds (mk_tm (t_sec b) m (t_hour b) (t_mday b) (t_mon b) (t_year b) 0) = seconds b + 60 * (m - t_min b).
Proof. unfold seconds. cbn [t_sec t_min t_hour t_mday t_mon t_year]. lia. Qed.
Lemma mktime_ok off b t : mktime off b = t -> t <> -1 -> t = seconds b - off.
Proof. unfold mktime. destruct (localtime off (seconds b - off)); intros; congruence. Qed.
Lemma timegm_ok b t : timegm b = t -> t <> -1 -> t = seconds b.
Proof. unfold timegm. destruct (gmtime (seconds b)); intros; congruence. Qed.
Lemma localtime_ok off t n : localtime off t = Some n -> n = break_down (t + off).
Proof. unfold localtime, gmtime. destruct (fits_int _); congruence. Qed.
Lemma break_down_day t k : seconds (mk_tm k 0 0 0 (t_mon (break_down t)) (t_year (break_down t)) 0) = (t / 86400 - t_mday (break_down t)) * 86400 + k.
Proof.
  pose proof (break_down_date t) as H. symmetry in H. apply date_of_iff in H. destruct H as (H1 & H2 & H3).
  rewrite seconds_norm by exact H1. rewrite H3. unfold day_number. lia.
Qed.
Lemma seconds_mday b d : seconds (mk_tm (t_sec b) (t_min b) (t_hour b) d (t_mon b) (t_year b) 0) = seconds b + 86400 * (d - t_mday b).
Proof. unfold seconds, day_number. cbn [t_sec t_min t_hour t_mday t_mon t_year]. lia. Qed.

(** the start of the week (from Sunday) of a day. *)
Definition sunday (d : Z) : Z := 7 * ((d + 4) / 7) - 4.
Lemma sunday_wday d : sunday d = d - (d + 4) mod 7.
Proof. unfold sunday. zdm. Qed.

Definition final (off : Z) (r : rounding) (b : tm) (st : state) : Z :=
  if is_week (finest0 st)
  then (sunday (seconds (moment b r st) / 86400) + (if rounds_up r then 7 else 0)) * 86400 - (if rounds_up r then 1 else 0) - zone off st
  else seconds (moment b r st) - zone off st.
Lemma not_m1 (x t : Z) : (if x =? -1 then Err else Ok x) = Ok t -> x = t /\ t <> -1.
Proof. destruct (Z.eqb_spec x (-1)); [discriminate|]. intros [= <-]. auto. Qed.
Lemma bind_ok {A B} (r : res A) (k : A -> res B) b : bind r k = Ok b -> exists a, r = Ok a /\ k a = Ok b.
Proof. destruct r; try discriminate. cbn. eauto. Qed.
Lemma if_ok {A} (c : bool) (x : res A) a : (if c then x else Undef) = Ok a -> c = true /\ x = Ok a.
Proof. destruct c; [auto|discriminate]. Qed.
Lemma Ok_inj {A} (a b : A) : Ok a = Ok b -> a = b.
Proof. intros [= ->]. reflexivity. Qed.
Lemma emit_value off st t1 t : emit off st t1 = Ok t -> t = seconds t1 - zone off st.
Proof.
  unfold emit, zone. intro F. apply bind_ok in F. destruct F as (x & F & G). apply not_m1 in G. destruct G as [-> N].
  destruct (is_set st TZ).
  - apply bind_ok in F. destruct F as (mi & F1 & F2). unfold int in F1. apply if_ok in F1. destruct F1 as [_ F1]. apply Ok_inj in F1, F2.
    pose proof (timegm_ok _ _ F2 N) as G. rewrite G, seconds_min. lia.
  - apply Ok_inj in F. exact (mktime_ok _ _ _ F N).
Qed.
Lemma week_tail_ok off r t t1 : week_tail off r t = Ok t1 -> t <> -1 /\ exists n, localtime off t = Some n /\ t1 = week_tm r n.
Proof.
  unfold week_tail, week_tm. destruct (Z.eqb_spec t (-1)); [discriminate|]. destruct (localtime off t) as [n0|]; [|discriminate].
  intro H. split; [assumption|]. exists n0. split; [reflexivity|]. destruct (rounds_up r); apply Ok_inj in H; auto.
Qed.
Lemma week_tm_seconds S r : r = ROUND_DOWN \/ r = ROUND_UP_INCLUSIVE ->
  seconds (week_tm r (break_down S)) = (sunday (S / 86400) + (if rounds_up r then 7 else 0)) * 86400 - (if rounds_up r then 1 else 0).
Proof.
  intros HR.
  assert (BD : forall k d, seconds (mk_tm k 0 0 d (t_mon (break_down S)) (t_year (break_down S)) 0) = (S / 86400 - t_mday (break_down S) + d) * 86400 + k).
  { intros k d. pose proof (break_down_day S k) as K.
    pose proof (seconds_mday (mk_tm k 0 0 0 (t_mon (break_down S)) (t_year (break_down S)) 0) d) as M. cbn [t_sec t_min t_hour t_mday t_mon t_year] in M.
    rewrite K in M. lia. }
  assert (WD : t_wday (break_down S) = (S / 86400 + 4) mod 7) by reflexivity.
  unfold week_tm. rewrite sunday_wday. destruct HR as [-> | ->]; cbn [rounds_up inclusive]; rewrite BD, WD; lia.
Qed.
Lemma week_adjust_eq off r t0 : no_round r = false -> week_adjust off r t0 = week_tail off r (mktime off t0).
Proof. unfold week_adjust. intros ->. reflexivity. Qed.
Lemma week_value off r t0 t1 : r = ROUND_DOWN \/ r = ROUND_UP_INCLUSIVE -> week_adjust off r t0 = Ok t1 ->
  seconds t1 = (sunday (seconds t0 / 86400) + (if rounds_up r then 7 else 0)) * 86400 - (if rounds_up r then 1 else 0).
Proof.
  intros HR H'. rewrite week_adjust_eq in H' by (destruct HR as [-> | ->]; reflexivity).
  apply week_tail_ok in H'. destruct H' as (N & n & LT & ->).
  pose proof (mktime_ok off _ _ eq_refl N) as EM. rewrite EM in LT. apply localtime_ok in LT.
  replace (seconds t0 - off + off) with (seconds t0) in LT by lia. subst n. apply week_tm_seconds, HR.
Qed.
Lemma finish_value off r b st t : r = ROUND_DOWN \/ r = ROUND_UP_INCLUSIVE -> Clean st -> finish off r b st = Ok t -> t = final off r b st.
Proof.
  intros HR [P U] H. unfold finish in H.
  assert (K : exists st3 r', round_fields b (st, r, NO_ROUND) abs_fields = Ok (st3, r', week_of r (finest0 st)) /\ rounded b st r st3).
  { destruct HR as [-> | ->]; [apply round_down_spec, P|].
    pose proof (round_up_spec b st P) as K. destruct (round_fields b (st, ROUND_UP_INCLUSIVE, NO_ROUND) abs_fields) as [[[st3 r'] w]| |].
    - destruct K as [-> K]. eauto.
    - contradiction.
    - discriminate H. }
  destruct K as (st3 & r' & E3 & P3 & A3 & R3 & T3). rewrite E3 in H. cbn [bind] in H.
  rewrite siu_fold_set in H by (intros f F; apply A3; cbn in F; intuition; subst; reflexivity).
  replace (if no_round (week_of r (finest0 st)) then st3 else st3) with st3 in H by (destruct (no_round _); reflexivity).
  destruct (output_tm st3) as [t0| |] eqn:O; try discriminate. cbn [bind] in H. apply output_ok in O.
  assert (O' : t0 = moment b r st).
  { rewrite O. unfold moment, V, R. rewrite <- !R3 by reflexivity.
    rewrite (proj2 (A3 SEC eq_refl)), (proj2 (A3 MIN eq_refl)), (proj2 (A3 HOUR eq_refl)), (proj2 (A3 MDAY eq_refl)), (proj2 (A3 MON eq_refl)), (proj2 (A3 YEAR eq_refl)). reflexivity. }
  clear O. subst t0.
  assert (Z3 : zone off st3 = zone off st).
  { unfold zone. rewrite T3, R3 by reflexivity. unfold up_change. destruct (rounds_up r), (is_set st TZ); try lia. destruct (finest0 st) as [[]|]; cbn [up_field field_eqb]; lia. }
  destruct (week_adjust off (week_of r (finest0 st)) (moment b r st)) as [t1| |] eqn:WA; cbn [bind] in H; try discriminate.
  apply emit_value in H. rewrite Z3 in H. unfold final. unfold week_of in WA. destruct (is_week (finest0 st)).
  - apply week_value in WA; [|exact HR]. rewrite H, WA. reflexivity.
  - unfold week_adjust in WA. cbn [no_round] in WA. injection WA as <-. exact H.
Qed.

(** ** Periods. *)
Definition D0 (mo y : Z) : Z := day_number (y + (mo - 1) / 12) ((mo - 1) mod 12 + 1) 1.
Lemma seconds_lin s mi h d mo y w : seconds (mk_tm s mi h d mo y w) = (D0 mo y + d - 1) * 86400 + h * 3600 + mi * 60 + s.
Proof. unfold seconds, D0, day_number. cbn [t_sec t_min t_hour t_mday t_mon t_year]. lia. Qed.
Lemma D0_month mo y : exists Y M, 1 <= M <= 12 /\ 12 * Y + M = 12 * y + mo /\ D0 mo y = day_number Y M 1 /\ D0 (mo + 1) y = day_number Y M 1 + month_len Y M.
Proof.
  exists (y + (mo - 1) / 12), ((mo - 1) mod 12 + 1). set (Y := y + (mo - 1) / 12). set (M := (mo - 1) mod 12 + 1).
  assert (B : 1 <= M <= 12) by (unfold M; zdm).
  split; [exact B|]. split; [unfold Y, M; zdm|]. split; [reflexivity|].
  rewrite dbm_next by exact B. unfold D0. destruct (Z.eqb_spec M 12) as [E12|N12].
  - f_equal; unfold Y, M in *; zdm.
  - f_equal; unfold Y, M in *; zdm.
Qed.
Lemma D0_year y : D0 1 y = dby y.
Proof. unfold D0. change ((1 - 1) / 12) with 0. change ((1 - 1) mod 12 + 1) with 1. unfold day_number. destruct (dbm_values (y + 0)) as (-> & _). replace (y + 0) with y by lia. lia. Qed.
Lemma month_period n Y M : 1 <= M <= 12 ->
  (let '(y, m, _) := date_of n in 12 * y + m = 12 * Y + M) <-> day_number Y M 1 <= n < day_number Y M 1 + month_len Y M.
Proof.
  intro H. destruct (date_of n) as [[y m] d] eqn:E. split.
  - intro K. apply date_of_iff in E. destruct E as (E1 & E2 & ->). assert (y = Y) by lia. assert (m = M) by lia. subst. unfold day_number in *. lia.
  - intro K. assert (E' : date_of n = (Y, M, n - day_number Y M 1 + 1)) by (apply date_of_iff; unfold day_number in *; lia).
    rewrite E' in E. injection E as -> -> _. lia.
Qed.
Lemma year_period n Y : (let '(y, _, _) := date_of n in y = Y) <-> dby Y <= n < dby (Y + 1).
Proof. unfold date_of. apply year_of_iff. Qed.

Lemma clean_unset st f : Clean st -> hit st f = false -> val st (rel f) = 0.
Proof. intros [_ U] H. apply U. unfold hit in H. apply Bool.orb_false_iff in H. apply H. Qed.
Lemma finest0_some st :
  match finest0 st with
  | Some Second => True
  | Some Minute => hit st SEC = false
  | Some Hour => hit st SEC = false /\ hit st MIN = false
  | Some Day => hit st SEC = false /\ hit st MIN = false /\ hit st HOUR = false
  | Some Week => hit st SEC = false /\ hit st MIN = false /\ hit st HOUR = false /\ hit st MDAY = false
  | Some Month => hit st SEC = false /\ hit st MIN = false /\ hit st HOUR = false /\ hit st MDAY = false /\ is_set st RWEEK = false
  | Some Year => hit st SEC = false /\ hit st MIN = false /\ hit st HOUR = false /\ hit st MDAY = false /\ is_set st RWEEK = false /\ hit st MON = false
  | None => hit st SEC = false /\ hit st MIN = false /\ hit st HOUR = false /\ hit st MDAY = false /\ is_set st RWEEK = false /\ hit st MON = false /\ hit st YEAR = false
  end.
Proof.
  unfold finest0. destruct (hit st SEC) eqn:?; [exact I|]. destruct (hit st MIN) eqn:?; [auto|]. destruct (hit st HOUR) eqn:?; [auto|].
  destruct (hit st MDAY) eqn:?; [auto|]. destruct (is_set st RWEEK) eqn:?; [auto|]. destruct (hit st MON) eqn:?; [auto 6|].
  destruct (hit st YEAR) eqn:?; auto 8.
Qed.

Ltac unset_zero C :=
  repeat match goal with H : hit ?st ?f = false |- _ =>
    let K := fresh "Z" in pose proof (clean_unset st f C H) as K; cbn [rel] in K; clear H end.
Theorem final_period off b st : Clean st ->
  let L := final off ROUND_DOWN b st in let U := final off ROUND_UP_INCLUSIVE b st in
  match finest0 st with
  | Some u => L <= U /\ forall t, L <= t <= U <-> period date_of (zone off st) u t = period date_of (zone off st) u L
  | None => U = L
  end.
Proof.
  intros C L U. pose proof (finest0_some st) as F. unfold L, U, final, moment, R, V, up_change, period.
  destruct (finest0 st) as [[]|]; cbn [is_week rounds_up up_field field_eqb rank]; repeat match goal with H : _ /\ _ |- _ => destruct H end; unset_zero C;
  try match goal with H : is_set st RWEEK = false |- _ => pose proof (proj2 C RWEEK H) as ZW; clear H end;
  repeat match goal with H : val st _ = 0 |- _ => rewrite H; clear H end;
  cbn [frank epoch Z.ltb Z.compare Pos.compare Pos.compare_cont]; rewrite ?seconds_lin; set (z := zone off st).
  - (* Second *) split; [lia|]. intro t. destruct (date_of _) as [[? ?] ?], (date_of _) as [[? ?] ?]. lia.
  - split; [lia|]. intro t. destruct (date_of _) as [[? ?] ?], (date_of _) as [[? ?] ?]. zdm.
  - split; [lia|]. intro t. destruct (date_of _) as [[? ?] ?], (date_of _) as [[? ?] ?]. zdm.
  - split; [lia|]. intro t. destruct (date_of _) as [[? ?] ?], (date_of _) as [[? ?] ?]. zdm.
  - (* Week *) split; [unfold sunday; lia|]. intro t. destruct (date_of _) as [[? ?] ?], (date_of _) as [[? ?] ?]. unfold sunday.
    match goal with |- context [?x / 86400] => generalize (x / 86400) end. intro q. zdm.
  - (* Month *)
    set (mo := now_or b st MON - (val st RMON + 0)). set (y := now_or b st YEAR - (val st RYEAR + 0)).
    replace (now_or b st MON - (val st RMON + -1)) with (mo + 1) by (unfold mo; lia).
    destruct (D0_month mo y) as (Y & M & HM & HE & E1 & E2). rewrite E1, E2.
    assert (Len : 1 <= month_len Y M) by (pose proof (last_day_len Y M HM) as K; inversion K; lia).
    split; [lia|]. intro t.
    replace (((day_number Y M 1 + (1 - (0 + 0) - 7 * (0 + 0)) - 1) * 86400 + (0 - (0 + 0)) * 3600 + (0 - (0 + 0)) * 60 + (0 - (0 + 0)) - z + z) / 86400) with (day_number Y M 1) by zdm.
    assert (Es : date_of (day_number Y M 1) = (Y, M, 1)) by (apply date_of_iff; lia). rewrite Es.
    pose proof (month_period ((t + z) / 86400) Y M HM) as K. destruct (date_of ((t + z) / 86400)) as [[y' m'] d']. rewrite K. zdm.
  - (* Year *)
    set (y := now_or b st YEAR - (val st RYEAR + 0)).
    replace (now_or b st YEAR - (val st RYEAR + -1)) with (y + 1) by (unfold y; lia).
    replace (1 - (0 + 0)) with 1 by lia. rewrite !D0_year. pose proof (dby_lt y) as Lt.
    split; [lia|]. intro t.
    replace (((dby y + (1 - 7 * (0 + 0)) - 1) * 86400 + (0 - (0 + 0)) * 3600 + (0 - (0 + 0)) * 60 + (0 - (0 + 0)) - z + z) / 86400) with (dby y) by zdm.
    pose proof (year_period ((t + z) / 86400) y) as K. pose proof (year_period (dby y) y) as K'.
    destruct (date_of ((t + z) / 86400)) as [[y' m'] d']. destruct (date_of (dby y)) as [[y2 m2] d2].
    assert (y2 = y) as -> by (apply K'; lia). rewrite K. zdm.
  - lia.
Qed.
