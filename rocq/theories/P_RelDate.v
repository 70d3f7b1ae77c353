(** C66: dates relative to now. *)
From Verif Require Import Bytes Decimal Calendar CalendarSpec CalendarProofs RelDate RelDateSpec.
From Coq Require Import ZArith Lia.
Local Open Scope Z_scope.

Lemma two_digits n : 0 <= n < 100 -> digits2 n (two n).
Proof.
  intros H. exists (n / 10), (n mod 10). pose proof (Z.div_mod n 10 ltac:(lia)). pose proof (Z.mod_pos_bound n 10 ltac:(lia)).
  assert (0 <= n / 10 <= 9) by (split; [apply Z.div_pos; lia|]; enough (n / 10 < 10) by lia; apply Z.div_lt_upper_bound; lia).
  split; [lia|]. split; [lia|]. split; [lia|]. unfold two, digit. do 2 f_equal; [|do 2 f_equal]; lia.
Qed.
Lemma month_len_bound y m : 1 <= m <= 12 -> 28 <= month_len y m <= 31.
Proof. intros H. pose proof (last_day_len y m H) as L. inversion L; lia. Qed.
Lemma clock_fmt zone t : clock zone t (fmt_R (local_tm zone t)).
Proof.
  unfold clock, fmt_R, local_tm, day, local. set (x := t + zone t). cbn [break_down t_hour t_min].
  pose proof (Z.div_mod x 86400 ltac:(lia)). pose proof (Z.mod_pos_bound x 86400 ltac:(lia)). set (s := x mod 86400) in *.
  pose proof (Z.div_mod s 3600 ltac:(lia)). pose proof (Z.mod_pos_bound s 3600 ltac:(lia)).
  pose proof (Z.div_mod s 60 ltac:(lia)). pose proof (Z.mod_pos_bound s 60 ltac:(lia)).
  pose proof (Z.div_mod (s / 60) 60 ltac:(lia)). pose proof (Z.mod_pos_bound (s / 60) 60 ltac:(lia)).
  assert (E : s / 3600 = s / 60 / 60) by (rewrite Z.div_div by lia; reflexivity).
  exists (s / 3600), (s / 60 mod 60), (two (s / 3600)), (two (s / 60 mod 60)).
  split; [lia|]. split; [lia|]. split; [lia|]. split; [apply two_digits; lia|]. split; [apply two_digits; lia|reflexivity].
Qed.
Lemma weekday_fmt zone t : weekday ((day zone t + 4) mod 7) (fmt_a (local_tm zone t)).
Proof.
  unfold fmt_a, local_tm, day, local. cbn [break_down t_wday]. set (w := ((t + zone t) / 86400 + 4) mod 7).
  pose proof (Z.mod_pos_bound ((t + zone t) / 86400 + 4) 7 ltac:(lia)) as B. fold w in B.
  assert (w = 0 \/ w = 1 \/ w = 2 \/ w = 3 \/ w = 4 \/ w = 5 \/ w = 6) as C by lia.
  decompose [or] C; clear C; match goal with H : w = _ |- _ => rewrite H end; constructor.
Qed.
Lemma month_fmt zone t : month_name (t_mon (local_tm zone t)) (fmt_B (local_tm zone t)).
Proof.
  unfold fmt_B, local_tm. pose proof (month_of_range (year_of ((t + zone t) / 86400)) ((t + zone t) / 86400 - dby (year_of ((t + zone t) / 86400)))) as R.
  cbn [break_down t_mon]. set (m := month_of _ _) in *. apply months in R.
  decompose [or] R; clear R; match goal with H : m = _ |- _ => rewrite H end; constructor.
Qed.
Lemma decz_dec n : 0 <= n -> decz n = dec (Z.to_N n).
Proof. destruct n; [reflexivity|reflexivity|lia]. Qed.

(** If the zone has the same offset from UTC now and then, the text is the one for that
    distance in time and days. *)
Theorem C66_relative_date c zone now t : Civil c -> zone now = zone t ->
  shown c zone now t (relative_date zone now t).
Proof.
  intros HC HZ. assert (EC : forall n, c n = date_of n) by (apply civil_unique; [exact HC|apply date_of_civil]).
  assert (DATE : forall n y m d, date_of n = (y, m, d) -> 1 <= m <= 12 /\ 1 <= d <= 31).
  { intros n y m d E. apply date_of_iff in E as (A & B & _). pose proof (month_len_bound y m A). lia. }
  unfold relative_date. destruct (Z.ltb_spec now t) as [F|F]; [now apply sh_future|].
  change DAY with 86400. set (b := local_tm zone t).
  assert (BD : c (day zone t) = (t_year b, t_mon b, t_mday b)) by (rewrite EC; symmetry; apply break_down_date).
  destruct (DATE (day zone t) (t_year b) (t_mon b) (t_mday b)) as [Bm Bd]; [now rewrite <- EC|].
  destruct (Z.ltb_spec (180 * 86400) (now - t)) as [L|L].
  { unfold fmt_F. eapply sh_date; eauto; apply two_digits; lia. }
  destruct (Z.ltb_spec (now - t) 3600) as [M|M].
  { rewrite <- decz_dec by (apply Z.div_pos; lia). apply sh_minutes; [lia|].
    pose proof (Z.div_mod (now - t) 60 ltac:(lia)). pose proof (Z.mod_pos_bound (now - t) 60 ltac:(lia)). lia. }
  assert (MONTH : day zone t <= day zone now - 7 -> shown c zone now t (fmt_B b ++ lit " " ++ two (t_mday b))).
  { intros H. eapply sh_month; eauto; [apply month_fmt|apply two_digits; lia]. }
  assert (Dn : 86400 * day zone now <= now + zone now < 86400 * day zone now + 86400).
  { unfold day, local. pose proof (Z.div_mod (now + zone now) 86400 ltac:(lia)). pose proof (Z.mod_pos_bound (now + zone now) 86400 ltac:(lia)). lia. }
  assert (Dt : 86400 * day zone t <= t + zone t < 86400 * day zone t + 86400).
  { unfold day, local. pose proof (Z.div_mod (t + zone t) 86400 ltac:(lia)). pose proof (Z.mod_pos_bound (t + zone t) 86400 ltac:(lia)). lia. }
  assert (Wn : t_wday (local_tm zone now) = (day zone now + 4) mod 7) by reflexivity.
  assert (Wt : t_wday b = (day zone t + 4) mod 7) by reflexivity.
  rewrite Wn, Wt. set (dn := day zone now) in *. set (dt := day zone t) in *.
  pose proof (Z.div_mod (dn + 4) 7 ltac:(lia)) as A1. pose proof (Z.mod_pos_bound (dn + 4) 7 ltac:(lia)) as A2.
  pose proof (Z.div_mod (dt + 4) 7 ltac:(lia)) as A3. pose proof (Z.mod_pos_bound (dt + 4) 7 ltac:(lia)) as A4.
  set (wn := (dn + 4) mod 7) in *. set (wt := (dt + 4) mod 7) in *.
  pose proof (Z.div_mod (wn + 7 - wt) 7 ltac:(lia)) as A5. pose proof (Z.mod_pos_bound (wn + 7 - wt) 7 ltac:(lia)) as A6.
  destruct (Z.leb_spec (now - t) (7 * 86400)) as [W|W]; [|apply MONTH; lia].
  destruct (Z.eqb_spec wt wn) as [Ew|Ew]; cbn [andb negb].
  - destruct (Z.ltb_spec (now - t) 86400) as [T|T].
    + apply sh_today; [lia|lia|apply clock_fmt].
    + destruct (Z.eqb_spec ((wn + 7 - wt) mod 7) 1) as [Y|Y]; [exfalso; lia|]. apply MONTH. lia.
  - destruct (Z.eqb_spec ((wn + 7 - wt) mod 7) 1) as [Y|Y].
    + apply sh_yesterday; [lia|lia|apply clock_fmt].
    + apply sh_week; [lia|apply weekday_fmt|apply clock_fmt].
Qed.
Print Assumptions C66_relative_date.

Lemma app_tail_eq {A} (a b x y : list A) : length x = length y -> a ++ x = b ++ y -> a = b /\ x = y.
Proof.
  intros L E. assert (LA : length a = length b) by (apply (f_equal (@length A)) in E; rewrite !app_length in E; lia).
  revert b LA E. induction a as [|u a IH]; intros [|v b] LA E; try discriminate LA; [auto|].
  cbn in E. injection E as -> E. destruct (IH b) as [-> ->]; auto.
Qed.
Lemma decz_inj a b : decz a = decz b -> a = b.
Proof.
  assert (D : forall n s, dec n <> "-"%char :: s).
  { intros n s E. pose proof (dec_digits n) as X. rewrite E in X. discriminate X. }
  destruct a as [|p|p], b as [|q|q]; cbn [decz]; intros E; try (symmetry in E; destruct (D _ _ E)); try (destruct (D _ _ E)); try reflexivity.
  - apply dec_inj in E. discriminate E.
  - apply dec_inj in E. discriminate E.
  - apply dec_inj in E. now injection E as ->.
  - injection E as E. apply dec_inj in E. now injection E as ->.
Qed.
Lemma digits2_length n s : digits2 n s -> length s = 2%nat.
Proof. intros (a & b & _ & _ & _ & ->). reflexivity. Qed.
Lemma digits2_inj n n' s : digits2 n s -> digits2 n' s -> n = n'.
Proof.
  intros (a & b & A & B & -> & ->) (a' & b' & A' & B' & -> & E).
  pose proof (f_equal (fun l => code (nth 0 l NUL)) E) as E1. pose proof (f_equal (fun l => code (nth 1 l NUL)) E) as E2. cbn [nth] in E1, E2. rewrite !code_chr in E1, E2 by lia. lia.
Qed.
Lemma clock_length zone t s : clock zone t s -> length s = 5%nat.
Proof. intros (h & m & hs & ms & _ & _ & _ & H & M & ->). rewrite !app_length, (digits2_length _ _ H), (digits2_length _ _ M). reflexivity. Qed.
Lemma clock_inj zone t t' s : clock zone t s -> clock zone t' s -> day zone t = day zone t' -> local zone t / 60 = local zone t' / 60.
Proof.
  intros (h & m & hs & ms & A & A1 & A2 & H & M & ->) (h' & m' & hs' & ms' & B & B1 & B2 & H' & M' & E) D.
  rewrite !app_assoc in E.
  apply (app_tail_eq (hs ++ lit ":") (hs' ++ lit ":")) in E; [|rewrite (digits2_length _ _ M), (digits2_length _ _ M'); reflexivity].
  - destruct E as [E1 E2]. subst ms'. apply app_inv_tail in E1. subst hs'.
    pose proof (digits2_inj _ _ _ H H'). pose proof (digits2_inj _ _ _ M M'). subst h' m'.
    rewrite D in A. set (k := 1440 * day zone t' + 60 * h + m).
    assert (X : forall u, 60 * k <= u < 60 * k + 60 -> u / 60 = k).
    { intros u Hu. symmetry. apply (Z.div_unique u 60 k (u - 60 * k)); lia. }
    rewrite !X by (unfold k; lia). reflexivity.
Qed.

(** The character before the last two tells the kinds of text apart. *)
Definition mark (s : bytes) : byte := nth 2 (rev s) NUL.
Lemma mark_end x a b d : mark (x ++ [a; b; d]) = a.
Proof. unfold mark. rewrite rev_app_distr. reflexivity. Qed.
Lemma mark_digits x ch n ds : digits2 n ds -> mark (x ++ ch :: ds) = ch.
Proof. intros (a & b & _ & _ & _ & ->). apply mark_end. Qed.
Lemma mark_clock zone t x s : clock zone t s -> mark (x ++ s) = ":"%char.
Proof.
  intros (h & m & hs & ms & _ & _ & _ & _ & M & ->). rewrite app_assoc.
  rewrite (app_assoc (x ++ hs)). rewrite <- (app_assoc (x ++ hs) (lit ":") ms). change (lit ":" ++ ms) with (":"%char :: ms). eapply mark_digits; eauto.
Qed.

(** Two times that are shown alike are less than a minute apart or on the same day (at the
    same minute of it if it is one of the last seven days). *)
Lemma clock_group c zone now t s : shown c zone now t s -> mark s = ":"%char ->
  exists p x, s = p ++ x /\ clock zone t x /\
   (p = lit "Today " /\ day zone t = day zone now \/ p = lit "Yest. " /\ day zone t = day zone now - 1 \/
    exists w, p = w ++ lit ". " /\ weekday ((day zone t + 4) mod 7) w /\ day zone now - 6 <= day zone t <= day zone now - 2).
Proof.
  intros H M. destruct H as [H|n H1 H2|x H1 H2 H3|x H1 H2 H3|w x H1 H2 H3|y m d ms ds H1 H2 H3 H4 H5|y m d ms ds H1 H2 H3 H4].
  - discriminate M.
  - exfalso. change (lit " mins. ago") with (lit " mins. " ++ ["a"; "g"; "o"]%char) in M. rewrite app_assoc, mark_end in M. discriminate M.
  - exists (lit "Today "), x. auto.
  - exists (lit "Yest. "), x. split; [reflexivity|]. split; [auto|]. right; left; auto.
  - exists (w ++ lit ". "), x. rewrite app_assoc. split; [reflexivity|]. split; [auto|]. right; right. exists w; auto.
  - exfalso. change (lit " " ++ ds) with (" "%char :: ds) in M. erewrite mark_digits in M by eauto. discriminate M.
  - exfalso. rewrite (app_assoc (decz y)), (app_assoc (decz y ++ _)) in M. change (lit "-" ++ ds) with ("-"%char :: ds) in M. erewrite mark_digits in M by eauto. discriminate M.
Qed.
Lemma month_name_inj a b s : month_name a s -> month_name b s -> a = b.
Proof. intros A B. destruct A; inversion B; reflexivity. Qed.
Lemma weekday_inj a b s : weekday a s -> weekday b s -> a = b.
Proof. intros A B. destruct A; inversion B; reflexivity. Qed.
Lemma weekday_len a s : weekday a s -> length s = 3%nat.
Proof. now destruct 1. Qed.
Lemma same_md n n' y y' m d : date_of n = (y, m, d) -> date_of n' = (y', m, d) -> Z.abs (n - n') < 364 -> n = n'.
Proof.
  intros A B L. apply date_of_iff in A as (Hm & Hd & ->), B as (_ & _ & ->). unfold day_number in *.
  assert (Dm : forall u v, Z.abs (dbm u m - dbm v m) <= 1).
  { intros u v. unfold dbm. destruct (leap u && _), (leap v && _); lia. }
  pose proof (Dm y y') as Q. assert (y = y'); [|subst; lia].
  destruct (Z.lt_trichotomy y y') as [X|[X|X]]; [exfalso|exact X|exfalso].
  - pose proof (dby_mono y y' ltac:(lia)). lia.
  - pose proof (dby_mono y' y ltac:(lia)). lia.
Qed.

Theorem C66_unambiguous c zone now t t' s : Civil c -> (forall u, -86400 <= zone u <= 86400) ->
  t <= now -> shown c zone now t s -> shown c zone now t' s ->
  Z.abs (t - t') < 60 \/
  day zone t = day zone t' /\ (day zone now - 6 <= day zone t -> local zone t / 60 = local zone t' / 60).
Proof.
  intros HC HZ HN A B. assert (EC : forall n, c n = date_of n) by (apply civil_unique; [exact HC|apply date_of_civil]).
  assert (Dy : forall u, 86400 * day zone u <= u + zone u < 86400 * day zone u + 86400).
  { intros u. unfold day, local. pose proof (Z.div_mod (u + zone u) 86400 ltac:(lia)). pose proof (Z.mod_pos_bound (u + zone u) 86400 ltac:(lia)). lia. }
  destruct (Ascii.eqb_spec (mark s) ":"%char) as [MK|MK].
  - destruct (clock_group _ _ _ _ _ A MK) as (p & x & -> & K & P). destruct (clock_group _ _ _ _ _ B MK) as (p' & x' & E & K' & P').
    apply app_tail_eq in E; [|now rewrite (clock_length _ _ _ K), (clock_length _ _ _ K')]. destruct E as [-> ->].
    right. enough (day zone t = day zone t') as D by (split; [exact D|intros _; eapply clock_inj; eauto]).
    destruct P as [[-> P]|[[-> P]|(w & -> & P & P0)]], P' as [[Q P']|[[Q P']|(w' & Q & P' & P0')]]; try discriminate Q; try congruence;
      try (apply (f_equal (@length byte)) in Q; rewrite ?app_length, ?(weekday_len _ _ P'), ?(weekday_len _ _ P) in Q; discriminate Q).
    apply app_inv_tail in Q. subst w'. pose proof (weekday_inj _ _ _ P P') as W.
    pose proof (Z.div_mod (day zone t + 4) 7 ltac:(lia)). pose proof (Z.div_mod (day zone t' + 4) 7 ltac:(lia)). lia.
  - assert (CK : forall u x p, clock zone u x -> s = p ++ x -> False) by (intros u x p K E; apply MK; rewrite E; eapply mark_clock; eauto).
    inversion A as [H E|n H1 H2 E|x H1 H2 H3 E|x H1 H2 H3 E|w x H1 H2 H3 E|y m d ms ds H1 H2 H3 H4 H5 E|y m d ms ds H1 H2 H3 H4 E];
      try (exfalso; lia); try (exfalso; eapply CK; eauto; fail).
    + left. inversion B as [H' E'|n' H1' H2' E'|x H1' H2' H3' E'|x H1' H2' H3' E'|w x H1' H2' H3' E'|y m d ms ds H1' H2' H3' H4' H5' E'|y m d ms ds H1' H2' H3' H4' E']; try (exfalso; eapply CK; eauto; fail).
      * exfalso. rewrite <- E in E'. apply (f_equal mark) in E'. change (lit " mins. ago") with (lit " mins. " ++ ["a"; "g"; "o"]%char) in E'. rewrite app_assoc, mark_end in E'. discriminate E'.
      * rewrite <- E in E'. apply app_inv_tail, decz_inj in E'. lia.
      * exfalso. eapply (CK t' x (w ++ lit ". ")); eauto. now rewrite <- app_assoc.
      * exfalso. rewrite <- E in E'. apply (f_equal mark) in E'. change (lit " mins. ago") with (lit " mins. " ++ ["a"; "g"; "o"]%char) in E'. rewrite (app_assoc (decz n)), mark_end in E'. change (lit " " ++ ds) with (" "%char :: ds) in E'. erewrite mark_digits in E' by eauto. discriminate E'.
      * exfalso. rewrite <- E in E'. apply (f_equal mark) in E'. change (lit " mins. ago") with (lit " mins. " ++ ["a"; "g"; "o"]%char) in E'. rewrite (app_assoc (decz n)), mark_end in E'.
        rewrite (app_assoc (decz y)), (app_assoc (decz y ++ _)) in E'. change (lit "-" ++ ds) with ("-"%char :: ds) in E'. erewrite mark_digits in E' by eauto. discriminate E'.
    + exfalso. eapply (CK t x (w ++ lit ". ")); eauto. now rewrite <- app_assoc.
    + right. assert (day zone t = day zone t') as D.
      * inversion B as [H' E'|n' H1' H2' E'|x H1' H2' H3' E'|x H1' H2' H3' E'|w x H1' H2' H3' E'|y' m' d' ms' ds' H1' H2' H3' H4' H5' E'|y' m' d' ms' ds' H1' H2' H3' H4' E']; try (exfalso; eapply CK; eauto; fail).
        -- exfalso. rewrite <- E in E'. apply (f_equal mark) in E'. change (lit " " ++ ds) with (" "%char :: ds) in E'. erewrite mark_digits in E' by eauto. discriminate E'.
        -- exfalso. rewrite <- E in E'. apply (f_equal mark) in E'. change (lit " " ++ ds) with (" "%char :: ds) in E'. erewrite (mark_digits ms) in E' by eauto.
           change (lit " mins. ago") with (lit " mins. " ++ ["a"; "g"; "o"]%char) in E'. rewrite (app_assoc (decz n')), mark_end in E'. discriminate E'.
        -- exfalso. eapply (CK t' x (w ++ lit ". ")); eauto. now rewrite <- app_assoc.
        -- rewrite <- E in E'. rewrite (app_assoc ms'), (app_assoc ms) in E'. apply app_tail_eq in E'; [|now rewrite (digits2_length _ _ H5), (digits2_length _ _ H5')].
           destruct E' as [E1 E2]. subst ds'. apply app_inv_tail in E1. subst ms'. pose proof (month_name_inj _ _ _ H4 H4'). pose proof (digits2_inj _ _ _ H5 H5'). subst m' d'.
           rewrite EC in H3, H3'. apply (same_md _ _ _ _ _ _ H3 H3').
           pose proof (Dy t). pose proof (Dy t'). pose proof (HZ t). pose proof (HZ t').
           pose proof (Dy now). pose proof (HZ now). lia.
        -- exfalso. rewrite <- E in E'. apply (f_equal mark) in E'. change (lit " " ++ ds) with (" "%char :: ds) in E'. erewrite (mark_digits ms) in E' by eauto.
           rewrite (app_assoc (decz y')), (app_assoc (decz y' ++ _)) in E'. change (lit "-" ++ ds') with ("-"%char :: ds') in E'. erewrite mark_digits in E' by eauto. discriminate E'.
      * split; [exact D|]. intros X. exfalso; lia.
    + right. assert (M0 : mark s = "-"%char).
      { rewrite <- E. rewrite (app_assoc (decz y)), (app_assoc (decz y ++ _)). change (lit "-" ++ ds) with ("-"%char :: ds). eapply mark_digits; eauto. }
      assert (day zone t = day zone t') as D.
      * inversion B as [H' E'|n' H1' H2' E'|x H1' H2' H3' E'|x H1' H2' H3' E'|w x H1' H2' H3' E'|y' m' d' ms' ds' H1' H2' H3' H4' H5' E'|y' m' d' ms' ds' H1' H2' H3' H4' E']; try (exfalso; eapply CK; eauto; fail).
        -- exfalso. rewrite <- E' in M0. discriminate M0.
        -- exfalso. rewrite <- E' in M0. change (lit " mins. ago") with (lit " mins. " ++ ["a"; "g"; "o"]%char) in M0. rewrite app_assoc, mark_end in M0. discriminate M0.
        -- exfalso. eapply (CK t' x (w ++ lit ". ")); eauto. now rewrite <- app_assoc.
        -- exfalso. rewrite <- E' in M0. change (lit " " ++ ds') with (" "%char :: ds') in M0. erewrite mark_digits in M0 by eauto. discriminate M0.
        -- rewrite <- E in E'. rewrite !app_assoc in E'.
           apply app_tail_eq in E'; [|now rewrite (digits2_length _ _ H4), (digits2_length _ _ H4')]. destruct E' as [E1 E2]. subst ds'.
           apply app_inv_tail in E1.
           apply app_tail_eq in E1; [|now rewrite (digits2_length _ _ H3), (digits2_length _ _ H3')]. destruct E1 as [E1 E2]. subst ms'.
           apply app_inv_tail, decz_inj in E1. subst y'. pose proof (digits2_inj _ _ _ H3 H3'). pose proof (digits2_inj _ _ _ H4 H4'). subst m' d'.
           rewrite EC in H2, H2'. apply date_of_iff in H2 as (_ & _ & ->), H2' as (_ & _ & ->). reflexivity.
      * split; [exact D|]. intros X. exfalso. pose proof (Dy t). pose proof (Dy now). pose proof (HZ t). pose proof (HZ now). lia.
Qed.
Print Assumptions C66_unambiguous.

(** Every text fits the buffer of 20 bytes with its NUL, so nothing is cut off. *)
Lemma dec_fuel_len f : forall n k, (0 < k)%nat -> (n < 10 ^ N.of_nat k)%N -> (length (dec_fuel f n) <= k)%nat.
Proof.
  induction f as [|f IH]; intros n k K H; cbn [dec_fuel]; [cbn; lia|]. destruct (N.ltb_spec n 10) as [L|L]; [cbn; lia|].
  destruct k as [|[|k]]; [lia|change (10 ^ N.of_nat 1)%N with 10%N in H; lia|].
  rewrite app_length. cbn [length]. assert (n / 10 < 10 ^ N.of_nat (S k))%N.
  { apply N.div_lt_upper_bound; [lia|]. replace (N.of_nat (S (S k))) with (N.succ (N.of_nat (S k))) in H by lia. rewrite N.pow_succ_r' in H. exact H. }
  pose proof (IH (n / 10)%N (S k) ltac:(lia) ltac:(assumption)). lia.
Qed.
Lemma decz_len z k : (0 < k)%nat -> 0 <= z < 10 ^ Z.of_nat k -> (length (decz z) <= k)%nat.
Proof.
  intros K H. rewrite decz_dec by lia. apply dec_fuel_len; [exact K|].
  apply N2Z.inj_lt. rewrite N2Z.inj_pow, Z2N.id by lia. rewrite nat_N_Z. lia.
Qed.
Theorem C66_fits c zone now t s : shown c zone now t s ->
  (forall y m d, c (day zone t) = (y, m, d) -> 0 <= y <= 2147485547) -> (length s < 20)%nat.
Proof.
  intros H Y. destruct H as [H|n H1 H2|x H1 H2 H3|x H1 H2 H3|w x H1 H2 H3|y m d ms ds H1 H2 H3 H4 H5|y m d ms ds H1 H2 H3 H4]; rewrite ?app_length.
  - cbn; lia.
  - pose proof (decz_len n 2 ltac:(lia) ltac:(change (10 ^ Z.of_nat 2) with 100; lia)). cbn [lit list_ascii_of_string length]. lia.
  - rewrite (clock_length _ _ _ H3). cbn; lia.
  - rewrite (clock_length _ _ _ H3). cbn; lia.
  - rewrite (clock_length _ _ _ H3), (weekday_len _ _ H2). cbn; lia.
  - rewrite (digits2_length _ _ H5). assert (length ms <= 9)%nat by (destruct H4; cbn; lia). cbn [lit list_ascii_of_string length]. lia.
  - rewrite (digits2_length _ _ H3), (digits2_length _ _ H4). pose proof (decz_len y 10 ltac:(lia)) as L. change (10 ^ Z.of_nat 10) with 10000000000 in L.
    pose proof (Y _ _ _ H2). cbn [lit list_ascii_of_string length]. lia.
Qed.
Print Assumptions C66_fits.

(** With daylight saving time the claim fails.  When it ends, a time early on the same day,
    more than 24 hours ago, is shown as a date, not as today: *)
Theorem C66_dst_today_refuted : exists zone now t, (forall u, zone u = 3600 \/ zone u = 7200) /\
  day zone t = day zone now /\ relative_date zone now t = lit "October 27" /\ forall c, ~ shown c zone now t (lit "October 27").
Proof.
  exists (fun u => if u <? 1729990800 then 7200 else 3600), (1729990800 + 78300), (1729990800 - 9000).
  split; [intros u; destruct (u <? _); auto|]. split; [vm_compute; reflexivity|]. split; [vm_compute; reflexivity|].
  intros c H. set (zone := fun u => if u <? 1729990800 then 7200 else 3600) in *.
  assert (D1 : day zone (1729990800 - 9000) = 20023) by (vm_compute; reflexivity).
  assert (D2 : day zone (1729990800 + 78300) = 20023) by (vm_compute; reflexivity).
  remember (lit "October 27") as s eqn:S.
  destruct H as [H|n H1 H2|x H1 H2 H3|x H1 H2 H3|w x H1 H2 H3|y m d ms ds H1 H2 H3 H4 H5|y m d ms ds H1 H2 H3 H4]; try lia.
  discriminate S.
Qed.
Print Assumptions C66_dst_today_refuted.
(** and when it begins, a time eight days ago is shown as yesterday. *)
Theorem C66_dst_yesterday_refuted : exists zone now t, (forall u, zone u = 3600 \/ zone u = 7200) /\
  day zone t = day zone now - 8 /\ relative_date zone now t = lit "Yest. 23:30".
Proof.
  exists (fun u => if u <? 1711846800 then 3600 else 7200), (1711846800 - 9000 + 7 * 86400), (1711846800 - 9000).
  split; [intros u; destruct (u <? _); auto|]. split; vm_compute; reflexivity.
Qed.
Print Assumptions C66_dst_yesterday_refuted.

(** Elapsed times: the hours, minutes and seconds printed add up to the whole seconds. *)
Definition part (n : Z) (unit s : bytes) : Prop := n = 0 /\ s = [] \/ 0 < n /\ s = decz n ++ unit ++ lit " ".
Theorem C66_elapsed usec : 1000000 <= usec ->
  exists h m s hs ms, formatted_seconds usec = hs ++ ms ++ decz s ++ lit "s" /\
    part h (lit "h") hs /\ part m (lit "m") ms /\ 0 <= m <= 60 /\ 0 <= s <= 60 /\
    3600 * h + 60 * m + s = usec / 1000000.
Proof.
  intros H. unfold formatted_seconds. destruct (Z.ltb_spec usec 1000000); [lia|].
  pose proof (Z.div_mod usec 1000000 ltac:(lia)) as A1. pose proof (Z.mod_pos_bound usec 1000000 ltac:(lia)) as A2. set (n := usec / 1000000) in *.
  assert (D0 : forall u, 0 <= u -> u = 1000000 * (u / 1000000) + u mod 1000000 /\ 0 <= u mod 1000000 < 1000000 /\ 0 <= u / 1000000).
  { intros u Hu. split; [apply Z.div_mod; lia|]. split; [apply Z.mod_pos_bound; lia|apply Z.div_pos; lia]. }
  pose proof (Z.div_mod n 3600 ltac:(lia)) as N1. pose proof (Z.mod_pos_bound n 3600 ltac:(lia)) as N2.
  assert (FIN : forall h hs u1, part h (lit "h") hs -> u1 = usec - 3600 * h * 1000000 -> 0 <= u1 < 3601 * 1000000 ->
    exists h0 m s hs0 ms, (let '(out2, u2) := if 60 * 1000000 <? u1
                       then let minutes := u1 / 1000000 / 60 in (decz minutes ++ lit "m ", u1 - minutes * 60 * 1000000)
                       else ([], u1) in hs ++ out2 ++ decz (u2 / 1000000) ++ lit "s") = hs0 ++ ms ++ decz s ++ lit "s" /\
    part h0 (lit "h") hs0 /\ part m (lit "m") ms /\ 0 <= m <= 60 /\ 0 <= s <= 60 /\ 3600 * h0 + 60 * m + s = n).
  { intros h hs u1 P1 E1 E2. destruct (D0 u1) as (B1 & B2 & B3); [lia|]. set (k := u1 / 1000000) in *.
    pose proof (Z.div_mod k 60 ltac:(lia)). pose proof (Z.mod_pos_bound k 60 ltac:(lia)).
    destruct (Z.ltb_spec (60 * 1000000) u1) as [L|L].
    - exists h, (k / 60), ((u1 - k / 60 * 60 * 1000000) / 1000000), hs, (decz (k / 60) ++ lit "m ").
      destruct (D0 (u1 - k / 60 * 60 * 1000000)) as (C1 & C2 & C3); [lia|].
      split; [reflexivity|]. split; [exact P1|]. split; [right; split; [lia|reflexivity]|]. split; [lia|]. split; lia.
    - exists h, 0, k, hs, []. split; [reflexivity|]. split; [exact P1|]. split; [left; auto|]. split; [lia|]. split; lia. }
  destruct (Z.ltb_spec (3600 * 1000000) usec) as [L|L].
  - apply (FIN (n / 3600)); [right; split; [lia|reflexivity]|lia|lia].
  - apply (FIN 0); [left; auto|lia|lia].
Qed.
Print Assumptions C66_elapsed.
(** But not always with less than 60 of a unit. *)
Theorem C66_elapsed_carry_refuted : formatted_seconds (3660 * 1000000) = lit "1h 60s" /\ formatted_seconds (3600 * 1000000) = lit "60m 0s".
Proof. split; vm_compute; reflexivity. Qed.
Print Assumptions C66_elapsed_carry_refuted.

(** 2024-06-12 15:00:00 UTC (a Wednesday), seen from two hours east. *)
Example C66_example :
  let zone := fun _ => 7200 in let now := 1718204400 in
  map (fun d => relative_date zone now (now - d)) [-1; 0; 3599; 3600; 61140; 61260; 147600; 604800; 691200; 15552000; 15552001] =
  map lit ["the future"; "0 mins. ago"; "59 mins. ago"; "Today 16:00"; "Today 00:01"; "Yest. 23:59"; "Yest. 00:00";
   "June 05"; "June 04"; "December 15"; "2023-12-15"]%string /\
  relative_date zone now (now - 147660) = lit "Mon. 23:59" /\ Civil date_of.
Proof. cbv zeta. split; [vm_compute; reflexivity|]. split; [vm_compute; reflexivity|apply date_of_civil]. Qed.
