(** Proofs about Dates.v: what the parser accepts. *)
From Verif Require Import Bytes Calendar CalendarSpec CalendarProofs Dates DatesProofs DatesProofs2.
From Coq Require Import ZArith Lia.
Open Scope Z_scope.

(** [post B r P]: [r] succeeds only with [P], and overflows only when there are no bounds. *)
Definition post (B : option Z) {A} (r : res A) (P : A -> Prop) : Prop :=
  match r with Ok a => P a | Err => True | Undef => B = None end.
Lemma post_bind B {A C} (r : res A) (k : A -> res C) P Q : post B r P -> (forall a, P a -> post B (k a) Q) -> post B (bind r k) Q.
Proof. destruct r; cbn; auto. Qed.
Lemma post_imp B {A} (r : res A) (P Q : A -> Prop) : post B r P -> (forall a, P a -> Q a) -> post B r Q.
Proof. destruct r; cbn; auto. Qed.

Definition is_rel (f : field) : bool := match f with RSEC | RMIN | RHOUR | RDAY | RMON | RYEAR | RWEEK => true | _ => false end.
Definition ok (at_ : bool) (B : option Z) (f : field) (v : Z) : Prop :=
  match f with
  | SEC | MIN => 0 <= v <= 59
  | HOUR => 0 <= v <= 24
  | MDAY => 1 <= v <= 31
  | MON => 1 <= v <= 12
  | YEAR => if at_ then match B with None => True | Some _ => - 40000000 <= v <= 40000000 end else 1970 <= v <= 9999
  | WDAY => 0 <= v <= 6
  | ISDST => False
  | AMPM => 0 <= v <= 1
  | TZ => - 885 <= v <= 885
  | _ => match B with None => True | Some b => - b <= v <= b end
  end.
Definition num_ok (B : option Z) (M : Z) (n v : Z) : Prop :=
  0 <= v <= int_max /\ (0 < n -> v < 10 ^ n) /\ (B <> None -> v <= M).
Record Inv (at_ : bool) (B : option Z) (M : Z) (x : option field) (st : state) : Prop := mk_Inv {
  inv_val : forall f, Some f <> x -> match fset_ st f with SET_ => ok at_ B f (val st f) | _ => val st f = 0 end;
  inv_x : forall f, x = Some f -> is_set st f = true;
  inv_num : plen st <> 0 -> num_ok B M (plen st) (pval st);
  inv_at : delim st = "@"%char -> at_ = true
}.
Section Parser.
Variables (at_ : bool) (B : option Z) (M : Z).
Notation I := (Inv at_ B M None).

Lemma inv_mark f st : I st -> Inv at_ B M (Some f) (mark st f SET_).
Proof.
  intros [V X N D]. constructor; cbn [mark fset_ val plen pval delim]; auto.
  - intros g G. unfold upd. destruct (field_eqb g f) eqn:E; [apply field_eqb_eq in E; congruence|]. apply V. discriminate.
  - intros g [= <-]. unfold is_set. cbn [mark fset_]. unfold upd. rewrite field_eqb_refl. reflexivity.
Qed.
Lemma inv_put f v st : Inv at_ B M (Some f) st -> ok at_ B f v -> I (put (mark st f SET_) f v).
Proof.
  intros [V X N D] O. constructor; cbn [put mark fset_ val plen pval delim]; auto; try discriminate.
  intros g _. unfold upd. destruct (field_eqb g f) eqn:E; [apply field_eqb_eq in E; subst; exact O|]. apply V.
  intros [= ->]. rewrite field_eqb_refl in E. discriminate.
Qed.
(** without the mark: the field is marked already. *)
Lemma inv_put' f v st : Inv at_ B M (Some f) st -> fset_ st f = SET_ -> ok at_ B f v -> I (put st f v).
Proof.
  intros [V X N D] S O. constructor; cbn [put mark fset_ val plen pval delim]; auto; try discriminate.
  intros g _. unfold upd. destruct (field_eqb g f) eqn:E; [apply field_eqb_eq in E; subst; rewrite S; exact O|]. apply V.
  intros [= ->]. rewrite field_eqb_refl in E. discriminate.
Qed.
Lemma inv_now f st : Inv at_ B M (Some f) st -> I (mark (put st f 0) f NOW_).
Proof.
  intros [V X N D]. constructor; cbn [put mark fset_ val plen pval delim]; auto; try discriminate.
  intros g _. unfold upd. destruct (field_eqb g f) eqn:E; [apply field_eqb_eq in E; subst; reflexivity|]. apply V.
  intros [= ->]. rewrite field_eqb_refl in E. discriminate.
Qed.
Lemma inv_no_postponed x st : Inv at_ B M x st -> Inv at_ B M x (no_postponed st).
Proof. intros [V X N D]. constructor; cbn [no_postponed fset_ val plen pval delim]; auto. lia. Qed.

(** which fields stay as they are. *)
Definition keeps (x : option field) (st st' : state) : Prop :=
  forall f, x = Some f -> fset_ st f = SET_ -> fset_ st' f = SET_ /\ val st' f = val st f.
Lemma keeps_refl x st : keeps x st st. Proof. intros f _ H. auto. Qed.
Lemma keeps_trans x a b c : keeps x a b -> keeps x b c -> keeps x a c.
Proof. intros H K f F S. destruct (H f F S) as [S' V']. destruct (K f F S') as [S'' V'']. rewrite V'', V'. auto. Qed.

Lemma set_plain_inv x st f v : Inv at_ B M x st -> ok at_ B f v ->
  post B (set_plain st f v) (fun st' => Inv at_ B M x st' /\ keeps x st st' /\ plen st' = plen st).
Proof.
  intros [V X N D] O. unfold set_plain. destruct (is_set st f) eqn:S; [exact Logic.I|]. cbn [post].
  assert (NX : x <> Some f) by (intro K; rewrite (X f K) in S; discriminate).
  split; [constructor|split; [|reflexivity]]; cbn [put mark fset_ val plen pval delim]; auto; try discriminate.
  - intros g G. unfold upd. destruct (field_eqb g f) eqn:E; [apply field_eqb_eq in E; subst; exact O|]. apply V, G.
  - intros g G. unfold is_set. cbn [put mark fset_]. unfold upd. destruct (field_eqb g f) eqn:E; [reflexivity|]. apply X, G.
  - intros g G SG. cbn [put mark fset_ val]. unfold upd. destruct (field_eqb g f) eqn:E; [apply field_eqb_eq in E; subst; contradiction|]. auto.
Qed.
Lemma set_all_plain_inv x l : forall st, Inv at_ B M x st -> (forall f v, In (f, v) l -> ok at_ B f v) ->
  post B (set_all set_plain st l) (fun st' => Inv at_ B M x st' /\ keeps x st st' /\ plen st' = plen st).
Proof.
  induction l as [|[f v] l IH]; intros st H O; [cbn; auto using keeps_refl|]. cbn [set_all].
  eapply post_bind; [apply set_plain_inv; [exact H|apply O; left; reflexivity]|].
  intros st' (H' & K & P). eapply post_imp; [apply IH; [exact H'|intros g w G; apply O; right; exact G]|].
  intros st'' (H'' & K' & P'). split; [exact H''|]. split; [eapply keeps_trans; eassumption|congruence].
Qed.
Lemma user_tz_ok s h m tz : user_tz s h m = Some tz -> ok at_ B TZ tz.
Proof.
  unfold user_tz. intro H. destruct ((h <? 0) || (14 <? h) || (m <? 0) || (59 <? m) || negb (m mod 15 =? 0)) eqn:C; [discriminate|].
  rewrite !Bool.orb_false_iff, !Z.ltb_ge, Bool.negb_false_iff, Z.eqb_eq in C. destruct C as ((((C1 & C2) & C3) & C4) & C5).
  assert (m <= 45) by zdm. assert (- 885 <= h * 60 + m <= 885) by lia. injection H as <-. cbn [ok]. destruct (beq s "-"%char); lia.
Qed.
Lemma year_ok v : 1970 <= v <= 9999 -> ok at_ B YEAR v.
Proof. intro H. cbn [ok]. destruct at_; [|exact H]. destruct B; [lia|exact Logic.I]. Qed.
Lemma valid_time_ok h m s : is_valid_time h m s = true -> ok at_ B HOUR h /\ ok at_ B MIN m /\ ok at_ B SEC s.
Proof.
  unfold is_valid_time. rewrite Bool.orb_true_iff, !Bool.andb_true_iff, !Z.eqb_eq, !Z.leb_le. cbn [ok]. lia.
Qed.
Lemma valid_mday_ok d : is_valid_mday d = true -> ok at_ B MDAY d.
Proof. unfold is_valid_mday. rewrite Bool.andb_true_iff, !Z.leb_le. cbn [ok]. lia. Qed.
Lemma valid_mon_ok d : is_valid_mon d = true -> ok at_ B MON d.
Proof. unfold is_valid_mon. rewrite Bool.andb_true_iff, !Z.leb_le. cbn [ok]. lia. Qed.

Lemma parse_postponed_inv x st : Inv at_ B M x st ->
  post B (parse_postponed st) (fun st' => Inv at_ B M x st' /\ keeps x st st' /\ plen st' = 0).
Proof.
  intro H. unfold parse_postponed. destruct (Z.eqb_spec (plen st) 0) as [E0|N0]; [cbn; auto using keeps_refl|]. cbv zeta.
  pose proof (inv_no_postponed x st H) as H0. pose proof (inv_num _ _ _ _ _ H N0) as NV. destruct NV as (NV1 & NV2 & _).
  assert (One : forall f v, ok at_ B f v -> post B (set_plain (no_postponed st) f v) (fun st' => Inv at_ B M x st' /\ keeps x st st' /\ plen st' = 0)).
  { intros f v O. exact (set_plain_inv x _ f v H0 O). }
  assert (Many : forall l, (forall f v, In (f, v) l -> ok at_ B f v) -> post B (set_all set_plain (no_postponed st) l) (fun st' => Inv at_ B M x st' /\ keeps x st st' /\ plen st' = 0)).
  { intros l O. exact (set_all_plain_inv x l _ H0 O). }
  destruct ((plen st =? 1) || (plen st =? 2)).
  { destruct (match last (no_postponed st) with Some MON => true | _ => false end).
    - destruct (is_valid_mday (pval st)) eqn:VM; [|exact Logic.I]. apply One, valid_mday_ok, VM.
    - destruct ((plen st =? 2) && _); [|exact Logic.I].
      destruct (user_tz _ _ 0) eqn:UT; [|exact Logic.I]. apply One. eapply user_tz_ok, UT. }
  destruct (Z.eqb_spec (plen st) 4) as [E4|].
  { destruct (is_valid_year (pval st)) eqn:VY; cbn [negb].
    - apply One, year_ok. unfold is_valid_year in VY. apply Z.leb_le in VY. rewrite E4 in NV2. specialize (NV2 ltac:(lia)). change (10 ^ 4) with 10000 in NV2. lia.
    - destruct (beq _ _ || beq _ _); [|exact Logic.I]. destruct (user_tz _ _ _) eqn:UT; [|exact Logic.I]. apply One. eapply user_tz_ok, UT. }
  destruct (Z.eqb_spec (plen st) 6) as [E6|].
  { destruct (is_valid_time _ _ _) eqn:VT; [|exact Logic.I]. apply valid_time_ok in VT. destruct VT as (V1 & V2 & V3).
    apply Many. intros f v F. cbn [In] in F. repeat (destruct F as [F|F]; [injection F as <- <-; assumption|]). contradiction. }
  destruct (Z.eqb_spec (plen st) 8) as [E8|]; [|exact Logic.I].
  destruct (is_valid_year (pval st / 10000) && _ && _) eqn:VD; [|exact Logic.I].
  apply Bool.andb_true_iff in VD as [VD V3]. apply Bool.andb_true_iff in VD as [V1 V2].
  apply Many. intros f v F. cbn [In] in F. destruct F as [F|[F|[F|[]]]]; injection F as <- <-.
  - apply year_ok. unfold is_valid_year in V1. apply Z.leb_le in V1. rewrite E8 in NV2. specialize (NV2 ltac:(lia)). change (10 ^ 8) with 100000000 in NV2. split; [lia|zdm].
  - apply valid_mon_ok, V2.
  - apply valid_mday_ok, V3.
Qed.

Lemma set_field_inv st f v : I st -> ok at_ B f v -> post B (set_field st f v) (fun st' => I st' /\ plen st' = 0).
Proof.
  intros H O. unfold set_field. destruct (is_set st f) eqn:S; [exact Logic.I|].
  eapply post_bind; [apply parse_postponed_inv, (inv_mark f), H|]. intros st' (H' & K & P). cbn [post]. split; [|exact P].
  destruct (K f eq_refl) as [K1 _]; [cbn; apply upd_same|]. apply inv_put'; auto.
Qed.
Lemma set_now_inv l : forall st, I st -> post B (set_now st l) (fun st' => I st' ).
Proof.
  induction l as [|f l IH]; intros st H; [exact H|]. cbn [set_now]. unfold set_field. destruct (is_set st f) eqn:S; [exact Logic.I|].
  apply post_bind with (P := fun s => exists st', Inv at_ B M (Some f) st' /\ s = put st' f 0);
    [eapply post_bind; [apply parse_postponed_inv, (inv_mark f), H|]|].
  - intros st' (H' & K & P). cbn [post]. exists st'. auto.
  - intros st'' (st' & H' & ->). apply IH, inv_now, H'.
Qed.
Lemma set_all_inv l : forall st, I st -> (forall f v, In (f, v) l -> ok at_ B f v) -> post B (set_all set_field st l) (fun st' => I st').
Proof.
  induction l as [|[f v] l IH]; intros st H O; [exact H|]. cbn [set_all].
  eapply post_bind; [apply set_field_inv; [exact H|apply O; left; reflexivity]|].
  intros st' (H' & P). apply IH; [exact H'|intros g w G; apply O; right; exact G].
Qed.
Lemma set_postponed_inv st v n : I st -> n <> 0 -> num_ok B M n v -> post B (set_postponed st v n) (fun st' => I st').
Proof.
  intros H Hn O. unfold set_postponed. cbv zeta. eapply post_bind; [apply parse_postponed_inv, H|].
  intros st' ([V X N D] & K & P). cbn [post]. constructor; cbn [fset_ val plen pval delim]; auto.
Qed.
End Parser.

(** ** Keywords and numbers. *)
Definition bump (B : option Z) (M : Z) : option Z := match B with None => None | Some b => Some (b + M) end.
Definition room (B : option Z) (M : Z) : Prop := match B with None => True | Some b => 0 <= b /\ b + M <= 100000000 end.
Lemma ok_bump at_ B M f v : 0 <= M -> ok at_ B f v -> ok at_ (bump B M) f v.
Proof. intro H. destruct B as [b|]; [|exact (fun x => x)]. destruct f; cbn [ok bump]; try exact (fun x => x); lia. Qed.
Lemma inv_bump at_ B M x st : 0 <= M -> Inv at_ B M x st -> Inv at_ (bump B M) M x st.
Proof.
  intros HM [V X N D]. constructor; auto.
  - intros f F. specialize (V f F). destruct (fset_ st f); auto using ok_bump.
  - intro P. destruct (N P) as (N1 & N2 & N3). split; [exact N1|]. split; [exact N2|]. intro K. apply N3. destruct B; [discriminate|exact K].
Qed.
Definition kw_good (kw : keyword) : bool :=
  let v := kw_value kw in
  match kw_set kw with
  | K_FIELD => match kw_field kw with WDAY => (0 <=? v) && (v <=? 6) | TZ => (-885 <=? v) && (v <=? 885) | _ => false end
  | K_REL => is_rel (kw_field kw) && (v =? 1)
  | K_NUMBER => (0 <=? v) && (v <=? 100)
  | K_MONTH => field_eqb (kw_field kw) MON && (1 <=? v) && (v <=? 12)
  | K_AMPM => field_eqb (kw_field kw) AMPM && (0 <=? v) && (v <=? 1)
  | K_TIMEOFDAY => (0 <=? v) && (v <=? 24)
  | K_ORDINAL => bseq (kw_name kw) (lit "st") || bseq (kw_name kw) (lit "nd") || bseq (kw_name kw) (lit "rd") || bseq (kw_name kw) (lit "th")
  | _ => true
  end.
Lemma keywords_good : forallb kw_good keywords = true.
Proof. vm_compute. reflexivity. Qed.
Lemma find_keyword_in l s kw n : find_keyword l s = Some (kw, n) -> In kw l /\ kw_match s kw = n /\ n <> O.
Proof.
  induction l as [|k l IH]; [discriminate|]. cbn [find_keyword]. destruct (kw_match s k) eqn:E.
  - intro H. destruct (IH H) as (H1 & H2 & H3). split; [right; exact H1|auto].
  - intros [= <- <-]. split; [left; reflexivity|]. split; [exact E|discriminate].
Qed.

Section Loop.
Variables (at_ : bool) (B : option Z) (M : Z).
Hypothesis HM : 100 <= M.
Hypothesis HB : room B M.
Notation I := (Inv at_ B M None).
Notation I' := (Inv at_ (bump B M) M None).

Lemma weaken (r : res state) : post B r (fun st' => I st') -> post (bump B M) r (fun st' => I' st').
Proof. intro H. destruct r; cbn in *; auto; [apply inv_bump; [lia|exact H]|rewrite H; reflexivity]. Qed.

Lemma add_inv st f v : I st -> is_rel f = true -> (B <> None -> - M <= v <= M) -> post (bump B M) (add_to_field st f v) (fun st' => I' st').
Proof.
  intros H F HV. unfold add_to_field.
  assert (PP : post B (parse_postponed (mark st f SET_)) (fun st' => Inv at_ B M (Some f) st' /\ keeps (Some f) (mark st f SET_) st' /\ plen st' = 0))
    by (apply parse_postponed_inv; [apply inv_mark; assumption]).
  destruct (parse_postponed (mark st f SET_)) as [st'| |]; cbn [bind post] in *; [|exact Logic.I|rewrite PP; reflexivity].
  destruct PP as (H' & K & P). destruct (K f eq_refl) as [K1 K2]; [cbn; apply upd_same|]. cbn [mark val] in K2.
  pose proof (inv_val _ _ _ _ _ H f ltac:(discriminate)) as V.
  assert (OK : ok at_ (bump B M) f (val st' f + v)).
  { rewrite K2. destruct B as [b|]; [|destruct f; try discriminate F; exact Logic.I]. specialize (HV ltac:(discriminate)). cbn [room] in HB.
    destruct f; try discriminate F; cbn [ok bump] in *; destruct (fset_ st _); lia. }
  destruct (fits_int (val st' f + v)) eqn:FI.
  - cbn [post]. apply inv_put'; auto. apply inv_bump; [lia|exact H'].
  - cbn [post]. destruct B as [b|]; [|reflexivity]. exfalso. apply Bool.not_true_iff_false in FI. apply FI, fits_iff. cbn [room] in HB.
    destruct f; try discriminate F; cbn [ok bump] in OK; lia.
Qed.

Lemma kw_apply_inv st kw : I st -> In kw keywords -> post (bump B M) (kw_apply st kw) (fun st' => I' st').
Proof.
  intros H K. pose proof (proj1 (forallb_forall kw_good keywords) keywords_good kw K) as G. unfold kw_good in G. cbv zeta in G.
  assert (Num : plen st <> 0 -> num_ok B M (plen st) (pval st)) by (apply H).
  pose proof (inv_no_postponed at_ B M None st H) as H0.
  unfold kw_apply. destruct (kw_set kw).
  - apply weaken. eapply post_imp; [apply set_field_inv; [exact H|]|intros a Ha; apply Ha].
    destruct (kw_field kw); try discriminate G; apply Bool.andb_true_iff in G as [G1 G2]; apply Z.leb_le in G1, G2; cbn [ok]; lia.
  - apply Bool.andb_true_iff in G as [G1 G2]. apply Z.eqb_eq in G2. rewrite G2. cbv zeta.
    set (mult := if plen st =? 0 then 1 else pval st).
    assert (Hm : 0 <= mult <= int_max /\ (B <> None -> mult <= M)).
    { unfold mult. destruct (Z.eqb_spec (plen st) 0) as [E|E]; [unfold int_max; lia|]. destruct (Num E) as (N1 & N2 & N3). auto. }
    destruct (fits_int (mult * 1)) eqn:FI.
    + apply add_inv; auto. intro NB. destruct Hm as [Hm1 Hm2]. specialize (Hm2 NB). lia.
    + exfalso. apply Bool.not_true_iff_false in FI. apply FI, fits_iff. unfold int_max in Hm. lia.
  - apply weaken, set_postponed_inv; auto; [discriminate|]. apply Bool.andb_true_iff in G as [G1 G2]. apply Z.leb_le in G1, G2.
    split; [unfold int_max; lia|]. split; [lia|intros _; lia].
  - apply weaken. apply Bool.andb_true_iff in G as [G G3]. apply Bool.andb_true_iff in G as [G1 G2]. apply Z.leb_le in G2, G3. apply field_eqb_eq in G1. rewrite G1.
    apply post_bind with (P := fun st' => I st').
    + destruct ((plen st =? 1) || (plen st =? 2)); [|exact H]. destruct (is_valid_mday (pval st)) eqn:VM; [|exact Logic.I].
      eapply post_imp; [apply set_field_inv; [exact H0|]|intros a Ha; apply Ha]. apply valid_mday_ok, VM.
    + intros st' H'. eapply post_imp; [apply set_field_inv; [exact H'|]|intros a Ha; apply Ha]. cbn [ok]. lia.
  - apply weaken. apply Bool.andb_true_iff in G as [G G3]. apply Bool.andb_true_iff in G as [G1 G2]. apply Z.leb_le in G2, G3. apply field_eqb_eq in G1. rewrite G1.
    apply post_bind with (P := fun st' => I st').
    + destruct ((plen st =? 1) || (plen st =? 2)); [|exact H]. destruct (is_valid_12hour (pval st)) eqn:VM; [|exact Logic.I].
      unfold is_valid_12hour in VM. apply Bool.andb_true_iff in VM as [V1 V2]. apply Z.leb_le in V1, V2.
      apply set_all_inv; [exact H0|]. intros f v F. cbn [In] in F. destruct F as [F|[F|[F|[]]]]; injection F as <- <-; cbn [ok]; lia.
    + intros st' H'. eapply post_imp; [apply set_field_inv; [exact H'|]|intros a Ha; apply Ha]. cbn [ok]. lia.
  - apply weaken. apply Bool.andb_true_iff in G as [G1 G2]. apply Z.leb_le in G1, G2.
    apply set_all_inv; [exact H|]. intros f v F. cbn [In] in F. destruct F as [F|[F|[F|[]]]]; injection F as <- <-; cbn [ok]; lia.
  - apply weaken, set_now_inv; auto.
  - apply weaken, set_now_inv; auto.
  - apply weaken. destruct (Z.eqb_spec (plen st) 0) as [|N0]; [exact Logic.I|]. destruct ((plen st =? 1) || (plen st =? 2)) eqn:P12; cbn [negb]; [|exact Logic.I]. cbv zeta.
    set (c1 := bseq (kw_name kw) (lit "st") && _). set (c2 := bseq (kw_name kw) (lit "nd") && _). set (c3 := bseq (kw_name kw) (lit "rd") && _). set (c4 := bseq (kw_name kw) (lit "th") && _).
    destruct c1 eqn:C1; [exact Logic.I|]. destruct c2 eqn:C2; [exact Logic.I|]. destruct c3 eqn:C3; [exact Logic.I|]. destruct c4 eqn:C4; [exact Logic.I|].
    eapply post_imp; [apply set_field_inv; [exact H0|]|intros a Ha; apply Ha].
    unfold c1, c2, c3, c4 in *. clear c1 c2 c3 c4.
    destruct (bseq (kw_name kw) (lit "st")).
    { cbn [andb] in C1. apply Bool.negb_false_iff in C1. rewrite !Bool.orb_true_iff, !Z.eqb_eq in C1. cbn [ok]. lia. }
    destruct (bseq (kw_name kw) (lit "nd")).
    { cbn [andb] in C2. apply Bool.negb_false_iff in C2. rewrite !Bool.orb_true_iff, !Z.eqb_eq in C2. cbn [ok]. lia. }
    destruct (bseq (kw_name kw) (lit "rd")).
    { cbn [andb] in C3. apply Bool.negb_false_iff in C3. rewrite !Bool.orb_true_iff, !Z.eqb_eq in C3. cbn [ok]. lia. }
    cbn [orb] in G. rewrite G in C4. cbn [andb] in C4. apply Bool.negb_false_iff in C4. apply valid_mday_ok, C4.
  - apply weaken. exact H.
Qed.

Lemma last_day_le y m l : last_day y m l -> 28 <= l <= 31.
Proof. intros []; lia. Qed.
Lemma break_down_ranges t : let b := break_down t in 0 <= t_sec b <= 59 /\ 0 <= t_min b <= 59 /\ 0 <= t_hour b <= 23 /\ 1 <= t_mday b <= 31 /\ 1 <= t_mon b <= 12.
Proof.
  cbv zeta. pose proof (break_down_date t) as D. symmetry in D. apply date_of_iff in D. destruct D as (D1 & D2 & _).
  pose proof (last_day_len (t_year (break_down t)) _ D1) as L. apply last_day_le in L.
  unfold break_down at 1 2 3 4 5 6. cbn [t_sec t_min t_hour]. split; [zdm|]. split; [zdm|]. split; [zdm|]. lia.
Qed.
Lemma year_bound t : 0 <= t <= 1000000000000000 -> 1970 <= t_year (break_down t) <= 40000000.
Proof.
  intro H. unfold break_down. cbn [t_year]. set (d := t / 86400). assert (D : 0 <= d <= 11574074074) by (unfold d; zdm).
  pose proof (year_of_spec d) as Y. set (y := year_of d) in *. split.
  - destruct (Z_le_gt_dec 1970 y); [assumption|]. pose proof (dby_mono (y + 1) 1970 ltac:(lia)) as K. change (dby 1970) with 0 in K. lia.
  - destruct (Z_le_gt_dec y 40000000); [assumption|]. pose proof (dby_mono 1970 y ltac:(lia)) as K. change (dby 1970) with 0 in K. lia.
Qed.
Lemma set_timestamp_inv st t : I st -> at_ = true -> (B <> None -> 0 <= t <= 1000000000000000) -> post B (set_timestamp st t) (fun st' => I st').
Proof.
  intros H A T. assert (Y : B <> None -> 1970 <= t_year (break_down t) <= 40000000) by (intro NB; apply year_bound, T, NB).
  unfold set_timestamp, gmtime. pose proof (break_down_ranges t) as R. cbv zeta in R. remember (break_down t) as b eqn:Eb. clear Eb.
  destruct R as (R1 & R2 & R3 & R4 & R5). destruct (fits_int (t_year b - 1900)) eqn:F0; [|exact Logic.I].
  destruct (fits_int (t_year b)) eqn:F1; cbn [negb].
  - apply set_all_inv; [exact H|]. intros f v F. cbn [In] in F. repeat (destruct F as [F|F]; [injection F as <- <-|]); try contradiction; cbn [ok]; try lia.
    rewrite A. destruct B; [|exact Logic.I]. specialize (Y ltac:(discriminate)). lia.
  - cbn [post]. destruct B; [|reflexivity]. exfalso. apply Bool.not_true_iff_false in F1. apply F1, fits_iff. specialize (Y ltac:(discriminate)). lia.
Qed.
Definition raw_ok (n v : Z) : Prop := 1 <= n /\ 0 <= v < 2 ^ 64 /\ v < 10 ^ n /\ (B <> None -> v <= M).
Hypothesis HM2 : M <= 1000000000000000.
Lemma parse_single_inv st v n : I st -> raw_ok n v -> post B (parse_single_number st v n) (fun st' => I st').
Proof.
  intros H (N1 & N2 & N3 & N4). unfold parse_single_number. destruct (beq (delim st) "@"%char) eqn:D.
  - apply beq_eq in D. apply set_timestamp_inv; [exact H|apply (inv_at _ _ _ _ _ H), D|]. intro NB. specialize (N4 NB). unfold to_time_t. destruct (Z.ltb_spec v (2 ^ 63)); lia.
  - destruct (Z.ltb_spec int_max v); [exact Logic.I|]. apply set_postponed_inv; [exact H|lia|]. split; [lia|]. split; [intros _; exact N3|exact N4].
Qed.
Lemma in_opt_fields l y m d f v : l = opt_field YEAR y ++ opt_field MON m ++ opt_field MDAY d -> In (f, v) l ->
  (f = YEAR /\ y = Some v) \/ (f = MON /\ m = Some v) \/ (f = MDAY /\ d = Some v).
Proof.
  intros ->. rewrite !in_app_iff. unfold opt_field. intros [K|[K|K]].
  - destruct y; [|contradiction]. destruct K as [K|[]]. injection K as <- <-. auto.
  - destruct m; [|contradiction]. destruct K as [K|[]]. injection K as <- <-. auto.
  - destruct d; [|contradiction]. destruct K as [K|[]]. injection K as <- <-. auto.
Qed.
Lemma pow2 v n : v < 10 ^ n -> n = 2 -> v < 100. Proof. intros H ->. exact H. Qed.
Lemma pow4 v n : v < 10 ^ n -> n = 4 -> v < 10000. Proof. intros H ->. exact H. Qed.
Lemma expand_year_small v n y : expand_year v n = Some y -> v < 10 ^ n -> y <= 9999.
Proof.
  unfold expand_year. intros H P. destruct (Z.eqb_spec n 2) as [E|]; [apply pow2 in P; [|exact E]; injection H as <-; destruct (v <? 70); lia|].
  destruct (Z.eqb_spec n 4) as [E|]; [|discriminate]. apply pow4 in P; [|exact E]. injection H as <-. lia.
Qed.
Lemma date_fields_year sep v1 v2 v3 n1 n2 n3 y m d : v1 < 10 ^ n1 -> v2 < 10 ^ n2 -> v3 < 10 ^ n3 ->
  date_fields sep v1 v2 v3 n1 n2 n3 = Some (Some y, m, d) -> y <= 9999.
Proof.
  intros P1 P2 P3. unfold date_fields.
  destruct (beq sep "/"%char).
  - destruct (negb (one_or_two n1)); [discriminate|]. destruct (one_or_two n2 && zero_two_four n3).
    + intros [= H _ _]. eapply expand_year_small; eassumption.
    + destruct ((n2 =? 4) && (n3 =? 0)) eqn:C; [|discriminate]. apply Bool.andb_true_iff in C as [C _]. apply Z.eqb_eq in C. intros [= H _ _]. apply pow4 in P2; lia.
  - destruct (beq sep "-"%char).
    + destruct ((n1 =? 4) && (n2 =? 2) && _) eqn:C.
      * apply Bool.andb_true_iff in C as [C _]. apply Bool.andb_true_iff in C as [C _]. apply Z.eqb_eq in C. intros [= H _ _]. apply pow4 in P1; lia.
      * destruct ((n1 =? 2) && (n2 =? 2) && _); [intros [= H _ _]; eapply expand_year_small; eassumption|].
        destruct ((n1 =? 2) && (n2 =? 4) && _) eqn:C2; [|discriminate]. apply Bool.andb_true_iff in C2 as [C2 _]. apply Bool.andb_true_iff in C2 as [_ C2]. apply Z.eqb_eq in C2.
        intros [= H _ _]. apply pow4 in P2; lia.
    + destruct (negb (one_or_two n1) || _ || _); [discriminate|]. intros [= H _ _]. eapply expand_year_small; eassumption.
Qed.
Lemma parse_date_inv st sep v1 v2 v3 n1 n2 n3 : I st -> v1 < 10 ^ n1 -> v2 < 10 ^ n2 -> v3 < 10 ^ n3 ->
  post B (parse_date st sep v1 v2 v3 n1 n2 n3) (fun st' => I st').
Proof.
  intros H P1 P2 P3. unfold parse_date. destruct (date_fields sep v1 v2 v3 n1 n2 n3) as [[[y m] d]|] eqn:D; [|exact Logic.I].
  destruct (opt_valid is_valid_year y && _ && _) eqn:V; [|exact Logic.I].
  apply Bool.andb_true_iff in V as [V V3]. apply Bool.andb_true_iff in V as [V1 V2].
  apply set_all_inv; [exact H|]. intros f v F. eapply in_opt_fields in F; [|reflexivity].
  destruct F as [[-> ->]|[[-> ->]|[-> ->]]]; cbn [opt_valid] in *.
  - apply year_ok. unfold is_valid_year in V1. apply Z.leb_le in V1. split; [exact V1|]. exact (date_fields_year _ _ _ _ _ _ _ _ _ _ P1 P2 P3 D).
  - apply valid_mon_ok, V2.
  - apply valid_mday_ok, V3.
Qed.
Lemma parse_time_inv st v1 v2 v3 n1 n2 n3 : I st -> post B (parse_time st v1 v2 v3 n1 n2 n3) (fun st' => I st').
Proof.
  intros H. unfold parse_time. destruct (negb (one_or_two n1) || _ || _); [exact Logic.I|].
  destruct (is_set st HOUR && _ && _ && _ && _).
  - destruct (user_tz _ _ _) eqn:U; [|exact Logic.I]. eapply post_imp; [apply set_field_inv; [exact H|]|intros a Ha; apply Ha]. eapply user_tz_ok, U.
  - destruct (is_valid_time _ _ _) eqn:VT; [|exact Logic.I]. apply (valid_time_ok at_ B) in VT. destruct VT as (V1 & V2 & V3).
    apply set_all_inv; [exact H|]. intros f v F. rewrite in_app_iff in F. destruct F as [[F|[F|[]]]|F]; try (injection F as <- <-; assumption).
    destruct (n3 =? 0); [contradiction|]. destruct F as [F|[]]. injection F as <- <-. exact V3.
Qed.
End Loop.

(** ** The loop. *)
Lemma digit_value c : isdigit c = true -> 0 <= Z.of_N (code c) - 48 <= 9.
Proof. unfold isdigit. rewrite Bool.andb_true_iff, !N.leb_le. lia. Qed.
Lemma digits_value_acc ds : forall acc, forallb isdigit ds = true ->
  let v := fold_left (fun acc c => 10 * acc + (Z.of_N (code c) - 48)) ds acc in
  acc * 10 ^ Z.of_nat (List.length ds) <= v < (acc + 1) * 10 ^ Z.of_nat (List.length ds).
Proof.
  induction ds as [|c ds IH]; intros acc H; cbn [forallb fold_left List.length] in *; [cbn; lia|].
  apply Bool.andb_true_iff in H as [H1 H2]. apply digit_value in H1. specialize (IH (10 * acc + (Z.of_N (code c) - 48)) H2). cbv zeta in *.
  rewrite Nat2Z.inj_succ, Z.pow_succ_r by lia. set (p := 10 ^ Z.of_nat (List.length ds)) in *. assert (0 < p) by (apply Z.pow_pos_nonneg; lia). nia.
Qed.
Lemma digits_value_bound ds : forallb isdigit ds = true -> 0 <= digits_value ds < 10 ^ Z.of_nat (List.length ds).
Proof. intro H. pose proof (digits_value_acc ds 0 H) as K. cbv zeta in K. unfold digits_value. lia. Qed.

(** every number in the string is at most [M]. *)
Definition small_numbers (M : Z) (s : bytes) : Prop :=
  forall a ds b, s = a ++ ds ++ b -> forallb isdigit ds = true -> digits_value ds <= M.
Lemma small_suffix M a s : small_numbers M (a ++ s) -> small_numbers M s.
Proof. intros H x ds y ->. apply (H (a ++ x) ds y). rewrite app_assoc. reflexivity. Qed.
Definition good_input (at_ : bool) (B : option Z) (M : Z) (s : bytes) : Prop :=
  (In "@"%char s -> at_ = true) /\ (B <> None -> small_numbers M s).
Lemma good_suffix at_ B M a s : good_input at_ B M (a ++ s) -> good_input at_ B M s.
Proof. intros [H K]. split; [intro A; apply H, in_app_iff; auto|intro NB; eapply small_suffix, K, NB]. Qed.
Lemma good_tl at_ B M s : good_input at_ B M s -> good_input at_ B M (tl s).
Proof. destruct s as [|c s]; [auto|]. apply (good_suffix at_ B M [c] s). Qed.
Lemma strtoul_spec at_ B M s : good_input at_ B M s -> isdigit (peek s) = true ->
  let '(v, n, p) := strtoul_len s in raw_ok B M n v /\ good_input at_ B M p /\ (List.length p < List.length s)%nat.
Proof.
  intros [H K] D. unfold strtoul_len.
  pose proof (takewhile_all isdigit s) as A. pose proof (take_drop isdigit s) as TD. set (ds := takewhile isdigit s) in *. set (r := dropwhile isdigit s) in *.
  assert (L : (1 <= List.length ds)%nat). { unfold ds. destruct s as [|c s]; [discriminate D|]. cbn [peek] in D. cbn [takewhile]. rewrite D. cbn. lia. }
  pose proof (digits_value_bound ds A) as V.
  split; [|split].
  - split; [lia|]. split; [lia|]. split; [lia|]. intro NB. specialize (K NB [] ds r). rewrite <- TD in K. specialize (K eq_refl A). lia.
  - apply (good_suffix at_ B M ds r). rewrite TD. split; assumption.
  - rewrite <- TD, app_length. lia.
Qed.
Lemma bind_pair_post B {A C} (r : res A) (x : C) (P : A -> Prop) : post B r P -> post B (do a <- r; Ok (a, x)) (fun q => P (fst q) /\ snd q = x).
Proof. destruct r; cbn; auto. Qed.
Lemma parse_number_inv at_ B M st s : 100 <= M <= 1000000000000000 -> room B M -> Inv at_ B M None st -> good_input at_ B M s -> isdigit (peek s) = true ->
  post B (parse_number st s) (fun q => Inv at_ B M None (fst q) /\ good_input at_ B M (snd q) /\ (List.length (snd q) < List.length s)%nat).
Proof.
  intros HM HR H G D. unfold parse_number. pose proof (strtoul_spec at_ B M s G D) as S1. destruct (strtoul_len s) as [[v1 n1] p]. destruct S1 as (R1 & G1 & L1).
  destruct (negb (is_sep (peek p)) || negb (isdigit (peek (tl p)))) eqn:C.
  - eapply post_imp; [apply bind_pair_post, parse_single_inv; eauto; lia|]. intros [a q] [H1 H2]. cbn [fst snd] in *. subst. auto.
  - apply Bool.orb_false_iff in C as [_ C]. apply Bool.negb_false_iff in C.
    pose proof (strtoul_spec at_ B M (tl p) (good_tl _ _ _ _ G1) C) as S2. destruct (strtoul_len (tl p)) as [[v2 n2] p2]. destruct S2 as (R2 & G2 & L2).
    assert (S3 : let '(v3, n3, p3) := if beq (peek p2) (peek p) && isdigit (peek (tl p2)) then strtoul_len (tl p2) else (0, 0, p2) in
                 v3 < 10 ^ n3 /\ good_input at_ B M p3 /\ (List.length p3 <= List.length p2)%nat).
    { destruct (beq (peek p2) (peek p) && isdigit (peek (tl p2))) eqn:C3; [|split; [reflexivity|auto]].
      apply Bool.andb_true_iff in C3 as [_ C3]. pose proof (strtoul_spec at_ B M (tl p2) (good_tl _ _ _ _ G2) C3) as S3.
      destruct (strtoul_len (tl p2)) as [[v3 n3] p3]. destruct S3 as (R3 & G3 & L3). split; [apply R3|]. split; [exact G3|]. destruct p2; cbn in *; lia. }
    destruct (if beq (peek p2) (peek p) && isdigit (peek (tl p2)) then strtoul_len (tl p2) else (0, 0, p2)) as [[v3 n3] p3]. destruct S3 as (R3 & G3 & L3).
    assert (LP : (List.length (tl p) <= List.length p)%nat) by (destruct p; cbn; lia).
    eapply post_imp.
    + apply bind_pair_post with (P := fun st' => Inv at_ B M None st'). destruct (beq (peek p) ":"%char).
      * apply parse_time_inv; auto.
      * apply parse_date_inv; auto; [apply R1|apply R2].
    + intros [a q] [H1 H2]. cbn [fst snd] in *. subst. split; [exact H1|]. split; [exact G3|]. lia.
Qed.
Lemma parse_delim_inv at_ B M s : forall st, Inv at_ B M None st -> good_input at_ B M s ->
  Inv at_ B M None (fst (parse_delim st s)) /\ good_input at_ B M (snd (parse_delim st s)).
Proof.
  induction s as [|c s IH]; intros st H G; [auto|]. cbn [parse_delim]. destruct (isalnum c); [auto|].
  apply IH; [|apply (good_suffix at_ B M [c] s), G]. destruct H as [V X N D]. constructor; cbn [set_delim fset_ val plen pval delim]; auto.
  intros ->. apply G. left. reflexivity.
Qed.
Lemma parse_keyword_inv at_ B M st s : 100 <= M -> room B M -> Inv at_ B M None st -> good_input at_ B M s ->
  post (bump B M) (parse_keyword st s) (fun q => Inv at_ (bump B M) M None (fst q) /\ good_input at_ B M (snd q)).
Proof.
  intros HM HR H G. unfold parse_keyword. destruct (find_keyword keywords s) as [[kw n]|] eqn:F; [|exact Logic.I].
  apply find_keyword_in in F. destruct F as (F1 & _ & _).
  eapply post_imp; [apply bind_pair_post, kw_apply_inv; eassumption|]. intros [a q] [H1 H2]. cbn [fst snd] in *. subst. split; [exact H1|].
  rewrite <- (firstn_skipn n s) in G. eapply good_suffix, G.
Qed.
Lemma good_bump at_ B M s : good_input at_ B M s -> good_input at_ (bump B M) M s.
Proof. intros [H K]. split; [exact H|]. intro NB. apply K. destruct B; [discriminate|exact NB]. Qed.
Definition enough (B : option Z) (M : Z) (k : nat) : Prop := match B with None => True | Some b => 0 <= b /\ b + M * Z.of_nat k <= 100000000 end.
Definition final_inv (at_ : bool) (B : option Z) (st : state) : Prop :=
  plen st = 0 /\ forall f, match fset_ st f with SET_ => ok at_ (match B with None => None | Some _ => Some 100000000 end) f (val st f) | _ => val st f = 0 end.
Lemma parse_loop_inv at_ M : 100 <= M <= 1000000000000000 -> forall fuel B st s, enough B M fuel -> Inv at_ B M None st -> good_input at_ B M s ->
  post B (parse_loop fuel st s) (final_inv at_ B).
Proof.
  intros HM.
  assert (Done : forall B st k, enough B M k -> Inv at_ B M None st -> post B (parse_postponed st) (final_inv at_ B)).
  { intros B st k E H. eapply post_imp; [apply parse_postponed_inv, H|]. intros st' (H' & _ & P). split; [exact P|]. intro f.
    pose proof (inv_val _ _ _ _ _ H' f ltac:(discriminate)) as V. destruct (fset_ st' f); auto. destruct B as [b|]; [|exact V]. cbn [enough] in E.
    assert (b <= 100000000) by nia. destruct f; cbn [ok] in *; try exact V; lia. }
  induction fuel as [|fuel IH]; intros B st s E H G.
  - destruct s; [|exact Logic.I]. cbn [parse_loop]. eapply Done; eassumption.
  - destruct s as [|c s]; [cbn [parse_loop]; eapply Done; eassumption|]. cbn [parse_loop].
    assert (HR : room B M). { destruct B as [b|]; [|exact Logic.I]. cbn [enough room] in *. nia. }
    assert (E' : enough (bump B M) M fuel). { destruct B as [b|]; [|exact Logic.I]. cbn [enough bump] in *. nia. }
    assert (FI : forall st', final_inv at_ (bump B M) st' -> final_inv at_ B st') by (intro st'; destruct B; exact (fun x => x)).
    assert (PB : forall r, post (bump B M) r (final_inv at_ (bump B M)) -> post B r (final_inv at_ B)).
    { intros r R. destruct r; cbn [post] in *; auto. destruct B; [discriminate R|reflexivity]. }
    apply PB. apply post_bind with (P := fun q => Inv at_ (bump B M) M None (fst q) /\ good_input at_ B M (snd q)).
    + destruct (isalpha c).
      * apply parse_keyword_inv; auto. lia.
      * destruct (isdigit c) eqn:D.
        -- pose proof (parse_number_inv at_ B M st (c :: s) HM HR H G D) as K. destruct (parse_number st (c :: s)) as [q| |]; cbn [post] in *; auto.
           ++ split; [apply inv_bump; [lia|apply K]|apply K].
           ++ rewrite K. reflexivity.
        -- cbn [post]. destruct (parse_delim_inv at_ B M (c :: s) st H G) as [K1 K2]. split; [apply inv_bump; [lia|exact K1]|exact K2].
    + intros [st' s'] [K1 K2]. cbn [fst snd] in *. apply IH; auto. apply good_bump, K2.
Qed.
Lemma init_inv at_ B M : Inv at_ B M None init.
Proof. constructor; cbn; try discriminate; auto. lia. Qed.
Theorem parse_input_inv at_ B M s : 100 <= M <= 1000000000000000 -> enough B M (List.length s) -> good_input at_ B M s ->
  post B (parse_input s) (final_inv at_ B).
Proof. intros HM E G. apply parse_loop_inv with (M := M); auto. apply init_inv. Qed.
Corollary parse_input_clean s st : parse_input s = Ok st -> Clean st /\ final_inv true None st.
Proof.
  intro H. pose proof (parse_input_inv true None 100 s ltac:(lia) Logic.I (conj (fun _ => eq_refl) (fun N => False_ind _ (N eq_refl)))) as K.
  rewrite H in K. cbn [post] in K. split; [|exact K]. destruct K as [K1 K2]. split; [exact K1|]. intros f F. specialize (K2 f). unfold is_set in F. destruct (fset_ st f); try discriminate. exact K2.
Qed.
