From Verif Require Import Bytes Decimal LastmodSpec LastmodProofs Options OptionsSpec.
Local Open Scope Z_scope.

(** Induction over nested tables. *)
Section DescInd.
  Variable P : desc -> Prop.
  Hypothesis HI : forall t, Forall P t -> P (Inherit t).
  Hypothesis HO : forall k n p, P (Opt k n p).
  Fixpoint desc_ind' (d : desc) : P d :=
    match d with
    | Inherit t => HI t ((fix go (t : list desc) : Forall P t :=
        match t with [] => Forall_nil P | d :: t' => Forall_cons d (desc_ind' d) (go t') end) t)
    | Opt k n p => HO k n p
    end.
End DescInd.

Lemma parse_desc_inherit t arg rest :
  parse_desc (Inherit t) arg rest =
  match parse_option_loop t arg rest [] with
  | (es, Some r) => (Some (es, Some r), [])
  | (es, None) => (None, es)
  end.
Proof.
  cbn [parse_desc].
  match goal with |- match ?L t [] with _ => _ end = _ => assert (H : forall ds es, L ds es = parse_option_loop ds arg rest es) end.
  { induction ds as [|d ds IH]; intros es; [reflexivity|]. cbn [parse_option_loop].
    destruct (parse_desc d arg rest) as [[[e r]|] e0]; [reflexivity|apply IH]. }
  now rewrite H.
Qed.

Definition delimited (after : bytes) : bool :=
  beq (peek after) "="%char || beq (peek after) ":"%char || (match after with [] => true | _ => false end).
Definition hit (arg : bytes) (x : entry) : option (bytes * bool) :=
  let '(k, n, _) := x in
  match match_name k n arg with
  | Some (after, neg) => if delimited after then Some (after, neg) else None
  | None => None
  end.

Lemma parse_desc_opt k n p arg rest :
  parse_desc (Opt k (Some n) p) arg rest =
  match hit arg (k, n, p) with
  | Some (after, neg) => (Some (run_option k p after neg rest), [])
  | None => (None, [])
  end.
Proof.
  cbn [parse_desc hit]. destruct (match_name k n arg) as [[after neg]|]; [|reflexivity].
  unfold delimited. destruct (_ || _); reflexivity.
Qed.

(** No entry hit. *)
Lemma loop_nohit arg rest : forall d, Forall (fun x => hit arg x = None) (flatten d) -> parse_desc d arg rest = (None, []).
Proof.
  intros d. induction d as [t IH|k n p] using desc_ind'; intros H.
  - rewrite parse_desc_inherit. cbn [flatten] in H.
    assert (K : forall es, parse_option_loop t arg rest es = (es, None)).
    { induction t as [|d t IHt]; intros es; [reflexivity|]. inversion IH as [|? ? H1 H2]; subst. cbn [flat_map] in H. apply Forall_app in H. destruct H as [Ha Hb].
      cbn [parse_option_loop]. rewrite (H1 Ha), app_nil_r. apply IHt; assumption. }
    now rewrite K.
  - destruct n as [n|]; [|reflexivity]. rewrite parse_desc_opt. inversion H; subst. now rewrite H2.
Qed.
Lemma tloop_nohit arg rest t es : Forall (fun x => hit arg x = None) (entries t) -> parse_option_loop t arg rest es = (es, None).
Proof.
  revert es. induction t as [|d t IH]; intros es H; [reflexivity|]. cbn [entries flat_map] in H. apply Forall_app in H. destruct H as [Ha Hb].
  cbn [parse_option_loop]. rewrite loop_nohit by exact Ha. rewrite app_nil_r. now apply IH.
Qed.

(** Exactly one entry hit. *)
Definition only_hit (arg : bytes) (l : list entry) (x : entry) : Prop :=
  exists l1 l2, l = l1 ++ x :: l2 /\ Forall (fun y => hit arg y = None) l1 /\ Forall (fun y => hit arg y = None) l2.

Lemma only_hit_app arg a b x : only_hit arg (a ++ b) x ->
  (only_hit arg a x /\ Forall (fun y => hit arg y = None) b) \/ (Forall (fun y => hit arg y = None) a /\ only_hit arg b x).
Proof.
  intros (l1 & l2 & E & H1 & H2). revert l1 E H1. induction a as [|y a IH]; intros l1 E H1.
  - right. split; [constructor|]. exists l1, l2. auto.
  - destruct l1 as [|z l1].
    + cbn [app] in E. injection E as -> E. left. rewrite <- E in H2. apply Forall_app in H2. destruct H2 as [Ha Hb].
      split; [|exact Hb]. exists [], a. repeat split; [constructor|exact Ha].
    + cbn [app] in E. injection E as -> E. inversion H1; subst. destruct (IH l1 E H4) as [[(m1 & m2 & E1 & A & B) C]|[A C]].
      * left. split; [|exact C]. exists (z :: m1), m2. subst a. repeat split; [now constructor|exact B].
      * right. split; [now constructor|exact C].
Qed.

Definition agree (x : list effect * option (list bytes)) (es : list effect) (y : list effect * option (list bytes)) : Prop :=
  match snd x with Some r => y = (es ++ fst x, Some r) | None => snd y = None end.

Lemma desc_onehit arg rest k n p after neg : hit arg (k, n, p) = Some (after, neg) ->
  forall d, only_hit arg (flatten d) (k, n, p) ->
  match snd (run_option k p after neg rest) with
  | Some r => parse_desc d arg rest = (Some (fst (run_option k p after neg rest), Some r), [])
  | None => exists e e0, parse_desc d arg rest = (Some (e, None), e0) \/ parse_desc d arg rest = (None, e)
  end.
Proof.
  intros Hh d. induction d as [t IH|k' n' p'] using desc_ind'; intros Ho.
  - rewrite parse_desc_inherit. cbn [flatten] in Ho.
    assert (K : forall es, agree (run_option k p after neg rest) es (parse_option_loop t arg rest es)).
    { clear -IH Ho Hh. induction t as [|d t IHt]; intros es.
      - destruct Ho as (l1 & l2 & E & _). destruct l1; discriminate.
      - inversion IH as [|? ? H1 H2]; subst. cbn [flat_map] in Ho. apply only_hit_app in Ho. cbn [parse_option_loop].
        destruct Ho as [[Ho Hr]|[Hl Ho]].
        + specialize (H1 Ho). unfold agree. destruct (snd (run_option k p after neg rest)) as [r|] eqn:Er.
          * rewrite H1. cbn [app]. reflexivity.
          * destruct H1 as (e & e0 & [E|E]); rewrite E; [reflexivity|].
            change (flat_map flatten t) with (entries t) in Hr. rewrite tloop_nohit by exact Hr. reflexivity.
        + rewrite loop_nohit by exact Hl. rewrite app_nil_r. now apply IHt. }
    specialize (K []). unfold agree in K. destruct (snd (run_option k p after neg rest)) as [r|].
    + rewrite K. reflexivity.
    + destruct (parse_option_loop t arg rest []) as [e [r|]]; [discriminate|]. exists e, []. now right.
  - destruct n' as [n'|]; [|destruct Ho as (l1 & l2 & E & _); destruct l1; discriminate].
    cbn [flatten] in Ho. destruct Ho as (l1 & l2 & E & _). destruct l1 as [|? [|]]; try discriminate. injection E as -> -> -> <-.
    rewrite parse_desc_opt, Hh. destruct (run_option k p after neg rest) as [e [r|]]; cbn [fst snd]; [reflexivity|].
    exists e, []. now left.
Qed.

Lemma table_onehit arg rest k n p after neg t es : hit arg (k, n, p) = Some (after, neg) ->
  only_hit arg (entries t) (k, n, p) -> agree (run_option k p after neg rest) es (parse_option_loop t arg rest es).
Proof.
  intros Hh. revert es. induction t as [|d t IHt]; intros es Ho.
  - destruct Ho as (l1 & l2 & E & _). destruct l1; discriminate.
  - cbn [entries flat_map] in Ho. apply only_hit_app in Ho. cbn [parse_option_loop].
    destruct Ho as [[Ho Hr]|[Hl Ho]].
    + pose proof (desc_onehit arg rest k n p after neg Hh d Ho) as H1. unfold agree.
      destruct (snd (run_option k p after neg rest)) as [r|] eqn:Er.
      * rewrite H1. reflexivity.
      * destruct H1 as (e & e0 & [E|E]); rewrite E; [reflexivity|].
        change (flat_map flatten t) with (entries t) in Hr. rewrite tloop_nohit by exact Hr. reflexivity.
    + rewrite loop_nohit by exact Hl. rewrite app_nil_r. now apply IHt.
Qed.

(** Which entries are hit. *)
Definition nodelim (c : byte) : bool := negb (beq c "="%char) && negb (beq c ":"%char).
Lemma nodelim_name n : ~ In "="%char n -> ~ In ":"%char n -> forallb nodelim n = true.
Proof.
  intros H1 H2. apply forallb_forall. intros c Hc. unfold nodelim. apply andb_true_iff.
  split; apply negb_true_iff; apply beq_neq; intros ->; auto.
Qed.
Lemma delimited_stop after : delimited after = true -> after = [] \/ nodelim (peek after) = false.
Proof.
  unfold delimited, nodelim. destruct after as [|c a]; [now left|]. rewrite orb_false_r. cbn [peek]. intros H. right.
  destruct (beq c "="), (beq c ":"); try reflexivity; discriminate.
Qed.
Lemma key_unique n after : forallb nodelim n = true -> delimited after = true ->
  takewhile nodelim (n ++ after) = n /\ dropwhile nodelim (n ++ after) = after.
Proof.
  intros Hn Hd. apply delimited_stop in Hd. split.
  - apply takewhile_app_stop; [exact Hn|]. destruct Hd; auto.
  - apply dropwhile_app_stop; [exact Hn|]. destruct Hd; auto.
Qed.

Definition word (n : bytes) (neg : bool) : bytes := if neg then lit "no-" ++ n else n.

Lemma hit_iff arg k n p after neg :
  ~ In "="%char n -> ~ In ":"%char n -> n <> [] -> (forall r, lit "no-" ++ n <> n ++ r) ->
  hit arg (k, n, p) = Some (after, neg) <->
  (arg = word n neg ++ after /\ delimited after = true /\ (neg = true -> negatable_kind k = true)).
Proof.
  intros H1 H2 H3 H4. unfold hit, match_name.
  assert (NK : negatable k = negatable_kind k) by reflexivity. rewrite NK.
  split.
  - destruct (strip_prefix n arg) as [a|] eqn:E.
    + destruct (delimited a) eqn:D; [|discriminate]. intros [= <- <-]. apply strip_prefix_Some in E. repeat split; [exact E|exact D|discriminate].
    + unfold negative_part. destruct (strip_prefix (lit "no-") arg) as [[|c r]|] eqn:En; try discriminate.
      destruct (negatable_kind k) eqn:Ek; [|discriminate]. destruct (strip_prefix n (c :: r)) as [a|] eqn:E2; [|discriminate].
      destruct (delimited a) eqn:D; [|discriminate]. intros [= <- <-]. apply strip_prefix_Some in En, E2. rewrite En, E2.
      cbn [word]. rewrite <- app_assoc. repeat split. exact D.
  - intros (-> & D & Hk). destruct neg; cbn [word].
    + rewrite (Hk eq_refl). destruct (strip_prefix n ((lit "no-" ++ n) ++ after)) as [a|] eqn:E.
      * exfalso. apply strip_prefix_Some in E.
        assert (L : (length n <= length (lit "no-" ++ n))%nat) by (rewrite app_length; lia).
        assert (exists r, lit "no-" ++ n = n ++ r) as (r & Hr); [|exact (H4 r Hr)].
        exists (skipn (length n) (lit "no-" ++ n)).
        rewrite <- (firstn_skipn (length n) (lit "no-" ++ n)) at 1. f_equal.
        assert (F : firstn (length n) ((lit "no-" ++ n) ++ after) = firstn (length n) (n ++ a)) by now rewrite E.
        rewrite firstn_app in F. replace (length n - length (lit "no-" ++ n))%nat with 0%nat in F by lia.
        cbn [firstn] in F. rewrite app_nil_r in F. rewrite F, firstn_app, Nat.sub_diag, firstn_all. apply app_nil_r.
      * unfold negative_part. rewrite <- app_assoc, strip_prefix_app. destruct (n ++ after) as [|c r] eqn:En.
        { destruct n; [congruence|discriminate]. }
        rewrite <- En, strip_prefix_app, D. reflexivity.
    + rewrite strip_prefix_app, D. reflexivity.
Qed.

Definition good (x : entry) : Prop := let '(k, n, _) := x in
  ~ In "="%char n /\ ~ In ":"%char n /\ n <> [] /\ (forall r, lit "no-" ++ n <> n ++ r).

Lemma hit_key arg x after neg : good x -> hit arg x = Some (after, neg) -> In (takewhile nodelim arg) (keys_of x).
Proof.
  destruct x as [[k n] p]. intros (H1 & H2 & H3 & H4) H. apply hit_iff in H; try assumption. destruct H as (-> & D & Hk).
  pose proof (nodelim_name n H1 H2) as Hn.
  assert (W : forallb nodelim (word n neg) = true) by (destruct neg; [cbn [word]; rewrite forallb_app, Hn; reflexivity|exact Hn]).
  destruct (key_unique (word n neg) after W D) as [-> _]. destruct neg; cbn [word keys_of].
  - rewrite (Hk eq_refl). right. now left.
  - now left.
Qed.

Lemma nodup_others arg l1 x l2 : NoDup (flat_map keys_of (l1 ++ x :: l2)) -> Forall good (l1 ++ x :: l2) ->
  In (takewhile nodelim arg) (keys_of x) -> Forall (fun y => hit arg y = None) (l1 ++ l2).
Proof.
  intros Hnd Hg Hx. apply Forall_forall. intros y Hy. destruct (hit arg y) as [[after neg]|] eqn:E; [|reflexivity].
  exfalso. assert (Gy : good y). { rewrite Forall_forall in Hg. apply Hg. rewrite in_app_iff in *. cbn [In]. tauto. }
  pose proof (hit_key arg y after neg Gy E) as Ky.
  rewrite flat_map_app in Hnd. cbn [flat_map] in Hnd.
  apply in_app_iff in Hy. destruct Hy as [Hy|Hy].
  - set (key := takewhile nodelim arg) in *. assert (In key (flat_map keys_of l1)) as A by (apply in_flat_map; eauto).
    revert Hnd A Hx. generalize (flat_map keys_of l1) (keys_of x) (flat_map keys_of l2). intros a b c Hnd A Hb.
    apply in_split in A. destruct A as (a1 & a2 & ->). rewrite <- app_assoc in Hnd. cbn [app] in Hnd.
    apply NoDup_remove_2 in Hnd. apply Hnd. rewrite !in_app_iff. tauto.
  - set (key := takewhile nodelim arg) in *. assert (In key (flat_map keys_of l2)) as A by (apply in_flat_map; eauto).
    revert Hnd A Hx. generalize (flat_map keys_of l1) (keys_of x) (flat_map keys_of l2). intros a b c Hnd A Hb.
    apply in_split in Hb. destruct Hb as (b1 & b2 & ->). rewrite <- app_assoc in Hnd. cbn [app] in Hnd.
    rewrite app_assoc in Hnd. apply NoDup_remove_2 in Hnd. apply Hnd. rewrite !in_app_iff. tauto.
Qed.

Lemma sensible_good t : sensible t -> Forall good (entries t).
Proof. intros [_ H]. eapply Forall_impl; [|exact H]. intros [[k n] p] G. exact G. Qed.

Lemma sensible_only t arg k n p after neg : sensible t -> In (k, n, p) (entries t) ->
  hit arg (k, n, p) = Some (after, neg) -> only_hit arg (entries t) (k, n, p).
Proof.
  intros Hs Hin Hh. pose proof (sensible_good t Hs) as Hg. destruct Hs as [Hnd _].
  apply in_split in Hin. destruct Hin as (l1 & l2 & E). exists l1, l2. split; [exact E|]. rewrite E in Hnd, Hg.
  apply Forall_app, (nodup_others arg l1 (k, n, p) l2 Hnd Hg).
  eapply hit_key; [|exact Hh]. rewrite Forall_forall in Hg. apply Hg. rewrite in_app_iff. right. now left.
Qed.

(** Running an option. *)
Lemma find_keyword_value kws s z : find_keyword kws s = Some z <-> keyword_value kws s z.
Proof.
  induction kws as [|[n y] kws IH]; cbn [find_keyword keyword_value]; [split; [discriminate|tauto]|].
  destruct (bseq_spec s n) as [->|N].
  - split; [intros [= ->]; now left|intros [[_ ->]|[C _]]; congruence].
  - rewrite IH. split; [intros H; right; auto|intros [[C _]|[_ H]]; [congruence|exact H]].
Qed.
Lemma find_keyword_none kws s : find_keyword kws s = None <-> forall y, ~ keyword_value kws s y.
Proof.
  split.
  - intros H y Hy. apply find_keyword_value in Hy. congruence.
  - intros H. destruct (find_keyword kws s) as [z|] eqn:E; [|reflexivity]. apply find_keyword_value in E. destruct (H z E).
Qed.

Lemma read_digits_split s : forall a, exists ds rest, s = ds ++ rest /\
  Forall (fun c => 48 <= Z.of_N (N_of_ascii c) <= 57) ds /\ isdigit (peek rest) = false /\ snd (read_digits a s) = rest.
Proof.
  induction s as [|c s IH]; intros a.
  - exists [], []. repeat split. constructor.
  - cbn [read_digits]. destruct (isdigit c) eqn:D.
    + destruct (IH (10 * a + (code c - 48))%N) as (ds & rest & -> & F & P & R). exists (c :: ds), rest. repeat split; [|exact P|exact R].
      constructor; [|exact F]. unfold isdigit, code in D. apply andb_true_iff in D. rewrite !N.leb_le in D. lia.
    + exists [], (c :: s). repeat split; [constructor|exact D].
Qed.

(** [strtol] consumes all of a text iff it is blanks, optional sign and digits. *)
Lemma strtol_all s z : (exists ws t y, s = ws ++ t /\ forallb isspace ws = true /\ number_text t y /\
    z = Z.max (- 2 ^ 63) (Z.min y (2 ^ 63 - 1))) <-> s <> [] /\ strtol s = (z, []).
Proof.
  split.
  - intros (ws & t & y & -> & Hw & (ds & (Hne & Hd) & Hs) & ->). destruct ds as [|d ds']; [congruence|].
    assert (Pd : 48 <= Z.of_N (N_of_ascii d) <= 57) by (inversion Hd; assumption).
    destruct (digit_props d Pd) as (D1 & D2 & D3 & D4).
    pose proof (read_digits_run (d :: ds') Hd 0%N [] eq_refl) as RD. rewrite app_nil_r in RD.
    change (Z.of_N 0) with 0 in RD. fold (digits_value (d :: ds')) in RD.
    assert (RR : snd (read_digits 0 (d :: ds')) = []).
    { destruct (read_digits_split (d :: ds') 0%N) as (ds2 & rest & E & _ & P & R). rewrite R.
      destruct rest as [|c r]; [reflexivity|]. exfalso. cbn [peek] in P.
      assert (In c (d :: ds')) as I by (rewrite E; rewrite in_app_iff; right; now left).
      rewrite Forall_forall in Hd. destruct (digit_props c (Hd c I)) as (X & _). congruence. }
    destruct (read_digits 0 (d :: ds')) as [n rr] eqn:ER. cbn [fst snd] in RD, RR. subst rr.
    assert (DW : forall u, isspace (peek u) = false -> u <> [] -> dropwhile isspace (ws ++ u) = u).
    { intros u Hu Hn. apply dropwhile_app_stop; auto. }
    unfold strtol. destruct Hs as [[-> ->]|[[-> ->]|[-> ->]]]; (split; [destruct ws; discriminate|]).
    + rewrite DW by (first [exact D2|discriminate]). cbv beta iota. rewrite D3, D4. cbn [peek]. rewrite D1, ER, RD. reflexivity.
    + rewrite DW by (first [reflexivity|discriminate]). change (beq "+" "-") with false. change (beq "+" "+") with true. cbv iota. cbn [peek].
      rewrite D1, ER, RD. reflexivity.
    + rewrite DW by (first [reflexivity|discriminate]). change (beq "-" "-") with true. cbv iota. cbn [peek].
      rewrite D1, ER, RD. reflexivity.
  - intros (Hn & H). unfold strtol in H.
    pose proof (take_drop isspace s) as TD. pose proof (takewhile_all isspace s) as TA.
    set (ws := takewhile isspace s) in *. set (t := dropwhile isspace s) in *.
    assert (K : forall u, isdigit (peek u) = true -> forall n, read_digits 0 u = (n, []) -> digit_run u /\ digits_value u = Z.of_N n).
    { intros u Hu n Hr. destruct (read_digits_split u 0%N) as (ds & rest & E & F & P & R). rewrite Hr in R. cbn [snd] in R. subst rest.
      rewrite app_nil_r in E. subst ds. split; [split; [intros ->; discriminate|exact F]|].
      pose proof (read_digits_run u F 0%N [] eq_refl) as RD. rewrite app_nil_r, Hr in RD. cbn [fst] in RD. symmetry. exact RD. }
    exists ws, t. cut (exists y, number_text t y /\ z = Z.max (- 2 ^ 63) (Z.min y (2 ^ 63 - 1))).
    { intros (y & Hy & Hz). exists y. auto. }
    clearbody ws t. destruct t as [|c r].
    { cbv beta iota in H. change (isdigit (peek [])) with false in H. cbv iota in H. injection H as _ ->. congruence. }
    destruct (beq_spec c "-"%char) as [->|Nm].
    + destruct (isdigit (peek r)) eqn:Dr; [|injection H as _ ->; congruence].
      destruct (read_digits 0 r) as [n rest] eqn:ER. injection H as <- ->. destruct (K r Dr n ER) as [Kr Kv].
      exists (- Z.of_N n). split; [|reflexivity]. exists r. split; [exact Kr|]. right. right. split; [reflexivity|]. now rewrite Kv.
    + destruct (beq_spec c "+"%char) as [->|Np].
      * destruct (isdigit (peek r)) eqn:Dr; [|injection H as _ ->; congruence].
        destruct (read_digits 0 r) as [n rest] eqn:ER. injection H as <- ->. destruct (K r Dr n ER) as [Kr Kv].
        exists (Z.of_N n). split; [|reflexivity]. exists r. split; [exact Kr|]. right. left. split; [reflexivity|]. now rewrite Kv.
      * destruct (isdigit (peek (c :: r))) eqn:Dr; [|injection H as _ ->; congruence].
        destruct (read_digits 0 (c :: r)) as [n rest] eqn:ER. injection H as <- ->. destruct (K (c :: r) Dr n ER) as [Kr Kv].
        exists (Z.of_N n). split; [|reflexivity]. exists (c :: r). split; [exact Kr|]. left. split; [reflexivity|]. now rewrite Kv.
Qed.

Lemma number_peek ws t z : forallb isspace ws = true -> number_text t z -> beq (peek (ws ++ t)) NUL = false.
Proof.
  intros Hw (ds & (Hne & Hd) & Hs). destruct ds as [|d ds']; [congruence|].
  assert (Pd : 48 <= Z.of_N (N_of_ascii d) <= 57) by (inversion Hd; assumption).
  apply beq_neq. destruct ws as [|w ws].
  - cbn [app]. destruct Hs as [[-> _]|[[-> _]|[-> _]]]; cbn [peek]; try discriminate. intros ->. cbn in Pd. lia.
  - cbn [app peek]. cbn [forallb] in Hw. apply andb_true_iff in Hw. destruct Hw as [Hw _]. intros ->. discriminate.
Qed.

(** How [process] is called for each thing received. *)
Inductive called : received -> byte -> bytes -> Prop :=
| c_nothing v : called Nothing NUL v
| c_att c s : c = "="%char \/ c = ":"%char -> called (Attached s) c s
| c_fol s : called (Following s) " "%char s.

Lemma process_means k neg r next value : called r next value -> (forall v s, k = KBool v -> r <> Following s) ->
  forall st es, process k next value neg = (st, es) -> forall e gb,
  (st <> OPT_FAILED /\ es = [e] /\ gb = match st with OPT_GIVEBACK => true | _ => false end) <-> means k neg r e gb.
Proof.
  intros Hc Hb st es Hp e gb.
  assert (Txt : beq next NUL = match r with Nothing => true | _ => false end).
  { destruct Hc as [v|c s [-> | ->]|s]; reflexivity. }
  assert (Val : match r with Nothing => True | _ => value = text_of r end) by (destruct Hc; exact I || reflexivity).
  destruct k as [v|v|v kws d|v kws|v ae|v]; cbn [process] in Hp.
  - (* bool *) unfold process_boolean in Hp. rewrite Txt in Hp. destruct Hc as [v0|c s Hc|s].
    + cbn [orb] in Hp. injection Hp as <- <-. split.
      * intros (_ & [= <-] & ->). destruct neg; constructor.
      * intros M. inversion M; subst. destruct neg; repeat split; discriminate.
    + cbn [orb] in Hp. destruct (bseq_spec s (lit "true")) as [->|Nt].
      * injection Hp as <- <-. split.
        -- intros (_ & [= <-] & ->). destruct neg; constructor.
        -- intros M. inversion M; subst. destruct neg; repeat split; discriminate.
      * destruct (bseq_spec s (lit "false")) as [->|Nf].
        -- injection Hp as <- <-. split.
           ++ intros (_ & [= <-] & ->). replace (if neg then true else false) with neg by now destruct neg. constructor.
           ++ intros M. inversion M; subst. destruct neg; repeat split; discriminate.
        -- injection Hp as <- <-. split; [intros (C & _); congruence|intros M; exfalso].
           inversion M; subst; first [apply Nt; reflexivity|apply Nf; reflexivity].
    + exfalso. eapply Hb; reflexivity.
  - (* int *) unfold process_int in Hp. rewrite Txt in Hp. destruct r as [|s|s].
    + injection Hp as <- <-. split; [intros (C & _); congruence|intros M; inversion M; subst; congruence].
    + cbn [text_of] in Val. subst value. cbn [orb] in Hp. destruct (beq (peek s) NUL) eqn:P0.
      * injection Hp as <- <-. split; [intros (C & _); congruence|]. intros M. inversion M; subst. cbn [text_of] in *.
        match goal with H : s = _ |- _ => rewrite H in P0 end. erewrite number_peek in P0 by eassumption. discriminate.
      * destruct (strtol s) as [z rest] eqn:ES. injection Hp as <- <-. split.
        -- intros (C & [= <-] & ->). destruct rest; [|congruence].
           destruct (proj2 (strtol_all s z)) as (ws & t & y & E & Hw & Hy & Hz).
           { split; [intros ->; discriminate|exact ES]. }
           rewrite Hz. econstructor; [discriminate|exact E|exact Hw|exact Hy].
        -- intros M. inversion M; subst. cbn [text_of] in *.
           destruct (proj1 (strtol_all s (Z.max (- 2 ^ 63) (Z.min z0 (2 ^ 63 - 1))))) as [_ E2]; [exists ws, t, z0; auto|].
           rewrite ES in E2. injection E2 as -> ->. repeat split; discriminate.
    + cbn [text_of] in Val. subst value. cbn [orb] in Hp. destruct (beq (peek s) NUL) eqn:P0.
      * injection Hp as <- <-. split; [intros (C & _); congruence|]. intros M. inversion M; subst. cbn [text_of] in *.
        match goal with H : s = _ |- _ => rewrite H in P0 end. erewrite number_peek in P0 by eassumption. discriminate.
      * destruct (strtol s) as [z rest] eqn:ES. injection Hp as <- <-. split.
        -- intros (C & [= <-] & ->). destruct rest; [|congruence].
           destruct (proj2 (strtol_all s z)) as (ws & t & y & E & Hw & Hy & Hz).
           { split; [intros ->; discriminate|exact ES]. }
           rewrite Hz. econstructor; [discriminate|exact E|exact Hw|exact Hy].
        -- intros M. inversion M; subst. cbn [text_of] in *.
           destruct (proj1 (strtol_all s (Z.max (- 2 ^ 63) (Z.min z0 (2 ^ 63 - 1))))) as [_ E2]; [exists ws, t, z0; auto|].
           rewrite ES in E2. injection E2 as -> ->. repeat split; discriminate.
  - (* keyword *) unfold process_keyword in Hp.
    assert (A : (if beq next NUL then [] else value) = text_of r).
    { rewrite Txt. destruct r; [reflexivity|exact Val|exact Val]. }
    rewrite A in Hp. destruct (find_keyword kws (text_of r)) as [z|] eqn:F.
    + injection Hp as <- <-. apply find_keyword_value in F. split.
      * intros (_ & [= <-] & ->). now constructor.
      * intros M. inversion M; subst.
        -- assert (z0 = z) as ->. { apply find_keyword_value in F. match goal with H : keyword_value _ _ z0 |- _ => apply find_keyword_value in H; congruence end. }
           repeat split; discriminate.
        -- exfalso. match goal with H : forall y, ~ _ |- _ => eapply H; eassumption end.
    + pose proof (proj1 (find_keyword_none kws (text_of r)) F) as F'.
      assert (Dl : (negb (beq next ":"%char) && negb (beq next "="%char)) = match r with Attached _ => false | _ => true end).
      { destruct Hc as [v0|c s [-> | ->]|s]; reflexivity. }
      destruct d as [d|].
      * rewrite Dl in Hp. destruct r as [|s|s].
        -- destruct (find_keyword kws d) as [z|] eqn:Fd; injection Hp as <- <-.
           ++ apply find_keyword_value in Fd. split.
              ** intros (_ & [= <-] & ->). constructor; [exact F'|discriminate|exact Fd].
              ** intros M. inversion M; subst; [exfalso; eapply F'; eassumption|].
                 match goal with H : keyword_value _ d ?z0 |- _ => apply find_keyword_value in H; apply find_keyword_value in Fd; rewrite Fd in H; injection H as -> end.
                 repeat split; discriminate.
           ++ split; [intros (C & _); congruence|]. intros M. inversion M; subst; [exfalso; eapply F'; eassumption|].
              match goal with H : keyword_value _ d ?z0 |- _ => apply find_keyword_value in H; congruence end.
        -- injection Hp as <- <-. split; [intros (C & _); congruence|]. intros M. inversion M; subst; [exfalso; eapply F'; eassumption|].
           exfalso. match goal with H : forall s0, _ <> Attached s0 |- _ => eapply H; reflexivity end.
        -- destruct (find_keyword kws d) as [z|] eqn:Fd; injection Hp as <- <-.
           ++ apply find_keyword_value in Fd. split.
              ** intros (_ & [= <-] & ->). constructor; [exact F'|discriminate|exact Fd].
              ** intros M. inversion M; subst; [exfalso; eapply F'; eassumption|].
                 match goal with H : keyword_value _ d ?z0 |- _ => apply find_keyword_value in H; apply find_keyword_value in Fd; rewrite Fd in H; injection H as -> end.
                 repeat split; discriminate.
           ++ split; [intros (C & _); congruence|]. intros M. inversion M; subst; [exfalso; eapply F'; eassumption|].
              match goal with H : keyword_value _ d ?z0 |- _ => apply find_keyword_value in H; congruence end.
      * injection Hp as <- <-. split; [intros (C & _); congruence|]. intros M. inversion M; subst; exfalso; eapply F'; eassumption.
  - (* flags *) unfold process_keyword in Hp.
    assert (A : (if beq next NUL then [] else value) = text_of r).
    { rewrite Txt. destruct r; [reflexivity|exact Val|exact Val]. }
    rewrite A in Hp. destruct (find_keyword kws (text_of r)) as [z|] eqn:F.
    + injection Hp as <- <-. split.
      * intros (_ & [= <-] & ->). constructor. now apply find_keyword_value.
      * intros M. inversion M; subst.
        match goal with H : keyword_value _ _ ?z0 |- _ => apply find_keyword_value in H; rewrite F in H; injection H as -> end.
        repeat split; discriminate.
    + injection Hp as <- <-. split; [intros (C & _); congruence|]. intros M. inversion M; subst.
      match goal with H : keyword_value _ _ ?z0 |- _ => apply find_keyword_value in H; congruence end.
  - (* string *) unfold process_string in Hp. rewrite Txt in Hp. destruct r as [|s|s].
    + injection Hp as <- <-. split; [intros (C & _); congruence|intros M; inversion M; subst; congruence].
    + cbn [text_of] in Val. subst value. destruct s as [|c s]; [destruct ae|]; injection Hp as <- <-.
      * split; [intros (_ & [= <-] & ->); exact (m_string v true neg (Attached []) ltac:(discriminate) (or_intror eq_refl))|].
        intros M. inversion M; subst. cbn [text_of]. repeat split; discriminate.
      * split; [intros (C & _); congruence|]. intros M. inversion M; subst. cbn [text_of] in *. match goal with H : _ \/ _ |- _ => destruct H; congruence end.
      * split; [intros (_ & [= <-] & ->); refine (m_string v ae neg (Attached (c :: s)) _ (or_introl _)); discriminate|].
        intros M. inversion M; subst. cbn [text_of]. repeat split; discriminate.
    + cbn [text_of] in Val. subst value. destruct s as [|c s]; [destruct ae|]; injection Hp as <- <-.
      * split; [intros (_ & [= <-] & ->); exact (m_string v true neg (Following []) ltac:(discriminate) (or_intror eq_refl))|].
        intros M. inversion M; subst. cbn [text_of]. repeat split; discriminate.
      * split; [intros (C & _); congruence|]. intros M. inversion M; subst. cbn [text_of] in *. match goal with H : _ \/ _ |- _ => destruct H; congruence end.
      * split; [intros (_ & [= <-] & ->); refine (m_string v ae neg (Following (c :: s)) _ (or_introl _)); discriminate|].
        intros M. inversion M; subst. cbn [text_of]. repeat split; discriminate.
  - injection Hp as <- <-. split; [intros (C & _); congruence|intros M; inversion M].
Qed.

Lemma dashes_spec a : starts_dashes a = true <-> exists x, a = "-"%char :: "-"%char :: x.
Proof. unfold starts_dashes. rewrite starts_with_app. split; intros (r & Hr); exists r; exact Hr. Qed.

Lemma next_arg_none rest : next_argument rest = None <-> rest = [] \/ exists x q, rest = ("-"%char :: "-"%char :: x) :: q.
Proof.
  destruct rest as [|a q]; cbn [next_argument]; [split; [now left|reflexivity]|].
  destruct (starts_dashes a) eqn:D.
  - split; [|reflexivity]. intros _. right. apply dashes_spec in D. destruct D as (x & ->). eauto.
  - split; [discriminate|]. intros [C|(x & q' & [= -> ->])]; [discriminate|].
    assert (starts_dashes ("-"%char :: "-"%char :: x) = true) by (apply dashes_spec; eauto). congruence.
Qed.
Lemma next_arg_some rest a : next_argument rest = Some a <->
  (exists q, rest = a :: q) /\ (forall x, a <> "-"%char :: "-"%char :: x).
Proof.
  destruct rest as [|b q]; cbn [next_argument]; [split; [discriminate|intros ((q & C) & _); discriminate]|].
  destruct (starts_dashes b) eqn:D.
  - split; [discriminate|]. intros ((q' & E) & Hx0). injection E as -> ->. apply dashes_spec in D. destruct D as (x & Hx). destruct (Hx0 x Hx).
  - split.
    + intros [= ->]. split; [eauto|]. intros x ->. assert (starts_dashes ("-"%char :: "-"%char :: x) = true) by (apply dashes_spec; eauto). congruence.
    + intros ((q' & [= -> ->]) & _). reflexivity.
Qed.

Lemma run_option_iff k p after neg rest es rest'' : delimited after = true ->
  run_option k p after neg rest = (es, Some rest'') <->
  exists r rest' e gb, takes k after rest r rest' /\ means k neg r e gb /\ es = e :: present_effect p /\
     rest'' = (if gb : bool then rest else rest').
Proof.
  intros Hd.
  assert (Core : forall r next value la rest0, called r next value -> (forall v s, k = KBool v -> r <> Following s) ->
     (la = true -> exists a, rest = a :: rest0) -> (la = false -> rest0 = rest) ->
     (exists st es0, process k next value neg = (st, es0) /\
       ((match st, es0 with OPT_FAILED, es1 => (es1, None) | st, es1 =>
          (es1 ++ present_effect p, Some (if la && match st with OPT_GIVEBACK => false | _ => true end then tl rest else rest)) end
         = (es, Some rest''))
       <-> exists e gb, means k neg r e gb /\ es = e :: present_effect p /\ rest'' = (if gb : bool then rest else rest0)))).
  { intros r next value la rest0 Hc Hb Hla1 Hla2. destruct (process k next value neg) as [st es0] eqn:Hp.
    exists st, es0. split; [reflexivity|]. pose proof (process_means k neg r next value Hc Hb st es0 Hp) as M.
    assert (one : st <> OPT_FAILED -> exists e, es0 = [e]).
    { intros Hst. destruct k; cbn [process] in Hp; unfold process_boolean, process_int, process_keyword, process_string in Hp;
      repeat match type of Hp with context[match ?x with _ => _ end] => destruct x eqn:? end; injection Hp as <- <-; eauto; congruence. }
    destruct st.
    - split; [discriminate|]. intros (e & gb & Hm & _). apply M in Hm. destruct Hm as (C & _). congruence.
    - destruct (one ltac:(discriminate)) as (e0 & ->). cbn [app]. split.
      + intros [= <- <-]. exists e0, false. split; [apply M; repeat split; discriminate|]. split; [reflexivity|].
        rewrite andb_true_r. destruct la; [destruct (Hla1 eq_refl) as (a & ->); reflexivity|symmetry; now apply Hla2].
      + intros (e & gb & Hm & -> & ->). apply M in Hm. destruct Hm as (_ & [= ->] & ->). rewrite andb_true_r. f_equal. f_equal.
        destruct la; [destruct (Hla1 eq_refl) as (a & ->); reflexivity|symmetry; now apply Hla2].
    - destruct (one ltac:(discriminate)) as (e0 & ->). cbn [app]. split.
      + intros [= <- <-]. exists e0, true. split; [apply M; repeat split; discriminate|]. split; [reflexivity|]. now rewrite andb_false_r.
      + intros (e & gb & Hm & -> & ->). apply M in Hm. destruct Hm as (_ & [= ->] & ->). rewrite andb_false_r. reflexivity. }
  assert (Eq : forall next value la, run_option k p after neg rest = 
     match process k next value neg with (OPT_FAILED, es1) => (es1, None) | (st, es1) =>
          (es1 ++ present_effect p, Some (if la && match st with OPT_GIVEBACK => false | _ => true end then tl rest else rest)) end ->
     run_option k p after neg rest = let (st, es0) := process k next value neg in
       match st, es0 with OPT_FAILED, es1 => (es1, None) | st, es1 =>
          (es1 ++ present_effect p, Some (if la && match st with OPT_GIVEBACK => false | _ => true end then tl rest else rest)) end).
  { intros next value la ->. destruct (process k next value neg) as [[] es1]; reflexivity. }
  destruct after as [|c s].
  - destruct (next_argument rest) as [a|] eqn:NA.
    + pose proof (proj1 (next_arg_some rest a) NA) as ((q & Hq) & Hnd). subst rest. destruct (is_bool k) eqn:Hk.
      * (* bool: nothing *)
        specialize (Eq NUL [] false). unfold run_option in Eq at 1. rewrite NA, Hk in Eq. cbn [peek tl negb andb] in Eq. specialize (Eq eq_refl).
        destruct (Core Nothing NUL [] false (a :: q) (c_nothing []) ltac:(discriminate) ltac:(discriminate) ltac:(reflexivity)) as (st & es0 & Hp & C).
        rewrite Hp in Eq. rewrite Eq, C. split.
        -- intros (e & gb & Hm & H1 & H2). exists Nothing, (a :: q), e, gb. repeat split; try assumption. right. right. split; [reflexivity|].
           split; [left; destruct k; try discriminate; eauto|auto].
        -- intros (r & rest' & e & gb & T & Hm & H1 & H2). destruct T as [(c & s & E & _)|[(_ & Hnb & _)|(_ & _ & -> & ->)]].
           ++ discriminate.
           ++ destruct k; try discriminate. exfalso. eapply Hnb. reflexivity.
           ++ eauto.
      * specialize (Eq " "%char a true). unfold run_option in Eq at 1. rewrite NA, Hk in Eq. cbn [peek tl hd negb andb] in Eq. specialize (Eq eq_refl).
        destruct (Core (Following a) " "%char a true q (c_fol a)) as (st & es0 & Hp & C).
        { intros v s ->. discriminate. } { intros _. eauto. } { discriminate. }
        rewrite Hp in Eq. cbn [tl] in *. rewrite Eq, C. split.
        -- intros (e & gb & Hm & H1 & H2). exists (Following a), q, e, gb. repeat split; try assumption. right. left. split; [reflexivity|].
           split; [intros v ->; discriminate|]. exists a. auto.
        -- intros (r & rest' & e & gb & T & Hm & H1 & H2). destruct T as [(c & s & E & _)|[(_ & _ & a' & [= <- <-] & _ & ->)|(_ & [(v & ->)|[E|(x & q' & [= -> _])]] & _)]].
           ++ discriminate.
           ++ eauto.
           ++ discriminate.
           ++ discriminate.
           ++ exfalso. eapply Hnd. reflexivity.
    + specialize (Eq NUL [] false). unfold run_option in Eq at 1. rewrite NA in Eq. cbn [peek tl negb andb] in Eq. specialize (Eq eq_refl).
      destruct (Core Nothing NUL [] false rest (c_nothing []) ltac:(discriminate) ltac:(discriminate) ltac:(reflexivity)) as (st & es0 & Hp & C).
      rewrite Hp in Eq. rewrite Eq, C. pose proof (proj1 (next_arg_none rest) NA) as Hn. split.
      * intros (e & gb & Hm & H1 & H2). exists Nothing, rest, e, gb. repeat split; try assumption. right. right. split; [reflexivity|].
        split; [right; exact Hn|auto].
      * intros (r & rest' & e & gb & T & Hm & H1 & H2). destruct T as [(c & s & E & _)|[(_ & _ & a & Ha & Hx & _)|(_ & _ & -> & ->)]].
        -- discriminate.
        -- exfalso. destruct Hn as [->|(x & q & ->)]; [discriminate|]. injection Ha as <- <-. eapply Hx. reflexivity.
        -- eauto.
  - assert (Hc : c = "="%char \/ c = ":"%char).
    { unfold delimited in Hd. cbn [peek] in Hd. rewrite orb_false_r in Hd. apply orb_true_iff in Hd. rewrite !beq_eq in Hd. exact Hd. }
    specialize (Eq c s false). unfold run_option in Eq at 1. cbn [peek tl negb andb] in Eq. specialize (Eq eq_refl).
    destruct (Core (Attached s) c s false rest (c_att c s Hc) ltac:(discriminate) ltac:(discriminate) ltac:(reflexivity)) as (st & es0 & Hp & C).
    rewrite Hp in Eq. rewrite Eq, C. split.
    + intros (e & gb & Hm & H1 & H2). exists (Attached s), rest, e, gb. repeat split; try assumption. left. exists c, s. auto.
    + intros (r & rest' & e & gb & T & Hm & H1 & H2). destruct T as [(c' & s' & [= <- <-] & _ & -> & ->)|[(E & _)|(E & _)]]; [eauto|discriminate|discriminate].
Qed.

Lemma takes_delimited k tail rest r rest' : takes k tail rest r rest' -> delimited tail = true.
Proof.
  intros [(c & s & -> & [-> | ->] & _)|[(-> & _)|(-> & _)]]; reflexivity.
Qed.

Lemma parse_option_iff t arg rest es rest'' : sensible t ->
  parse_option t arg rest = (es, Some rest'') <-> option_reads t arg rest es rest''.
Proof.
  intros Hs. pose proof (sensible_good t Hs) as Hg. unfold parse_option, option_reads. split.
  - intros H.
    assert (Ex : (exists x, In x (entries t) /\ hit arg x <> None) \/ Forall (fun x => hit arg x = None) (entries t)).
    { clear. induction (entries t) as [|x l [(y & Hy & Hh)|IH]].
      - right. constructor.
      - left. exists y. split; [now right|exact Hh].
      - destruct (hit arg x) eqn:E; [left; exists x; split; [now left|congruence]|right; now constructor]. }
    destruct Ex as [([[k n] p] & Hin & Hh)|Hn].
    + destruct (hit arg (k, n, p)) as [[after neg]|] eqn:E; [|congruence].
      pose proof (table_onehit arg rest k n p after neg t [] E (sensible_only t arg k n p after neg Hs Hin E)) as A.
      unfold agree in A. destruct (run_option k p after neg rest) as [e [r|]] eqn:R; cbn [snd fst] in A.
      * rewrite A in H. cbn [app] in H. injection H as <- <-.
        rewrite Forall_forall in Hg. destruct (Hg _ Hin) as (G1 & G2 & G3 & G4).
        apply (hit_iff arg k n p after neg G1 G2 G3 G4) in E. destruct E as (E1 & E2 & E3).
        apply run_option_iff in R; [|exact E2]. destruct R as (rc & rest' & e' & gb & T & M & Hes & Hr).
        exists k, n, p, neg, after, rc, rest', e', gb. repeat split; try assumption.
      * rewrite H in A. discriminate.
    + rewrite tloop_nohit in H by exact Hn. discriminate.
  - intros (k & n & p & neg & tail & rc & rest' & e & gb & Hin & Ha & Hk & T & M & Hes & Hr).
    rewrite Forall_forall in Hg. destruct (Hg _ Hin) as (G1 & G2 & G3 & G4).
    assert (E : hit arg (k, n, p) = Some (tail, neg)).
    { apply hit_iff; try assumption. repeat split; [exact Ha|eapply takes_delimited; exact T|exact Hk]. }
    pose proof (table_onehit arg rest k n p tail neg t [] E (sensible_only t arg k n p tail neg Hs Hin E)) as A.
    assert (R : run_option k p tail neg rest = (es, Some rest'')).
    { apply run_option_iff; [eapply takes_delimited; exact T|]. exists rc, rest', e, gb. auto. }
    unfold agree in A. rewrite R in A. cbn [snd fst app] in A. exact A.
Qed.
