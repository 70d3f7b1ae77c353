From Verif Require Import Bytes StrUtil Features FeaturesSpec.
Local Open Scope N_scope.

Definition noNL (c : byte) := negb (mem c [NL]).
Lemma noNL_spec c : noNL c = negb (Ascii.eqb c NL).
Proof. unfold noNL, mem, beq. cbn [existsb]. now rewrite orb_false_r. Qed.

Lemma lines_tok tok : forallb noNL tok = true -> forall cur rest,
  text_lines cur (tok ++ rest) = text_lines (cur ++ tok) rest.
Proof.
  induction tok as [|c t IH]; intros H cur rest; [now rewrite app_nil_r|].
  cbn [forallb] in H. apply andb_true_iff in H. destruct H as [H1 H2]. rewrite noNL_spec in H1. apply negb_true_iff in H1.
  cbn [app text_lines]. change (chr 10) with NL. rewrite H1, IH by exact H2. now rewrite <- app_assoc.
Qed.

Lemma parse_line_nil m st : parse_line m [] st = st.
Proof. now destruct st. Qed.

Definition run (m : byte) (ls : list bytes) st := fold_left (fun st l => parse_line m l st) ls st.

Lemma drop_nl m s st : run m (text_lines [] (dropwhile (fun c => mem c [NL]) s)) st = run m (text_lines [] s) st.
Proof.
  induction s as [|c s IH]; [reflexivity|]. cbn [dropwhile]. destruct (mem c [NL]) eqn:E; [|reflexivity].
  rewrite IH. assert (c = NL) as -> by (apply mem_In in E; destruct E as [->|[]]; reflexivity).
  cbn [text_lines]. change (Ascii.eqb NL (chr 10)) with true. cbn [run fold_left]. unfold run. cbn [fold_left].
  now rewrite parse_line_nil.
Qed.

Lemma parse_loop_lines m : forall fuel s st, (length s < fuel)%nat ->
  parse_loop fuel m s st = run m (text_lines [] s) st.
Proof.
  induction fuel as [|f IH]; intros s st Hl; [lia|]. cbn [parse_loop]. unfold strtok_len.
  rewrite <- drop_nl. set (s' := dropwhile _ s). assert (Hs' : (length s' <= length s)%nat) by apply dropwhile_length.
  rewrite span_eq. pose proof (take_drop (fun c => negb (mem c [NL])) s') as TD.
  pose proof (takewhile_all (fun c => negb (mem c [NL])) s') as TA.
  pose proof (dropwhile_head (fun c => negb (mem c [NL])) s') as DH.
  remember (takewhile (fun c => negb (mem c [NL])) s') as tok eqn:Dtok.
  remember (dropwhile (fun c => negb (mem c [NL])) s') as rest eqn:Drest.
  rewrite <- TD. rewrite lines_tok by exact TA. rewrite app_nil_l.
  destruct tok as [|t0 tok'].
  - assert (s' = []) as E0.
    { destruct s' as [|c r] eqn:Es; [reflexivity|]. exfalso.
      pose proof (dropwhile_head (fun c => mem c [NL]) s) as H0. fold s' in H0. rewrite Es in H0.
      cbn [takewhile] in Dtok. rewrite H0 in Dtok. discriminate. }
    rewrite <- TD in E0. cbn [app] in E0. rewrite E0. cbn [text_lines]. unfold run. cbn [fold_left]. now rewrite parse_line_nil.
  - assert (Hr : (length rest < f)%nat).
    { assert (length s' = length ((t0 :: tok') ++ rest)) as L by now rewrite TD. rewrite app_length in L. cbn [length] in L. lia. }
    rewrite IH by exact Hr. destruct rest as [|c r].
    + cbn [text_lines]. unfold run. cbn [fold_left]. now rewrite parse_line_nil.
    + assert (c = NL) as ->.
      { apply negb_false_iff in DH. apply mem_In in DH. destruct DH as [->|[]]. reflexivity. }
      cbn [text_lines]. change (Ascii.eqb NL (chr 10)) with true. cbn match. unfold run. cbn [fold_left]. now rewrite parse_line_nil.
Qed.

(** One line in terms of [declared]. *)
Lemma declared_span l : match declared l with
  | None => mem TAB l = false
  | Some (n, f) => mem TAB l = true /\ span (fun c => negb (beq c TAB)) l = (n, TAB :: f)
  end.
Proof.
  induction l as [|c l IH]; [reflexivity|]. cbn [declared]. change (chr 9) with TAB. destruct (Ascii.eqb c TAB) eqn:E.
  - apply Ascii.eqb_eq in E. subst c. split; [reflexivity|]. reflexivity.
  - assert (Hm : mem TAB (c :: l) = mem TAB l).
    { unfold mem. cbn [existsb]. rewrite beq_sym. unfold beq. now rewrite E. }
    destruct (declared l) as [[n f]|]; [|now rewrite Hm].
    destruct IH as [I1 I2]. rewrite Hm. split; [exact I1|]. cbn [span]. unfold beq. rewrite E. cbn [negb].
    unfold beq in I2. now rewrite I2.
Qed.

Definition step (m : byte) (d : bytes * bytes) (st : N * option bytes) : N * option bytes :=
  let '(res, incompat) := st in
  match find_feature feature_names (fst d) with
  | Some v => (N.lor res v, incompat)
  | None => if mem m (snd d) then
      let old := match incompat with None => [] | Some o => o end in
      (res, Some (old ++ (match old with [] => [] | _ => lit ", " end) ++ fst d)) else st
  end.

Lemma parse_line_declared m l st : m <> TAB ->
  parse_line m l st = match declared l with None => st | Some d => step m d st end.
Proof.
  intros Hm. pose proof (declared_span l) as H. unfold parse_line. destruct st as [res inc].
  destruct (declared l) as [[n f]|]; [|now rewrite H].
  destruct H as [H1 H2]. rewrite H1, H2. cbn [step fst snd]. destruct (find_feature feature_names n); [reflexivity|].
  assert (mem m (TAB :: f) = mem m f) as ->; [|reflexivity].
  unfold mem. cbn [existsb]. rewrite (proj2 (beq_neq m TAB) Hm). reflexivity.
Qed.

Lemma run_declarations m (Hm : m <> TAB) ls : forall st,
  run m ls st = fold_left (fun st d => step m d st)
    (flat_map (fun l => match declared l with Some d => [d] | None => [] end) ls) st.
Proof.
  induction ls as [|l ls IH]; intros st; [reflexivity|]. unfold run. cbn [fold_left flat_map].
  rewrite fold_left_app. fold (run m ls (parse_line m l st)). rewrite IH, parse_line_declared by exact Hm.
  now destruct (declared l).
Qed.

Definition bit_of (i : nat) : N := N.of_nat i.

Lemma find_known n : match find_feature feature_names n with
  | Some v => exists i, (i < 8)%nat /\ v = 2 ^ N.of_nat i /\ nth_error known_names i = Some n
  | None => existsb (bseq n) known_names = false
  end.
Proof.
  unfold feature_names. cbn [find_feature].
  Ltac one n := match goal with |- context[bseq ?a n] => let H := fresh "E" in destruct (bseq_spec a n) as [H|H] end.
  one n; [exists 0%nat; subst n; repeat split; lia|].
  one n; [exists 1%nat; subst n; repeat split; lia|].
  one n; [exists 2%nat; subst n; repeat split; lia|].
  one n; [exists 3%nat; subst n; repeat split; lia|].
  one n; [exists 4%nat; subst n; repeat split; lia|].
  one n; [exists 5%nat; subst n; repeat split; lia|].
  one n; [exists 6%nat; subst n; repeat split; lia|].
  one n; [exists 7%nat; subst n; repeat split; lia|].
  unfold known_names. cbn [existsb].
  repeat match goal with |- context[bseq n ?a] => rewrite (proj2 (bseq_neq n a)) by (intros ->; congruence) end. reflexivity.
Qed.

Lemma known_nodup : NoDup known_names.
Proof.
  unfold known_names. repeat constructor; cbn [In]; intros H; decompose [or] H; try discriminate; assumption.
Qed.

Lemma names_inj i j n : nth_error known_names i = Some n -> nth_error known_names j = Some n -> i = j.
Proof.
  intros Hi Hj. apply (proj1 (NoDup_nth_error known_names) known_nodup).
  - apply nth_error_Some. congruence.
  - congruence.
Qed.

(** The mask. *)
Lemma steps_mask m ds : forall res inc i n, nth_error known_names i = Some n ->
  N.testbit (fst (fold_left (fun st d => step m d st) ds (res, inc))) (N.of_nat i) = true <->
  N.testbit res (N.of_nat i) = true \/ In n (map fst ds).
Proof.
  induction ds as [|[d f] ds IH]; intros res inc i n Hn.
  - cbn [fold_left fst map In]. tauto.
  - cbn [fold_left map In fst]. unfold step at 2. cbn [fst snd]. pose proof (find_known d) as K.
    destruct (find_feature feature_names d) as [v|].
    + destruct K as (j & Hj & -> & Hd). rewrite IH by exact Hn. rewrite N.lor_spec, orb_true_iff, N.pow2_bits_eqb, N.eqb_eq.
      split; [intros [[H|H]|H]|intros [H|[H|H]]]; auto.
      * right. left. assert (i = j) by lia. subst j. congruence.
      * left. right. subst d. f_equal. eapply names_inj; eassumption.
    + assert (d <> n).
      { intros ->. assert (existsb (bseq n) known_names = true); [|congruence].
        apply existsb_exists. exists n. split; [eapply nth_error_In; eassumption|apply bseq_refl]. }
      destruct (mem m f); rewrite IH by exact Hn; intuition congruence.
Qed.

Lemma steps_small m ds : forall res inc, res < 256 ->
  fst (fold_left (fun st d => step m d st) ds (res, inc)) < 256.
Proof.
  induction ds as [|[d f] ds IH]; intros res inc H; [exact H|]. cbn [fold_left]. unfold step at 2. cbn [fst snd].
  pose proof (find_known d) as K. destruct (find_feature feature_names d) as [v|].
  - apply IH. destruct K as (j & Hj & -> & _). destruct (N.eq_dec (N.lor res (2 ^ N.of_nat j)) 0) as [->|Hz]; [lia|].
    change 256 with (2 ^ 8). apply N.log2_lt_pow2; [lia|]. rewrite N.log2_lor, N.log2_pow2 by lia.
    apply N.max_lub_lt; [|lia]. destruct (N.eq_dec res 0) as [->|Hr]; [cbn; lia|]. apply N.log2_lt_pow2; [lia|exact H].
  - destruct (mem m f); now apply IH.
Qed.

(** The list of missing names. *)
Fixpoint glue (old : option bytes) (l : list bytes) : option bytes :=
  match l with
  | [] => old
  | n :: l' => let o := match old with None => [] | Some o => o end in
               glue (Some (o ++ (match o with [] => [] | _ => lit ", " end) ++ n)) l'
  end.

Lemma steps_incompat m ds : forall res inc,
  snd (fold_left (fun st d => step m d st) ds (res, inc)) = glue inc (map fst (filter (blocks m) ds)).
Proof.
  induction ds as [|[d f] ds IH]; intros res inc; [reflexivity|]. cbn [fold_left filter]. unfold step at 2. cbn [fst snd].
  unfold blocks at 1. cbn [fst snd]. pose proof (find_known d) as K. destruct (find_feature feature_names d) as [v|].
  - rewrite IH. destruct K as (j & _ & _ & Hd).
    assert (existsb (bseq d) known_names = true) as ->.
    { apply existsb_exists. exists d. split; [eapply nth_error_In; eassumption|apply bseq_refl]. }
    reflexivity.
  - rewrite K. cbn [negb andb]. destruct (mem m f); rewrite IH; reflexivity.
Qed.

Lemma glue_some o l : exists r, glue (Some o) l = Some r.
Proof. revert o; induction l as [|n l IH]; intros o; [now exists o|apply IH]. Qed.
Lemma glue_none l : glue None l = None <-> l = [].
Proof.
  destruct l as [|n l]; [tauto|]. cbn [glue]. split; [|discriminate].
  match goal with |- glue (Some ?o) l = _ -> _ => destruct (glue_some o l) as [r ->] end. discriminate.
Qed.
Lemma glue_join l : forall o, o <> [] -> Forall (fun n => n <> []) l ->
  glue (Some o) l = Some (o ++ concat (map (fun n => lit ", " ++ n) l)).
Proof.
  induction l as [|n l IH]; intros o Ho Hl; [cbn; now rewrite app_nil_r|].
  cbn [glue]. inversion Hl; subst. destruct o as [|a o']; [congruence|]. rewrite IH; [|discriminate|assumption].
  cbn [map concat]. now rewrite <- !app_assoc.
Qed.
Lemma comma_concat n l : comma_list (n :: l) = n ++ concat (map (fun x => lit ", " ++ x) l).
Proof.
  revert n; induction l as [|x l IH]; intros n; [cbn; now rewrite app_nil_r|].
  change (comma_list (n :: x :: l)) with (n ++ lit ", " ++ comma_list (x :: l)). rewrite IH. cbn [map concat]. now rewrite <- !app_assoc.
Qed.
Lemma glue_comma l : Forall (fun n => n <> []) l ->
  glue None l = match l with [] => None | _ => Some (comma_list l) end.
Proof.
  destruct l as [|n l]; [reflexivity|]. intros H. inversion H; subst. cbn [glue]. rewrite comma_concat.
  cbn [app]. apply glue_join; assumption.
Qed.

(** Summary for version 3. *)
Lemma parse3_eq s m v : 2 < v -> m <> TAB ->
  parse_features s v m = fold_left (fun st d => step m d st) (declarations s) (0, None).
Proof.
  intros Hv Hm. unfold parse_features.
  rewrite (proj2 (N.eqb_neq v 0)), (proj2 (N.eqb_neq v 1)), (proj2 (N.eqb_neq v 2)) by lia.
  rewrite parse_loop_lines by lia. apply run_declarations. exact Hm.
Qed.

Lemma parse_mask s m v i n : 2 < v -> m <> TAB -> nth_error known_names i = Some n ->
  N.testbit (fst (parse_features s v m)) (N.of_nat i) = true <-> In n (map fst (declarations s)).
Proof.
  intros Hv Hm Hn. rewrite parse3_eq by assumption. rewrite (steps_mask m _ 0 None i n Hn).
  rewrite N.bits_0. intuition congruence.
Qed.
Lemma parse_small s m v : 2 < v -> m <> TAB -> fst (parse_features s v m) < 256.
Proof. intros Hv Hm. rewrite parse3_eq by assumption. apply steps_small. lia. Qed.
Lemma parse_incompat s m v : 2 < v -> m <> TAB -> snd (parse_features s v m) = glue None (missing m s).
Proof. intros Hv Hm. rewrite parse3_eq by assumption. apply steps_incompat. Qed.

(** Printing. *)
Definition entry_lines (f : N) (tbl : list (N * bytes * bytes)) : bytes :=
  concat (map (fun '(v, n, fl) => if N.land f v =? 0 then [] else n ++ [TAB] ++ fl ++ [NL]) tbl).
Lemma print_entries f tbl : forall res, print_features_loop tbl f res = res ++ entry_lines f tbl.
Proof.
  induction tbl as [|[[v n] fl] tbl IH]; intros res; [cbn; now rewrite app_nil_r|].
  cbn [print_features_loop]. rewrite IH. unfold entry_lines. cbn [map concat].
  destruct (N.land f v =? 0); [reflexivity|]. now rewrite <- !app_assoc.
Qed.

Definition chosen (f : N) (tbl : list (N * bytes * bytes)) : list (bytes * bytes) :=
  flat_map (fun '(v, n, fl) => if N.land f v =? 0 then [] else [(n, fl)]) tbl.

Lemma declared_entry n fl : mem TAB n = false -> declared (n ++ TAB :: fl) = Some (n, fl).
Proof.
  induction n as [|c n IH]; intros H.
  - cbn [app declared]. reflexivity.
  - cbn [app declared]. unfold mem in H. cbn [existsb] in H. apply orb_false_iff in H. destruct H as [H1 H2].
    change (chr 9) with TAB. unfold beq in H1. rewrite Ascii.eqb_sym in H1. rewrite H1. rewrite IH by exact H2. reflexivity.
Qed.

Definition clean (e : N * bytes * bytes) : bool :=
  let '(_, n, fl) := e in negb (mem TAB n) && forallb noNL (n ++ TAB :: fl).

Lemma declarations_entries f tbl : forallb clean tbl = true ->
  declarations (entry_lines f tbl) = chosen f tbl.
Proof.
  induction tbl as [|[[v n] fl] tbl IH]; intros H; [reflexivity|].
  cbn [forallb] in H. apply andb_true_iff in H. destruct H as [Hc H]. specialize (IH H).
  unfold entry_lines, chosen. cbn [map concat flat_map].
  destruct (N.land f v =? 0); [exact IH|].
  fold (entry_lines f tbl). fold (chosen f tbl).
  unfold clean in Hc. apply andb_true_iff in Hc. destruct Hc as [Hn Hl]. apply negb_true_iff in Hn.
  replace ((n ++ [TAB] ++ fl ++ [NL]) ++ entry_lines f tbl) with ((n ++ TAB :: fl) ++ NL :: entry_lines f tbl)
    by (cbn [app]; rewrite <- !app_assoc; cbn [app]; now rewrite <- app_assoc).
  unfold declarations. rewrite lines_tok by exact Hl. rewrite app_nil_l. cbn [text_lines].
  change (Ascii.eqb NL (chr 10)) with true. cbn match. cbn [flat_map]. rewrite declared_entry by exact Hn.
  fold (declarations (entry_lines f tbl)). rewrite IH. reflexivity.
Qed.

Lemma print_declarations f : declarations (print_features f) = chosen f feature_names.
Proof.
  unfold print_features. rewrite print_entries. cbn [app]. apply declarations_entries. vm_compute. reflexivity.
Qed.

Lemma land_bit f i : (N.land f (2 ^ i) =? 0) = negb (N.testbit f i).
Proof.
  destruct (N.testbit f i) eqn:E; cbn [negb].
  - apply N.eqb_neq. intros H. assert (N.testbit (N.land f (2 ^ i)) i = false) by (rewrite H; apply N.bits_0).
    rewrite N.land_spec, E, N.pow2_bits_true in H0. discriminate.
  - apply N.eqb_eq. apply N.bits_inj. intros j. rewrite N.land_spec, N.bits_0, N.pow2_bits_eqb.
    destruct (N.eqb_spec i j) as [->|]; [now rewrite E|apply andb_false_r].
Qed.

Lemma chosen_spec f i n : nth_error known_names i = Some n ->
  In n (map fst (chosen f feature_names)) <-> N.testbit f (N.of_nat i) = true.
Proof.
  intros Hn.
  assert (K : forall n', In n' (map fst (chosen f feature_names)) <->
     exists v fl, In (v, n', fl) feature_names /\ (N.land f v =? 0) = false).
  { intros n'. unfold chosen. rewrite in_map_iff. split.
    - intros ([x y] & Hx & H). cbn [fst] in Hx. subst x. apply in_flat_map in H. destruct H as ([[v a] b] & Ha & H).
      destruct (N.land f v =? 0) eqn:E; [destruct H|]. destruct H as [[= <- <-]|[]]. eauto.
    - intros (v & fl & Hv & E). exists (n', fl). split; [reflexivity|]. apply in_flat_map. exists (v, n', fl). split; [exact Hv|].
      cbn beta iota. rewrite E. now left. }
  rewrite K. pose proof (land_bit f) as LB.
  assert (Hi : (i < 8)%nat) by (change 8%nat with (length known_names); apply nth_error_Some; congruence).
  assert (L8 : exists fl, In (2 ^ N.of_nat i, n, fl) feature_names).
  { do 8 (destruct i as [|i]; [cbn [nth_error known_names] in Hn; injection Hn as <-; eexists; cbn [feature_names In]; eauto 12 |]). lia. }
  split.
  - intros (v & fl & Hv & E).
    assert (F : find_feature feature_names n = Some v).
    { cbn [feature_names In] in Hv. decompose [or] Hv; try contradiction;
        match goal with H : (_, _, _) = (v, n, fl) |- _ => injection H as <- <- <-; reflexivity end. }
    pose proof (find_known n) as FK. rewrite F in FK. destruct FK as (j & _ & -> & Hj).
    rewrite LB in E. rewrite (names_inj i j n Hn Hj). now destruct (N.testbit f (N.of_nat j)).
  - intros T. destruct L8 as (fl & L8). exists (2 ^ N.of_nat i), fl. split; [exact L8|]. now rewrite LB, T.
Qed.

Lemma chosen_known f n fl : In (n, fl) (chosen f feature_names) -> existsb (bseq n) known_names = true.
Proof.
  intros H. unfold chosen in H. apply in_flat_map in H. destruct H as ([[v a] b] & Ha & H).
  destruct (N.land f v =? 0); [destruct H|]. destruct H as [[= -> ->]|[]].
  apply existsb_exists. exists n. split; [|apply bseq_refl]. cbn [feature_names In] in Ha. unfold known_names.
  decompose [or] Ha; try contradiction;
    match goal with H : (_, _, _) = (v, n, fl) |- _ => injection H as _ <- _; cbn [In]; tauto end.
Qed.

Lemma print_missing f m : missing m (print_features f) = [].
Proof.
  unfold missing. rewrite print_declarations.
  assert (K : forall l, (forall d, In d l -> blocks m d = false) -> filter (blocks m) l = []).
  { induction l as [|d l IH]; intros H; [reflexivity|]. cbn [filter]. rewrite (H d) by now left.
    apply IH. intros d' Hd. apply H. now right. }
  rewrite K; [reflexivity|].
  intros [n fl] H. unfold blocks. cbn [fst]. now rewrite (chosen_known f n fl H).
Qed.

Lemma parse_print f m v : f < 256 -> 2 < v -> m <> TAB -> parse_features (print_features f) v m = (f, None).
Proof.
  intros Hf Hv Hm. destruct (parse_features (print_features f) v m) as [g o] eqn:E.
  assert (Ho : o = None).
  { change o with (snd (g, o)). rewrite <- E, parse_incompat, print_missing by assumption. reflexivity. }
  assert (Hg : g < 256) by (change g with (fst (g, o)); rewrite <- E; now apply parse_small).
  assert (g = f); [|congruence]. apply N.bits_inj. intros j.
  destruct (N.lt_ge_cases j 8) as [Hj|Hj].
  - assert (Hi : exists n, nth_error known_names (N.to_nat j) = Some n).
    { destruct (nth_error known_names (N.to_nat j)) eqn:En; [eauto|]. apply nth_error_None in En. cbn [known_names length] in En. lia. }
    destruct Hi as (n & Hn). pose proof (parse_mask (print_features f) m v _ n Hv Hm Hn) as P.
    rewrite E, print_declarations, (chosen_spec f _ n Hn), N2Nat.id in P. cbn [fst] in P.
    destruct (N.testbit g j), (N.testbit f j); intuition congruence.
  - assert (Z : forall x, x < 256 -> N.testbit x j = false).
    { intros x Hx. destruct (N.eq_dec x 0) as [->|]; [apply N.bits_0|]. apply N.bits_above_log2.
      apply N.lt_le_trans with 8; [|exact Hj]. apply N.log2_lt_pow2; [lia|exact Hx]. }
    now rewrite !Z.
Qed.
