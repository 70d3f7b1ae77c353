(** C68: notmuch setup. *)
From Verif Require Import Bytes StrUtil StrUtilSpec StrUtilProofs SprinterSpec SprinterProofs3 TagLine Dump Config ConfigSpec ConfigCmd ConfigCmdSpec ConfigCmdProofs P_Config P_ConfigCmd Setup SetupSpec.
Local Open Scope nat_scope.

Lemma last_app_nl s : last (s ++ [chr 10]) NUL = chr 10. Proof. apply last_last. Qed.
Lemma chomp_line s : ~ In NUL s -> chomp_newline (takewhile nonul (s ++ [chr 10])) = Some s.
Proof.
  intros H. rewrite takewhile_forall.
  - unfold chomp_newline. destruct (s ++ [chr 10]) eqn:E; [destruct s; discriminate E|]. rewrite <- E. rewrite last_app_nl, removelast_last. reflexivity.
  - rewrite forallb_app. apply andb_true_intro. split; [|reflexivity]. apply forallb_forall. intros c Hc. unfold nonul.
    destruct (beq c NUL) eqn:E; [apply beq_true in E; subst; contradiction|reflexivity].
Qed.
Lemma prompt_line s rest : ~ In NUL s -> prompt ((s ++ [chr 10]) :: rest) = Answer s rest.
Proof. intros H. unfold prompt. now rewrite chomp_line. Qed.

Section C.
Variable good_names : bytes -> bytes -> bool.

Lemma ask_current_lines emails : forall cur r rest acc k, replaced emails cur r -> Forall (fun s => ~ In NUL s) cur ->
  ask_current emails (map (fun s => s ++ [chr 10]) cur ++ rest) acc k = k (acc ++ r) rest.
Proof.
  intros cur r rest acc k H. revert acc. induction H; intros acc Hc; cbn [map app ask_current].
  - now rewrite app_nil_r.
  - inversion Hc; subst. rewrite (prompt_line []) by exact H2. rewrite IHreplaced by assumption. now rewrite <- app_assoc.
  - inversion Hc; subst. rewrite prompt_line by assumption. rewrite IHreplaced by assumption. rewrite <- app_assoc. destruct x; [congruence|reflexivity].
Qed.
Lemma ask_more_lines more : forall rest acc k, ~ In [] more -> Forall (fun s => ~ In NUL s) more ->
  ask_more (map (fun s => s ++ [chr 10]) more ++ [chr 10] :: rest) acc k = k (acc ++ more) rest.
Proof.
  induction more as [|m more IH]; intros rest acc k H1 H2; cbn [map app ask_more].
  - pose proof (chomp_line [] (fun x => x)) as E. cbn [app] in E. rewrite E. now rewrite app_nil_r.
  - inversion H2; subst. rewrite chomp_line by assumption. destruct m; [destruct H1; now left|].
    rewrite IH; [now rewrite <- app_assoc|intros X; apply H1; now right|assumption].
Qed.
Lemma ask_line s rest k : ~ In NUL s -> ask ((s ++ [chr 10]) :: rest) k = k s rest.
Proof. intros H. unfold ask. now rewrite prompt_line. Qed.

(** Words. *)
Lemma words_head s l : words s l -> beq (peek s) " " = false.
Proof.
  intros H. destruct H; [reflexivity|]. destruct w as [|c w]; [congruence|]. cbn. destruct (beq c " ") eqn:E; [|reflexivity]. apply beq_true in E. subst. destruct H0. now left.
Qed.
Lemma not_space_all w : ~ In " "%char w -> forallb not_space w = true.
Proof. intros H. apply forallb_forall. intros c Hc. unfold not_space. destruct (beq c " ") eqn:E; [apply beq_true in E; subst; contradiction|reflexivity]. Qed.
Lemma tag_list_words s l : words s l -> forall fuel, length s <= fuel -> tag_list fuel s = l.
Proof.
  induction 1 as [|w sp s l Hw Hn Hsp He Hs IH]; intros fuel Hf; [now destruct fuel|].
  assert (X : takewhile not_space (w ++ sp ++ s) = w /\ dropwhile (fun c => beq c " "%char) (dropwhile not_space (w ++ sp ++ s)) = s).
  { destruct sp as [|x sp].
    - rewrite (He eq_refl). cbn [app]. rewrite app_nil_r. rewrite takewhile_forall by now apply not_space_all. rewrite (dropwhile_forall not_space) by now apply not_space_all. now split.
    - inversion Hsp; subst. assert (Z : not_space (peek ((" "%char :: sp) ++ s)) = false) by reflexivity.
      split.
      + rewrite takewhile_app_stop; [reflexivity|now apply not_space_all|now left].
      + rewrite dropwhile_app_stop; [|now apply not_space_all|now left].
        rewrite dropwhile_app_stop; [reflexivity| |left; now apply words_head in Hs].
        cbn. apply forallb_forall. intros c Hc. rewrite Forall_forall in H2. rewrite <- (H2 c Hc). reflexivity. }
  destruct X as [X1 X2]. destruct w as [|c w]; [congruence|]. rewrite !app_length in Hf. cbn [length] in Hf. destruct fuel as [|fuel]; [lia|].
  cbn [tag_list app]. cbn [app] in X1, X2. rewrite X1, X2. f_equal. apply IH. lia.
Qed.
Lemma words_exist s : beq (peek s) " " = false -> exists l, words s l.
Proof.
  remember (length s) as n eqn:E. revert s E. induction (lt_wf n) as [n _ IH]. intros s -> H.
  destruct s as [|c s]; [exists []; constructor|].
  set (t := c :: s) in *. set (r := dropwhile (fun c => beq c " "%char) (dropwhile not_space t)).
  assert (Hw : takewhile not_space t <> []).
  { unfold t. cbn. unfold not_space at 1. cbn in H. rewrite H. discriminate. }
  assert (S : t = takewhile not_space t ++ takewhile (fun c => beq c " "%char) (dropwhile not_space t) ++ r).
  { unfold r. rewrite take_drop. now rewrite take_drop. }
  assert (Hr : beq (peek r) " " = false).
  { pose proof (dropwhile_head (fun c => beq c " "%char) (dropwhile not_space t)) as D. fold r in D. destruct r; [reflexivity|exact D]. }
  destruct (IH (length r)) with (s := r) as [l Hl]; [|reflexivity|exact Hr|].
  { rewrite S at 1. rewrite !app_length. destruct (takewhile not_space t); [congruence|cbn; lia]. }
  exists (takewhile not_space t :: l). rewrite S at 1. constructor; try assumption.
  - intros X. pose proof (takewhile_all not_space t) as A. rewrite forallb_forall in A. specialize (A _ X). discriminate A.
  - apply Forall_forall. intros x Hx. pose proof (takewhile_all (fun c => beq c " "%char) (dropwhile not_space t)) as A. rewrite forallb_forall in A. specialize (A _ Hx). apply beq_true in A. now symmetry.
  - intros X. pose proof (take_drop (fun c => beq c " "%char) (dropwhile not_space t)) as T. fold r in T. rewrite X in T. cbn [app] in T.
    pose proof (dropwhile_head not_space t) as D. rewrite <- T in D. destruct r as [|x r]; [reflexivity|]. cbn in Hr. unfold not_space in D. now rewrite Hr in D.
Qed.
Lemma words_nil s l : words s l -> (s = [] <-> l = []).
Proof. intros H. split; intros E; subst; inversion H; trivial. destruct w; [congruence|discriminate]. Qed.

Lemma replaced_exists emails : forall cur, length cur = length emails -> exists r, replaced emails cur r.
Proof.
  induction emails as [|e es IH]; intros [|c cur] H; try discriminate H; [exists []; constructor|].
  injection H as H. destruct (IH cur H) as [r Hr]. destruct c as [|x c]; eexists; constructor; try eassumption. discriminate.
Qed.

Lemma absolute_eq cwd p : p <> [] -> make_path_absolute cwd p = absolute cwd p.
Proof.
  intros _. unfold make_path_absolute, absolute. destruct p as [|c p]; [reflexivity|]. cbn [peek].
  destruct (beq c "/") eqn:E; [apply beq_true in E; now subst|]. apply beq_false in E.
  destruct c as [[] [] [] [] [] [] [] []]; try reflexivity. now destruct E.
Qed.

(** The updates. *)
Definition opt_update (g k : bytes) (vs : list bytes) (f : kfile) : kfile := match vs with [] => f | _ => update good_names g k vs f end.

Lemma setup_eq save cwd emails file a others tags excl : sensible emails a -> replaced emails (a_current a) others -> words (a_tags a) tags -> words (a_excl a) excl ->
  forall rest,
  setup_command good_names save cwd emails file (entered a ++ rest) =
  if save then Saved (opt_update (lit "search") (lit "exclude_tags") excl (opt_update (lit "new") (lit "tags") tags
    (opt_update (lit "database") (lit "path") (given (a_path a) [absolute cwd (a_path a)]) (opt_update (lit "user") (lit "other_email") (others ++ a_more a)
    (opt_update (lit "user") (lit "primary_email") (given (a_email a) [a_email a]) (opt_update (lit "user") (lit "name") (given (a_name a) [a_name a])
      (fold_left ensure_group standard_groups (match file with Some f => f | None => [] end))))))))
  else Failed.
Proof.
  intros (Hl & Hlen & Hm) Hr Ht He rest.
  assert (N : Forall (fun s => ~ In NUL s) (typed a)) by (revert Hl; apply Forall_impl; tauto). unfold typed in N. apply Forall_app in N as [N1 N]. apply Forall_app in N as [N2 N]. apply Forall_app in N as [N3 N4].
  inversion N1 as [|? ? Na N1']; subst. inversion N1' as [|? ? Nb _]; subst. inversion N4 as [|? ? _ N5]; subst. inversion N5 as [|? ? Np N6]; subst. inversion N6 as [|? ? Nt N7]; subst. inversion N7 as [|? ? Ne _]; subst. clear N1 N4 N1' N5 N6 N7.
  unfold setup_command, entered, typed. rewrite !map_app. cbn [map app]. rewrite ask_line by assumption. rewrite ask_line by assumption. rewrite <- !app_assoc.
  rewrite (ask_current_lines _ _ _ _ _ _ Hr N2). cbn [app]. rewrite ask_more_lines by assumption.
  rewrite ask_line by assumption. rewrite ask_line by assumption. rewrite ask_line by assumption.
  unfold parse_tag_list. rewrite (tag_list_words _ _ Ht) by lia. rewrite (tag_list_words _ _ He) by lia.
  destruct save; [|reflexivity]. f_equal.
  assert (X1 : forall f, match a_excl a with [] => f | _ => update good_names (lit "search") (lit "exclude_tags") excl f end = opt_update (lit "search") (lit "exclude_tags") excl f).
  { intros f. pose proof (words_nil _ _ He) as W. unfold opt_update. destruct (a_excl a), excl; try reflexivity; [destruct W as [W _]|destruct W as [_ W]]; specialize (W eq_refl); discriminate W. }
  assert (X2 : forall f, match a_tags a with [] => f | _ => update good_names (lit "new") (lit "tags") tags f end = opt_update (lit "new") (lit "tags") tags f).
  { intros f. pose proof (words_nil _ _ Ht) as W. unfold opt_update. destruct (a_tags a), tags; try reflexivity; [destruct W as [W _]|destruct W as [_ W]]; specialize (W eq_refl); discriminate W. }
  rewrite X1, X2. f_equal. f_equal.
  assert (X3 : forall f, match a_path a with [] => f | _ => update good_names (lit "database") (lit "path") [make_path_absolute cwd (a_path a)] f end = opt_update (lit "database") (lit "path") (given (a_path a) [absolute cwd (a_path a)]) f).
  { intros f. destruct (a_path a) eqn:E; [reflexivity|]. rewrite absolute_eq by discriminate. reflexivity. }
  rewrite X3. f_equal. unfold opt_update. destruct (a_email a), (a_name a); reflexivity.
Qed.

Variable utf8_valid : bytes -> bool.
Variable nullb : bool.
Hypothesis utf8_ok : forall s, utf8 s -> utf8_valid s = true.
Notation item f key := (in_file (reload utf8_valid nullb f) key).
Lemma opt_update_spec f g k vs : ordinary f -> ~ In "."%char g -> good_names g k = true -> (vs = [] \/ writable vs) ->
  let f' := opt_update g k vs f in
  ordinary f' /\ item f' (g ++ lit "." ++ k) = (match vs with [] => item f (g ++ lit "." ++ k) | _ => Some (stored vs) end) /\
  forall key, key <> g ++ lit "." ++ k -> item f' key = item f key.
Proof.
  intros Hf Hg Hn Hv f'. destruct vs as [|v vs]; [unfold f', opt_update; auto|].
  assert (G : forall g' k', find_raw g' k' f' = if bseq g' g && bseq k' k then Some (raw_value (v :: vs)) else find_raw g' k' f).
  { intros g' k'. unfold f', opt_update, update. rewrite Hn, find_set_value. reflexivity. }
  assert (O : ordinary f') by (unfold f', opt_update, update; rewrite Hn; now apply set_value_ordinary).
  split; [exact O|]. split.
  - rewrite in_file_reload by assumption. rewrite G, !bseq_refl. cbn [andb]. apply get_string_raw; [exact utf8_ok|]. destruct Hv as [Hv|Hv]; [discriminate Hv|exact Hv].
  - intros key Hk. pose proof (split_period_spec key) as S. destruct (split_period key) as [[g' k']|].
    + destruct S as [-> Hg']. rewrite !in_file_reload by assumption. rewrite G. destruct (bseq g' g && bseq k' k) eqn:E; [|reflexivity].
      apply andb_prop in E as [E1 E2]. apply bseq_eq in E1, E2. subst. congruence.
    + now rewrite !in_file_nodot.
Qed.
Lemma ensure_item f key : ordinary f -> item (fold_left ensure_group standard_groups f) key = item f key.
Proof.
  intros Hf. assert (O : ordinary (fold_left ensure_group standard_groups f)) by (apply ensure_ordinary; [apply standard_nodot|exact Hf]).
  pose proof (split_period_spec key) as S. destruct (split_period key) as [[g' k']|].
  - destruct S as [-> Hg']. rewrite !in_file_reload by assumption. now rewrite find_ensure.
  - now rewrite !in_file_nodot.
Qed.
End C.

Definition items := [lit "user.name"; lit "user.primary_email"; lit "user.other_email"; lit "database.path"; lit "new.tags"; lit "search.exclude_tags"].
(** Complete answers: the file is written; an item for which something was typed reads back as
    that, the others are as before. *)
Theorem C68_answers :
  forall good_names utf8_valid nullb, (forall s, utf8 s -> utf8_valid s = true) -> (forall g k, In (g ++ lit "." ++ k) items -> good_names g k = true) ->
  forall cwd emails file a others tags excl rest,
  let f := match file with Some f => f | None => [] end in
  ordinary f -> sensible emails a -> replaced emails (a_current a) others -> words (a_tags a) tags -> words (a_excl a) excl ->
  (forall vs, In vs [given (a_name a) [a_name a]; given (a_email a) [a_email a]; others ++ a_more a; given (a_path a) [absolute cwd (a_path a)]; tags; excl] -> vs = [] \/ writable vs) ->
  exists f', setup_command good_names true cwd emails file (entered a ++ rest) = Saved f' /\ ordinary f' /\
  let became (key : string) (vs : list bytes) := in_file (reload utf8_valid nullb f') (lit key) = match vs with [] => in_file (reload utf8_valid nullb f) (lit key) | _ => Some (stored vs) end in
  became "user.name"%string (given (a_name a) [a_name a]) /\
  became "user.primary_email"%string (given (a_email a) [a_email a]) /\
  became "user.other_email"%string (others ++ a_more a) /\
  became "database.path"%string (given (a_path a) [absolute cwd (a_path a)]) /\
  became "new.tags"%string tags /\
  became "search.exclude_tags"%string excl /\
  forall key, ~ In key items -> in_file (reload utf8_valid nullb f') key = in_file (reload utf8_valid nullb f) key.
Proof.
  intros gn uv nb Hu Hn cwd emails file a others tags excl rest f Of Hs Hr Ht He Hw.
  rewrite (setup_eq gn true cwd emails file a others tags excl Hs Hr Ht He). fold f.
  assert (D : forall s, existsb (fun c => beq c ".") (lit s) = false -> ~ In "."%char (lit s)).
  { intros s E X. assert (Y : existsb (fun c => beq c ".") (lit s) = true) by (apply existsb_exists; exists "."%char; split; [exact X|reflexivity]). congruence. }
  assert (N1 : gn (lit "user") (lit "name") = true) by (apply Hn;  left; reflexivity).
  assert (N2 : gn (lit "user") (lit "primary_email") = true) by (apply Hn; do 1 right; left; reflexivity).
  assert (N3 : gn (lit "user") (lit "other_email") = true) by (apply Hn; do 2 right; left; reflexivity).
  assert (N4 : gn (lit "database") (lit "path") = true) by (apply Hn; do 3 right; left; reflexivity).
  assert (N5 : gn (lit "new") (lit "tags") = true) by (apply Hn; do 4 right; left; reflexivity).
  assert (N6 : gn (lit "search") (lit "exclude_tags") = true) by (apply Hn; do 5 right; left; reflexivity).
  assert (W1 : given (a_name a) [a_name a] = [] \/ writable (given (a_name a) [a_name a])) by (apply Hw; cbn; tauto).
  assert (W2 : given (a_email a) [a_email a] = [] \/ writable (given (a_email a) [a_email a])) by (apply Hw; cbn; tauto).
  assert (W3 : others ++ a_more a = [] \/ writable (others ++ a_more a)) by (apply Hw; cbn; tauto).
  assert (W4 : given (a_path a) [absolute cwd (a_path a)] = [] \/ writable (given (a_path a) [absolute cwd (a_path a)])) by (apply Hw; cbn; tauto).
  assert (W5 : tags = [] \/ writable (tags)) by (apply Hw; cbn; tauto).
  assert (W6 : excl = [] \/ writable (excl)) by (apply Hw; cbn; tauto).
  set (f0 := fold_left ensure_group standard_groups f).
  assert (O0 : ordinary f0) by (apply ensure_ordinary; [apply standard_nodot|exact Of]).
  assert (E0 : forall key, in_file (reload uv nb f0) key = in_file (reload uv nb f) key) by (intros; now apply ensure_item).
  destruct (opt_update_spec gn uv nb Hu f0 (lit "user") (lit "name") (given (a_name a) [a_name a]) O0 (D "user"%string eq_refl) N1 W1) as (O1 & I1 & J1).
  set (f1 := opt_update _ (lit "user") (lit "name") _ f0) in *.
  destruct (opt_update_spec gn uv nb Hu f1 (lit "user") (lit "primary_email") (given (a_email a) [a_email a]) O1 (D "user"%string eq_refl) N2 W2) as (O2 & I2 & J2).
  set (f2 := opt_update _ (lit "user") (lit "primary_email") _ f1) in *.
  destruct (opt_update_spec gn uv nb Hu f2 (lit "user") (lit "other_email") (others ++ a_more a) O2 (D "user"%string eq_refl) N3 W3) as (O3 & I3 & J3).
  set (f3 := opt_update _ (lit "user") (lit "other_email") _ f2) in *.
  destruct (opt_update_spec gn uv nb Hu f3 (lit "database") (lit "path") (given (a_path a) [absolute cwd (a_path a)]) O3 (D "database"%string eq_refl) N4 W4) as (O4 & I4 & J4).
  set (f4 := opt_update _ (lit "database") (lit "path") _ f3) in *.
  destruct (opt_update_spec gn uv nb Hu f4 (lit "new") (lit "tags") tags O4 (D "new"%string eq_refl) N5 W5) as (O5 & I5 & J5).
  set (f5 := opt_update _ (lit "new") (lit "tags") _ f4) in *.
  destruct (opt_update_spec gn uv nb Hu f5 (lit "search") (lit "exclude_tags") excl O5 (D "search"%string eq_refl) N6 W6) as (O6 & I6 & J6).
  set (f6 := opt_update _ (lit "search") (lit "exclude_tags") _ f5) in *.
  change (lit "user" ++ lit "." ++ lit "name") with (lit "user.name") in *.
  change (lit "user" ++ lit "." ++ lit "primary_email") with (lit "user.primary_email") in *.
  change (lit "user" ++ lit "." ++ lit "other_email") with (lit "user.other_email") in *.
  change (lit "database" ++ lit "." ++ lit "path") with (lit "database.path") in *.
  change (lit "new" ++ lit "." ++ lit "tags") with (lit "new.tags") in *.
  change (lit "search" ++ lit "." ++ lit "exclude_tags") with (lit "search.exclude_tags") in *.
  assert (NE : forall s t, bseq (lit s) (lit t) = false -> lit s <> lit t) by (intros s t E X; rewrite X, bseq_refl in E; discriminate E).
  exists f6. split; [reflexivity|]. split; [exact O6|]. cbn zeta. repeat split.
  - rewrite J6, J5, J4, J3, J2, I1 by (apply NE; reflexivity). now rewrite E0.
  - rewrite J6, J5, J4, J3, I2 by (apply NE; reflexivity). rewrite J1 by (apply NE; reflexivity). now rewrite E0.
  - rewrite J6, J5, J4, I3 by (apply NE; reflexivity). rewrite J2, J1 by (apply NE; reflexivity). now rewrite E0.
  - rewrite J6, J5, I4 by (apply NE; reflexivity). rewrite J3, J2, J1 by (apply NE; reflexivity). now rewrite E0.
  - rewrite J6, I5 by (apply NE; reflexivity). rewrite J4, J3, J2, J1 by (apply NE; reflexivity). now rewrite E0.
  - rewrite I6. rewrite J5, J4, J3, J2, J1 by (apply NE; reflexivity). now rewrite E0.
  - intros key Hk. cbn [items In] in Hk. rewrite J6, J5, J4, J3, J2, J1, E0 by (intros ->; tauto). reflexivity.
Qed.
Print Assumptions C68_answers.

(** Fewer lines than the dialogue asks for (end of file before the last answer), or a failure
    to save: the command fails, and the file is as it was. *)
Definition fails_early (L : list bytes) (k : list bytes -> result) : Prop := forall lines rest, L = lines ++ rest -> rest <> [] -> k lines = Failed.
Lemma ask_early s L k : ~ In NUL s -> fails_early L (k s) -> fails_early ((s ++ [chr 10]) :: L) (fun lines => ask lines k).
Proof.
  intros Hs H [|x lines] rest E Hr; [reflexivity|]. cbn [app] in E. injection E as <- E. rewrite ask_line by exact Hs. now apply (H lines rest).
Qed.
Lemma ask_current_early emails : forall cur r L acc k, replaced emails cur r -> Forall (fun s => ~ In NUL s) cur -> fails_early L (k (acc ++ r)) ->
  fails_early (map (fun s => s ++ [chr 10]) cur ++ L) (fun lines => ask_current emails lines acc k).
Proof.
  intros cur r L acc k H. revert acc. induction H as [|e es l r H IH|e es x l r Hx H IH]; intros acc Hc HL; cbn [map app ask_current].
  - rewrite app_nil_r in HL. exact HL.
  - inversion Hc; subst. intros [|y lines] rest E Hr; [reflexivity|]. cbn [app] in E. injection E as <- E. rewrite (prompt_line []) by assumption.
    apply (IH (acc ++ [e])) with (rest := rest); trivial. now rewrite <- app_assoc.
  - inversion Hc; subst. intros [|y lines] rest E Hr; [reflexivity|]. cbn [app] in E. injection E as <- E. rewrite prompt_line by assumption.
    replace (match x with [] => e | _ => x end) with x by (destruct x; congruence).
    apply (IH (acc ++ [x])) with (rest := rest); trivial. now rewrite <- app_assoc.
Qed.
Lemma ask_more_early more : forall L acc k, ~ In [] more -> Forall (fun s => ~ In NUL s) more -> fails_early L (k (acc ++ more)) ->
  fails_early (map (fun s => s ++ [chr 10]) more ++ [chr 10] :: L) (fun lines => ask_more lines acc k).
Proof.
  induction more as [|m more IH]; intros L acc k Hm Hn HL [|y lines] rest E Hr; try reflexivity; cbn [map app] in E; pose proof (f_equal (hd []) E) as E1; apply (f_equal (@tl bytes)) in E; cbn [hd tl] in E1, E; subst y; cbn [ask_more].
  - pose proof (chomp_line [] (fun x => x)) as X. cbn [app] in X. rewrite X. rewrite app_nil_r in HL. now apply (HL lines rest).
  - inversion Hn; subst. rewrite chomp_line by assumption. destruct m as [|c m]; [destruct Hm; now left|].
    apply (IH L (acc ++ [c :: m])) with (rest := rest); trivial; [intros X; apply Hm; now right|]. now rewrite <- app_assoc.
Qed.
Theorem C68_all_or_nothing :
  forall good_names cwd emails file a others, sensible emails a -> replaced emails (a_current a) others ->
  (forall save lines rest, entered a = lines ++ rest -> rest <> [] -> setup_command good_names save cwd emails file lines = Failed) /\
  (forall lines, (forall f, setup_command good_names false cwd emails file lines <> Saved f)) /\
  (forall lines, (forall f, setup_command good_names true cwd emails file lines <> Saved f) -> file_after file (setup_command good_names true cwd emails file lines) = file).
Proof.
  intros gn cwd emails file a others (Hl & Hlen & Hm) Hr. split; [|split].
  - intros save. change (fails_early (entered a) (fun lines => setup_command gn save cwd emails file lines)).
    assert (N : Forall (fun s => ~ In NUL s) (typed a)) by (revert Hl; apply Forall_impl; tauto). unfold typed in N. apply Forall_app in N as [N1 N]. apply Forall_app in N as [N2 N]. apply Forall_app in N as [N3 N4].
    inversion N1 as [|? ? Na N1']; subst. inversion N1' as [|? ? Nb _]; subst. inversion N4 as [|? ? _ N5]; subst. inversion N5 as [|? ? Np N6]; subst. inversion N6 as [|? ? Nt N7]; subst. inversion N7 as [|? ? Ne _]; subst. clear N1 N4 N1' N5 N6 N7.
    unfold entered, typed. rewrite !map_app. cbn [map app]. unfold setup_command.
    apply ask_early; [assumption|]. apply ask_early; [assumption|]. apply ask_current_early with (r := others); [assumption|assumption|]. cbn [app].
    apply ask_more_early; [assumption|assumption|]. apply ask_early; [assumption|]. apply ask_early; [assumption|]. apply ask_early; [assumption|].
    intros lines rest E Hn. destruct lines; [cbn in E; congruence|discriminate E].
  - intros lines f. unfold setup_command.
    assert (A : forall l k, (forall r l, k r l <> Saved f) -> ask l k <> Saved f).
    { intros l k H. unfold ask. destruct (prompt l); [apply H|discriminate|discriminate]. }
    assert (B : forall es l acc k, (forall r l, k r l <> Saved f) -> ask_current es l acc k <> Saved f).
    { induction es as [|e es IH]; intros l acc k H; cbn; [apply H|]. destruct (prompt l); [now apply IH|discriminate|discriminate]. }
    assert (C : forall l acc k, (forall r l, k r l <> Saved f) -> ask_more l acc k <> Saved f).
    { induction l as [|x l IH]; intros acc k H; cbn; [discriminate|]. destruct (chomp_newline _) as [[|c r]|]; [apply H|now apply IH|discriminate]. }
    apply A; intros name ?. apply A; intros email ?. apply B; intros ? ?. apply C; intros ? ?. apply A; intros path ?. apply A; intros tags ?. apply A; intros ex ?. discriminate.
  - intros lines H. destruct (setup_command _ true _ _ _ _); [now destruct (H f)|reflexivity|reflexivity].
Qed.
Print Assumptions C68_all_or_nothing.

(** Enter at every question: nothing changes (the additional addresses that are in effect are
    in the file afterwards, wherever they came from). *)
Definition enter_only (emails : list bytes) : answers :=
  {| a_name := []; a_email := []; a_current := map (fun _ => []) emails; a_more := []; a_path := []; a_tags := []; a_excl := [] |}.
Theorem C68_enter_keeps :
  forall good_names utf8_valid nullb, (forall s, utf8 s -> utf8_valid s = true) -> (forall g k, In (g ++ lit "." ++ k) items -> good_names g k = true) ->
  forall cwd emails file rest, let f := match file with Some f => f | None => [] end in
  ordinary f -> emails = [] \/ writable emails ->
  exists f', setup_command good_names true cwd emails file (entered (enter_only emails) ++ rest) = Saved f' /\
  (emails <> [] -> in_file (reload utf8_valid nullb f') (lit "user.other_email") = Some (stored emails)) /\
  forall key, emails = [] \/ key <> lit "user.other_email" -> in_file (reload utf8_valid nullb f') key = in_file (reload utf8_valid nullb f) key.
Proof.
  intros gn uv nb Hu Hn cwd emails file rest f Of Hw.
  assert (R : replaced emails (map (fun _ => []) emails) emails) by (clear; induction emails; constructor; assumption).
  destruct (C68_answers gn uv nb Hu Hn cwd emails file (enter_only emails) emails [] [] rest Of) as (f' & E & O & H1 & H2 & H3 & H4 & H5 & H6 & H7); trivial.
  - split; [|split; [cbn; apply map_length|intros []]]. unfold typed. cbn. apply Forall_forall. intros s Hs.
    assert (s = []) as ->; [|split; intros []].
    destruct Hs as [<- |[<- |Hs]]; [reflexivity|reflexivity|]. apply in_app_or in Hs as [Hs|Hs]; [apply in_map_iff in Hs as (? & <- & _); reflexivity|]. cbn in Hs. intuition.
  - constructor.
  - constructor.
  - cbn. rewrite app_nil_r. intros vs H. intuition subst; auto.
  - exists f'. split; [exact E|]. cbn in H1, H2, H3, H4, H5, H6. rewrite app_nil_r in H3. fold f in H1, H2, H3, H4, H5, H6, H7. split.
    + intros Hne. destruct emails; [congruence|exact H3].
    + intros key Hk. destruct (in_dec (list_eq_dec ascii_dec) key items) as [Hi|Hi]; [|now apply H7].
      cbn [items In] in Hi. destruct Hi as [<- |[<- |[<- |[<- |[<- |[<- |[]]]]]]]; trivial.
      destruct Hk as [Hk|Hk]; [|congruence]. subst emails. exact H3.
Qed.
Print Assumptions C68_enter_keeps.

(** The next command sees the tags that were typed. *)
Theorem C68_next_command_sees_tags :
  forall good_names utf8_valid nullb, (forall s, utf8 s -> utf8_valid s = true) -> (forall g k, In (g ++ lit "." ++ k) items -> good_names g k = true) ->
  forall cwd emails file a others tags excl rest f',
  let f := match file with Some f => f | None => [] end in
  ordinary f -> sensible emails a -> replaced emails (a_current a) others -> words (a_tags a) tags -> words (a_excl a) excl ->
  (forall vs, In vs [given (a_name a) [a_name a]; given (a_email a) [a_email a]; others ++ a_more a; given (a_path a) [absolute cwd (a_path a)]; tags; excl] -> vs = [] \/ writable vs) ->
  Forall storable_value tags -> Forall storable_value excl ->
  setup_command good_names true cwd emails file (entered a ++ rest) = Saved f' ->
  forall o m, o_file o = reload utf8_valid nullb f' -> path_not_stored o -> open_config o = Some m ->
  (a_tags a <> [] -> command_get (lit "new.tags") m = tags) /\ (a_excl a <> [] -> command_get (lit "search.exclude_tags") m = excl).
Proof.
  intros gn uv nb Hu Hn cwd emails file a others tags excl rest f' f Of Hs Hr Ht He Hw St Se E o m Ho Hp Em.
  destruct (C68_answers gn uv nb Hu Hn cwd emails file a others tags excl rest Of Hs Hr Ht He Hw) as (f2 & E2 & O & _ & _ & _ & _ & H5 & H6 & _).
  rewrite E2 in E. injection E as ->. destruct (C49_precedence o m Hp Em) as (path & _ & _ & _ & H).
  assert (G : forall key vs, vs <> [] -> Forall storable_value vs -> in_file (reload uv nb f') key = Some (stored vs) ->
    key <> lit "database.path" -> key <> lit "database.backup_path" -> ~ In key path_items -> command_get key m = vs).
  { intros key vs Hne Hst HI K1 K2 K3. specialize (H key K1 K2). unfold item_value in H. rewrite Ho, HI in H. cbn [first_of] in H.
    destruct H as (x & Ex & [(X & _)|(_ & ->)]); [contradiction|]. unfold command_get. rewrite Ex. now apply stored_values. }
  assert (P1 : ~ In (lit "new.tags") path_items) by (cbn; intros X; repeat (destruct X as [X|X]; [discriminate X|]); exact X).
  assert (P2 : ~ In (lit "search.exclude_tags") path_items) by (cbn; intros X; repeat (destruct X as [X|X]; [discriminate X|]); exact X).
  split; intros Hne.
  - destruct tags as [|t tags]; [destruct (words_nil _ _ Ht) as [_ W]; destruct (Hne (W eq_refl))|]. apply G; trivial; discriminate.
  - destruct excl as [|t excl]; [destruct (words_nil _ _ He) as [_ W]; destruct (Hne (W eq_refl))|]. apply G; trivial; discriminate.
Qed.
Print Assumptions C68_next_command_sees_tags.

(** Every answer that does not begin with a space has words, and exactly one list of them. *)
Theorem C68_words : forall s, (s = [] \/ hd NUL s <> " "%char) -> exists l, words s l /\ forall l', words s l' -> l' = l.
Proof.
  intros s H. destruct (words_exist s) as [l Hl].
  - destruct H as [->|H]; [reflexivity|]. destruct s as [|c s]; [reflexivity|]. cbn in *. destruct (beq c " ") eqn:E; [apply beq_true in E; congruence|reflexivity].
  - exists l. split; [exact Hl|]. intros l' Hl'. rewrite <- (tag_list_words _ _ Hl (length s)), <- (tag_list_words _ _ Hl' (length s)) by lia. reflexivity.
Qed.
Print Assumptions C68_words.

(** Not true: "the tags are the words of the answer": a space at the beginning gives an empty
    tag (which no message can have). *)
Theorem C68_leading_space_refuted :
  ~ (forall s l, hd NUL s = " "%char -> words (dropwhile (fun c => beq c " "%char) s) l -> parse_tag_list s = l).
Proof.
  intros H. specialize (H (lit " inbox") [lit "inbox"] eq_refl).
  assert (W : words (lit "inbox") [lit "inbox"]).
  { apply (w_cons (lit "inbox") [] [] []); [discriminate| |constructor|reflexivity|constructor]. cbn. intros X. repeat (destruct X as [X|X]; [discriminate X|]). exact X. }
  specialize (H W). vm_compute in H. discriminate H.
Qed.
Print Assumptions C68_leading_space_refuted.
(** Not true: "input never leads to undefined behaviour": a line that begins with a NUL is an
    empty string of which the last byte is examined. *)
Theorem C68_any_input_defined_refuted : ~ (forall good_names save cwd emails file lines, setup_command good_names save cwd emails file lines <> Undefined).
Proof. intros H. apply (H (fun _ _ => true) true [] [] None [[NUL; chr 10]]). reflexivity. Qed.
Print Assumptions C68_any_input_defined_refuted.
(** Not true: "no call on the configuration object after it was closed". *)
Theorem C68_no_use_after_close_refuted : ~ (forall before call after, config_calls = before ++ Call_close :: call :: after -> False).
Proof. intros H. apply (H [Call_open; Call_is_new; Call_save] Call_is_new []). reflexivity. Qed.
Print Assumptions C68_no_use_after_close_refuted.

Example C68_example :
  let names := fun _ _ : bytes => true in
  let a := {| a_name := lit "Me"; a_email := []; a_current := [[]; lit "b2@x"]; a_more := [lit "c@x"]; a_path := lit "mail"; a_tags := lit "unread inbox"; a_excl := [] |} in
  sensible [lit "a@x"; lit "b@x"] a /\ replaced [lit "a@x"; lit "b@x"] (a_current a) [lit "a@x"; lit "b2@x"] /\ words (a_tags a) [lit "unread"; lit "inbox"] /\
  setup_command names true (lit "/home/me") [lit "a@x"; lit "b@x"] (Some ex_file) (entered a) =
  Saved [(lit "new", [(lit "tags", lit "unread;inbox;"); (lit "ignore", lit "x")]); (lit "user", [(lit "name", lit "Me"); (lit "other_email", lit "a@x;b2@x;c@x;")]);
         (lit "database", [(lit "path", lit "/home/me/mail")]); (lit "search", []); (lit "maildir", [])].
Proof.
  assert (D : forall (c : ascii) s, existsb (beq c) s = false -> ~ In c s).
  { intros c s E X. assert (Y : existsb (beq c) s = true) by (apply existsb_exists; exists c; split; [exact X|apply Ascii.eqb_refl]). congruence. }
  intros names a. split; [|split; [|split]].
  - split; [|split; [reflexivity|intros [X|[]]; discriminate X]]. repeat constructor; apply D; reflexivity.
  - apply rp_kept, rp_new; [discriminate|constructor].
  - apply (w_cons (lit "unread") [" "%char] (lit "inbox")); [discriminate|apply D; reflexivity|repeat constructor|discriminate|].
    apply (w_cons (lit "inbox") [] [] []); [discriminate|apply D; reflexivity|constructor|reflexivity|constructor].
  - vm_compute. reflexivity.
Qed.
