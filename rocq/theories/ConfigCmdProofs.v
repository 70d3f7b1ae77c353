From Verif Require Import Bytes StrUtil StrUtilSpec StrUtilProofs SprinterSpec SprinterProofs3 StringMap Dump Config ConfigSpec ConfigCmd ConfigCmdSpec.
From Coq Require Import Permutation.
Local Open Scope nat_scope.

Lemma beq_true a b : beq a b = true -> a = b. Proof. apply Ascii.eqb_eq. Qed.
Lemma beq_false a b : beq a b = false -> a <> b. Proof. apply Ascii.eqb_neq. Qed.

(** Escaping and unescaping. *)
Lemma unescape_plain c t : beq c BACKSLASH = false -> unescape (c :: t) = (c :: fst (unescape t), snd (unescape t)).
Proof. intros H. cbn [unescape]. rewrite H. now destruct (unescape t). Qed.
Lemma unescape_escape sep s : sep = false \/ ~ In ";"%char s -> forall lead t,
  unescape (escape sep lead s ++ t) = (s ++ fst (unescape t), snd (unescape t)).
Proof.
  intros H. induction s as [|c s IH]; intros lead t; [cbn [escape app]; now destruct (unescape t)|].
  assert (H' : sep = false \/ ~ In ";"%char s) by (destruct H as [H|H]; [now left|right; intros X; apply H; now right]).
  specialize (IH H'). cbn [escape].
  destruct (beq c " ") eqn:E1.
  { apply beq_true in E1. subst c. destruct lead; cbn [app].
    - cbn [unescape]. change (beq BACKSLASH BACKSLASH) with true. cbv iota. rewrite IH. reflexivity.
    - rewrite unescape_plain by reflexivity. rewrite IH. reflexivity. }
  destruct (beq c TAB) eqn:E2.
  { apply beq_true in E2. subst c. destruct lead; cbn [app].
    - cbn [unescape]. change (beq BACKSLASH BACKSLASH) with true. cbv iota. rewrite IH. reflexivity.
    - rewrite unescape_plain by reflexivity. rewrite IH. reflexivity. }
  destruct (beq c LF) eqn:E3.
  { apply beq_true in E3. subst c. cbn [app unescape]. change (beq BACKSLASH BACKSLASH) with true. cbv iota. rewrite IH. reflexivity. }
  destruct (beq c CR) eqn:E4.
  { apply beq_true in E4. subst c. cbn [app unescape]. change (beq BACKSLASH BACKSLASH) with true. cbv iota. rewrite IH. reflexivity. }
  destruct (beq c BACKSLASH) eqn:E5.
  { apply beq_true in E5. subst c. cbn [app unescape]. change (beq BACKSLASH BACKSLASH) with true. cbv iota. rewrite IH. reflexivity. }
  destruct (sep && beq c ";") eqn:E6.
  { apply andb_prop in E6 as [E6 E7]. apply beq_true in E7. subst c. destruct H as [H|H]; [congruence|]. destruct H. now left. }
  cbn [app]. rewrite unescape_plain by exact E5. rewrite IH. reflexivity.
Qed.
Lemma unescape_list vs : Forall (fun v => ~ In ";"%char v) vs ->
  unescape (concat (map (fun v => escape true true v ++ lit ";") vs)) = (concat (map (fun v => v ++ lit ";") vs), true).
Proof.
  induction 1 as [|v vs Hv _ IH]; [reflexivity|]. cbn [map concat]. rewrite <- !app_assoc. rewrite unescape_escape by now right.
  change (lit ";" ++ concat (map (fun v => escape true true v ++ lit ";") vs)) with (";"%char :: concat (map (fun v => escape true true v ++ lit ";") vs)).
  rewrite unescape_plain by reflexivity. rewrite IH. reflexivity.
Qed.
Lemma escape_head sep s t : hd NUL s <> FF -> (s = [] -> match t with [] => True | c :: _ => g_isspace c = false end) -> chug (escape sep true s ++ t) = escape sep true s ++ t.
Proof.
  intros H Ht. unfold chug. destruct s as [|c s]; cbn [escape].
  - specialize (Ht eq_refl). destruct t as [|d t]; [reflexivity|]. cbn. now rewrite Ht.
  - destruct (beq c " ") eqn:E1; [reflexivity|]. destruct (beq c TAB) eqn:E2; [reflexivity|].
    destruct (beq c LF) eqn:E3; [reflexivity|]. destruct (beq c CR) eqn:E4; [reflexivity|].
    destruct (beq c BACKSLASH) eqn:E5; [reflexivity|]. destruct (sep && beq c ";"); [reflexivity|].
    cbn. unfold g_isspace. rewrite E1, E2, E3, E4. cbn [orb]. destruct (beq c FF) eqn:E6; [|reflexivity]. apply beq_true in E6. destruct (H E6).
Qed.
Lemma raw_chug values : writable values -> chug (raw_value values) = raw_value values.
Proof.
  intros (Hn & _ & _ & Hf). destruct values as [|v [|w l]]; [congruence| |].
  - cbn [raw_value hd] in *. rewrite <- (app_nil_r (escape false true v)). now apply escape_head.
  - cbn [raw_value map concat hd] in *. rewrite <- app_assoc. apply escape_head; [exact Hf|]. intros _. reflexivity.
Qed.
Lemma raw_unescape values : writable values -> unescape (raw_value values) = (stored values, true).
Proof.
  intros (Hn & _ & Hs & _). destruct values as [|v [|w l]]; [congruence| |].
  - cbn [raw_value stored]. pose proof (unescape_escape false v (or_introl eq_refl) true []) as H. rewrite app_nil_r in H. rewrite H. cbn. now rewrite app_nil_r.
  - unfold raw_value, stored. apply unescape_list. now apply (Hs v w l).
Qed.

(** UTF-8 is kept by escaping. *)
Lemma escape_high sep c lead s : (128 <= code c)%N -> escape sep lead (c :: s) = c :: escape sep false s.
Proof.
  intros H. cbn [escape].
  assert (X : forall d, (code d < 128)%N -> beq c d = false).
  { intros d Hd. destruct (beq c d) eqn:E; [|reflexivity]. apply beq_true in E. subst. lia. }
  rewrite !X by (vm_compute; reflexivity). now rewrite andb_false_r.
Qed.
Lemma escape_low sep c lead s : (code c <= 127)%N -> exists o lead', escape sep lead (c :: s) = o ++ escape sep lead' s /\ forallb (fun c => N.leb (code c) 127) o = true.
Proof.
  intros H. cbn [escape]. apply N.leb_le in H.
  destruct (beq c " "); [destruct lead; eexists _, _; (split; [reflexivity|]); cbn; rewrite ?H; reflexivity|].
  destruct (beq c TAB); [destruct lead; eexists _, _; (split; [reflexivity|]); cbn; rewrite ?H; reflexivity|].
  destruct (beq c LF); [eexists _, _; (split; [reflexivity|]); reflexivity|].
  destruct (beq c CR); [eexists _, _; (split; [reflexivity|]); reflexivity|].
  destruct (beq c BACKSLASH); [eexists _, _; (split; [reflexivity|]); reflexivity|].
  destruct (sep && beq c ";"); [eexists _, _; (split; [reflexivity|]); cbn; rewrite ?H; reflexivity|].
  exists [c], false. split; [reflexivity|]. cbn. now rewrite H.
Qed.
Lemma escape_utf8 sep s : utf8 s -> forall lead, utf8 (escape sep lead s).
Proof.
  intros (l & Hl & ->). induction Hl as [|x l Hx _ IH]; intros lead; [apply utf8_nil|]. cbn [concat].
  assert (HI : forall a b t, (128 <= code a)%N -> forall lead, escape sep lead (a :: b ++ t) = a :: escape sep false (b ++ t)) by (intros; now apply escape_high).
  inversion Hx; subst; unfold SprinterSpec.tail, SprinterSpec.between in *; cbn [app].
  - destruct (escape_low sep a lead (concat l) ltac:(lia)) as (o & lead' & -> & Ho). apply utf8_app; [now apply utf8_ascii|apply IH].
  - rewrite !escape_high by lia. apply (utf8_app [a; b]); [apply utf8_one; now apply u2|apply IH].
  - rewrite !escape_high by lia. apply (utf8_app [a; b; c]); [apply utf8_one; now apply u3_e0|apply IH].
  - rewrite !escape_high by lia. apply (utf8_app [a; b; c]); [apply utf8_one; now apply u3|apply IH].
  - rewrite !escape_high by lia. apply (utf8_app [a; b; c]); [apply utf8_one; now apply u3_ed|apply IH].
  - rewrite !escape_high by lia. apply (utf8_app [a; b; c; d]); [apply utf8_one; now apply u4_f0|apply IH].
  - rewrite !escape_high by lia. apply (utf8_app [a; b; c; d]); [apply utf8_one; now apply u4|apply IH].
  - rewrite !escape_high by lia. apply (utf8_app [a; b; c; d]); [apply utf8_one; now apply u4_f4|apply IH].
Qed.
Lemma raw_utf8 values : writable values -> utf8 (raw_value values).
Proof.
  intros (Hn & Hu & _). destruct values as [|v [|w l]]; [congruence| |].
  - cbn. apply escape_utf8. now inversion Hu.
  - cbn [raw_value]. revert Hu. generalize (v :: w :: l). clear. intros z. induction z as [|x z IH]; intros Hu; [apply utf8_nil|].
    inversion Hu; subst. cbn [map concat]. apply utf8_app; [apply utf8_app; [now apply escape_utf8|apply utf8_ascii; reflexivity]|now apply IH].
Qed.

(** Lookup in a key file as a map from section and name. *)
Fixpoint find_key (k : bytes) (l : list (bytes * bytes)) : option bytes :=
  match l with [] => None | (k', v) :: l' => if bseq k k' then Some v else find_key k l' end.
Fixpoint find_raw (g k : bytes) (f : kfile) : option bytes :=
  match f with [] => None | (g', l) :: f' => if bseq g g' then find_key k l else find_raw g k f' end.

Lemma bseq_neq a b : a <> b -> bseq a b = false.
Proof. intros H. destruct (bseq a b) eqn:E; [apply bseq_eq in E; congruence|reflexivity]. Qed.
Lemma find_set_key k v l k' : find_key k' (set_key k v l) = if bseq k' k then Some v else find_key k' l.
Proof.
  induction l as [|[a b] l IH]; cbn.
  - reflexivity.
  - destruct (bseq k a) eqn:E; cbn.
    + apply bseq_eq in E. subst a. now destruct (bseq k' k).
    + rewrite IH. destruct (bseq k' a) eqn:E2; [|reflexivity]. apply bseq_eq in E2. subst a.
      destruct (bseq k' k) eqn:E3; [|reflexivity]. apply bseq_eq in E3. subst. now rewrite bseq_refl in E.
Qed.
Lemma find_set_value g k v f g' k' : find_raw g' k' (set_value g k v f) = if bseq g' g && bseq k' k then Some v else find_raw g' k' f.
Proof.
  induction f as [|[a l] f IH]; cbn.
  - destruct (bseq g' g); cbn; [now destruct (bseq k' k)|reflexivity].
  - destruct (bseq g a) eqn:E; cbn.
    + apply bseq_eq in E. subst a. destruct (bseq g' g) eqn:E2; cbn; [apply find_set_key|reflexivity].
    + rewrite IH. destruct (bseq g' a) eqn:E2; [|reflexivity]. apply bseq_eq in E2. subst a.
      destruct (bseq g' g) eqn:E3; [|reflexivity]. apply bseq_eq in E3. subst. now rewrite bseq_refl in E.
Qed.
Lemma find_key_filter k k' l : find_key k' (filter (fun p => negb (bseq k (fst p))) l) = if bseq k' k then None else find_key k' l.
Proof.
  induction l as [|[a b] l IH]; cbn; [now destruct (bseq k' k)|].
  destruct (bseq k a) eqn:E; cbn.
  - apply bseq_eq in E. subst a. rewrite IH. now destruct (bseq k' k).
  - rewrite IH. destruct (bseq k' a) eqn:E2; [|reflexivity]. apply bseq_eq in E2. subst a.
    destruct (bseq k' k) eqn:E3; [|reflexivity]. apply bseq_eq in E3. subst. now rewrite bseq_refl in E.
Qed.
Lemma find_remove g k f g' k' : find_raw g' k' (remove_key g k f) = if bseq g' g && bseq k' k then None else find_raw g' k' f.
Proof.
  unfold remove_key. induction f as [|[a l] f IH]; cbn; [now destruct (bseq g' g && bseq k' k)|].
  destruct (bseq g a) eqn:E; cbn.
  - apply bseq_eq in E. subst a. destruct (bseq g' g) eqn:E2; cbn; [apply find_key_filter|]. rewrite IH. reflexivity.
  - rewrite IH. destruct (bseq g' a) eqn:E2; [|reflexivity]. apply bseq_eq in E2. subst a.
    destruct (bseq g' g) eqn:E3; [|reflexivity]. apply bseq_eq in E3. subst. now rewrite bseq_refl in E.
Qed.
Lemma find_app_none g k f x : find_raw g k (f ++ [(x, [])]) = find_raw g k f.
Proof. induction f as [|[a l] f IH]; cbn; [now destruct (bseq g x)|]. now rewrite IH. Qed.
Lemma find_ensure gs : forall f g k, find_raw g k (fold_left ensure_group gs f) = find_raw g k f.
Proof.
  induction gs as [|x gs IH]; intros f g k; [reflexivity|]. cbn. rewrite IH. unfold ensure_group.
  destruct (existsb _ f); [reflexivity|]. apply find_app_none.
Qed.

(** The file stays ordinary. *)
Lemma set_key_names k v l : forall x, In x (map fst (set_key k v l)) <-> x = k \/ In x (map fst l).
Proof.
  induction l as [|[a b] l IH]; intros x; cbn; [split; [intros [<- |[]]; auto|intros [-> |[]]; auto]|].
  destruct (bseq k a) eqn:E; cbn.
  - apply bseq_eq in E. subst a. split; [intros [<- |H]; auto|intros [-> |[-> |H]]; auto].
  - rewrite IH. split; [intros [-> |[-> |H]]; auto|intros [-> |[-> |H]]; auto].
Qed.
Lemma set_key_nodup k v l : NoDup (map fst l) -> NoDup (map fst (set_key k v l)).
Proof.
  induction l as [|[a b] l IH]; cbn; intros H; [repeat constructor; intros []|]. inversion H; subst.
  destruct (bseq k a) eqn:E; cbn.
  - apply bseq_eq in E. subst a. now constructor.
  - constructor; [|now apply IH]. rewrite set_key_names. intros [X|X]; [|contradiction]. subst. now rewrite bseq_refl in E.
Qed.
Lemma set_value_names g k v f : forall x, In x (map fst (set_value g k v f)) <-> x = g \/ In x (map fst f).
Proof.
  induction f as [|[a b] f IH]; intros x; cbn; [split; [intros [<- |[]]; auto|intros [-> |[]]; auto]|].
  destruct (bseq g a) eqn:E; cbn.
  - apply bseq_eq in E. subst a. split; [intros [<- |H]; auto|intros [-> |[-> |H]]; auto].
  - rewrite IH. split; [intros [-> |[-> |H]]; auto|intros [-> |[-> |H]]; auto].
Qed.
Lemma set_value_ordinary g k v f : ~ In "."%char g -> ordinary f -> ordinary (set_value g k v f).
Proof.
  intros Hg. induction f as [|[a l] f IH]; intros [H1 H2]; cbn.
  - split; repeat constructor; try (intros []); exact Hg.
  - cbn in H1. inversion H1; inversion H2; subst. cbn in *. destruct (bseq g a) eqn:E.
    + split; cbn; [exact H1|]. constructor; [|assumption]. cbn. destruct H7. split; [now apply set_key_nodup|assumption].
    + destruct IH as [I1 I2]; [now split|]. split; cbn; [|now constructor].
      constructor; [|exact I1]. rewrite set_value_names. intros [X|X]; [|contradiction]. subst. now rewrite bseq_refl in E.
Qed.
Lemma filter_nodup {A} (p : A * bytes -> bool) (l : list (A * bytes)) : NoDup (map fst l) -> NoDup (map fst (filter p l)).
Proof.
  induction l as [|x l IH]; cbn; intros H; [constructor|]. inversion H; subst. destruct (p x); cbn; [|now apply IH].
  constructor; [|now apply IH]. intros X. apply H2. apply in_map_iff in X as (y & <- & Y). apply filter_In in Y as [Y _]. now apply in_map.
Qed.
Lemma remove_ordinary g k f : ordinary f -> ordinary (remove_key g k f).
Proof.
  intros [H1 H2]. split.
  - unfold remove_key. rewrite map_map. erewrite map_ext; [exact H1|]. intros [a l]. cbn. now destruct (bseq g a).
  - clear H1. unfold remove_key. induction H2 as [|[a l] f [Hn Hd] _ IH]; [constructor|]. cbn. constructor; [|exact IH].
    destruct (bseq g a); cbn; split; trivial. now apply filter_nodup.
Qed.
Lemma ensure_ordinary gs : Forall (fun g => ~ In "."%char g) gs -> forall f, ordinary f -> ordinary (fold_left ensure_group gs f).
Proof.
  induction 1 as [|g gs Hg _ IH]; intros f Hf; [exact Hf|]. cbn. apply IH. unfold ensure_group.
  destruct (existsb _ f) eqn:E; [exact Hf|]. destruct Hf as [H1 H2]. split.
  - rewrite map_app. cbn.
    apply (Permutation.Permutation_NoDup (l := g :: map fst f)); [apply Permutation.Permutation_cons_append|].
    constructor; [|exact H1]. intros X. apply in_map_iff in X as (y & <- & Y).
    assert (existsb (fun e : kgroup => bseq (fst y) (fst e)) f = true); [|congruence].
    apply existsb_exists. exists y. split; [exact Y|apply bseq_refl].
  - apply Forall_app. split; [exact H2|]. constructor; [|constructor]. cbn. split; [constructor|exact Hg].
Qed.
Lemma standard_nodot : Forall (fun g => ~ In "."%char g) standard_groups.
Proof. repeat constructor; cbn; intros H; repeat (destruct H as [H|H]; [discriminate H|]); exact H. Qed.

(** in_file of the reloaded file. *)
Section R.
Variable utf8_valid : bytes -> bool.
Variable nullb : bool.
Notation gs := (get_string utf8_valid nullb).
Notation rel := (reload utf8_valid nullb).

Lemma split_unique g k g' k' : ~ In "."%char g -> ~ In "."%char g' -> g ++ lit "." ++ k = g' ++ lit "." ++ k' -> g = g' /\ k = k'.
Proof.
  revert g'. induction g as [|c g IH]; intros [|d g'] H1 H2 E; cbn in E.
  - injection E as E. auto.
  - injection E as E1 E2. subst d. destruct H2. now left.
  - injection E as E1 E2. subst c. destruct H1. now left.
  - injection E as <- E. destruct (IH g') as [-> ->]; auto; intros X; [apply H1|apply H2]; now right.
Qed.

Lemma in_file_app a b key : in_file (a ++ b) key = first_of (in_file b key) (in_file a key).
Proof.
  induction a as [|[[g k] v] a IH]; cbn; [now destruct (in_file b key)|]. rewrite IH. now destruct (in_file b key).
Qed.
Lemma in_file_group_other g l key : (forall k, g ++ lit "." ++ k <> key) -> in_file (map (fun p : bytes * bytes => (g, fst p, gs (snd p))) l) key = None.
Proof. intros H. induction l as [|[k v] l IH]; [reflexivity|]. cbn [map in_file fst snd]. rewrite IH, bseq_neq; [reflexivity|apply H]. Qed.
Lemma in_file_group g l k : NoDup (map fst l) ->
  in_file (map (fun p : bytes * bytes => (g, fst p, gs (snd p))) l) (g ++ lit "." ++ k) = match find_key k l with Some v => gs v | None => None end.
Proof.
  induction l as [|[a v] l IH]; intros H; [reflexivity|]. cbn [map in_file fst snd find_key]. inversion H; subst. rewrite IH by assumption.
  destruct (bseq k a) eqn:E.
  - apply bseq_eq in E. subst a. rewrite bseq_refl.
    assert (X : find_key k l = None).
    { clear -H2. induction l as [|[a b] l IH]; [reflexivity|]. cbn in *. rewrite bseq_neq by (intros ->; apply H2; now left). apply IH. intros X. apply H2. now right. }
    now rewrite X.
  - destruct (find_key k l) as [w|] eqn:F.
    + destruct (gs w); [reflexivity|]. rewrite bseq_neq; [reflexivity|]. intros X. apply app_inv_head in X. injection X as X. subst. now rewrite bseq_refl in E.
    + rewrite bseq_neq; [reflexivity|]. intros X. apply app_inv_head in X. injection X as X. subst. now rewrite bseq_refl in E.
Qed.
Lemma in_file_reload f g k : ordinary f -> ~ In "."%char g ->
  in_file (rel f) (g ++ lit "." ++ k) = match find_raw g k f with Some v => gs v | None => None end.
Proof.
  intros Hf Hg. induction f as [|[a l] f IH]; [reflexivity|]. unfold reload. cbn [flat_map fst snd]. rewrite in_file_app.
  destruct Hf as [H1 H2]. cbn in H1. inversion H1; inversion H2; subst. cbn [fst snd find_raw] in *. destruct H7 as [Hn Hd].
  specialize (IH ltac:(now split)). unfold reload in IH. rewrite IH. destruct (bseq g a) eqn:E.
  - apply bseq_eq in E. subst a. assert (X : find_raw g k f = None).
    { clear -H3. induction f as [|[a b] f IH]; [reflexivity|]. cbn in *. rewrite bseq_neq by (intros ->; apply H3; now left). apply IH. intros X. apply H3. now right. }
    rewrite X. cbn [first_of]. now rewrite in_file_group.
  - rewrite in_file_group_other.
    + destruct (find_raw g k f) as [w|]; [|reflexivity]. now destruct (gs w).
    + intros k' X. destruct (split_unique a k' g k Hd Hg X) as [-> _]. now rewrite bseq_refl in E.
Qed.
Lemma in_file_nodot f key : ordinary f -> ~ In "."%char key -> in_file (rel f) key = None.
Proof.
  intros _ H. induction f as [|[a l] f IH]; [reflexivity|]. unfold reload. cbn [flat_map fst snd]. rewrite in_file_app. unfold reload in IH. rewrite IH. cbn.
  apply in_file_group_other. intros k <-. apply H. apply in_or_app. right. now left.
Qed.
End R.

Lemma split_period_spec s : match split_period s with
  | Some (g, k) => s = g ++ lit "." ++ k /\ ~ In "."%char g
  | None => ~ In "."%char s
  end.
Proof.
  induction s as [|c s IH]; [intros []|]. cbn [split_period]. destruct (beq c ".") eqn:E.
  - apply beq_true in E. subst. split; [reflexivity|intros []].
  - apply beq_false in E. destruct (split_period s) as [[g k]|].
    + destruct IH as [-> H]. split; [reflexivity|]. intros [X|X]; [congruence|contradiction].
    + intros [X|X]; [congruence|contradiction].
Qed.
Lemma item_split_spec s g k : item_split s = Some (g, k) <-> section_item s g k.
Proof.
  unfold item_split, section_item. pose proof (split_period_spec s) as H. destruct (split_period s) as [[g' k']|].
  - destruct H as [E Hg]. split.
    + destruct k' as [|c k']; [discriminate|]. intros [= <- <-]. repeat split; trivial. discriminate.
    + intros (E2 & Hg2 & Hk). rewrite E in E2. destruct (split_unique g' k' g k Hg Hg2 E2) as [<- <-]. destruct k'; [congruence|reflexivity].
  - split; [discriminate|]. intros (E & _ & _). destruct H. rewrite E. apply in_or_app. right. now left.
Qed.

(** Values that come back as a list. *)
Lemma stored_list_join vs : vs <> [] -> concat (map (fun v => v ++ lit ";") vs) = join_semicolon vs ++ lit ";".
Proof.
  induction vs as [|v [|w l] IH]; intros H; [congruence| |].
  - cbn. now rewrite app_nil_r.
  - specialize (IH ltac:(discriminate)). cbn [map concat] in *. rewrite IH. change (join_semicolon (v :: w :: l)) with (v ++ ";"%char :: join_semicolon (w :: l)).
    rewrite <- !app_assoc. reflexivity.
Qed.
Lemma split_items_semicolon s : forall pb cur, (s = [] -> pb = false) -> (s <> [] -> last s NUL <> "\"%char) ->
  split_items pb cur (s ++ lit ";") = split_items pb cur s ++ [[]].
Proof.
  induction s as [|c s IH]; intros pb cur H1 H2.
  - rewrite (H1 eq_refl). reflexivity.
  - cbn [app split_items]. assert (H2' : s <> [] -> last s NUL <> "\"%char).
    { intros Hs. destruct s as [|d s]; [congruence|]. now specialize (H2 ltac:(discriminate)). }
    destruct (Ascii.eqb c ";" && negb pb).
    + rewrite IH; [reflexivity|reflexivity|exact H2'].
    + rewrite IH; [reflexivity| |exact H2']. intros ->. specialize (H2 ltac:(discriminate)). cbn in H2. now apply Ascii.eqb_neq.
Qed.
Lemma last_join vs : Forall storable_value vs -> vs <> [] -> join_semicolon vs <> [] /\ last (join_semicolon vs) NUL <> "\"%char.
Proof.
  induction 1 as [|v vs Hv Hvs IH]; intros H; [congruence|]. destruct Hv as (Hn & _ & _ & _ & Hb). destruct vs as [|w l]; [now split|].
  specialize (IH ltac:(discriminate)) as [I1 I2]. change (join_semicolon (v :: w :: l)) with (v ++ ";"%char :: join_semicolon (w :: l)). split.
  - destruct v; discriminate.
  - set (j := join_semicolon (w :: l)) in *. clearbody j. destruct j as [|c j]; [congruence|]. intros X. apply I2. rewrite <- X. clear.
    induction v as [|a v IH]; [reflexivity|]. change ((a :: v) ++ ";"%char :: c :: j) with (a :: (v ++ ";"%char :: c :: j)).
    rewrite IH. cbn. now destruct v.
Qed.
Lemma stored_values vs : vs <> [] -> Forall storable_value vs -> config_values (stored vs) = vs.
Proof.
  intros Hn Hv. destruct vs as [|v [|w l]]; [congruence| |].
  - cbn [stored]. exact (join_roundtrip [v] Hv).
  - cbn [stored]. rewrite stored_list_join by exact Hn. destruct (last_join _ Hv Hn) as [L1 L2].
    rewrite <- (join_roundtrip (v :: w :: l) Hv) at 2. rewrite !config_values_spec. unfold config_list.
    rewrite split_items_semicolon; [|intros E; congruence|intros _; exact L2]. rewrite map_app, filter_app. cbn. now rewrite app_nil_r.
Qed.
Lemma cfg_set_get k v : forall meta k', in_database (cfg_set k v meta) k' =
  if bseq k' k then (match v with [] => in_database (cfg_set k v meta) k' | _ => Some v end) else in_database meta k'.
Proof.
  induction meta as [|[a b] meta IH]; intros k'; cbn [cfg_set].
  - destruct (bseq k' k) eqn:E.
    + destruct v; [reflexivity|]. apply bseq_eq in E. subst. cbn. now rewrite bseq_refl.
    + destruct v; [reflexivity|]. cbn. rewrite bseq_neq; [reflexivity|]. intros ->. now rewrite bseq_refl in E.
  - destruct (bseq k a) eqn:E.
    + apply bseq_eq in E. subst a. destruct v as [|x v]; cbn [in_database].
      * destruct (bseq k' k) eqn:E2; [reflexivity|]. rewrite bseq_neq; [reflexivity|]. intros ->. now rewrite bseq_refl in E2.
      * destruct (bseq k' k) eqn:E2; [apply bseq_eq in E2; subst; now rewrite bseq_refl|]. rewrite bseq_neq; [reflexivity|]. intros ->. now rewrite bseq_refl in E2.
    + cbn [in_database]. rewrite IH. destruct (bseq k' k) eqn:E2.
      * apply bseq_eq in E2. subst k'. rewrite (bseq_neq a k) by (intros ->; now rewrite bseq_refl in E). destruct v; reflexivity.
      * reflexivity.
Qed.
Lemma set_key_In k w b r : forall l, In (b, r) (set_key k w l) -> In (b, r) l \/ r = w.
Proof. induction l as [|[x y] l IH]; cbn; [intros [[= _ <-]|[]]; now right|]. destruct (bseq k x); cbn; [intros [[= _ <-]|H]; auto|intros [H|H]; auto]. destruct (IH H); auto. Qed.
Lemma set_value_In g k w a l b r : forall f, In (a, l) (set_value g k w f) -> In (b, r) l -> (exists l0, In (a, l0) f /\ In (b, r) l0) \/ r = w.
Proof.
  induction f as [|[a0 l0] f IH]; intros H1 H4; cbn in H1.
  - destruct H1 as [H1|[]]. injection H1 as <- <-. destruct H4 as [H4|[]]. injection H4 as _ <-. now right.
  - destruct (bseq g a0) eqn:Eg; cbn in H1.
    + destruct H1 as [H1|H1].
      * injection H1 as <- <-. apply set_key_In in H4 as [H4|H4]; [left; exists l0; split; [now left|exact H4]|now right].
      * left. exists l. split; [now right|exact H4].
    + destruct H1 as [H1|H1]; [injection H1 as <- <-; left; exists l0; split; [now left|exact H4]|].
      destruct (IH H1 H4) as [(l1 & X1 & X2)|X]; [left; exists l1; split; [now right|exact X2]|now right].
Qed.
Lemma ensure_In a l0 p : forall gs f, In (a, l0) (fold_left ensure_group gs f) -> In p l0 -> In (a, l0) f.
Proof.
  induction gs as [|x gs IH]; intros f0 H H2; [exact H|]. cbn in H. apply IH in H; [|exact H2]. unfold ensure_group in H.
  destruct (existsb _ f0); [exact H|]. apply in_app_or in H as [H|[H|[]]]; [exact H|]. injection H as _ <-. destruct H2.
Qed.
