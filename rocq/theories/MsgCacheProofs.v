(** Proofs for C96. *)
From Verif Require Import Bytes MsgCache MsgCacheSpec.
From Coq Require Import List Arith Bool Ascii Lia.
Import ListNotations.
Local Open Scope nat_scope.

(** What is remembered where. *)
Definition slot_field (s : slot) : field :=
  match s with
  | SThread => Thread | STag => Tag | SType => Type_ | SFileTerms | SFileList => File | SPropTerms | SPropMap => Prop_
  | SRef => Ref | SReplyto => Replyto
  end.
(** What is remembered is so. *)
Definition coherent (w : world) (m : message) : Prop := forall s l, cache m s = Some l -> l = read w m (slot_field s).
(** The invariant, at all times. *)
Record K (w : world) (m : message) : Prop := {
  K_coh : coherent w m;
  K_prop : proper (read w m);
  K_st : modified m = false -> forall f, read w m f = stored w f }.

Lemma field_eqb_spec a b : reflect (a = b) (field_eqb a b).
Proof. destruct a, b; constructor; congruence. Qed.
Lemma olist_first d : length d <= 1 -> first_term d = match d with [] => None | _ => Some d end.
Proof. destruct d as [|a [|b d]]; cbn; intros; trivial; lia. Qed.

Lemma ensure_same w m f : own (ensure_metadata w m f) = own m /\ modified (ensure_metadata w m f) = modified m
  /\ frozen (ensure_metadata w m f) = frozen m.
Proof. unfold ensure_metadata. destruct (match f with Some _ => _ | None => _ end); cbn; auto. Qed.
Lemma read_own w m m' : own m' = own m -> read w m' = read w m.
Proof. unfold read. intros ->. trivial. Qed.
Lemma K_same w m m' : own m' = own m -> modified m' = modified m -> coherent w m' -> K w m -> K w m'.
Proof.
  intros E1 E2 C [A B D]. split; trivial; rewrite (read_own _ _ _ E1); trivial. now rewrite E2.
Qed.
Lemma ensure_coh w m f : K w m -> coherent w (ensure_metadata w m f).
Proof.
  intros [C P _] s l. pose proof (ensure_same w m f) as (E1 & _). rewrite (read_own _ _ _ E1).
  unfold ensure_metadata. destruct (match f with Some _ => _ | None => _ end); [apply C|].
  destruct P as (_ & _ & P1 & P2). rewrite (olist_first _ P1), (olist_first _ P2).
  pose proof (fun s l => C s l) as C'.
  destruct s; cbn; intros H.
  - destruct (cache m SThread) eqn:E; [apply C in E; cbn in E; congruence|]. destruct (read w m Thread); congruence.
  - destruct (cache m STag) eqn:E; [apply C in E; cbn in E; congruence|congruence].
  - destruct (cache m SType) eqn:E; [apply C in E; cbn in E; congruence|congruence].
  - destruct (cache m SFileTerms) eqn:E; [apply C in E; cbn in E; congruence|].
    destruct (cache m SFileList); congruence.
  - now apply C in H.
  - destruct (cache m SPropMap) eqn:E; destruct (cache m SPropTerms) eqn:E'; try discriminate.
    + apply C in E'; cbn in E'; congruence.
    + apply C in E'; cbn in E'; congruence.
    + congruence.
  - now apply C in H.
  - destruct (cache m SRef) eqn:E; [apply C in E; cbn in E; congruence|congruence].
  - destruct (cache m SReplyto) eqn:E; [apply C in E; cbn in E; congruence|]. destruct (read w m Replyto); congruence.
Qed.
Lemma ensure_K w m f : K w m -> K w (ensure_metadata w m f).
Proof. intros H. destruct (ensure_same w m f) as (A & B & _). eapply K_same; eauto using ensure_coh. Qed.
(** What is asked for is there afterwards. *)
Lemma ensure_there w m s :
  K w m -> match s with SFileTerms => cache m SFileList = None | SPropTerms => cache m SPropMap = None | SFileList | SPropMap => False | _ => True end ->
  forall v, In v (match cache (ensure_metadata w m (cache m s)) s with Some l => l | None => [] end) <-> In v (read w m (slot_field s)).
Proof.
  intros HK G v.
  destruct (cache (ensure_metadata w m (cache m s)) s) eqn:E.
  - apply (ensure_coh w m _ HK) in E. destruct (ensure_same w m (cache m s)) as (E1 & _). now rewrite E, (read_own _ _ _ E1).
  - unfold ensure_metadata in E. destruct (cache m s) eqn:Es.
    + destruct (view w <=? last_view m); [congruence|].
      destruct s; cbn in E; rewrite ?Es in E; try discriminate; try contradiction.
      destruct (cache m SPropMap); discriminate.
    + cbn in E. destruct HK as [_ (_ & _ & P1 & P2) _].
      destruct s; cbn in E; rewrite ?Es in E; try discriminate; try contradiction.
      * rewrite (olist_first _ P1) in E. cbn. destruct (read w m Thread); [tauto|discriminate].
      * rewrite G in E. discriminate.
      * rewrite G in E. discriminate.
      * rewrite (olist_first _ P2) in E. cbn. destruct (read w m Replyto); discriminate.
Qed.

Lemma get_same w m g : own (fst (get w m g)) = own m /\ modified (fst (get w m g)) = modified m /\ frozen (fst (get w m g)) = frozen m.
Proof.
  destruct g; cbn -[ensure_metadata]; try apply ensure_same.
  - destruct (cache m SFileList); cbn -[ensure_metadata]; [auto|first [apply ensure_same|auto]].
  - destruct (cache m SType); cbn -[ensure_metadata]; [auto|first [apply ensure_same|auto]].
  - destruct (cache m SPropMap); cbn -[ensure_metadata]; [auto|first [apply ensure_same|auto]].
Qed.
Lemma get_coh w m g : K w m -> coherent w (fst (get w m g)).
Proof.
  intros H. destruct g; cbn -[ensure_metadata]; try (now apply ensure_coh).
  - destruct (cache m SFileList) eqn:E; cbn -[ensure_metadata]; [apply H|].
    intros s l. pose proof (ensure_coh w m (cache m SFileTerms) H) as C. unfold coherent in C.
    cbn [cache set_cache]. unfold put. intros E'.
    replace (read w (set_cache _ _)) with (read w (ensure_metadata w m (cache m SFileTerms))) by (now apply read_own).
    destruct s; cbn in E'; try discriminate; try (now apply C in E').
  - destruct (cache m SType); cbn -[ensure_metadata]; [apply H|now apply ensure_coh].
  - destruct (cache m SPropMap) eqn:E; cbn -[ensure_metadata]; [apply H|].
    intros s l. pose proof (ensure_coh w m (cache m SPropTerms) H) as C. unfold coherent in C.
    cbn [cache set_cache]. unfold put. intros E'.
    replace (read w (set_cache _ _)) with (read w (ensure_metadata w m (cache m SPropTerms))) by (now apply read_own).
    destruct s; cbn in E'; try discriminate; try (now apply C in E').
Qed.
Lemma get_K w m g : K w m -> K w (fst (get w m g)).
Proof. intros H. destruct (get_same w m g) as (A & B & _). eapply K_same; eauto using get_coh. Qed.
Lemma get_says w m g : K w m -> says (snd (get w m g)) (fun v => In v (read w m (about g))).
Proof.
  intros H. unfold says. destruct g; cbn -[ensure_metadata].
  - now apply (ensure_there w m STag).
  - now apply (ensure_there w m SThread).
  - destruct (cache m SFileList) eqn:E; cbn -[ensure_metadata].
    + apply (K_coh _ _ H) in E. now subst.
    + now apply (ensure_there w m SFileTerms).
  - destruct (cache m SType) eqn:E.
    + rewrite E. apply (K_coh _ _ H) in E. now subst.
    + rewrite <- E. now apply (ensure_there w m SType).
  - destruct (cache m SPropMap) eqn:E; cbn -[ensure_metadata].
    + apply (K_coh _ _ H) in E. now subst.
    + now apply (ensure_there w m SPropTerms).
  - now apply (ensure_there w m SReplyto).
Qed.

(** ** Changes *)
Definition changing (f : field) : Prop := f = Tag \/ f = File \/ f = Prop_.
(** The document changed in one field, what was remembered of it forgotten. *)
Lemma change_coh w m m' f :
  changing f -> coherent w m -> (forall g, g <> f -> read w m' g = read w m g) ->
  cache m' = cache (invalidate m f) -> coherent w m'.
Proof.
  intros Hf C R E s l. rewrite E. intros H.
  destruct (field_eqb_spec (slot_field s) f) as [<-|N].
  - destruct Hf as [Hf|[Hf|Hf]]; destruct s; cbn in *; congruence.
  - rewrite R by trivial. apply C. destruct Hf as [->|[->| ->]]; destruct s; cbn in *; congruence.
Qed.
Lemma doc_add_in d f v g x : In x (doc_add d f v g) <-> In x (d g) \/ (g = f /\ x = v).
Proof.
  unfold doc_add. destruct (field_eqb_spec g f) as [->|N].
  - destruct (in_dec bytes_eq_dec v (d f)).
    + split; [tauto|]. intros [?|[_ ->]]; trivial.
    + rewrite in_app_iff. cbn. split; [intros [?|[?|[]]]; auto|intros [?|[_ ?]]; auto].
  - split; [tauto|]. intros [?|[? _]]; trivial. contradiction.
Qed.
Lemma doc_remove_in d f p g x : In x (doc_remove d f p g) <-> In x (d g) /\ ~ (g = f /\ p x = true).
Proof.
  unfold doc_remove. destruct (field_eqb_spec g f) as [->|N].
  - rewrite filter_In. destruct (p x); cbn; intuition congruence.
  - intuition congruence.
Qed.
Lemma doc_add_proper d f v : changing f -> proper d -> prefix_len f + length v <= 245 -> (f = Tag -> length v <= 200) -> proper (doc_add d f v).
Proof.
  intros Hf (A & B & C & D) L1 L2. split; [|split; [|split]].
  - intros g x. rewrite doc_add_in. intros [?|[-> ->]]; auto.
  - intros x. rewrite doc_add_in. intros [?|[E ->]]; auto.
  - destruct Hf as [->|[->| ->]]; trivial.
  - destruct Hf as [->|[->| ->]]; trivial.
Qed.
Lemma doc_remove_proper d f p : changing f -> proper d -> proper (doc_remove d f p).
Proof.
  intros Hf (A & B & C & D). split; [|split; [|split]].
  - intros g x. rewrite doc_remove_in. intros [? _]; auto.
  - intros x. rewrite doc_remove_in. intros [? _]; auto.
  - destruct Hf as [->|[->| ->]]; trivial.
  - destruct Hf as [->|[->| ->]]; trivial.
Qed.
Lemma invalidate_K w m f : changing f -> K w m -> K w (invalidate m f).
Proof.
  intros Hf H. apply (K_same w m); trivial. apply (change_coh w m _ f); trivial. apply H.
Qed.
Lemma add_term_K w m f v :
  changing f -> K w m -> prefix_len f + length v <= 245 -> (f = Tag -> length v <= 200) ->
  exists m1, add_term w m f v = Some m1 /\ K w m1 /\ frozen m1 = frozen m /\
             forall g x, In x (read w m1 g) <-> In x (read w m g) \/ (g = f /\ x = v).
Proof.
  intros Hf H L1 L2. unfold add_term. destruct (245 <? prefix_len f + length v) eqn:E; [apply Nat.ltb_lt in E; lia|].
  eexists. split; [reflexivity|].
  split; [|split; [reflexivity|intros g x; apply doc_add_in]].
  split.
  - apply (change_coh w m _ f); trivial; [apply H|]. intros g N. cbn. unfold doc_add.
    destruct (field_eqb_spec g f); [contradiction|trivial].
  - apply doc_add_proper; trivial. apply H.
  - discriminate.
Qed.
Lemma remove_some w m f p : changing f -> K w m -> K w (invalidate (set_doc m (doc_remove (read w m) f p)) f).
Proof.
  intros Hf H. split.
  - apply (change_coh w m _ f); trivial; [apply H|]. intros g N. cbn. unfold doc_remove.
    destruct (field_eqb_spec g f); [contradiction|trivial].
  - apply doc_remove_proper; trivial. apply H.
  - discriminate.
Qed.
Lemma remove_term_K w m f v :
  changing f -> K w m -> prefix_len f + length v <= 245 ->
  exists m1, remove_term w m f v = Some m1 /\ K w m1 /\ frozen m1 = frozen m /\
             forall g x, In x (read w m1 g) <-> In x (read w m g) /\ ~ (g = f /\ x = v).
Proof.
  intros Hf H L1. unfold remove_term. destruct (245 <? prefix_len f + length v) eqn:E; [apply Nat.ltb_lt in E; lia|].
  eexists. split; [reflexivity|]. destruct (in_dec bytes_eq_dec v (read w m f)).
  - split; [now apply remove_some|]. split; [reflexivity|]. intros g x.
    transitivity (In x (doc_remove (read w m) f (bseq v) g)); [reflexivity|]. rewrite doc_remove_in, bseq_eq. intuition.
  - split; [now apply invalidate_K|]. split; [reflexivity|]. intros g x.
    transitivity (In x (read w m g)); [reflexivity|]. split; [|tauto]. intros I. split; trivial. intros [-> ->]. contradiction.
Qed.
Lemma remove_terms_K w m pre :
  K w m -> K w (remove_terms w m pre) /\ frozen (remove_terms w m pre) = frozen m /\
  forall g x, In x (read w (remove_terms w m pre) g) <-> In x (read w m g) /\ ~ (g = Prop_ /\ exists r, x = pre ++ r).
Proof.
  assert (Hf : changing Prop_) by (unfold changing; auto).
  intros H. unfold remove_terms. destruct (existsb _ _) eqn:E.
  - split; [now apply remove_some|]. split; [reflexivity|]. intros g x.
    transitivity (In x (doc_remove (read w m) Prop_ (starts_with pre) g)); [reflexivity|].
    now rewrite doc_remove_in, starts_with_app.
  - split; [now apply invalidate_K|]. split; [reflexivity|]. intros g x.
    transitivity (In x (read w m g)); [reflexivity|]. split; [|tauto]. intros I. split; trivial. intros [-> X].
    apply starts_with_app in X. enough (existsb (starts_with pre) (read w m Prop_) = true) by congruence.
    apply existsb_exists. eauto.
Qed.
Lemma remove_each_K w : forall l m, K w m -> (forall t, In t l -> length t <= 200) ->
  exists m1, remove_each w m l = (m1, true) /\ K w m1 /\ frozen m1 = frozen m /\
             forall g x, In x (read w m1 g) <-> In x (read w m g) /\ ~ (g = Tag /\ In x l).
Proof.
  induction l as [|t l IH]; intros m H L; cbn.
  - exists m. intuition.
  - destruct (remove_term_K w m Tag t) as (m1 & -> & H1 & F1 & R1); [unfold changing; auto|trivial| |].
    { specialize (L t (or_introl eq_refl)). cbn. lia. }
    destruct (IH m1 H1) as (m2 & -> & H2 & F2 & R2). { intros; apply L; now right. }
    exists m2. split; trivial. split; trivial. split; [congruence|]. intros g x. rewrite R2, R1. intuition.
Qed.

(** ** Writing it *)
(** The invariant between operations; [P] is what is known of the message. *)
Record I (w : world) (m : message) (P : facts) : Prop := {
  I_K : K w m;
  I_w : writable w = true;
  I_f : frozen m = 0 -> modified m = false;
  I_P : forall f v, In v (read w m f) <-> P f v }.
Lemma sync_I w m P : K w m -> writable w = true -> (forall f v, In v (read w m f) <-> P f v) -> I (fst (sync w m)) (snd (sync w m)) P.
Proof.
  intros H W R. unfold sync. rewrite W. cbn. destruct (modified m) eqn:M; cbn.
  - assert (E : forall m', own m' = own m -> forall f, read {| stored := read w m; view := view w; writable := true |} m' f = read w m f).
    { intros m' E f. unfold read. rewrite E. cbn. unfold read. destruct (own m); trivial. }
    split; cbn; trivial.
    + split.
      * intros s l Hs. rewrite E by trivial. now apply (K_coh _ _ H).
      * destruct (K_prop _ _ H) as (A & B & C & D). split; [|split; [|split]]; intros *; rewrite E by trivial; auto.
      * intros _ f. now rewrite E.
    + intros f v. now rewrite E.
  - now split.
Qed.
Lemma sync_thawed_I w m P : K w m -> writable w = true -> (forall f v, In v (read w m f) <-> P f v) -> I (fst (sync_thawed w m)) (snd (sync_thawed w m)) P.
Proof.
  intros H W R. unfold sync_thawed. destruct (frozen m) eqn:F; cbn; [now apply sync_I|].
  split; trivial. rewrite F. discriminate.
Qed.
Lemma I_ext w m P Q : I w m P -> (forall f v, P f v <-> Q f v) -> I w m Q.
Proof. intros [A B C D] E. split; trivial. intros. now rewrite D, E. Qed.
Lemma no_eq k : existsb (beq "=") k = false <-> ~ In "="%char k.
Proof.
  split.
  - intros E N. enough (existsb (beq "=") k = true) by congruence. apply existsb_exists. exists "="%char. now rewrite beq_refl.
  - intros N. destruct (existsb (beq "=") k) eqn:E; trivial. apply existsb_exists in E as (x & X & E). apply beq_eq in E. subst. contradiction.
Qed.
Lemma has_eq k : existsb (beq "=") k = true -> In "="%char k.
Proof. intros E. apply existsb_exists in E as (x & X & E). apply beq_eq in E. now subst. Qed.

Lemma step_I w m P o : I w m P -> plain o -> I (fst (step w m o)) (snd (step w m o)) (after o P).
Proof.
  intros HI Hp. pose proof HI as [HK W F R].
  assert (CT : changing Tag) by (unfold changing; auto).
  assert (CF : changing File) by (unfold changing; auto).
  assert (CP : changing Prop_) by (unfold changing; auto).
  destruct o; cbn [step plain] in *; try contradiction; rewrite ?W; cbn [negb].
  - (* Get *) cbn [fst snd after]. destruct (get_same w m g) as (A & B & C). split; trivial.
    + now apply get_K.
    + rewrite B, C. trivial.
    + intros. rewrite (read_own _ _ _ A). apply R.
  - (* Add_tag *) destruct (200 <? length t) eqn:L.
    + apply Nat.ltb_lt in L. apply (I_ext _ _ P); trivial. intros f v. cbn. split; [tauto|]. intros [?|(_ & -> & ?)]; trivial. lia.
    + apply Nat.ltb_ge in L. destruct (add_term_K w m Tag t) as (m1 & E & H1 & F1 & R1); trivial. { cbn. lia. }
      unfold then_sync. rewrite E. apply sync_thawed_I; trivial. intros f v. rewrite R1, R. cbn. intuition.
  - (* Remove_tag *) destruct (200 <? length t) eqn:L.
    + apply Nat.ltb_lt in L. apply (I_ext _ _ P); trivial. intros f v. cbn. split; [|tauto]. intros ?. split; trivial. intros (_ & _ & ?). lia.
    + apply Nat.ltb_ge in L. destruct (remove_term_K w m Tag t) as (m1 & E & H1 & F1 & R1); trivial. { cbn. lia. }
      unfold then_sync. rewrite E. apply sync_thawed_I; trivial. intros f v. rewrite R1, R. cbn. intuition.
  - (* Remove_all_tags *)
    destruct (get w m Tags) as [m1 tags] eqn:E. pose proof (get_says w m Tags HK) as S. pose proof (get_K w m Tags HK) as K1.
    destruct (get_same w m Tags) as (A & B & C). rewrite E in S, K1, A, B, C. cbn [fst snd] in *. unfold says in S. cbn [about] in S.
    destruct (remove_each_K w (match tags with Some l => l | None => [] end) m1 K1) as (m2 & E2 & K2 & F2 & R2).
    { intros t I. apply S in I. destruct (K_prop _ _ HK) as (_ & X & _). auto. }
    rewrite E2. apply sync_thawed_I; trivial. intros f v. rewrite R2, S, (read_own _ _ _ A), R. cbn.
    split; intros [X Y]; split; trivial.
    * intros ->. apply Y. split; trivial. now apply R.
    * tauto.
  - (* Add_property *) destruct (existsb (beq "=") key) eqn:Q.
    + apply has_eq in Q. apply (I_ext _ _ P); trivial. intros f v. cbn. intuition.
    + apply no_eq in Q. destruct (le_lt_dec (length (key ++ "="%char :: value)) 236) as [L|L].
      * destruct (add_term_K w m Prop_ (key ++ "="%char :: value)) as (m1 & E & H1 & F1 & R1); trivial.
        { change (9 + length (key ++ "="%char :: value) <= 245). lia. }
        { discriminate. }
        unfold then_sync. rewrite E. apply sync_thawed_I; trivial. intros f v. rewrite R1, R. unfold after. intuition. subst v. auto.
      * unfold then_sync, add_term. change (prefix_len Prop_) with 9.
        destruct (245 <? 9 + length (key ++ "="%char :: value)) eqn:E; [|apply Nat.ltb_ge in E; lia].
        apply (I_ext _ _ P); trivial. intros f v. unfold after. split; [tauto|]. intros [?|(_ & -> & _ & ?)]; trivial. lia.
  - (* Remove_property *) destruct (existsb (beq "=") key) eqn:Q.
    + apply has_eq in Q. apply (I_ext _ _ P); trivial. intros f v. cbn. intuition.
    + apply no_eq in Q. destruct (le_lt_dec (length (key ++ "="%char :: value)) 236) as [L|L].
      * destruct (remove_term_K w m Prop_ (key ++ "="%char :: value)) as (m1 & E & H1 & F1 & R1); trivial.
        { change (9 + length (key ++ "="%char :: value) <= 245). lia. }
        unfold then_sync. rewrite E. apply sync_thawed_I; trivial. intros f v. rewrite R1, R. unfold after. intuition.
      * unfold then_sync, remove_term. change (prefix_len Prop_) with 9.
        destruct (245 <? 9 + length (key ++ "="%char :: value)) eqn:E; [|apply Nat.ltb_ge in E; lia].
        apply (I_ext _ _ P); trivial. intros f v. unfold after. split; [|tauto]. intros X. split; trivial. intros (-> & -> & _).
        apply R in X. apply (K_prop _ _ HK) in X. change (prefix_len Prop_) with 9 in X. lia.
  - (* Remove_properties *) destruct (remove_terms_K w m pre HK) as (H1 & F1 & R1).
    apply sync_thawed_I; trivial. intros f v. rewrite R1, R. cbn. tauto.
  - (* Rename *) destruct Hp as [L1 L2].
    destruct (remove_term_K w m File old) as (m1 & E1 & H1 & F1 & R1); trivial. { cbn. lia. }
    destruct (add_term_K w m1 File new) as (m2 & E2 & H2 & F2 & R2); trivial. { cbn. lia. } { discriminate. }
    rewrite E1, E2. apply sync_I; trivial. intros f v. rewrite R2, R1, R. cbn. tauto.
  - (* Freeze *) split; trivial; try discriminate. apply (K_same w m); trivial. intros s l. apply HK.
  - (* Thaw *) destruct (frozen m) eqn:E; [trivial|]. apply sync_thawed_I; trivial. apply (K_same w m); trivial. intros s l. apply HK.
Qed.
Lemma run_I : forall os w m P w' m', I w m P -> Forall plain os -> run w m os = (w', m') -> I w' m' (after_all os P).
Proof.
  induction os as [|o os IH]; cbn; intros w m P w' m' H F E.
  - now injection E as <- <-.
  - inversion F as [|? ? Fo Fs]; subst. pose proof (step_I w m P o H Fo) as S. destruct (step w m o) as [w1 m1]. eapply IH; eauto.
Qed.
Lemma fresh_K w : proper (stored w) -> K w fresh.
Proof. intros H. split; trivial. intros s l X. discriminate. Qed.
Lemma opened_I d : proper d -> I (opened d true) fresh (facts_of d).
Proof. intros H. split; trivial. - now apply fresh_K. - reflexivity. Qed.

(** A database that is only read. *)
Lemma step_ro w m o : K w m -> writable w = false -> (forall f, read w m f = stored w f) ->
  match o with Changed _ => False | _ => True end ->
  fst (step w m o) = w /\ K w (snd (step w m o)) /\ read w (snd (step w m o)) = read w m.
Proof.
  intros H W R N. destruct o; cbn [step]; rewrite ?W; cbn; try contradiction; auto.
  split; trivial. split; [now apply get_K|]. apply read_own, get_same.
Qed.
Lemma run_ro : forall os w m w' m', K w m -> writable w = false -> (forall f, read w m f = stored w f) ->
  Forall (fun o => match o with Changed _ => False | _ => True end) os -> run w m os = (w', m') ->
  w' = w /\ K w m' /\ read w m' = read w m.
Proof.
  induction os as [|o os IH]; cbn; intros w m w' m' H W R F E.
  - injection E as <- <-. auto.
  - inversion F as [|? ? Fo Fs]; subst. pose proof (step_ro w m o H W R Fo) as (S1 & S2 & S3).
    destruct (step w m o) as [w1 m1]. cbn in *. subst w1.
    destruct (IH w m1 w' m' S2 W) as (A & B & C); trivial. { intros. now rewrite S3. } repeat split; trivial; try apply B. congruence.
Qed.
