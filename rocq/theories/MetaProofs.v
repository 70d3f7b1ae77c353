From Verif Require Import Bytes Terms Meta.
From Coq Require Import Sorted.

(** Strings with prefix [p] are those not below [p] up to the end of the block. *)
Lemma prefix_ge p r : bltb (p ++ r) p = false.
Proof.
  unfold bltb. induction p as [|c p IH]; cbn; [destruct r; reflexivity|].
  rewrite N.compare_refl. exact IH.
Qed.
Lemma prefix_block p t u : bltb t p = false -> bltb t u = true -> starts_with p u = true -> starts_with p t = true.
Proof.
  unfold bltb. revert t u. induction p as [|c p IH]; intros t u Ht Htu Hu; [reflexivity|].
  destruct u as [|y u]; [discriminate|]. unfold starts_with in Hu |- *. cbn [strip_prefix] in Hu |- *.
  destruct (beq_spec c y) as [->|]; [|discriminate].
  destruct t as [|x t]; [discriminate|]. cbn in Ht, Htu |- *.
  destruct (N.compare_spec (code x) (code y)) as [E|E|E].
  - apply code_inj in E. subst x. rewrite beq_refl. apply (IH t u); auto.
  - discriminate.
  - discriminate.
Qed.

Lemma skip_to_In p t i : tsorted i -> In t (skip_to p i) <-> In t i /\ bltb t p = false.
Proof.
  unfold tsorted. induction 1 as [|x l Hl IH Hx]; cbn; [tauto|].
  destruct (bltb x p) eqn:E.
  - rewrite IH. intuition congruence.
  - cbn. split; [|tauto]. intros [->|H]; [auto|]. split; [auto|].
    rewrite Forall_forall in Hx. apply Hx in H. unfold blt in H.
    destruct (bltb t p) eqn:Et; [|reflexivity].
    pose proof (bltb_trans _ _ _ H Et). congruence.
Qed.
Lemma skip_to_sorted p i : tsorted i -> tsorted (skip_to p i).
Proof.
  unfold tsorted. induction 1 as [|x l Hl IH Hx]; cbn; [constructor|].
  destruct (bltb x p); auto. constructor; auto.
Qed.

Lemma terms_loop_In p i : tsorted i -> (forall t, In t i -> bltb t p = false) ->
  (forall r, In r (fst (terms_loop p i)) <-> In (p ++ r) i) /\
  (forall t, In t (snd (terms_loop p i)) <-> In t i /\ starts_with p t = false) /\
  tsorted (snd (terms_loop p i)).
Proof.
  unfold tsorted. induction 1 as [|x l Hl IH Hx]; intros Hge; cbn [terms_loop].
  - cbn. split; [tauto|]. split; [tauto|constructor].
  - assert (Hge' : forall t, In t l -> bltb t p = false) by (intros t Ht; apply Hge; now right).
    specialize (IH Hge'). destruct (strip_prefix p x) as [r|] eqn:E.
    + apply strip_prefix_Some in E. subst x. destruct (terms_loop p l) as [rs e]. cbn [fst snd In] in *.
      destruct IH as (IH1 & IH2 & IH3). split; [|split; [|exact IH3]].
      * intros r'. rewrite IH1. split; [intros [->|H]; auto|].
        intros [H|H]; [apply app_inv_head in H; auto|auto].
      * intros t. rewrite IH2. split; [tauto|]. intros [[<-|H] Hs]; [|auto].
        exfalso. unfold starts_with in Hs. rewrite strip_prefix_app in Hs. discriminate.
    + cbn [fst snd]. assert (Hns : starts_with p x = false) by (unfold starts_with; now rewrite E).
      assert (Hall : forall t, In t (x :: l) -> starts_with p t = false).
      { intros t [<-|Ht]; [exact Hns|]. destruct (starts_with p t) eqn:Es; [|reflexivity].
        rewrite Forall_forall in Hx. specialize (Hx t Ht). unfold blt in Hx.
        rewrite (prefix_block p x t (Hge x (or_introl eq_refl)) Hx Es) in Hns. discriminate. }
      split; [|split].
      * intros r. split; [intros []|]. intros H. apply Hall in H.
        unfold starts_with in H. rewrite strip_prefix_app in H. discriminate.
      * intros t. split; [|tauto]. intros H. split; auto.
      * constructor; auto.
Qed.

(** Characterisation of reading one prefix from an iterator that still covers it. *)
Lemma get_terms_spec p i : tsorted i ->
  (forall r, In r (fst (get_terms_with_prefix p i)) <-> In (p ++ r) i) /\
  tsorted (snd (get_terms_with_prefix p i)) /\
  (forall t, In t (snd (get_terms_with_prefix p i)) <->
             In t i /\ bltb t p = false /\ starts_with p t = false).
Proof.
  intros Hs. unfold get_terms_with_prefix.
  destruct (terms_loop_In p (skip_to p i)) as (H1 & H2 & H3).
  - now apply skip_to_sorted.
  - intros t Ht. apply skip_to_In in Ht; tauto.
  - split; [|split; [exact H3|]].
    + intros r. rewrite H1, skip_to_In by exact Hs. rewrite prefix_ge. tauto.
    + intros t. rewrite H2, skip_to_In by exact Hs. tauto.
Qed.

Lemma terms_loop_sorted p i : tsorted i -> tsorted (fst (terms_loop p i)).
Proof.
  unfold tsorted. induction 1 as [|x l Hl IH Hx]; cbn [terms_loop]; [constructor|].
  destruct (strip_prefix p x) as [r|] eqn:E; [|constructor].
  apply strip_prefix_Some in E. subst x.
  destruct (terms_loop p l) as [rs e] eqn:El. cbn [fst] in *. constructor; [exact IH|].
  rewrite Forall_forall in *. intros r' Hr'.
  assert (Hin : In (p ++ r') l).
  { clear -Hr' El. revert rs e El Hr'. induction l as [|y l IH]; intros rs e El Hr'; cbn in El.
    - injection El as <- <-. destruct Hr'.
    - destruct (strip_prefix p y) as [ry|] eqn:Ey.
      + apply strip_prefix_Some in Ey. destruct (terms_loop p l) as [rs2 e2].
        injection El as <- <-. destruct Hr' as [->|Hr']; [left; congruence|right; eauto].
      + injection El as <- <-. destruct Hr'. }
  apply Hx in Hin. clear -Hin. unfold blt, bltb in *.
  induction p as [|c p IH]; cbn in *; [exact Hin|]. rewrite N.compare_refl in Hin. auto.
Qed.
Lemma get_terms_sorted p i : tsorted i -> tsorted (fst (get_terms_with_prefix p i)).
Proof. intros H. apply terms_loop_sorted. now apply skip_to_sorted. Qed.

Lemma tags_of_In terms t : tsorted terms -> (In t (tags_of terms) <-> In (tag_term t) terms).
Proof. intros H. apply (proj1 (get_terms_spec tag_prefix terms H)). Qed.
Lemma tags_of_sorted terms : tsorted terms -> tsorted (tags_of terms).
Proof. apply get_terms_sorted. Qed.

Lemma get_term_spec p i : tsorted i ->
  tsorted (snd (get_term p i)) /\
  (forall t, In t (snd (get_term p i)) <-> In t i /\ bltb t p = false) /\
  (forall v, fst (get_term p i) = Some v -> In (p ++ v) i /\
      forall v', In (p ++ v') i -> bleb v v' = true) /\
  (fst (get_term p i) = None -> forall v, ~ In (p ++ v) i).
Proof.
  intros Hs. unfold get_term. pose proof (skip_to_sorted p i Hs) as Hs'.
  assert (HIn : forall t, In t (skip_to p i) <-> In t i /\ bltb t p = false) by (intros; now apply skip_to_In).
  destruct (skip_to p i) as [|t l] eqn:E; cbn [fst snd].
  - split; [exact Hs'|]. split; [exact HIn|]. split; [congruence|].
    intros _ v Hv. apply (proj2 (HIn (p ++ v))). split; [exact Hv|apply prefix_ge].
  - split; [exact Hs'|]. split; [exact HIn|].
    inversion Hs' as [|? ? Hl Ht]; subst. rewrite Forall_forall in Ht.
    split.
    + intros v Hv. apply strip_prefix_Some in Hv. subst t. split.
      * apply (proj1 (HIn (p ++ v))). now left.
      * intros v' Hv'. 
        destruct (proj2 (HIn (p ++ v'))) as [Heq|Hin']; [split; [exact Hv'|apply prefix_ge]| |].
        -- apply app_inv_head in Heq. subst. apply bleb_refl.
        -- apply Ht in Hin'. unfold blt in Hin'. apply bleb_lt_or_eq. left.
           clear -Hin'. unfold bltb in *. induction p as [|c p IH]; cbn in *; auto.
           rewrite N.compare_refl in Hin'. auto.
    + intros Hn v Hv.
      destruct (proj2 (HIn (p ++ v))) as [Heq|Hin]; [split; [exact Hv|apply prefix_ge]| |].
      * subst t. rewrite strip_prefix_app in Hn. congruence.
      * apply Ht in Hin. unfold blt in Hin.
        assert (Hsw : starts_with p t = true).
        { apply (prefix_block p t (p ++ v)); auto.
          - apply (proj1 (HIn t)). now left.
          - unfold starts_with. now rewrite strip_prefix_app. }
        unfold starts_with in Hsw. rewrite Hn in Hsw. discriminate.
Qed.

(** Table facts: two different prefixes used for indexing never clash. *)
Definition used_prefixes : list bytes :=
  map lit ["T"; "XREFERENCE"; "XREPLYTO"; "XDIRECTORY"; "XFDIRENTRY"; "XDDIRENTRY"; "G"; "K"; "Q"; "P";
           "XPROPERTY"; "XFOLDER:"; "XFROM"; "XTO"; "XATTACHMENT"; "XMIMETYPE"; "XSUBJECT"]%string.

Lemma no_clash p q v w : In p used_prefixes -> In q used_prefixes -> p ++ v = q ++ w -> p = q /\ v = w.
Proof.
  assert (H : forallb (fun p => forallb (fun q => bseq p q || negb (starts_with p q)) used_prefixes) used_prefixes = true)
    by (vm_compute; reflexivity).
  intros Hp Hq E.
  assert (K : forall a b c d : bytes, a ++ c = b ++ d -> starts_with a b = true \/ starts_with b a = true).
  { clear. induction a as [|x a IH]; intros b c d E; [left; reflexivity|].
    destruct b as [|y b]; [right; reflexivity|]. cbn in E. injection E as -> E.
    unfold starts_with. cbn. rewrite beq_refl. apply IH in E. exact E. }
  apply K in E as Hk.
  assert (p = q).
  { destruct Hk as [Hk|Hk].
    - pose proof (forallb_In _ _ _ (forallb_In _ _ _ H Hp) Hq) as G. cbv beta in G. rewrite Hk in G.
      rewrite orb_false_r in G. now apply bseq_eq.
    - pose proof (forallb_In _ _ _ (forallb_In _ _ _ H Hq) Hp) as G. cbv beta in G. rewrite Hk in G.
      rewrite orb_false_r in G. symmetry. now apply bseq_eq. }
  subst q. split; [reflexivity|]. now apply app_inv_head in E.
Qed.

Lemma starts_with_other p q v : In p used_prefixes -> In q used_prefixes -> p <> q -> starts_with p (q ++ v) = false.
Proof.
  intros Hp Hq Hne. destruct (starts_with p (q ++ v)) eqn:E; [|reflexivity].
  apply starts_with_app in E as [r Hr]. destruct (no_clash q p v r); auto. congruence.
Qed.

(** The single pass over the sorted terms sees every kind completely. *)
Lemma bltb_app_later p q v : bltb p q = true -> starts_with p q = false -> bltb (q ++ v) p = false.
Proof.
  unfold bltb. revert q; induction p as [|c p IH]; intros [|d q]; cbn; try congruence; auto.
  unfold starts_with. cbn [strip_prefix].
  rewrite (N.compare_antisym (code c) (code d)).
  destruct (N.compare_spec (code c) (code d)) as [E|E|E]; cbn; try congruence; auto.
  apply code_inj in E. subst d. rewrite beq_refl. intros H1 H2. apply IH; auto.
Qed.

Lemma ensure_metadata_spec terms : tsorted terms ->
  let m := ensure_metadata terms in
  (forall t, In t (mt_tags m) <-> In (lit "K" ++ t) terms) /\
  (forall r, In r (mt_references m) <-> In (lit "XREFERENCE" ++ r) terms) /\
  (forall f, In f (mt_filenames m) <-> In (lit "XFDIRENTRY" ++ f) terms) /\
  (forall f, In f (mt_properties m) <-> In (lit "XPROPERTY" ++ f) terms) /\
  (forall v, mt_thread m = Some v -> In (lit "G" ++ v) terms) /\
  (mt_thread m = None -> forall v, ~ In (lit "G" ++ v) terms) /\
  (forall v, mt_id m = Some v -> In (lit "Q" ++ v) terms) /\
  (mt_id m = None -> forall v, ~ In (lit "Q" ++ v) terms) /\
  (mt_in_reply_to m <> [] -> In (lit "XREPLYTO" ++ mt_in_reply_to m) terms) /\
  (forall v, In (lit "XREPLYTO" ++ v) terms ->
     In (lit "XREPLYTO" ++ mt_in_reply_to m) terms /\ bleb (mt_in_reply_to m) v = true) /\
  NoDup (mt_tags m).
Proof.
  intros Hs. unfold ensure_metadata. cbv zeta.
  set (P := fun (l : list bytes) (q : bytes) => forall v, In (q ++ v) l <-> In (q ++ v) terms).
  destruct (get_term_spec thread_prefix terms Hs) as (S1 & I1 & A1 & B1).
  destruct (get_term thread_prefix terms) as [thr i1]. cbn [fst snd] in *.
  destruct (get_terms_spec tag_prefix i1 S1) as (T2 & S2 & I2).
  pose proof (tsorted_nodup _ (get_terms_sorted tag_prefix i1 S1)) as N2.
  destruct (get_terms_with_prefix tag_prefix i1) as [tags i2]. cbn [fst snd] in *.
  destruct (get_term_spec id_prefix i2 S2) as (S3 & I3 & A3 & B3).
  destruct (get_term id_prefix i2) as [idv i3]. cbn [fst snd] in *.
  assert (S4 : tsorted (skip_to type_prefix i3)) by now apply skip_to_sorted.
  assert (I4 : forall t, In t (skip_to type_prefix i3) <-> In t i3 /\ bltb t type_prefix = false)
    by (intros; now apply skip_to_In).
  set (i4 := skip_to type_prefix i3) in *. clearbody i4.
  destruct (get_terms_spec filename_prefix i4 S4) as (T5 & S5 & I5).
  destruct (get_terms_with_prefix filename_prefix i4) as [files i5]. cbn [fst snd] in *.
  destruct (get_terms_spec property_prefix i5 S5) as (T6 & S6 & I6).
  destruct (get_terms_with_prefix property_prefix i5) as [props i6]. cbn [fst snd] in *.
  destruct (get_terms_spec reference_prefix i6 S6) as (T7 & S7 & I7).
  destruct (get_terms_with_prefix reference_prefix i6) as [refs i7]. cbn [fst snd] in *.
  destruct (get_term_spec replyto_prefix i7 S7) as (S8 & I8 & A8 & B8).
  destruct (get_term replyto_prefix i7) as [irt i8]. cbn [fst snd] in *.
  cbn [mt_tags mt_references mt_filenames mt_properties mt_thread mt_id mt_in_reply_to].
  assert (L : forall p q v, bltb p q = true -> starts_with p q = false -> bltb (q ++ v) p = false)
    by (intros; now apply bltb_app_later).
  assert (W : forall p q v, In p used_prefixes -> In q used_prefixes -> bseq p q = false -> starts_with p (q ++ v) = false).
  { intros. apply starts_with_other; auto. now apply bseq_neq. }
  assert (U : forall p, existsb (bseq p) used_prefixes = true -> In p used_prefixes).
  { intros p Hp. apply existsb_exists in Hp as (x & Hx & E). apply bseq_eq in E. now subst. }
  assert (E1 : forall q v, bltb thread_prefix q = true -> starts_with thread_prefix q = false ->
     (In (q ++ v) i1 <-> In (q ++ v) terms)).
  { intros q v H1 H2. rewrite I1. rewrite (L _ _ v H1 H2). tauto. }
  assert (E2 : forall q v, existsb (bseq q) used_prefixes = true ->
     bltb thread_prefix q = true -> starts_with thread_prefix q = false ->
     bltb tag_prefix q = true -> starts_with tag_prefix q = false -> bseq tag_prefix q = false ->
     (In (q ++ v) i2 <-> In (q ++ v) terms)).
  { intros q v H0 H1 H2 H3 H4 H5. rewrite I2, (E1 q v H1 H2), (L _ _ v H3 H4), (W tag_prefix q v); first [tauto | now apply U | assumption]. }
  assert (E4 : forall q v, existsb (bseq q) used_prefixes = true ->
     bltb thread_prefix q = true -> starts_with thread_prefix q = false ->
     bltb tag_prefix q = true -> starts_with tag_prefix q = false -> bseq tag_prefix q = false ->
     bltb id_prefix q = true -> starts_with id_prefix q = false ->
     bltb type_prefix q = true -> starts_with type_prefix q = false ->
     (In (q ++ v) i4 <-> In (q ++ v) terms)).
  { intros q v H0 H1 H2 H3 H4 H5 H6 H7 H8 H9.
    rewrite I4, I3, (E2 q v H0 H1 H2 H3 H4 H5), (L _ _ v H6 H7), (L _ _ v H8 H9). tauto. }
  assert (F5 : forall v, In (filename_prefix ++ v) i4 <-> In (filename_prefix ++ v) terms) by (intros; apply E4; reflexivity).
  assert (F6 : forall v, In (property_prefix ++ v) i5 <-> In (property_prefix ++ v) terms).
  { intros v. rewrite I5, (E4 property_prefix v), (L filename_prefix property_prefix v), (W filename_prefix property_prefix v);
      try reflexivity; try (apply U; reflexivity). tauto. }
  assert (F7 : forall v, In (reference_prefix ++ v) i6 <-> In (reference_prefix ++ v) terms).
  { intros v. rewrite I6, I5, (E4 reference_prefix v), (L filename_prefix reference_prefix v), (W filename_prefix reference_prefix v),
     (L property_prefix reference_prefix v), (W property_prefix reference_prefix v);
      try reflexivity; try (apply U; reflexivity). tauto. }
  assert (F8 : forall v, In (replyto_prefix ++ v) i7 <-> In (replyto_prefix ++ v) terms).
  { intros v. rewrite I7, I6, I5, (E4 replyto_prefix v), (L filename_prefix replyto_prefix v), (W filename_prefix replyto_prefix v),
     (L property_prefix replyto_prefix v), (W property_prefix replyto_prefix v),
     (L reference_prefix replyto_prefix v), (W reference_prefix replyto_prefix v);
      try reflexivity; try (apply U; reflexivity). tauto. }
  split; [intros t; rewrite T2; apply E1; reflexivity|].
  split; [intros r; rewrite T7; apply F7|].
  split; [intros r; rewrite T5; apply F5|].
  split; [intros r; rewrite T6; apply F6|].
  split; [intros v Hv; apply (A1 v Hv)|].
  split; [exact B1|].
  split; [intros v Hv; apply (E2 id_prefix v); try reflexivity; apply (A3 v Hv)|].
  split; [intros Hn v Hv; apply (B3 Hn v); apply (E2 id_prefix v); try reflexivity; exact Hv|].
  split; [|split; [|exact N2]].
  - destruct irt as [r|]; [|congruence]. intros _. apply F8. apply (A8 r eq_refl).
  - intros v Hv. destruct irt as [r|].
    + destruct (A8 r eq_refl) as [H1 H2]. split; [apply F8; exact H1|]. apply H2. now apply F8.
    + exfalso. apply (B8 eq_refl v). now apply F8.
Qed.

Lemma ensure_metadata_type terms ty : tsorted terms ->
  In (lit "T" ++ ty) terms -> (forall v, In (lit "T" ++ v) terms -> v = ty) ->
  mt_ghost (ensure_metadata terms)
  = (if bseq ty (lit "mail") then Some false else if bseq ty (lit "ghost") then Some true else None).
Proof.
  intros Hs Hin Hu. unfold ensure_metadata.
  destruct (get_term_spec thread_prefix terms Hs) as (S1 & I1 & A1 & B1).
  destruct (get_term thread_prefix terms) as [thr i1]. cbn [fst snd] in *.
  destruct (get_terms_spec tag_prefix i1 S1) as (T2 & S2 & I2).
  destruct (get_terms_with_prefix tag_prefix i1) as [tags i2]. cbn [fst snd] in *.
  destruct (get_term_spec id_prefix i2 S2) as (S3 & I3 & A3 & B3).
  destruct (get_term id_prefix i2) as [idv i3]. cbn [fst snd] in *.
  assert (S4 : tsorted (skip_to type_prefix i3)) by now apply skip_to_sorted.
  assert (I4 : forall t, In t (skip_to type_prefix i3) <-> In t i3 /\ bltb t type_prefix = false)
    by (intros; now apply skip_to_In).
  assert (F : In (lit "T" ++ ty) (skip_to type_prefix i3)).
  { apply I4. split; [|apply prefix_ge].
    apply I3. split; [|apply bltb_app_later; reflexivity].
    apply I2. split; [|split; [apply bltb_app_later; reflexivity|reflexivity]].
    apply I1. split; [exact Hin|apply bltb_app_later; reflexivity]. }
  assert (G : forall v, In (lit "T" ++ v) (skip_to type_prefix i3) -> v = ty).
  { intros v Hv. apply Hu. apply I4 in Hv as [Hv _]. apply I3 in Hv as [Hv _].
    apply I2 in Hv as [Hv _]. now apply I1 in Hv. }
  assert (Hd : forall t r, skip_to type_prefix i3 = t :: r -> bltb t type_prefix = false).
  { intros t r E. apply (proj1 (I4 t)). rewrite E. now left. }
  destruct (skip_to type_prefix i3) as [|t l]; [destruct F|].
  destruct (get_terms_with_prefix filename_prefix (t :: l)) as [files i5].
  destruct (get_terms_with_prefix property_prefix i5) as [props i6].
  destruct (get_terms_with_prefix reference_prefix i6) as [refs i7].
  destruct (get_term replyto_prefix i7) as [irt i8]. cbn [mt_ghost].
  assert (E : t = lit "T" ++ ty).
  { destruct F as [F|F]; [exact F|].
    inversion S4 as [|? ? Hl Ht]; subst. rewrite Forall_forall in Ht. apply Ht in F.
    assert (Hsw : starts_with type_prefix t = true).
    { apply (prefix_block type_prefix t (lit "T" ++ ty)); auto.
      - now apply (Hd t l).
      }
    apply starts_with_app in Hsw as [v Hv]. subst t.
    f_equal. apply G. left. reflexivity. }
  subst t. cbn. reflexivity.
Qed.

Lemma find_prefix_used name p : find_prefix name = Some p -> p <> [] -> In p used_prefixes.
Proof.
  unfold find_prefix. destruct (find _ prefix_table) as [[n q]|] eqn:E; [|discriminate].
  intros -> Hne. apply find_some in E as [E _].
  assert (H : forallb (fun e => match snd e with Some [] => true | Some p => existsb (bseq p) used_prefixes | None => true end)
     prefix_table = true) by (vm_compute; reflexivity).
  pose proof (forallb_In _ _ _ H E) as G. cbn [snd] in G. destruct p as [|c p]; [congruence|].
  apply existsb_exists in G as (x & Hx & Hb). apply bseq_eq in Hb. now subst.
Qed.
