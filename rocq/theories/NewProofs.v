From Verif Require Import Bytes Terms DocMap MsgId MsgIdProofs MailStore MailStoreSpec MailStoreProofs MailStoreProofs2 Maildir MaildirProofs3 New NewSpec.
Local Open Scope N_scope.

(** ---- Path names ---- *)
Lemma child_inj p q n m : mem SLASH n = false -> mem SLASH m = false -> child p n = child q m -> p = q /\ n = m.
Proof.
  intros Hn Hm E. unfold child in E. apply app_eq_app in E as (l & [[-> E]|[-> E]]).
  - destruct l as [|c l]; cbn in E; [injection E as ->; now rewrite app_nil_r|]. injection E as <- ->. exfalso.
    apply mem_not_In in Hm. apply Hm. apply in_or_app. right. now left.
  - destruct l as [|c l]; cbn in E; [injection E as ->; now rewrite app_nil_r|]. injection E as <- ->. exfalso.
    apply mem_not_In in Hn. apply Hn. apply in_or_app. right. now left.
Qed.
Lemma child_cut n m r r' : mem SLASH n = false -> mem SLASH m = false ->
  n ++ SLASH :: r = m ++ SLASH :: r' -> n = m /\ r = r'.
Proof.
  intros Hn Hm E. apply app_eq_app in E as (l & [[-> E]|[-> E]]).
  - destruct l as [|c l]; cbn in E; [injection E as ->; now rewrite app_nil_r|]. injection E as <- ->. exfalso.
    apply mem_not_In in Hn. apply Hn. apply in_or_app. right. now left.
  - destruct l as [|c l]; cbn in E; [injection E as ->; now rewrite app_nil_r|]. injection E as <- ->. exfalso.
    apply mem_not_In in Hm. apply Hm. apply in_or_app. right. now left.
Qed.
Lemma child_child p n r : child (child p n) r = child p (n ++ SLASH :: r).
Proof. unfold child. now rewrite <- app_assoc. Qed.
Lemma child_same p n m : child p n = child p m -> n = m.
Proof. unfold child. intros E. apply app_inv_head in E. now injection E. Qed.
Lemma below_same p n m r r' : mem SLASH n = false -> mem SLASH m = false ->
  child (child p n) r = child (child p m) r' -> n = m.
Proof. rewrite !child_child. intros Hn Hm E. apply child_same in E. now apply child_cut in E. Qed.
Lemma child_below p n m r : mem SLASH n = false -> child p n <> child (child p m) r.
Proof.
  rewrite child_child. intros Hn E. apply child_same in E. subst n. apply mem_not_In in Hn. apply Hn. apply in_or_app. right. now left.
Qed.
Lemma child_not_self p n : p <> child p n.
Proof. unfold child. intros E. assert (length p = length (p ++ SLASH :: n)) by congruence. rewrite app_length in H. cbn in H. lia. Qed.
Lemma child_not_nil p n : child p n <> [].
Proof. unfold child. destruct p; discriminate. Qed.

Lemma child_name_Some p f n : child_name p f = Some n <-> f = child p n /\ mem SLASH n = false.
Proof.
  unfold child_name, child. change (p ++ SLASH :: n) with (p ++ [SLASH] ++ n). rewrite (app_assoc p [SLASH] n).
  destruct (strip_prefix (p ++ [SLASH]) f) as [r|] eqn:E.
  - apply strip_prefix_Some in E. subst f. destruct (mem SLASH r) eqn:Er.
    + split; [discriminate|]. intros [H1 H2]. apply app_inv_head in H1. congruence.
    + split; [intros [= <-]; auto|]. intros [H1 H2]. apply app_inv_head in H1. congruence.
  - split; [discriminate|]. intros [H1 H2]. subst f. rewrite strip_prefix_app in E. discriminate.
Qed.
Lemma names_in_In p fs n : In n (names_in p fs) <-> In (child p n) fs /\ mem SLASH n = false.
Proof.
  unfold names_in. rewrite in_flat_map. split.
  - intros (f & Hf & Hin). destruct (child_name p f) as [x|] eqn:E; [|destruct Hin]. destruct Hin as [->|[]].
    apply child_name_Some in E as [-> E]. auto.
  - intros [H1 H2]. exists (child p n). split; [exact H1|]. rewrite (proj2 (child_name_Some p _ n)); [now left|auto].
Qed.

(** ---- Messages ---- *)
Section Mail.
Variable compressed : bytes -> bytes.
Hypothesis compressed_short : forall s, (length (compressed s) <= 189)%nat.
Notation canon := (canon compressed).
Notation inv := (inv compressed).

Definition rec (m : mdb) (f i : bytes) : Prop := exists k d, has m k d /\ In f (m_files d) /\ m_id d = i.

(** Messages keep their tags and the names that are not in [R], as long as there is one;
    [A id t]: a tag that indexing may add. *)
Definition keeps (R : bytes -> Prop) (A : bytes -> bytes -> Prop) (m m' : mdb) : Prop :=
  forall k d, has m k d -> m_ghost d = false -> (exists g, In g (m_files d) /\ ~ R g) ->
  exists d', has m' k d' /\ m_id d' = m_id d /\ m_ghost d' = false /\
    (forall g, In g (m_files d) -> ~ R g -> In g (m_files d')) /\
    (forall t, ~ flag_tag t -> ~ A (m_id d) t -> (In t (m_tags d') <-> In t (m_tags d))) /\
    m_props d' = m_props d.
Lemma keeps_refl R A m : keeps R A m m.
Proof. intros k d H Hg _. exists d. intuition. Qed.
Lemma keeps_trans R A a b c : keeps R A a b -> keeps R A b c -> keeps R A a c.
Proof.
  intros H1 H2 k d H Hg (g & Hin & Hr). destruct (H1 k d H Hg (ex_intro _ g (conj Hin Hr))) as (d1 & X1 & X2 & X3 & X4 & X5 & X6).
  destruct (H2 k d1 X1 X3) as (d2 & Y1 & Y2 & Y3 & Y4 & Y5 & Y6); [eauto|].
  exists d2. split; [exact Y1|]. split; [congruence|]. split; [exact Y3|]. split; [auto|]. split; [|congruence].
  intros t Ht Ha. rewrite Y5; [now apply X5|exact Ht|now rewrite X2].
Qed.
Lemma keeps_weaken (R R' : bytes -> Prop) (A A' : bytes -> bytes -> Prop) a b : (forall g, R g -> R' g) -> (forall i t, A i t -> A' i t) -> keeps R A a b -> keeps R' A' a b.
Proof.
  intros HR HA H k d Hk Hg (g & Hin & Hr). destruct (H k d Hk Hg) as (d1 & X1 & X2 & X3 & X4 & X5 & X6); [exists g; auto|].
  exists d1. split; [exact X1|]. split; [exact X2|]. split; [exact X3|]. split; [auto|]. split; [|exact X6]. intros t Ht Ha. apply X5; auto.
Qed.

Lemma all_files_In m f : inv m -> (In f (all_files m) <-> exists i, rec m f i).
Proof.
  intros Hi. unfold all_files. rewrite in_flat_map. split.
  - intros ([k d] & Hin & Hf). exists (m_id d), k, d. split; [|auto]. now apply In_dget_sorted; [apply Hi|].
  - intros (i & k & d & H & Hf & _). exists (k, d). split; [now apply dget_In|exact Hf].
Qed.

(** A failed indexing changes no message, but may merge threads and add placeholders. *)
Lemma index_file_fail name f keys s : inv s -> exists s' phi, index_file compressed name f keys false s = Some (M_index_error, s') /\ inv s' /\
  moved phi s s' /\ forall k d', has s' k d' -> m_files d' <> [] -> exists d, has s k d /\ m_files d = m_files d' /\ m_id d = m_id d'.
Proof.
  intros Hi. unfold index_file.
  destruct (create_for_message_id compressed (f_id f) s) as [[[k d] found] s1] eqn:Ec.
  assert (C : inv s1 /\ docs s1 = docs s /\ (found = true -> exists t, m_threads d = [t] /\ t <= last_thread s1) /\ (found = false -> m_threads d = [])).
  { unfold create_for_message_id in Ec. pose proof (find_message_spec compressed (f_id f) s (i_sorted _ s Hi)) as F.
    destruct (find_message compressed (f_id f) s) as [[k0 d0]|].
    - injection Ec as <- <- <- <-. destruct F as [F _]. split; [exact Hi|]. split; [reflexivity|]. split; [|discriminate]. intros _. exact (i_thread _ s Hi k0 d0 F).
    - injection Ec as <- <- <- <-. split; [apply (inv_bump compressed s _ _ Hi); lia|]. split; [reflexivity|]. split; [discriminate|reflexivity]. }
  destruct C as (Hi1 & Ed & Cf & Cn).
  set (d2 := if negb found || found && m_ghost d then set_ghost false (set_files (badd name (m_files d)) d) else set_files (badd name (m_files d)) d).
  assert (T2 : m_threads d2 = m_threads d) by (unfold d2; destruct (negb found || found && m_ghost d); reflexivity).
  unfold link_message, link_to_parents, get_thread_id. rewrite T2.
  set (d3 := add_replyto _ d2).
  assert (G : forall tid, match tid with Some t => t <= last_thread s1 | None => True end ->
    exists s' phi,
    match match link_keys compressed keys d3 tid s1 with
          | None => None
          | Some (d, Some t, s) => Some (d, s)
          | Some (d, None, s) => let '(t, s) := generate_thread_id s in Some (add_thread t d, s)
          end with
    | None => None
    | Some (_, s) => Some (M_index_error, s)
    end = Some (M_index_error, s') /\ inv s' /\ moved phi s s' /\
    forall k d', has s' k d' -> m_files d' <> [] -> exists d, has s k d /\ m_files d = m_files d' /\ m_id d = m_id d').
  { intros tid Ht. destruct (link_keys_spec compressed compressed_short keys d3 tid s1 Hi1 Ht) as (d' & tid' & s' & phi & El & Hi' & Hm & Hf & Hgr & _ & Hnone & _).
    rewrite El. assert (Hm' : moved phi s s') by (intros k0 d0 H0; apply Hm; unfold has in *; now rewrite Ed).
    assert (Hf' : forall k d', has s' k d' -> m_files d' <> [] -> exists d, has s k d /\ m_files d = m_files d' /\ m_id d = m_id d').
    { intros k0 d0 H0 Hne. destruct (Hf k0 d0 H0) as [(e & He & t & ->)|(_ & _ & r & t & _ & ->)].
      - exists e. unfold has in *. rewrite <- Ed. auto.
      - cbn in Hne. congruence. }
    destruct tid' as [t|].
    - exists s', phi. auto.
    - cbn. eexists _, phi. split; [reflexivity|]. split; [apply (inv_bump compressed s' _ _ Hi'); lia|]. split; [exact Hm'|exact Hf']. }
  destruct found.
  - destruct (Cf eq_refl) as (t & T & Lt). rewrite T. cbn [andb]. destruct (G (Some t) Lt) as (s' & phi & E & X). exists s', phi. split; [|exact X].
    rewrite <- E. destruct (link_keys compressed keys d3 (Some t) s1) as [[[a [b|]] c]|]; reflexivity.
  - cbn [andb]. destruct (G None I) as (s' & phi & E & X). exists s', phi. split; [|exact X].
    rewrite <- E. destruct (link_keys compressed keys d3 None s1) as [[[a [b|]] c]|]; reflexivity.
Qed.

Lemma index_rec name f keys ok s st s' : inv s -> (forall r, In r keys -> canon r <> canon (f_id f)) ->
  index_file compressed name f keys ok s = Some (st, s') ->
  inv s' /\ (st = M_index_error <-> ok = false) /\
  (forall g i, rec s' g i <-> rec s g i \/ (ok = true /\ g = name /\ i = canon (f_id f))) /\
  keeps (fun _ => False) (fun i t => i = canon (f_id f) /\ In t (f_auto_tags f)) s s' /\
  (st = M_success -> forall k d, has s k d -> m_id d = canon (f_id f) -> m_ghost d = true).
Proof.
  intros Hi Hs E. destruct ok.
  - destruct (index_file_spec compressed compressed_short name f keys true s Hi Hs) as (st0 & s0 & phi & t & E0 & Hi' & Hev & Hcf & _ & Hself & _ & _ & Est).
    rewrite E in E0. injection E0 as <- <-. destruct (Hself eq_refl) as (ks & ds & X1 & X2 & X3 & X4 & X5 & X6 & X7 & X8 & X9).
    split; [exact Hi'|]. split; [rewrite Est; destruct (existsb _ _); split; discriminate|]. split; [|split].
    + intros g i. split.
      * intros (k & d & H & Hg & Hd). assert (D : m_id d = canon (f_id f) -> rec s g i \/ (true = true /\ g = name /\ i = canon (f_id f))).
        { intros Q. assert (k = ks) by (apply (i_unique _ s' Hi' k d ks ds H X1); congruence). subst k.
          assert (d = ds) by (unfold has in *; congruence). subst d.
          destruct (X7 g Hg) as [->|(e & He & Hge)]; [right; intuition congruence|]. left. exists ks, e. split; [exact He|]. split; [exact Hge|].
          destruct (Hev ks e He) as (e' & He' & Hid & _). assert (e' = ds) by (unfold has in *; congruence). subst e'. congruence. }
        destruct (bytes_eq_dec (m_id d) (canon (f_id f))) as [Q|Q]; [now apply D|].
        destruct (Hcf k d H) as [(e & He & Hid)|(_ & _ & [[_ Hid]|(r & t' & _ & ->)])].
        -- left. destruct (Hev k e He) as (e' & He' & Hid' & _ & _ & Hsame & _). rewrite Hid in Hsame. specialize (Hsame Q).
           assert (e' = d) by (unfold has in *; congruence). subst e'. subst d. exists k, e. cbn in *. auto.
        -- contradiction.
        -- destruct Hg.
      * intros [(k & d & H & Hg & Hd)|(_ & -> & ->)].
        -- destruct (Hev k d H) as (e & He & Hid & _ & _ & _ & _ & Hf & _). exists k, e. split; [exact He|]. split; [now apply Hf|congruence].
        -- exists ks, ds. auto.
    + intros k d H Hg _. destruct (Hev k d H) as (e & He & Hid & _ & Hgh & Hsame & Htag & Hf & _ & Hp). exists e.
      split; [exact He|]. split; [exact Hid|]. split; [auto|]. split; [auto|]. split; [|exact Hp].
      intros g Hfl Ha. split; [|apply Htag]. intros Hin. destruct (bytes_eq_dec (m_id d) (canon (f_id f))) as [Q|Q].
      * assert (k = ks) by (apply (i_unique _ s' Hi' k e ks ds He X1); congruence). subst k. assert (e = ds) by (unfold has in *; congruence). subst e.
        destruct (X8 g Hin) as [Hau|(e & He' & Hge)]; [exfalso; apply Ha; auto|]. unfold has in *. congruence.
      * rewrite (Hsame Q) in Hin. exact Hin.
    + intros -> k d H Hid. destruct (m_ghost d) eqn:Q; [reflexivity|]. exfalso.
      destruct (existsb _ (docs s)) eqn:Ex in Est; [discriminate|].
      assert (Y : existsb (fun kd => bseq (m_id (snd kd)) (canon (f_id f)) && negb (m_ghost (snd kd))) (docs s) = true).
      { apply existsb_exists. exists (k, d). split; [now apply dget_In|]. cbn. rewrite Hid, bseq_refl, Q. reflexivity. }
      congruence.
  - destruct (index_file_fail name f keys s Hi) as (s0 & phi & E0 & Hi' & Hm & Hf). rewrite E in E0. injection E0 as -> <-.
    split; [exact Hi'|]. split; [tauto|]. split; [|split; [|discriminate]].
    + intros g i. split.
      * intros (k & d & H & Hg & Hd). left. destruct (Hf k d H) as (e & He & Ef & Eid); [intros X; rewrite X in Hg; destruct Hg|].
        exists k, e. split; [exact He|]. split; [now rewrite Ef|congruence].
      * intros [(k & d & H & Hg & Hd)|[X _]]; [|discriminate]. exists k. eexists. split; [apply (Hm k d H)|]. auto.
    + intros k d H Hg _. eexists. split; [apply (Hm k d H)|]. cbn. intuition.
Qed.

(** Changing the tags of one message. *)
Lemma retag_keeps id tags (P : bytes -> Prop) s : inv s ->
  (forall k d, has s k d -> m_id d = canon id -> m_ghost d = false -> forall t, ~ P t -> (In t tags <-> In t (m_tags d))) ->
  inv (retag compressed id tags s) /\ (forall g i, rec (retag compressed id tags s) g i <-> rec s g i) /\
  forall A, (forall t, P t -> flag_tag t \/ A (canon id) t) -> keeps (fun _ => False) A s (retag compressed id tags s).
Proof.
  intros Hi Ht. destruct (retag_spec compressed id tags s Hi) as (Hi' & _ & _ & Hh). split; [exact Hi'|]. split.
  - intros g i. split.
    + intros (k & d' & H & Hg & Hd). apply Hh in H as (d & H & ->). exists k, d. split; [exact H|]. destruct (bseq (m_id d) (canon id)); cbn in *; auto.
    + intros (k & d & H & Hg & Hd). exists k. eexists. split; [apply Hh; exists d; split; [exact H|reflexivity]|]. destruct (bseq (m_id d) (canon id)); cbn in *; auto.
  - intros A HA k d H Hg _. eexists. split; [apply Hh; exists d; split; [exact H|reflexivity]|].
    destruct (bseq_spec (m_id d) (canon id)) as [Q|Q]; cbn; [|intuition]. split; [reflexivity|]. split; [exact Hg|]. split; [auto|]. split; [|reflexivity].
    intros t H1 H2. apply (Ht k d H Q Hg). intros Hp. apply HA in Hp as [Hp|Hp]; [auto|]. rewrite <- Q in Hp. auto.
Qed.
Lemma flags_only_flag_tags files tags t : ~ flag_tag t -> (In t (maildir_flags_to_tags files tags) <-> In t tags).
Proof.
  intros Hn. unfold maildir_flags_to_tags. destruct (ensure_maildir_flags files) as [fl|]; [|tauto]. rewrite fold_tags.
  2:{ cbn. repeat constructor; cbn; intuition discriminate. }
  assert (N : ~ exists f inv, In (f, t, inv) flag2tag).
  { intros (f & i & H). apply Hn. unfold flag2tag in H. cbn in H. unfold flag_tag. cbn.
    repeat (destruct H as [H|H]; [injection H as _ <- _; tauto|]). destruct H. }
  split; [intros [(f & i & H & _)|[_ H]]; [exfalso; eauto|exact H]|auto].
Qed.
Lemma flags_to_tags_keeps id s : inv s -> inv (flags_to_tags compressed id s) /\
  (forall g i, rec (flags_to_tags compressed id s) g i <-> rec s g i) /\ forall A, keeps (fun _ => False) A s (flags_to_tags compressed id s).
Proof.
  intros Hi. unfold flags_to_tags. pose proof (find_message_spec compressed id s (i_sorted _ s Hi)) as F.
  destruct (find_message compressed id s) as [[k d]|].
  2:{ split; [exact Hi|]. split; [tauto|]. intros A. apply keeps_refl. }
  destruct F as [F1 F2].
  destruct (retag_keeps id (maildir_flags_to_tags (m_files d) (m_tags d)) flag_tag s Hi) as (H1 & H2 & H3).
  - intros k' d' H' Hid Hg t Ht. assert (k' = k) by (apply (i_unique _ s Hi k' d' k d H' F1); congruence). subst k'.
    assert (d' = d) by (unfold has in *; congruence). subst d'. now apply flags_only_flag_tags.
  - split; [exact H1|]. split; [exact H2|]. intros A. apply H3. auto.
Qed.
(** ghost status of a message is not changed by indexing a message that exists *)
Lemma add_new_tags_rec nt id s : inv s -> inv (add_new_tags compressed nt id s) /\
  (forall g i, rec (add_new_tags compressed nt id s) g i <-> rec s g i) /\
  forall k d, has s k d -> m_id d <> canon id -> has (add_new_tags compressed nt id s) k d.
Proof.
  intros Hi. unfold add_new_tags. pose proof (find_message_spec compressed id s (i_sorted _ s Hi)) as F.
  destruct (find_message compressed id s) as [[k d]|]; [|split; [exact Hi|split; [tauto|auto]]].
  set (tags := fold_left _ nt _).
  destruct (retag_keeps id tags (fun _ => True) s Hi) as (H1 & H2 & _).
  - intros; tauto.
  - split; [exact H1|]. split; [exact H2|]. destruct (retag_spec compressed id tags s Hi) as (_ & _ & _ & Hh).
    intros k' d' H' Hid. apply Hh. exists d'. split; [exact H'|]. rewrite (proj2 (bseq_neq _ _) Hid). reflexivity.
Qed.

(** ---- add_file ---- *)
Lemma add_file_spec sync nt path name c s :
  inv (n_mail (s_db s)) -> (forall f keys ok, c = Some (f, keys, ok) -> forall r, In r keys -> canon r <> canon (f_id f)) ->
  exists s', add_file compressed sync nt path name c s = Some s' /\ inv (n_mail (s_db s')) /\
    (forall g i, rec (n_mail (s_db s')) g i <-> rec (n_mail (s_db s)) g i \/
        exists f keys, c = Some (f, keys, true) /\ g = child path name /\ i = canon (f_id f)) /\
    keeps (fun _ => False) (fun i t => exists f keys ok, c = Some (f, keys, ok) /\ i = canon (f_id f) /\ In t (f_auto_tags f)) (n_mail (s_db s)) (n_mail (s_db s')) /\
    n_dirs (s_db s') = (match c with Some _ => make_dirs path (n_dirs (s_db s)) | None => n_dirs (s_db s) end) /\
    s_removed_files s' = s_removed_files s /\ s_removed_dirs s' = s_removed_dirs s /\ s_mtimes s' = s_mtimes s /\ s_tick s' = s_tick s /\
    s_vanished s' = ((if match c with Some (_, _, false) => true | _ => false end then 1 else 0) + s_vanished s)%nat.
Proof.
  intros Hi Hc. unfold add_file. destruct c as [[[f keys] ok]|].
  2:{ exists s. split; [reflexivity|]. split; [exact Hi|]. split; [|split; [apply keeps_refl|auto 10]].
      intros g i. split; [auto|]. intros [H|(f & keys & X & _)]; [exact H|discriminate]. }
  specialize (Hc f keys ok eq_refl).
  destruct (index_file compressed (child path name) f keys ok (n_mail (s_db s))) as [[st m]|] eqn:E.
  2:{ exfalso. destruct (index_file_spec compressed compressed_short (child path name) f keys ok _ Hi Hc) as (st & s' & phi & t & E' & _). congruence. }
  destruct (index_rec _ _ _ _ _ _ _ Hi Hc E) as (Hi' & Hst & Hrec & Hk & Hsucc).
  set (A := fun i t => exists f0 keys0 ok0, Some (f, keys, ok) = Some (f0, keys0, ok0) /\ i = canon (f_id f0) /\ In t (f_auto_tags f0)).
  assert (HA : forall i t, (i = canon (f_id f) /\ In t (f_auto_tags f)) -> A i t) by (intros i t X; exists f, keys, ok; intuition).
  pose proof (keeps_weaken _ _ _ _ _ _ (fun g X => X) HA Hk) as HkA.
  set (m1 := if sync then flags_to_tags compressed (f_id f) m else m).
  assert (M1 : inv m1 /\ (forall g i, rec m1 g i <-> rec m g i) /\ forall A, keeps (fun _ => False) A m m1).
  { unfold m1. destruct sync; [now apply flags_to_tags_keeps|]. split; [exact Hi'|]. split; [tauto|]. intros; apply keeps_refl. }
  destruct M1 as (I1 & R1 & K1). destruct (add_new_tags_rec nt (f_id f) m1 I1) as (I2 & R2 & Hh2).
  assert (Fin : forall g i, (rec m g i) <-> rec (n_mail (s_db s)) g i \/ exists f0 keys0, Some (f, keys, ok) = Some (f0, keys0, true) /\ g = child path name /\ i = canon (f_id f0)).
  { intros g i. rewrite Hrec. split; (intros [H|H]; [now left|right]).
    - destruct H as (-> & -> & ->). eauto.
    - destruct H as (f0 & k0 & [= <- <- ->] & -> & ->). auto. }
  destruct st; (eexists; split; [reflexivity|]); cbn -[flags_to_tags add_new_tags make_dirs].
  - (* new message *)
    assert (ok = true) as -> by (destruct ok; [reflexivity|]; assert (X : M_success = M_index_error) by (now apply Hst); discriminate).
    fold m1. split; [exact I2|]. split; [intros g i; now rewrite R2, R1|]. split; [|auto 10].
    intros k d H Hg Hf. assert (Hne : m_id d <> canon (f_id f)). { intros X. rewrite (Hsucc eq_refl k d H X) in Hg. discriminate. }
    destruct (keeps_trans _ _ _ _ _ HkA (K1 A) k d H Hg Hf) as (d1 & Y1 & Y2 & Y).
    exists d1. split; [apply Hh2; [exact Y1|congruence]|]. auto.
  - assert (ok = true) as -> by (destruct ok; [reflexivity|]; assert (X : M_duplicate = M_index_error) by (now apply Hst); discriminate).
    fold m1. split; [exact I1|]. split; [intros g i; now rewrite R1|]. split; [|auto 10]. exact (keeps_trans _ _ _ _ _ HkA (K1 A)).
  - assert (ok = false) as -> by (now apply Hst). split; [exact Hi'|]. split; [exact Fin|]. split; [exact HkA|auto 10].
Qed.

(** ---- removal ---- *)
Lemma remove_filename_spec sync name m : inv m -> (forall i j, rec m name i -> rec m name j -> i = j) ->
  exists m', New.remove_filename compressed sync name m = Some m' /\ inv m' /\
    (forall g i, rec m' g i <-> rec m g i /\ g <> name) /\ forall A, keeps (fun g => g = name) A m m'.
Proof.
  intros Hi Hown. unfold New.remove_filename, find_by_filename.
  pose proof (MailStoreProofs.find_spec (fun kd => existsb (bseq name) (m_files (snd kd))) (docs m)) as F.
  destruct (find _ (docs m)) as [[k0 d0]|].
  2:{ exists m. split; [reflexivity|]. split; [exact Hi|]. split; [|intros; apply keeps_refl].
      intros g i. split; [|tauto]. intros H. split; [exact H|]. intros ->. destruct H as (k & d & H & Hg & _). apply dget_In in H. apply F in H. cbn in H.
      apply tmem_In in Hg. unfold tmem in Hg. congruence. }
  destruct F as [F1 F2]. cbn in F2. apply (In_dget_sorted _ _ _ (i_sorted _ m Hi)) in F1. change (has m k0 d0) in F1. apply tmem_In in F2.
  destruct (remove_message_spec compressed name m Hi) as (st & m1 & E & Hi1 & _ & _ & D). rewrite E.
  assert (R1 : forall g i, rec m1 g i <-> rec m g i /\ g <> name).
  { destruct D as [(_ & _ & Hn)|(k & d & t & H & Hin & Hg & T & D)]; [exfalso; exact (Hn k0 d0 F1 F2)|].
    destruct D as [(_ & _ & d' & H' & Hd' & Hf & Ho)|(_ & Hf & D)].
    - intros g i. split.
      + intros (j & e & He & Hge & Hid). destruct (N.eq_dec j k) as [->|Q].
        * assert (e = d') by (unfold has in *; congruence). subst e. apply Hf in Hge as [Hg1 Hg2]. split; [|exact Hg2].
          exists k, d. split; [exact H|]. split; [exact Hg1|]. rewrite Hd' in Hid. exact Hid.
        * apply (Ho j e Q) in He. split; [exists j, e; auto|]. intros ->.
          assert (X : m_id e = m_id d) by (apply Hown; [exists j, e|exists k, d]; auto). apply Q. exact (i_unique _ m Hi j e k d He H X).
      + intros [(j & e & He & Hge & Hid) Hne]. destruct (N.eq_dec j k) as [->|Q].
        * assert (e = d) by (unfold has in *; congruence). subst e. exists k, d'. split; [exact H'|]. split; [now apply Hf|]. rewrite Hd'. exact Hid.
        * exists j, e. split; [now apply (Ho j e Q)|auto].
    - assert (X : forall j e g, has m j e -> In g (m_files e) -> (j = k <-> g = name)).
      { intros j e g He Hge. split.
        - intros ->. assert (e = d) by (unfold has in *; congruence). subst e. rewrite Hf in Hge. now destruct Hge as [->|[]].
        - intros ->. assert (Y : m_id e = m_id d) by (apply Hown; [exists j, e|exists k, d]; auto). exact (i_unique _ m Hi j e k d He H Y). }
      intros g i. destruct D as [(_ & Ho)|(Hgh & Ho)].
      + split.
        * intros (j & e & He & Hge & Hid). apply Ho in He as [(-> & ->)|[Hj He]]; [destruct Hge|]. split; [exists j, e; auto|]. intros Y. apply Hj. now apply (X j e g).
        * intros [(j & e & He & Hge & Hid) Hne]. exists j, e. split; [|auto]. apply Ho. right. split; [|exact He]. intros Y. apply Hne. now apply (X j e g).
      + split.
        * intros (j & e & He & Hge & Hid). apply Ho in He as [He Ht]. split; [exists j, e; auto|]. intros Y. apply (X j e g He Hge) in Y. subst j. unfold has in *. congruence.
        * intros [(j & e & He & Hge & Hid) Hne]. exists j, e. split; [|auto]. apply Ho. split; [exact He|]. intros Y.
          assert (Hj : j <> k) by (intros Z; apply Hne; now apply (X j e g)). pose proof (Hgh j e He Hj Y) as Z. pose proof (i_files _ m Hi j e He) as W.
          rewrite Z in W. destruct W as [W _]. rewrite W in Hge. destruct Hge. }
  assert (K1 : forall A, keeps (fun g => g = name) A m m1).
  { intros A j e He Hge (g & Hin & Hne). destruct D as [(_ & _ & Hn)|(k & d & t & H & Hin' & Hg & T & D)]; [exfalso; exact (Hn k0 d0 F1 F2)|].
    destruct D as [(_ & _ & d' & H' & Hd' & Hf & Ho)|(_ & Hf & D)].
    - destruct (N.eq_dec j k) as [->|Q].
      + assert (e = d) by (unfold has in *; congruence). subst e. exists d'. split; [exact H'|]. rewrite Hd'. cbn. split; [reflexivity|]. split; [exact Hg|].
        split; [|split; [tauto|reflexivity]]. intros g' X Y. rewrite Hd' in Hf. cbn in Hf. apply Hf. auto.
      + exists e. split; [now apply (Ho j e Q)|]. intuition.
    - assert (Hj : j <> k). { intros ->. assert (e = d) by (unfold has in *; congruence). subst e. rewrite Hf in Hin. destruct Hin as [->|[]]. congruence. }
      exists e. split; [|intuition]. destruct D as [(_ & Ho)|(Hgh & Ho)]; apply Ho.
      + right. auto.
      + split; [exact He|]. intros Y. rewrite (Hgh j e He Hj Y) in Hge. discriminate. }
  destruct st.
  - exists m1. auto.
  - destruct sync; [|exists m1; auto]. destruct (flags_to_tags_keeps (m_id d0) m1 Hi1) as (I2 & R2 & K2).
    eexists. split; [reflexivity|]. split; [exact I2|]. split; [intros g i; now rewrite R2, R1|]. intros A. eapply keeps_trans; [apply K1|].
    eapply keeps_weaken; [| |apply (K2 A)]; tauto.
  - exists m1. auto.
Qed.
Lemma remove_filenames_spec sync names : forall m, inv m -> (forall f i j, rec m f i -> rec m f j -> i = j) ->
  exists m', remove_filenames compressed sync names m = Some m' /\ inv m' /\
    (forall g i, rec m' g i <-> rec m g i /\ ~ In g names) /\ forall A, keeps (fun g => In g names) A m m'.
Proof.
  induction names as [|n names IH]; intros m Hi Hown; cbn [remove_filenames].
  - exists m. split; [reflexivity|]. split; [exact Hi|]. split; [cbn; tauto|]. intros; apply keeps_refl.
  - destruct (remove_filename_spec sync n m Hi (Hown n)) as (m1 & E & I1 & R1 & K1). rewrite E.
    destruct (IH m1 I1) as (m2 & E2 & I2 & R2 & K2). { intros f i j H1 H2. apply R1 in H1, H2. apply (Hown f); tauto. }
    exists m2. split; [exact E2|]. split; [exact I2|]. split.
    + intros g i. rewrite R2, R1. cbn. intuition congruence.
    + intros A. eapply keeps_trans; eapply keeps_weaken; [| |apply (K1 A)| | |apply (K2 A)]; cbn; intuition.
Qed.
End Mail.
