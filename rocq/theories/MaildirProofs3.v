(** Proofs about synchronising tags and maildir flags (C16). *)
From Verif Require Import Bytes Maildir MaildirSpec MaildirProofs MaildirProofs2.
From Coq Require Import Sorting.Sorted.
Local Open Scope nat_scope.

Lemma means_table c t p : means c t p <-> In (c, t, negb p) flag2tag.
Proof.
  split.
  - intros []; cbn; auto 10.
  - intros H. cbn in H. repeat (destruct H as [H|H]; [injection H as <- <- H; destruct p; try discriminate; constructor|]). destruct H.
Qed.
Lemma flags_of_tag_In tag c : forall acc,
  (In c (fst (flags_of_tag tag acc)) <-> In c (fst acc) \/ means c tag true) /\
  (In c (snd (flags_of_tag tag acc)) <-> In c (snd acc) \/ means c tag false).
Proof.
  intros acc. rewrite !means_table. cbn [negb]. unfold flags_of_tag. revert acc. induction flag2tag as [|[[f t] inv] l IH]; intros acc; cbn [fold_left].
  - cbn. tauto.
  - destruct (IH (if bseq tag t then if inv then (fst acc, snd acc ++ [f]) else (fst acc ++ [f], snd acc) else acc)) as (I1 & I2). rewrite I1, I2. clear I1 I2 IH.
    cbn [In]. destruct (bseq_spec tag t) as [->|Hne].
    + destruct inv; cbn [fst snd]; rewrite ?in_app_iff; cbn [In]; split; split; intros H; intuition (subst; auto; congruence).
    + split; split; intros H; intuition congruence.
Qed.
Lemma first_fold c tags : forall acc,
  (In c (fst (fold_left (fun acc tag => flags_of_tag tag acc) tags acc)) <-> In c (fst acc) \/ exists tag, In tag tags /\ means c tag true) /\
  (In c (snd (fold_left (fun acc tag => flags_of_tag tag acc) tags acc)) <-> In c (snd acc) \/ exists tag, In tag tags /\ means c tag false).
Proof.
  induction tags as [|t tags IH]; intros acc; cbn [fold_left].
  - split; (split; [auto|]); intros [H|(x & [] & _)]; exact H.
  - destruct (IH (flags_of_tag t acc)) as (I1 & I2). destruct (flags_of_tag_In t c acc) as (J1 & J2). rewrite I1, I2, J1, J2. clear.
    split; split.
    + intros [[H|H]|(x & H1 & H2)]; [auto|right; exists t; split; [now left|exact H]|right; exists x; split; [now right|exact H2]].
    + intros [H|(x & [<-|H1] & H2)]; [auto|auto|right; eauto].
    + intros [[H|H]|(x & H1 & H2)]; [auto|right; exists t; split; [now left|exact H]|right; exists x; split; [now right|exact H2]].
    + intros [H|(x & [<-|H1] & H2)]; [auto|auto|right; eauto].
Qed.
Lemma found_mem flags c : c <> NUL -> strchr_found flags c = mem c flags.
Proof. intros H. unfold strchr_found. destruct (beq_spec c NUL); [contradiction|reflexivity]. Qed.
Lemma found_In flags c : c <> NUL -> (strchr_found flags c = true <-> In c flags).
Proof. intros H. rewrite found_mem by exact H. apply mem_In. Qed.

Ltac known_cases H := inversion H; subst; clear H.
Lemma actions_spec tags to_set to_clear : get_maildir_flag_actions tags = (to_set, to_clear) ->
  (forall c, In c to_set <-> called_for tags c) /\ (forall c, In c to_clear <-> known c /\ ~ called_for tags c).
Proof.
  unfold get_maildir_flag_actions. set (acc := fold_left _ tags _).
  assert (A1 : forall c, In c (fst acc) <-> exists tag, In tag tags /\ means c tag true).
  { intros c. unfold acc. rewrite (proj1 (first_fold c tags ([], []))). cbn. tauto. }
  assert (A2 : forall c, In c (snd acc) <-> exists tag, In tag tags /\ means c tag false).
  { intros c. unfold acc. rewrite (proj2 (first_fold c tags ([], []))). cbn. tauto. }
  destruct acc as [S C]. cbn [fst snd] in A1, A2.
  assert (F : forall fl c, beq fl NUL = false -> strchr_found (c ++ []) fl = mem fl c) by (intros fl c H; rewrite app_nil_r; apply found_mem, beq_neq, H).
  cbn [fold_left flag2tag].
  assert (D1 : strchr_found S "D" = mem "D" S) by (apply found_mem; discriminate).
  assert (D2 : strchr_found S "F" = mem "F" S) by (apply found_mem; discriminate).
  assert (D3 : strchr_found S "P" = mem "P" S) by (apply found_mem; discriminate).
  assert (D4 : strchr_found S "R" = mem "R" S) by (apply found_mem; discriminate).
  assert (D5 : forall X, (forall c, In c X -> c <> "S"%char) -> strchr_found (C ++ X) "S" = mem "S" C).
  { intros X HX. rewrite found_mem by discriminate. unfold mem. rewrite existsb_app. replace (existsb (beq "S") X) with false; [apply orb_false_r|].
    symmetry. destruct (existsb (beq "S") X) eqn:E; [|reflexivity]. apply existsb_exists in E as (x & H1 & H2). apply beq_eq in H2. subst x. now apply HX in H1. }
  set (X1 := if mem "D" S then [] else ["D"%char]). set (X2 := X1 ++ if mem "F" S then [] else ["F"%char]).
  set (X3 := X2 ++ if mem "P" S then [] else ["P"%char]). set (X4 := X3 ++ if mem "R" S then [] else ["R"%char]).
  assert (E1 : (if strchr_found (fst (S, C)) "D" then (S, C) else (fst (S, C), snd (S, C) ++ ["D"%char])) = (S, C ++ X1)).
  { cbn [fst snd]. rewrite D1. unfold X1. destruct (mem "D" S); [now rewrite app_nil_r|reflexivity]. }
  rewrite E1. clear E1.
  assert (E2 : (if strchr_found (fst (S, C ++ X1)) "F" then (S, C ++ X1) else (fst (S, C ++ X1), snd (S, C ++ X1) ++ ["F"%char])) = (S, C ++ X2)).
  { cbn [fst snd]. rewrite D2. unfold X2. destruct (mem "F" S); [now rewrite app_nil_r|now rewrite app_assoc]. }
  rewrite E2. clear E2.
  assert (E3 : (if strchr_found (fst (S, C ++ X2)) "P" then (S, C ++ X2) else (fst (S, C ++ X2), snd (S, C ++ X2) ++ ["P"%char])) = (S, C ++ X3)).
  { cbn [fst snd]. rewrite D3. unfold X3. destruct (mem "P" S); [now rewrite app_nil_r|now rewrite app_assoc]. }
  rewrite E3. clear E3.
  assert (E4 : (if strchr_found (fst (S, C ++ X3)) "R" then (S, C ++ X3) else (fst (S, C ++ X3), snd (S, C ++ X3) ++ ["R"%char])) = (S, C ++ X4)).
  { cbn [fst snd]. rewrite D4. unfold X4. destruct (mem "R" S); [now rewrite app_nil_r|now rewrite app_assoc]. }
  rewrite E4. clear E4. cbn [fst snd]. rewrite D5.
  2:{ intros c. unfold X4, X3, X2, X1. rewrite !in_app_iff. intros [[[H|H]|H]|H]; (destruct (mem _ S) in H; [destruct H|]); destruct H as [<-|[]]; discriminate. }
  assert (M : forall c, mem c S = true <-> In c S) by (intros; apply mem_In). assert (MC : mem "S" C = true <-> In "S"%char C) by apply mem_In.
  assert (IX : forall c, In c X4 <-> (c = "D"%char \/ c = "F"%char \/ c = "P"%char \/ c = "R"%char) /\ ~ In c S).
  { intros c. unfold X4, X3, X2, X1. rewrite !in_app_iff. assert (G : forall k, In c (if mem k S then [] else [k]) <-> c = k /\ ~ In c S).
    { intros k. specialize (M k). destruct (mem k S).
      - split; [intros []|]. intros [-> H]. apply H. now apply M.
      - cbn. split; [intros [<-|[]]; split; [reflexivity|]; intros H; apply M in H; discriminate|]. intros [-> _]. auto. }
    rewrite !G. tauto. }
  intros E. assert (ES : to_set = S ++ if mem "S" C then [] else ["S"%char]) by (destruct (mem "S" C); injection E as <- <-; [now rewrite app_nil_r|reflexivity]).
  assert (EC : to_clear = C ++ X4) by (destruct (mem "S" C); injection E as <- <-; reflexivity).
  clear E. subst to_set to_clear.
  assert (G : forall c, In c (S ++ if mem "S" C then [] else ["S"%char]) <-> called_for tags c).
  { intros c. rewrite in_app_iff, A1. unfold called_for. split.
    - intros [(t & H1 & H2)|H]; [exists t, true; auto|]. destruct (mem "S" C) eqn:Q; [destruct H|]. destruct H as [<-|[]].
      exists (lit "unread"), false. split; [constructor|]. intros H. assert (X : false = true) by (apply MC, A2; exists (lit "unread"); split; [exact H|constructor]). discriminate X.
    - intros (t & p & H & Hp). destruct p; [left; eauto|right]. inversion H; subst. destruct (mem "S" C) eqn:Q; [|now left].
      exfalso. apply Hp. apply proj1 in MC. specialize (MC eq_refl). apply A2 in MC as (t & H1 & H2). inversion H2; subst. exact H1. }
  split; [exact G|]. intros c. rewrite in_app_iff, A2, IX, A1. split.
  - intros [(t & H1 & H2)|[H1 H2]].
    + split; [exists t, false; exact H2|]. intros (t' & p & H3 & H4). inversion H2; subst. inversion H3; subst. contradiction.
    + split; [destruct H1 as [->|[->|[->| ->]]]; eexists _, _; constructor|]. intros (t' & p & H3 & H4). apply H2. destruct p; [eauto|].
      inversion H3; subst. destruct H1 as [H1|[H1|[H1|H1]]]; discriminate.
  - intros [(t & p & H1) H2]. destruct p.
    + right. split; [inversion H1; subst; auto|]. intros (t' & H3 & H4). apply H2. exists t', true. auto.
    + left. exists t. split; [|exact H1]. destruct (in_dec bytes_eq_dec t tags) as [Y|Y]; [exact Y|]. exfalso. apply H2. exists t, false. auto.
Qed.
Lemma known_ascii c : known c -> (code c < 128)%N /\ c <> SLASH /\ c <> NUL.
Proof. intros (t & p & H). inversion H; repeat split; discriminate. Qed.
Lemma called_known tags c : called_for tags c -> known c.
Proof. intros (t & p & H & _). exists t, p. exact H. Qed.
Lemma actions_ok tags to_set to_clear : get_maildir_flag_actions tags = (to_set, to_clear) -> ascii7 to_set /\ ascii7 to_clear /\ ~ In SLASH to_set.
Proof.
  intros E. destruct (actions_spec _ _ _ E) as (A & B). unfold ascii7. rewrite !Forall_forall. split; [|split].
  - intros c H. apply A in H. now apply known_ascii, (called_known tags).
  - intros c H. apply B in H as [H _]. now apply known_ascii.
  - intros H. apply A, called_known, known_ascii in H. destruct H as (_ & H & _). now apply H.
Qed.

(** A name is fine: outside maildirs, or its flags are well formed. *)
Definition fine (n : bytes) : Prop :=
  filename_is_in_maildir n = None \/
  exists root sub unique info, n = maildir_path root sub unique info /\ maildir_name root sub unique info /\ good_flags (flags_of info).
(** A name agrees with the tags. *)
Definition agrees (tags : list bytes) (n : bytes) : Prop :=
  filename_is_in_maildir n = None \/
  exists root sub unique info, n = maildir_path root sub unique info /\ maildir_name root sub unique info /\
    (info = None -> sub = lit "new") /\ forall c, known c -> (In c (flags_of info) <-> called_for tags c).

Lemma new_agrees tags to_set to_clear n : get_maildir_flag_actions tags = (to_set, to_clear) -> fine n -> filename_is_in_maildir n <> None ->
  exists g, new_maildir_filename n to_set to_clear = Some g /\ agrees tags g.
Proof.
  intros E Hf Hm. destruct (actions_spec _ _ _ E) as (A & B). destruct (actions_ok _ _ _ E) as (O1 & O2 & O3).
  destruct Hf as [Hf|(root & sub & unique & info & -> & Hn & Hg)]; [contradiction|].
  destruct (new_name_spec root sub unique info to_set to_clear Hn Hg O1 O2 O3) as (f' & (F1 & F2 & F3) & Enew). rewrite Enew. eexists. split; [reflexivity|].
  assert (Hcur : agrees tags (maildir_path root (lit "cur") unique (Some f'))).
  { right. exists root, (lit "cur"), unique, (Some f'). split; [reflexivity|]. split.
    - destruct Hn as (H1 & H2 & H3 & H4 & H5). repeat (split; [auto|]). intros X. apply F3 in X as [[X|X] _]; [|contradiction]. destruct info; [contradiction|destruct X].
    - split; [discriminate|]. intros c Hk. cbn [flags_of]. rewrite F3, A, B. destruct (in_dec ascii_dec c to_set) as [Q|Q].
      + apply A in Q. tauto.
      + assert (~ called_for tags c) by (intros X; apply A in X; contradiction). tauto. }
  destruct info as [f|]; [exact Hcur|]. destruct (bseq_spec sub (lit "new")) as [->|]; [|exact Hcur]. destruct to_set as [|c0 ts]; [|exact Hcur].
  right. exists root, (lit "new"), unique, None. split; [reflexivity|]. split; [exact Hn|]. split; [reflexivity|].
  intros c Hk. cbn. rewrite <- (A c). cbn. tauto.
Qed.

Lemma add_name_In x n l : In x (add_name n l) <-> x = n \/ In x l.
Proof.
  unfold add_name. destruct (existsb (bseq n) l) eqn:E.
  - apply existsb_exists in E as (z & Hz & Ez). apply bseq_eq in Ez. subst z. split; [auto|]. intros [->|H]; auto.
  - rewrite in_app_iff. cbn. intuition.
Qed.
Lemma remove_name_In x n l : In x (remove_name n l) <-> In x l /\ x <> n.
Proof. unfold remove_name. rewrite filter_In, negb_true_iff, bseq_neq. split; intros [H1 H2]; split; auto. Qed.
Lemma rename_src f g d : f <> g -> rename_file f g d g = d f /\ rename_file f g d f = None.
Proof.
  intros H. unfold rename_file. rewrite bseq_refl. split; [reflexivity|]. destruct (bseq_spec f g); [contradiction|]. now rewrite bseq_refl.
Qed.
Lemma rename_other f g d p : p <> f -> p <> g -> rename_file f g d p = d p.
Proof. intros H1 H2. unfold rename_file. destruct (bseq_spec p g); [contradiction|]. destruct (bseq_spec p f); [contradiction|reflexivity]. Qed.

(** Every name of the message still exists, whatever renames fail. *)
Lemma sync_names_exist ok to_set to_clear files : forall names d names' d', (forall n, In n names -> d n <> None) ->
  sync_names ok to_set to_clear files names d = (names', d') -> forall n, In n names' -> d' n <> None.
Proof.
  induction files as [|f files IH]; intros names d names' d' H; cbn [sync_names]; [intros [= <- <-]; exact H|].
  destruct (filename_is_in_maildir f) as [i|]; [|now apply IH]. destruct (new_maildir_filename f to_set to_clear) as [g|]; [|now apply IH].
  destruct (bseq_spec f g) as [|Hne]; [now apply IH|]. destruct (ok f && _) eqn:Q; [|now apply IH]. apply IH.
  intros n Hn. apply add_name_In in Hn. destruct (d f) as [x|] eqn:Ed; [|rewrite andb_false_r in Q; discriminate].
  destruct (bytes_eq_dec n g) as [->|Hg]; [rewrite (proj1 (rename_src f g d Hne)); congruence|].
  destruct Hn as [->|Hn]; [congruence|]. apply remove_name_In in Hn as [Hn Hf]. rewrite rename_other by assumption. now apply H.
Qed.
(** All renames succeeding, every name agrees afterwards. *)
Lemma sync_names_agree tags to_set to_clear ok files : get_maildir_flag_actions tags = (to_set, to_clear) -> forall names d names' d',
  NoDup files -> (forall n, In n files -> fine n) -> (forall n, ok n = true) -> (forall n, In n files -> d n <> None) ->
  (forall n, In n names -> In n files \/ agrees tags n) ->
  sync_names ok to_set to_clear files names d = (names', d') -> forall n, In n names' -> agrees tags n.
Proof.
  intros E. induction files as [|f files IH]; intros names d names' d' Nd Hf Hok Hd Hn; cbn [sync_names].
  - intros [= <- <-] n H. destruct (Hn n H) as [[]|X]. exact X.
  - apply NoDup_cons_iff in Nd as [Nf Nd].
    destruct (filename_is_in_maildir f) as [i|] eqn:Em.
    + destruct (new_agrees tags to_set to_clear f E (Hf f (or_introl eq_refl))) as (g & Eg & Ag); [congruence|]. rewrite Eg.
      destruct (bseq_spec f g) as [->|Hne].
      * apply IH; try assumption; try (intros; apply Hf || apply Hd; now right). intros n H. destruct (Hn n H) as [[<-|X]|X]; auto.
      * rewrite Hok. destruct (d f) eqn:Ed; [|exfalso; now apply (Hd f (or_introl eq_refl))]. cbn [andb]. apply IH; try assumption.
        -- intros n H. apply Hf. now right.
        -- intros n H. destruct (bytes_eq_dec n g) as [->|Hg]; [rewrite (proj1 (rename_src f g d Hne)); congruence|].
           rewrite rename_other; [apply Hd; now right|congruence|exact Hg].
        -- intros n H. apply add_name_In in H as [->|H]; [auto|]. apply remove_name_In in H as [H Hx]. destruct (Hn n H) as [[X|X]|X]; [congruence|auto|auto].
    + apply IH; try assumption; try (intros; apply Hf || apply Hd; now right). intros n H. destruct (Hn n H) as [[<-|X]|X]; auto. right. now left.
Qed.

(** Where a name goes. *)
Definition target (to_set to_clear n : bytes) : bytes :=
  match filename_is_in_maildir n with
  | None => n
  | Some _ => match new_maildir_filename n to_set to_clear with Some g => g | None => n end
  end.
Lemma sync_names_content ok to_set to_clear files : forall names d names' d', NoDup files ->
  (forall n, In n files -> In n names) ->
  (forall n m, In n files -> In m files -> target to_set to_clear n = target to_set to_clear m -> n = m) ->
  (forall n, In n files -> target to_set to_clear n <> n -> d (target to_set to_clear n) = None /\ ~ In (target to_set to_clear n) names) ->
  sync_names ok to_set to_clear files names d = (names', d') ->
  (forall n, In n files -> exists n', (n' = n \/ n' = target to_set to_clear n) /\ In n' names' /\ d' n' = d n) /\
  (forall n, In n names -> ~ In n files -> In n names') /\
  (forall p, ~ In p files -> (forall n, In n files -> p <> target to_set to_clear n) -> d' p = d p).
Proof.
  induction files as [|f files IH]; intros names d names' d' Nd Hin Hinj Hfree; cbn [sync_names].
  - intros [= <- <-]. split; [intros n []|]. split; auto.
  - apply NoDup_cons_iff in Nd as [Nf Nd].
    assert (Stay : sync_names ok to_set to_clear files names d = (names', d') ->
       (forall n, In n (f :: files) -> exists n', (n' = n \/ n' = target to_set to_clear n) /\ In n' names' /\ d' n' = d n) /\
       (forall n, In n names -> ~ In n (f :: files) -> In n names') /\
       (forall p, ~ In p (f :: files) -> (forall n, In n (f :: files) -> p <> target to_set to_clear n) -> d' p = d p)).
    { intros E. destruct (IH names d names' d' Nd) as (I1 & I2 & I3); try assumption.
      - intros n H. apply Hin. now right.
      - intros n m H1 H2. apply Hinj; now right.
      - intros n H. apply Hfree. now right.
      - assert (Tf : forall n, In n files -> f <> target to_set to_clear n).
        { intros n H X. destruct (bytes_eq_dec (target to_set to_clear n) n) as [Q|Q]; [apply Nf; congruence|].
          destruct (Hfree n (or_intror H) Q) as [_ Y]. apply Y. rewrite <- X. apply Hin. now left. }
        split; [|split].
        + intros n [<-|H]; [|now apply I1]. exists f. split; [auto|]. split; [apply I2; [apply Hin; now left|exact Nf]|]. now apply I3.
        + intros n H1 H2. apply I2; [exact H1|]. intros X. apply H2. now right.
        + intros p H1 H2. apply I3; [intros X; apply H1; now right|]. intros n H. apply H2. now right. }
    destruct (filename_is_in_maildir f) as [i|] eqn:Em; [|exact Stay].
    destruct (new_maildir_filename f to_set to_clear) as [g|] eqn:Eg; [|exact Stay].
    destruct (bseq_spec f g) as [|Hne]; [exact Stay|]. destruct (ok f && _) eqn:Q; [|exact Stay]. clear Stay.
    assert (Tg : target to_set to_clear f = g) by (unfold target; rewrite Em, Eg; reflexivity).
    destruct (Hfree f (or_introl eq_refl)) as [Dg Ng]; [congruence|]. rewrite Tg in Dg, Ng.
    intros E. destruct (IH (add_name g (remove_name f names)) (rename_file f g d) names' d' Nd) as (I1 & I2 & I3); try assumption.
    + intros n H. apply add_name_In. right. apply remove_name_In. split; [apply Hin; now right|]. intros ->. contradiction.
    + intros n m H1 H2. apply Hinj; now right.
    + intros n H Ht. destruct (Hfree n (or_intror H) Ht) as [D1 N1].
      assert (T1 : target to_set to_clear n <> g) by (intros X; apply Nf; rewrite (Hinj f n (or_introl eq_refl) (or_intror H)); [exact H|congruence]).
      assert (T2 : target to_set to_clear n <> f) by (intros X; apply N1; rewrite X; apply Hin; now left).
      split; [rewrite rename_other; assumption|]. rewrite add_name_In, remove_name_In. tauto.
    + assert (Gf : ~ In g files) by (intros X; apply Ng, Hin; now right).
      assert (Gt : forall n, In n files -> g <> target to_set to_clear n).
      { intros n H X. apply Nf. rewrite (Hinj f n (or_introl eq_refl) (or_intror H)); [exact H|congruence]. }
      split; [|split].
      * intros n [<-|H].
        -- exists g. split; [auto|]. split; [apply I2; [apply add_name_In; auto|exact Gf]|]. rewrite I3; [apply rename_src; exact Hne|exact Gf|exact Gt].
        -- destruct (I1 n H) as (n' & H1 & H2 & H3). exists n'. split; [exact H1|]. split; [exact H2|]. rewrite H3. apply rename_other; congruence.
      * intros n H1 H2. apply I2; [apply add_name_In; right; apply remove_name_In; split; [exact H1|intros ->; apply H2; now left]|]. intros X. apply H2. now right.
      * intros p H1 H2. rewrite I3; [|intros X; apply H1; now right|intros n H; apply H2; now right].
        apply rename_other; [intros ->; apply H1; now left|]. intros ->. apply (H2 f (or_introl eq_refl)). congruence.
Qed.

(** Reading flags. *)
Lemma combine_spec files : forall combined seen flags seen', combine_flags files combined seen = (flags, seen') ->
  (forall tags, (forall n, In n files -> agrees tags n) -> (seen = true -> forall c, known c -> (In c combined <-> called_for tags c)) -> (seen = false -> combined = []) ->
     (seen' = true -> forall c, known c -> (In c flags <-> called_for tags c)) /\ (seen' = false -> flags = [])) .
Proof.
  induction files as [|f files IH]; intros combined seen flags seen'; cbn [combine_flags].
  - intros [= <- <-] tags _ H1 H2. auto.
  - intros E tags Ha H1 H2.
    assert (Ha' : forall n, In n files -> agrees tags n) by (intros n H; apply Ha; now right).
    destruct (filename_is_in_maildir f) as [dir|] eqn:Em; [|now apply (IH _ _ _ _ E)].
    destruct (Ha f (or_introl eq_refl)) as [X|(root & sub & unique & info & -> & Hn & Hnew & Hc)]; [congruence|].
    change (lit ":2,") with INFO in E. rewrite (strstr_path _ _ _ _ Hn) in E. destruct info as [fl|].
    + rewrite path_eq, skipn_pre in E. change (skipn 3 (INFO ++ fl)) with fl in E. apply (IH _ _ _ _ E tags Ha'); [|discriminate].
      intros _ c Hk. rewrite in_app_iff. specialize (Hc c Hk). cbn [flags_of] in Hc. destruct seen.
      * specialize (H1 eq_refl c Hk). tauto.
      * rewrite (H2 eq_refl). cbn. tauto.
    + rewrite (Hnew eq_refl) in *. destruct (path_in_maildir _ _ _ _ Hn) as (P1 & P2). rewrite P1 in Em. injection Em as <-. rewrite P2 in E.
      cbn in E. apply (IH _ _ _ _ E tags Ha'); [|discriminate]. intros _ c Hk. specialize (Hc c Hk). cbn [flags_of] in Hc. destruct seen.
      * exact (H1 eq_refl c Hk).
      * rewrite (H2 eq_refl). exact Hc.
Qed.

(** Tags computed from flags. *)
Lemma add_tag_In x t l : In x (add_tag t l) <-> x = t \/ In x l.
Proof.
  unfold add_tag. destruct (existsb (bseq t) l) eqn:E; [|cbn; intuition].
  apply existsb_exists in E as (z & Hz & Ez). apply bseq_eq in Ez. subst z. split; [auto|]. intros [->|H]; auto.
Qed.
Lemma remove_tag_In x t l : In x (remove_tag t l) <-> In x l /\ x <> t.
Proof. unfold remove_tag. rewrite filter_In, negb_true_iff, bseq_neq. split; intros [H1 H2]; split; auto. Qed.
Lemma fold_tags flags l : NoDup (map (fun e : byte * bytes * bool => snd (fst e)) l) -> forall tags x,
  In x (fold_left (fun tags e => let '(flag, tag, inverse) := e in
          if xorb (strchr_found flags flag) inverse then add_tag tag tags else remove_tag tag tags) l tags) <->
  (exists f inv, In (f, x, inv) l /\ xorb (strchr_found flags f) inv = true) \/ ((~ exists f inv, In (f, x, inv) l) /\ In x tags).
Proof.
  induction l as [|[[f t] inv] l IH]; intros Nd tags x; cbn [fold_left].
  - split; [intros H; right; split; [intros (f & i & [])|exact H]|]. intros [(f & i & [] & _)|[_ H]]; exact H.
  - cbn in Nd. apply NoDup_cons_iff in Nd as [Nt Nd]. rewrite (IH Nd).
    assert (In_t : forall f' i', ~ In (f', t, i') l). { intros f' i' H. apply Nt. apply in_map_iff. exists (f', t, i'). auto. }
    destruct (xorb (strchr_found flags f) inv) eqn:Q; [rewrite add_tag_In|rewrite remove_tag_In].
    + split.
      * intros [(f' & i' & H1 & H2)|[H1 [->|H2]]].
        -- left. exists f', i'. split; [now right|exact H2].
        -- left. exists f, inv. split; [now left|exact Q].
        -- destruct (bytes_eq_dec x t) as [->|Hne]; [left; exists f, inv; split; [now left|exact Q]|].
           right. split; [|exact H2]. intros (f' & i' & [X|X]); [injection X as -> ->; congruence|]. apply H1. eauto.
      * intros [(f' & i' & [X|X] & H2)|[H1 H2]].
        -- injection X as -> -> ->. right. split; [|auto]. intros (f2 & i2 & X). now apply In_t in X.
        -- left. eauto.
        -- right. split; [|auto]. intros (f2 & i2 & X). apply H1. exists f2, i2. now right.
    + split.
      * intros [(f' & i' & H1 & H2)|[H1 [H2 H3]]].
        -- left. exists f', i'. split; [now right|exact H2].
        -- right. split; [|exact H2]. intros (f' & i' & [X|X]); [congruence|]. apply H1. eauto.
      * intros [(f' & i' & [X|X] & H2)|[H1 H2]].
        -- congruence.
        -- left. eauto.
        -- right. split; [intros (f2 & i2 & X); apply H1; exists f2, i2; now right|]. split; [exact H2|]. intros ->. apply H1. exists f, inv. now left.
Qed.
Lemma flags_to_tags_In files tags flags x : ensure_maildir_flags files = Some flags ->
  (In x (maildir_flags_to_tags files tags) <->
   (exists c p, means c x p /\ (In c flags <-> p = true)) \/ ((~ exists c p, means c x p) /\ In x tags)).
Proof.
  intros E. unfold maildir_flags_to_tags. rewrite E. rewrite fold_tags.
  2:{ cbn. repeat constructor; cbn; intuition discriminate. }
  assert (A : (exists f inv, In (f, x, inv) flag2tag /\ xorb (strchr_found flags f) inv = true) <-> (exists c p, means c x p /\ (In c flags <-> p = true))).
  { split.
    - intros (f & inv & H1 & H2). exists f, (negb inv). assert (Hm : means f x (negb inv)) by (apply means_table; rewrite negb_involutive; exact H1). split; [exact Hm|].
      assert (Hz : f <> NUL) by (apply known_ascii; eexists _, _; exact Hm). pose proof (found_In flags f Hz) as F.
      destruct (strchr_found flags f), inv; cbn in *; try discriminate; intuition congruence.
    - intros (c & p & Hm & H). exists c, (negb p). split; [now apply means_table|].
      assert (Hz : c <> NUL) by (apply known_ascii; eexists _, _; exact Hm). pose proof (found_In flags c Hz) as F.
      destruct (strchr_found flags c), p; cbn in *; try reflexivity; intuition congruence. }
  assert (B : (exists f inv, In (f, x, inv) flag2tag) <-> (exists c p, means c x p)).
  { split.
    - intros (f & inv & H). exists f, (negb inv). apply means_table. now rewrite negb_involutive.
    - intros (c & p & H). exists c, (negb p). now apply means_table. }
  rewrite A, B. reflexivity.
Qed.
Lemma means_unique c t p c' p' : means c t p -> means c' t p' -> c = c' /\ p = p'.
Proof. intros H H'. inversion H; subst; inversion H'; subst; auto; discriminate. Qed.

Lemma read_back files tags x : (forall n, In n files -> agrees tags n) -> (In x (maildir_flags_to_tags files tags) <-> In x tags).
Proof.
  intros Ha. unfold ensure_maildir_flags. destruct (ensure_maildir_flags files) as [flags|] eqn:E.
  2:{ unfold maildir_flags_to_tags. rewrite E. tauto. }
  rewrite (flags_to_tags_In files tags flags x E). unfold ensure_maildir_flags in E. destruct (combine_flags files [] false) as [fl seen] eqn:Ec.
  destruct seen; [|discriminate]. injection E as <-.
  destruct (combine_spec _ _ _ _ _ Ec tags Ha) as (G & _); [discriminate|reflexivity|]. specialize (G eq_refl).
  split.
  - intros [(c & p & Hm & H)|[_ H]]; [|exact H]. assert (Hk : known c) by (exists x, p; exact Hm). specialize (G c Hk).
    destruct p.
    + destruct (proj1 G (proj2 H eq_refl)) as (t & p & H1 & H2). inversion Hm; subst; inversion H1; subst; exact H2.
    + destruct (in_dec bytes_eq_dec x tags) as [Y|Y]; [exact Y|]. exfalso.
      assert (called_for tags c) by (exists x, false; auto). apply G in H0. apply H in H0. discriminate.
  - intros Hx. assert (D : (exists c p, means c x p) \/ ~ (exists c p, means c x p)).
    { destruct (in_dec bytes_eq_dec x (map (fun e : byte * bytes * bool => snd (fst e)) flag2tag)) as [Y|Y].
      - left. apply in_map_iff in Y as ([[c t] i] & <- & Y). exists c, (negb i). apply means_table. now rewrite negb_involutive.
      - right. intros (c & p & H). apply Y. apply in_map_iff. exists (c, x, negb p). split; [reflexivity|]. now apply means_table. }
    destruct D as [(c & p & Hm)|D]; [|auto]. left. exists c, p. split; [exact Hm|]. assert (Hk : known c) by (exists x, p; exact Hm). rewrite (G c Hk). split.
    + intros (t & p' & H1 & H2). inversion Hm; subst; inversion H1; subst; auto; contradiction.
    + intros ->. exists x, true. auto.
Qed.
