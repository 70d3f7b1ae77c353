From Verif Require Import Bytes Terms DocMap MsgId MsgIdProofs MailStore MailStoreSpec MailStoreProofs MailStoreProofs2 Maildir New NewSpec NewProofs.
From Coq Require Import Sorted Permutation.
Local Open Scope N_scope.

(** ---- Directory documents ---- *)
Lemma dir_get_In p db : (exists m, dir_get p db = Some m) <-> In p (map fst (n_dirs db)).
Proof.
  unfold dir_get. pose proof (MailStoreProofs.find_spec (fun d => bseq p (fst d)) (n_dirs db)) as F.
  destruct (find _ (n_dirs db)) as [[q m]|]; cbn in *.
  - destruct F as [F1 F2]. apply bseq_eq in F2. subst q. split; [intros _|eauto]. apply in_map_iff. exists (p, m). auto.
  - split; [intros (m & X); discriminate|]. intros H. apply in_map_iff in H as ([q m] & E & H). cbn in E. subst q. apply F in H. cbn in H. rewrite bseq_refl in H. discriminate.
Qed.
Definition dget_dirs (p : bytes) (ds : list (bytes * Z)) := option_map snd (find (fun d => bseq p (fst d)) ds).
Lemma dir_get_dirs p db : dir_get p db = dget_dirs p (n_dirs db).
Proof. reflexivity. Qed.
Lemma find_app {A} (f : A -> bool) a b : find f (a ++ b) = match find f a with Some x => Some x | None => find f b end.
Proof. induction a as [|x a IH]; cbn; [reflexivity|]. destruct (f x); auto. Qed.
Lemma add_dir_get p q ds : dget_dirs q (add_dir p ds) = match dget_dirs q ds with Some m => Some m | None => if bseq q p then Some 0%Z else None end.
Proof.
  unfold add_dir. destruct (existsb (fun d => bseq p (fst d)) ds) eqn:E.
  - destruct (dget_dirs q ds) eqn:G; [reflexivity|]. destruct (bseq_spec q p) as [->|]; [|reflexivity]. exfalso.
    unfold dget_dirs in G. destruct (find _ ds) eqn:F; [discriminate|]. apply existsb_exists in E as (d & Hd & Ed). apply (find_none _ _ F) in Hd. congruence.
  - unfold dget_dirs. rewrite find_app. destruct (find (fun d => bseq q (fst d)) ds); [reflexivity|]. cbn. now destruct (bseq q p).
Qed.
Lemma make_dirs_get l : forall q ds, dget_dirs q (fold_left (fun ds q => add_dir q ds) l ds) =
  match dget_dirs q ds with Some m => Some m | None => if existsb (bseq q) l then Some 0%Z else None end.
Proof.
  induction l as [|p l IH]; intros q ds; cbn [fold_left existsb]; [destruct (dget_dirs q ds); reflexivity|].
  rewrite IH, add_dir_get. destruct (dget_dirs q ds); [reflexivity|]. now destruct (bseq q p).
Qed.
Lemma add_dir_nodup p ds : NoDup (map fst ds) -> NoDup (map fst (add_dir p ds)).
Proof.
  intros H. unfold add_dir. destruct (existsb _ ds) eqn:E; [exact H|]. rewrite map_app. cbn. 
  apply NoDup_rev in H. rewrite <- (rev_involutive (map fst ds ++ [p])). apply NoDup_rev. rewrite rev_app_distr. cbn. constructor; [|exact H].
  intros X. apply in_rev in X. apply in_map_iff in X as (d & Ed & Hd). assert (Y : existsb (fun d => bseq p (fst d)) ds = true); [|congruence].
  apply existsb_exists. exists d. split; [exact Hd|]. rewrite Ed. apply bseq_refl.
Qed.
Lemma make_dirs_nodup l : forall ds, NoDup (map fst ds) -> NoDup (map fst (fold_left (fun ds q => add_dir q ds) l ds)).
Proof. induction l as [|p l IH]; intros ds H; cbn; [exact H|]. apply IH. now apply add_dir_nodup. Qed.

(** [q] is the directory [p] or one of its parents. *)
Definition upto (p q : bytes) : Prop := q = p \/ exists r, p = child q r.
Lemma ancestors_In rest : forall pre q, In q (ancestors pre rest) <->
  exists l r, rest = l ++ r /\ q = pre ++ l /\ (r = [] \/ exists r', r = SLASH :: r').
Proof.
  induction rest as [|c rest IH]; intros pre q; cbn [ancestors].
  - split.
    + intros [<-|[]]. exists [], []. rewrite !app_nil_r. auto.
    + intros (l & r & E & -> & _). symmetry in E. apply app_eq_nil in E as [-> ->]. rewrite app_nil_r. now left.
  - rewrite in_app_iff, IH. split.
    + intros [H|(l & r & -> & -> & H)].
      * destruct (beq_spec c SLASH) as [->|]; [|destruct H]. destruct H as [<-|[]]. exists [], (SLASH :: rest). rewrite app_nil_r. split; [reflexivity|]. split; [reflexivity|]. eauto.
      * exists (c :: l), r. rewrite <- app_assoc. auto.
    + intros (l & r & E & -> & H). destruct l as [|c' l].
      * cbn in E. subst r. destruct H as [H|(r' & [= -> ->])]; [discriminate|]. left. rewrite beq_refl, app_nil_r. now left.
      * injection E as <- ->. right. exists l, r. rewrite <- app_assoc. auto.
Qed.
Lemma ancestors_upto p q : In q (ancestors [] p) <-> upto p q.
Proof.
  rewrite ancestors_In. unfold upto, child. split.
  - intros (l & r & -> & -> & [->|(r' & ->)]); [left; cbn; now rewrite app_nil_r|right; exists r'; reflexivity].
  - intros [->|(r & ->)]; [exists p, []; rewrite app_nil_r; auto|]. exists q, (SLASH :: r). split; [reflexivity|]. split; [reflexivity|]. eauto.
Qed.
Lemma existsb_ancestors p q : existsb (bseq q) (ancestors [] p) = true <-> upto p q.
Proof. rewrite <- ancestors_upto. apply (tmem_In q). Qed.

(** A path of the mail store: empty, or a chain of names each preceded by '/'. *)
Definition rooted (p : bytes) : Prop := p = [] \/ exists r, p = SLASH :: r.
Lemma rooted_child p n : rooted p -> rooted (child p n).
Proof. intros [->|(r & ->)]; right; eexists; reflexivity. Qed.
Lemma last_slash p : rooted p -> p = [] \/ exists q n, p = child q n /\ mem SLASH n = false /\ rooted q.
Proof.
  intros [->|(r & ->)]; [now left|right].
  assert (G : forall s, mem SLASH s = true -> exists a n, s = a ++ SLASH :: n /\ mem SLASH n = false).
  { induction s as [|c s IH]; intros H; [discriminate|]. destruct (mem SLASH s) eqn:Es.
    - destruct (IH eq_refl) as (a & n & -> & Hn). exists (c :: a), n. auto.
    - unfold mem in *. cbn [existsb] in H. rewrite Es, orb_false_r in H. apply beq_eq in H. subst c. exists [], s. auto. }
  destruct (G (SLASH :: r) eq_refl) as (a & n & E & Hn).
  exists a, n. split; [exact E|]. split; [exact Hn|]. destruct a as [|c a]; [now left|]. injection E as <- _. right. eauto.
Qed.
Lemma upto_parent p q n : upto p (child q n) -> upto p q.
Proof. intros [E|(r & E)]; right; [eauto|]. rewrite child_child in E. eauto. Qed.
Lemma upto_rooted p q : rooted p -> upto p q -> rooted q.
Proof.
  intros [->|(r & ->)] [->|(x & E)].
  - now left.
  - symmetry in E. now apply child_not_nil in E.
  - right. eauto.
  - destruct q as [|c q]; [now left|]. injection E as <- _. right. eauto.
Qed.

Lemma known_make_dirs p db m q : known_dir {| n_mail := m; n_dirs := make_dirs p (n_dirs db) |} q <-> known_dir db q \/ upto p q.
Proof.
  unfold known_dir. cbn. rewrite !dir_get_dirs. cbn. unfold make_dirs. rewrite make_dirs_get, <- existsb_ancestors.
  destruct (dget_dirs q (n_dirs db)); [split; [left; eauto|eauto]|]. destruct (existsb _ _); split; eauto; intros [(x & X)|X]; discriminate.
Qed.
(** Only directory documents were added. *)
Lemma good_add_dirs p db : rooted p -> good_ndb db -> good_ndb {| n_mail := n_mail db; n_dirs := make_dirs p (n_dirs db) |}.
Proof.
  intros Hp Hg. constructor.
  - apply Hg.
  - intros f Hf. destruct (g_file db Hg f Hf) as (q & n & -> & Hn & Hk). exists q, n. split; [reflexivity|]. split; [exact Hn|]. apply known_make_dirs. now left.
  - intros q Hq. apply known_make_dirs in Hq as [Hq|Hq].
    + destruct (g_dir db Hg q Hq) as [->|(r & n & -> & Hn & Hk)]; [now left|]. right. exists r, n. split; [reflexivity|]. split; [exact Hn|]. apply known_make_dirs. now left.
    + destruct (last_slash q (upto_rooted p q Hp Hq)) as [->|(r & n & -> & Hn & Hr)]; [now left|]. right. exists r, n. split; [reflexivity|]. split; [exact Hn|].
      apply known_make_dirs. right. now apply upto_parent in Hq.
  - unfold make_dirs. apply make_dirs_nodup. apply Hg.
Qed.

Lemma child_dirs_In p db n : In n (child_dirs p db) <-> known_dir db (child p n) /\ mem SLASH n = false.
Proof. unfold child_dirs, known_dir. rewrite tset_of_In, names_in_In, dir_get_In. reflexivity. Qed.

(** ---- Sorting the entries ---- *)
Definition elt {A} (a b : bytes * A) : Prop := blt (fst a) (fst b).
Lemma insert_perm {A} (e : bytes * A) l : Permutation (e :: l) (insert_entry e l).
Proof.
  induction l as [|x l IH]; cbn; [reflexivity|]. destruct (bleb (fst e) (fst x)); [reflexivity|]. rewrite perm_swap. now constructor.
Qed.
Lemma sort_perm {A} (l : list (bytes * A)) : Permutation l (sort_entries l).
Proof. induction l as [|e l IH]; cbn; [constructor|]. rewrite <- insert_perm. now constructor. Qed.
Lemma insert_sorted {A} (e : bytes * A) l : StronglySorted elt l -> ~ In (fst e) (map fst l) -> StronglySorted elt (insert_entry e l).
Proof.
  induction 1 as [|x l Hl IH Hx]; cbn; intros Hn; [repeat constructor|].
  destruct (bleb (fst e) (fst x)) eqn:E.
  - apply bleb_lt_or_eq in E as [E|E]; [|exfalso; apply Hn; now left]. constructor; [now constructor|]. constructor; [exact E|].
    eapply Forall_impl; [|exact Hx]. intros y Hy. unfold elt, blt in *. eapply bltb_trans; eauto.
  - constructor; [apply IH; tauto|]. eapply Permutation_Forall; [apply insert_perm|]. constructor; [|exact Hx]. unfold elt, blt. rewrite bltb_bleb_neg, E. reflexivity.
Qed.
Lemma sort_sorted {A} (l : list (bytes * A)) : NoDup (map fst l) -> StronglySorted elt (sort_entries l).
Proof.
  induction l as [|e l IH]; cbn; intros H; [constructor|]. apply NoDup_cons_iff in H as [H1 H2]. apply insert_sorted; [now apply IH|].
  intros X. apply H1. eapply Permutation_in; [|exact X]. apply Permutation_map, Permutation_sym, sort_perm.
Qed.

(** ---- Names walked past ---- *)
Lemma passed_files_spec n : forall l, tsorted l -> exists q r, passed_files n l = (q, r) /\ l = q ++ r /\
  Forall (fun f => blt f n) q /\ Forall (fun f => bleb n f = true) r /\ tsorted r.
Proof.
  induction 1 as [|f l Hl IH Hf]; cbn [passed_files]; [exists [], []; repeat constructor|].
  destruct (bltb f n) eqn:E.
  - destruct IH as (q & r & -> & -> & Hq & Hr & Hs). exists (f :: q), r. split; [reflexivity|]. split; [reflexivity|]. split; [now constructor|]. auto.
  - exists [], (f :: l). split; [reflexivity|]. split; [reflexivity|]. split; [constructor|].
    assert (X : bleb n f = true) by (rewrite bltb_bleb_neg in E; now apply negb_false_iff). split; [|now constructor].
    constructor; [exact X|]. eapply Forall_impl; [|exact Hf]. intros y Hy. eapply bleb_trans; [exact X|]. apply bleb_lt_or_eq. now left.
Qed.
Lemma passed_dirs_spec n : forall l, tsorted l -> exists q r, passed_dirs n l = (q, r) /\
  (forall x, In x l <-> In x q \/ (x = n /\ In n l) \/ In x r) /\
  Forall (fun f => blt f n) q /\ Forall (fun f => blt n f) r /\ tsorted r.
Proof.
  induction 1 as [|f l Hl IH Hf]; cbn [passed_dirs].
  - exists [], []. split; [reflexivity|]. split; [cbn; intuition|]. repeat constructor.
  - destruct (bleb f n) eqn:E.
    + destruct IH as (q & r & -> & Hx & Hq & Hr & Hs). eexists _, r. split; [reflexivity|]. split; [|split; [|auto]].
      * intros x. cbn [In]. rewrite Hx. destruct (bltb f n) eqn:Lt; cbn [In].
        -- assert (f <> n) by (intros ->; rewrite bltb_irrefl in Lt; discriminate). intuition (subst; auto).
        -- apply bleb_lt_or_eq in E as [E|E]; [congruence|]. subst f. intuition (subst; auto).
      * destruct (bltb f n) eqn:Lt; [now constructor|exact Hq].
    + exists [], (f :: l). assert (X : bltb n f = true) by (rewrite bltb_bleb_neg, E; reflexivity).
      assert (Fr : Forall (fun g => blt n g) (f :: l)).
      { constructor; [exact X|]. eapply Forall_impl; [|exact Hf]. intros y Hy. unfold blt in *. eapply bltb_trans; eauto. }
      split; [reflexivity|]. split; [|split; [constructor|split; [exact Fr|now constructor]]].
      intros x. split; [now right; right|]. intros [[]|[[-> H]|H]]; exact H.
Qed.

(** ---- Interruption ---- *)
Definition live (s : nstate) : Prop := s_tick s <> Some O.
Lemma interrupted_spec s : exists i s1, interrupted s = (i, s1) /\ s_db s1 = s_db s /\ s_removed_files s1 = s_removed_files s /\
  s_removed_dirs s1 = s_removed_dirs s /\ s_mtimes s1 = s_mtimes s /\ s_vanished s1 = s_vanished s /\
  (live s1 -> i = false /\ live s) /\ (i = false <-> live s).
Proof.
  unfold interrupted, live. destruct (s_tick s) as [[|n]|] eqn:E; eexists _, _; (split; [reflexivity|]); cbn;
    repeat (split; [reflexivity|]); rewrite ?E; (split; [intros; split; congruence|]); split; congruence.
Qed.
