(** Lemmas for C94: threads of the tree view, and what is shown. *)
From Verif Require Import Bytes Terms Meta DocMap Db DbProofs StrUtil TagOps TagOpsSpec TagOpsProofs EmacsTag EmacsTagSpec EmacsTagProofs EmacsTagProofs2 P_EmacsTag EmacsSearch EmacsSearchSpec EmacsTree EmacsTreeSpec EmacsTreeProofs.
Local Open Scope nat_scope.

(** ** The lines of a thread *)
Lemma nth_mid0 {A} (pre : list A) x post : nth_error (pre ++ x :: post) (length pre) = Some x.
Proof. rewrite nth_error_app2, Nat.sub_diag by lia. reflexivity. Qed.
Lemma top_eq l pos : top_loop l pos = match nth_error l pos with Some t => if t_first t then pos else match pos with O => O | S p => top_loop l p end | None => pos end.
Proof. destruct pos; reflexivity. Qed.
Lemma top_back b post pre : forall i, one_thread b -> i < length b -> top_loop (pre ++ b ++ post) (length pre + i) = length pre.
Proof.
  intros i (x & xs & -> & Fx & Fxs). induction i as [|i IH]; intros L.
  - rewrite Nat.add_0_r. rewrite top_eq. cbn [app]. now rewrite nth_mid0, Fx.
  - rewrite Nat.add_succ_r, top_eq. cbn [length] in L.
    replace (nth_error (pre ++ (x :: xs) ++ post) (S (length pre + i))) with (nth_error xs i).
    + destruct (nth_error xs i) as [y|] eqn:E; [|apply nth_error_None in E; lia]. rewrite (Fxs y (nth_error_In _ _ E)). apply IH. cbn. lia.
    + rewrite nth_error_app2 by lia. replace (S (length pre + i) - length pre) with (S i) by lia. cbn [app nth_error]. rewrite nth_error_app1 by lia. reflexivity.
Qed.
Definition closed (post : list tline) : Prop := match post with [] => True | y :: _ => t_first y = true end.
Lemma closed_blocks bs : Forall one_thread bs -> closed (concat bs).
Proof. intros [|b bs' (x & xs & -> & F & _) _]; [exact I|exact F]. Qed.
Lemma mapcar_back {A B} (fn : nat -> list tline * A -> B * (list tline * A)) (out : tline -> B) (upd : tline -> tline) (pan : A -> tline -> A) :
  (forall pre x post a, fn (length pre) (pre ++ x :: post, a) = (out x, (pre ++ upd x :: post, pan a x))) ->
  forall xs x fuel pre post a, length xs < fuel -> (forall y, In y xs -> t_first y = false) -> closed post ->
  mapcar_loop fn fuel (length pre) (pre ++ (x :: xs) ++ post, a) = (map out (x :: xs), (pre ++ map upd (x :: xs) ++ post, fold_left pan (x :: xs) a)).
Proof.
  intros Hf. induction xs as [|y xs IH]; intros x [|fuel] pre post a L F Cl; try (cbn in L; lia).
  - cbn [mapcar_loop app]. rewrite Hf. cbn [fst]. replace (nth_error (pre ++ upd x :: post) (S (length pre))) with (nth_error post 0).
    + destruct post as [|z post]; cbn [nth_error]; [reflexivity|]. cbn in Cl. rewrite Cl. reflexivity.
    + rewrite nth_error_app2 by lia. replace (S (length pre) - length pre) with 1 by lia. reflexivity.
  - cbn [mapcar_loop]. cbn [app]. rewrite Hf. cbn [fst]. replace (nth_error (pre ++ upd x :: y :: xs ++ post) (S (length pre))) with (Some y).
    + rewrite (F y (or_introl eq_refl)). specialize (IH y fuel (pre ++ [upd x]) post (pan a x)).
      rewrite app_length in IH. cbn [length] in IH. rewrite Nat.add_1_r in IH. rewrite <- app_assoc in IH. cbn [app] in IH. rewrite IH; [|cbn in L; lia|intros z I; apply F; now right|exact Cl].
      cbn [map fold_left]. rewrite <- app_assoc. reflexivity.
    + rewrite nth_error_app2 by lia. replace (S (length pre) - length pre) with 1 by lia. reflexivity.
Qed.
Lemma thread_back {A B} (fn : nat -> list tline * A -> B * (list tline * A)) out upd pan b pre post a i :
  (forall pre x post a, fn (length pre) (pre ++ x :: post, a) = (out x, (pre ++ upd x :: post, pan a x))) ->
  one_thread b -> i < length b -> closed post ->
  thread_mapcar fn (length pre + i) (pre ++ b ++ post, a) = (map out b, (pre ++ map upd b ++ post, fold_left pan b a)).
Proof.
  intros Hf O L Cl. unfold thread_mapcar. cbn [fst]. rewrite top_back by assumption. destruct O as (x & xs & -> & _ & F).
  apply mapcar_back; auto. rewrite !app_length. cbn [length]. lia.
Qed.
Lemma ids_back b pre post i : one_thread b -> i < length b -> closed post -> ids_thread_search (pre ++ b ++ post) (length pre + i) = orq (map t_id b).
Proof.
  intros O L Cl. unfold ids_thread_search. rewrite (thread_back _ (fun x => el_id_to_query (t_id x)) (fun x => x) (fun a _ => a)); auto.
  - cbn [fst]. unfold orq. now rewrite map_map.
  - intros pre' x post' a. unfold tree_message_id. cbn [fst]. rewrite nth_mid0. reflexivity.
Qed.

(** ** Drawing a line again *)
Lemma equal_tags_eq a : forall b, equal_tags a b = true <-> a = b.
Proof.
  induction a as [|x a IH]; intros [|y b]; cbn; split; try congruence; try discriminate.
  - intros H. apply andb_true_iff in H. destruct H as [H1 H2]. apply bseq_eq in H1. apply IH in H2. congruence.
  - intros [= -> ->]. apply andb_true_iff. split; [now apply bseq_eq|now apply IH].
Qed.
Definition relined (changes : list bytes) (x : tline) : tline :=
  match el_update_tags (t_tags x) changes with Some n => {| t_id := t_id x; t_first := t_first x; t_tags := n |} | None => x end.
Definition repane (changes : list bytes) (pane : option show) (x : tline) : option show := snd (tree_update_display changes 0 [x] pane).
Lemma set_nth_mid {X} (pre : list X) x y post : set_nth (pre ++ x :: post) (length pre) y = pre ++ y :: post.
Proof. induction pre as [|p pre IH]; cbn; [reflexivity|now rewrite IH]. Qed.
Lemma display_back changes pre x post pane : tree_update_display changes (length pre) (pre ++ x :: post) pane = (pre ++ relined changes x :: post, repane changes pane x).
Proof.
  unfold tree_update_display, repane, relined. rewrite nth_mid0. unfold tree_update_display. cbn [nth_error]. destruct (el_update_tags (t_tags x) changes) as [n|]; [|reflexivity].
  destruct (equal_tags (t_tags x) n) eqn:E; [|rewrite set_nth_mid; reflexivity]. apply equal_tags_eq in E. rewrite <- E. destruct x; reflexivity.
Qed.
(** What is drawn, and what it means. *)
Lemma updated changes ops tags : Forall2 says changes ops -> tsorted tags ->
  exists n, el_update_tags tags changes = Some n /\ tsorted n /\ forall t, In t n <-> tag_after false ops (fun u => In u tags) t.
Proof.
  intros F N. destruct (el_update_spec changes ops F tags (tsorted_nodup _ N)) as (l & L1 & L2 & L3). destruct (el_sort_spec l L2) as [S1 S2].
  exists (el_sort l). unfold el_update_tags. rewrite L1. split; [reflexivity|]. split; [exact S1|]. intros t. now rewrite S2, L3.
Qed.
Lemma retagged_true ids ops st st' id tags n :
  retagged ids ops st st' -> true_of st id tags -> In id ids -> tsorted n -> (forall t, In t n <-> tag_after false ops (fun u => In u tags) t) -> true_of st' id n.
Proof.
  intros (_ & R) (_ & Tr) I S N. split; [exact S|]. intros k d' E' H' t. specialize (R k). rewrite E' in R. destruct (dget k (st_docs st)) as [d|] eqn:E; [|contradiction].
  destruct R as (R1 & R2 & _). apply R1 in H'. rewrite N, R2 by eauto. apply tag_after_ext. intros u. now apply (Tr k d).
Qed.
Lemma retagged_other ids ops st st' id tags : one_id st -> retagged ids ops st st' -> true_of st id tags -> ~ In id ids -> true_of st' id tags.
Proof.
  intros U (_ & R) (S & Tr) I. split; [exact S|]. intros k d' E' H' t. specialize (R k). rewrite E' in R. destruct (dget k (st_docs st)) as [d|] eqn:E; [|contradiction].
  destruct R as (R1 & _ & R3). apply R1 in H'. rewrite R3; [now apply (Tr k d)|]. intros (j & J & K). apply I. now rewrite (U k d id j E H' K).
Qed.
Lemma retagged_one ids ops st st' : one_id st -> retagged ids ops st st' -> one_id st'.
Proof.
  intros U (_ & R) k d' a b E' A B. specialize (R k). rewrite E' in R. destruct (dget k (st_docs st)) as [d|] eqn:E; [|contradiction]. destruct R as (R1 & _). apply R1 in A, B. eauto.
Qed.

(** ** Filling the view *)
Lemma insert_tree_eq id tags rs depth first :
  insert_tree (Tree id tags rs) depth first = {| t_id := id; t_first := first && (depth =? 0); t_tags := tags |} ::
  (fix go (ts : list tree) (first : bool) : list tline := match ts with [] => [] | t :: ts => insert_tree t (S depth) first ++ go ts false end) rs true.
Proof. reflexivity. Qed.
Definition reported (x : tline) : bytes * list bytes := (t_id x, t_tags x).
Lemma tree_ind2 (P : tree -> Prop) : (forall id tags rs, Forall P rs -> P (Tree id tags rs)) -> forall t, P t.
Proof.
  intros H. fix IH 1. intros [id tags rs]. apply H. induction rs as [|t rs IHr]; constructor; [apply IH|exact IHr].
Qed.
Lemma insert_tree_spec t : forall depth first,
  exists x xs, insert_tree t depth first = x :: xs /\ t_first x = first && (depth =? 0) /\ (forall y, In y xs -> t_first y = false) /\ map reported (x :: xs) = messages t.
Proof.
  induction t as [id tags rs IH] using tree_ind2. intros depth first. rewrite insert_tree_eq. eexists _, _. split; [reflexivity|]. split; [reflexivity|]. cbn [map messages].
  assert (G : forall b, (forall y, In y ((fix go (ts : list tree) (first : bool) : list tline := match ts with [] => [] | t :: ts => insert_tree t (S depth) first ++ go ts false end) rs b) -> t_first y = false) /\
    map reported ((fix go (ts : list tree) (first : bool) : list tline := match ts with [] => [] | t :: ts => insert_tree t (S depth) first ++ go ts false end) rs b) = flat_map messages rs).
  { induction IH as [|t rs Ht Hrs IHr]; intros b; [split; [intros y []|reflexivity]|]. destruct (Ht (S depth) b) as (x & xs & E & F & Fs & M). destruct (IHr false) as [G1 G2]. rewrite E. split.
    - intros y I. apply in_app_or in I. destruct I as [[<- |I]|I]; [rewrite F; apply andb_false_r|now apply Fs|now apply G1].
    - rewrite map_app, M, G2. reflexivity. }
  destruct (G true) as [G1 G2]. split; [exact G1|]. now rewrite G2.
Qed.
Lemma insert_thread_rest ts : (forall y, In y (insert_thread ts false) -> t_first y = false) /\ map reported (insert_thread ts false) = flat_map messages ts.
Proof.
  induction ts as [|t ts [G1 G2]]; [split; [intros y []|reflexivity]|]. cbn [insert_thread flat_map]. destruct (insert_tree_spec t 0 false) as (x & xs & E & F & Fs & M). rewrite E. split.
  - intros y I. apply in_app_or in I. destruct I as [[<- |I]|I]; [exact F|now apply Fs|now apply G1].
  - rewrite map_app, M, G2. reflexivity.
Qed.
Lemma insert_thread_spec ts : ts <> [] -> one_thread (insert_thread ts true) /\ map reported (insert_thread ts true) = flat_map messages ts.
Proof.
  destruct ts as [|t ts]; [congruence|]. intros _. cbn [insert_thread flat_map]. destruct (insert_tree_spec t 0 true) as (x & xs & E & F & Fs & M). destruct (insert_thread_rest ts) as [G1 G2]. rewrite E. split.
  - exists x, (xs ++ insert_thread ts false). split; [reflexivity|]. split; [exact F|]. intros y I. apply in_app_or in I. destruct I; auto.
  - rewrite map_app, M, G2. reflexivity.
Qed.
