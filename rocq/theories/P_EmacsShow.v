(** C94, second part: changing tags in the show view of Emacs. *)
From Verif Require Import Bytes Terms Meta DocMap Db DbProofs StrUtil TagOps TagOpsSpec TagLine EmacsTag EmacsTagSpec EmacsTagProofs EmacsTagProofs2 P_EmacsTag EmacsSearch EmacsSearchSpec EmacsTree EmacsTreeSpec EmacsTreeProofs EmacsTreeProofs2 P_EmacsTree.
Local Open Scope nat_scope.

(** The message [m] shown again with the operations applied to its tags. *)
Definition shown_after (ops : list tagop) (m m' : smsg) : Prop :=
  s_id m' = s_id m /\ s_seen m' = s_seen m /\ s_visible m' = s_visible m /\ s_drawn m' = s_tags m' /\ tsorted (s_tags m') /\
  forall t, In t (s_tags m') <-> tag_after false ops (fun u => In u (s_tags m)) t.
Lemma retag_spec changes ops m : Forall2 says changes ops -> tsorted (s_tags m) -> s_drawn m = s_tags m -> shown_after ops m (show_retag changes m).
Proof.
  intros F S D. destruct (updated changes ops (s_tags m) F S) as (n & E & S' & N). unfold show_retag. rewrite E. destruct (equal_tags (s_tags m) n) eqn:Q; [|repeat split; auto; apply N].
  apply equal_tags_eq in Q. subst n. repeat split; auto; apply N.
Qed.
(** Tagging the current message. *)
Theorem C94_show_tag :
  forall eval thr changes ops ms1 m ms2 e,
  reads_alternatives eval -> asked changes ops -> sound (e_store e) -> plain_id (s_id m) -> tsorted (s_tags m) -> s_drawn m = s_tags m ->
  exists e' m', show_tag eval thr changes {| sh_msgs := ms1 ++ m :: ms2; sh_cur := length ms1 |} e = (E_ok, e', {| sh_msgs := ms1 ++ m' :: ms2; sh_cur := length ms1 |}) /\
    retagged [s_id m] ops (e_store e) (e_store e') /\ shown_after ops m m'.
Proof.
  intros eval thr changes ops ms1 m ms2 e Rd As St P S D. destruct (tag_id eval thr changes ops (s_id m) e As Rd P St) as (e' & E & R).
  exists e', (show_retag changes m). unfold show_tag, show_message_id, show_retag_current. cbn [sh_msgs sh_cur]. rewrite nth_mid0. cbn [option_map]. rewrite E, set_nth_mid. split; [reflexivity|]. split; [exact R|]. apply retag_spec; auto. apply As.
Qed.
Print Assumptions C94_show_tag.

Lemma retagged_nothing id ops st tags : sound st -> one_id st -> true_of st id tags -> (forall t, In t tags <-> tag_after false ops (fun u => In u tags) t) -> retagged [id] ops st st.
Proof.
  intros St U (_ & Tr) N. split; [exact St|]. intros k. destruct (dget k (st_docs st)) as [d|] eqn:E; [|exact I]. split; [tauto|]. split; [|tauto].
  intros (j & [<- |[]] & H) t. rewrite <- (Tr k d E H), N. apply tag_after_ext. intros u. now apply (Tr k d).
Qed.
(** The same from a program (archiving, marking as read): when the tags shown would not change nothing is run; if they are
    true, the effect is the same. *)
Theorem C94_show_tag_message :
  forall eval thr changes ops ms1 m ms2 e,
  reads_alternatives eval -> asked changes ops -> sound (e_store e) -> one_id (e_store e) -> plain_id (s_id m) -> true_of (e_store e) (s_id m) (s_tags m) -> s_drawn m = s_tags m ->
  exists e' m', show_tag_message eval thr changes {| sh_msgs := ms1 ++ m :: ms2; sh_cur := length ms1 |} e = (E_ok, e', {| sh_msgs := ms1 ++ m' :: ms2; sh_cur := length ms1 |}) /\
    retagged [s_id m] ops (e_store e) (e_store e') /\ shown_after ops m m'.
Proof.
  intros eval thr changes ops ms1 m ms2 e Rd As St U P Tr D. destruct (tag_id eval thr changes ops (s_id m) e As Rd P St) as (e' & E & R).
  pose proof As as (_ & F & _). destruct (updated changes ops (s_tags m) F (proj1 Tr)) as (n & En & S' & N). pose proof (retag_spec changes ops m F (proj1 Tr) D) as Sp.
  unfold show_tag_message, show_message_id. cbn [sh_msgs sh_cur]. rewrite nth_mid0, En. unfold show_retag in Sp. rewrite En in Sp. destruct (equal_tags (s_tags m) n) eqn:Q.
  - exists e, m. split; [reflexivity|]. split; [|exact Sp]. apply equal_tags_eq in Q. subst n. now apply (retagged_nothing _ _ _ (s_tags m)).
  - cbn [option_map]. rewrite E, set_nth_mid. eauto.
Qed.
Print Assumptions C94_show_tag_message.

(** Tagging all messages in the buffer: exactly these. *)
Theorem C94_show_tag_all :
  forall eval thr changes ops s e,
  reads_alternatives eval -> asked changes ops -> sound (e_store e) -> sh_msgs s <> [] ->
  (forall m, In m (sh_msgs s) -> plain_id (s_id m) /\ tsorted (s_tags m) /\ s_drawn m = s_tags m) ->
  exists e' s', show_tag_all eval thr changes s e = (E_ok, e', s') /\ retagged (map s_id (sh_msgs s)) ops (e_store e) (e_store e') /\
    sh_cur s' = sh_cur s /\ Forall2 (shown_after ops) (sh_msgs s) (sh_msgs s').
Proof.
  intros eval thr changes ops s e Rd As St Ne H.
  assert (Q : show_ids_search s = orq (rev (map s_id (sh_msgs s)))) by (unfold show_ids_search, orq; now rewrite map_rev, map_map).
  assert (Nr : rev (map s_id (sh_msgs s)) <> []) by (intros X; apply (f_equal (@rev _)) in X; rewrite rev_involutive in X; destruct (sh_msgs s); [congruence|discriminate]).
  assert (Pi : forall id, In id (rev (map s_id (sh_msgs s))) -> plain_id id) by (intros id I; apply in_rev in I; apply in_map_iff in I; destruct I as (x & <- & I); now apply H).
  destruct (tag_ids eval thr changes ops _ _ e As Rd (alternatives_orq _ Nr) (orq_line _ Nr Pi) St) as (e' & E & R & _).
  unfold show_tag_all. rewrite Q, E. eexists _, _. split; [reflexivity|]. cbn [sh_cur sh_msgs]. split; [|split; [reflexivity|]].
  - destruct R as (R0 & R). split; [exact R0|]. intros k. specialize (R k). destruct (dget k (st_docs (e_store e))) as [d|], (dget k (st_docs (e_store e'))) as [d'|]; auto.
    assert (X : (exists id, In id (rev (map s_id (sh_msgs s))) /\ has_id id d) <-> exists id, In id (map s_id (sh_msgs s)) /\ has_id id d) by (split; intros (id & I & J); exists id; (split; [|exact J]); now apply in_rev in I || now apply -> in_rev).
    rewrite X in R. exact R.
  - destruct As as (_ & F & _). clear -F H. induction (sh_msgs s) as [|m ms IH]; cbn [map]; constructor; [apply retag_spec; auto; apply H; now left|]. apply IH. intros x I. apply H. now right.
Qed.
Print Assumptions C94_show_tag_all.

(** ** Any sequence of commands in a show view *)
Lemma mid_others (ms1 : list smsg) m ms2 x : NoDup (map s_id (ms1 ++ m :: ms2)) -> In x ms1 \/ In x ms2 -> s_id x <> s_id m.
Proof.
  rewrite map_app. cbn [map]. intros N I E. apply NoDup_remove_2 in N. apply N. rewrite in_app_iff, <- E. destruct I as [I|I]; [left|right]; now apply in_map.
Qed.
Lemma show_one st st' ops (ms1 : list smsg) m m' ms2 c : one_id st -> show_ok {| sh_msgs := ms1 ++ m :: ms2; sh_cur := c |} -> show_true st {| sh_msgs := ms1 ++ m :: ms2; sh_cur := c |} ->
  retagged [s_id m] ops st st' -> s_id m' = s_id m -> s_drawn m' = s_tags m' -> true_of st' (s_id m) (s_tags m') ->
  show_ok {| sh_msgs := ms1 ++ m' :: ms2; sh_cur := c |} /\ show_true st' {| sh_msgs := ms1 ++ m' :: ms2; sh_cur := c |}.
Proof.
  intros U (N & P) Tr R Ei D T. assert (X := mid_others ms1 m ms2). specialize (fun x => X x N). cbn [sh_msgs] in *. split; [split|].
  - cbn [sh_msgs]. rewrite map_app in N |- *. cbn [map] in N |- *. now rewrite Ei.
  - cbn [sh_msgs]. intros x I. rewrite in_app_iff in I. destruct I as [I|[<- |I]]; [apply P; rewrite in_app_iff; auto|rewrite Ei; apply P; rewrite in_app_iff; right; now left|apply P; rewrite in_app_iff; right; now right].
  - intros x I. cbn [sh_msgs] in I. rewrite in_app_iff in I. destruct I as [I|[<- |I]].
    + destruct (Tr x) as [A B]; [cbn; rewrite in_app_iff; auto|]. split; [exact A|]. apply (retagged_other [s_id m] ops st); auto. intros [Y|[]]. now apply (X x (or_introl I)).
    + split; [exact D|]. now rewrite Ei.
    + destruct (Tr x) as [A B]; [cbn; rewrite in_app_iff; right; now right|]. split; [exact A|]. apply (retagged_other [s_id m] ops st); auto. intros [Y|[]]. now apply (X x (or_intror I)).
Qed.
Definition same_messages (s s' : show) : Prop :=
  Forall2 (fun m m' => s_id m' = s_id m /\ s_visible m' = s_visible m /\ (s_seen m = true -> s_seen m' = true)) (sh_msgs s) (sh_msgs s').
Lemma same_refl (l : list smsg) : Forall2 (fun m m' => s_id m' = s_id m /\ s_visible m' = s_visible m /\ (s_seen m = true -> s_seen m' = true)) l l.
Proof. induction l; constructor; auto. Qed.
Lemma same_mid ms1 m m' ms2 c : s_id m' = s_id m -> s_visible m' = s_visible m -> (s_seen m = true -> s_seen m' = true) -> same_messages {| sh_msgs := ms1 ++ m :: ms2; sh_cur := c |} {| sh_msgs := ms1 ++ m' :: ms2; sh_cur := c |}.
Proof. intros A B C. unfold same_messages. cbn. apply Forall2_app; [apply same_refl|]. constructor; [auto|apply same_refl]. Qed.
Lemma change_list_asked changes ops : asked changes ops -> asked (el_change_list changes false) ops.
Proof.
  intros (N & F & P & V). split; [destruct changes; [congruence|discriminate]|]. split; [|auto]. now apply (change_list_says changes ops false).
Qed.
Lemma show_step eval thr c s e :
  reads_alternatives eval -> sound (e_store e) -> one_id (e_store e) -> show_ok s -> show_true (e_store e) s -> sh_cur s < length (sh_msgs s) -> show_command_ok s c ->
  exists e' s', do_show eval thr c s e = (E_ok, e', s') /\ sound (e_store e') /\ one_id (e_store e') /\ show_ok s' /\ show_true (e_store e') s' /\ sh_cur s' < length (sh_msgs s') /\ same_messages s s'.
Proof.
  intros Rd St U Wf Tr L Ok. destruct s as [ms cur]. cbn [sh_cur sh_msgs] in L.
  destruct (nth_error ms cur) as [m|] eqn:Em; [|apply nth_error_None in Em; lia]. apply nth_error_split in Em. destruct Em as (ms1 & ms2 & -> & <-).
  assert (Im : In m (ms1 ++ m :: ms2)) by (rewrite in_app_iff; right; now left). destruct (Tr m Im) as [D T]. pose proof (proj2 Wf m Im) as P.
  assert (Len : forall x, length ms1 < length (ms1 ++ x :: ms2)) by (intros x; rewrite app_length; cbn; lia).
  assert (One : forall ops e' m', retagged [s_id m] ops (e_store e) (e_store e') -> shown_after ops m m' ->
    sound (e_store e') /\ one_id (e_store e') /\ show_ok {| sh_msgs := ms1 ++ m' :: ms2; sh_cur := length ms1 |} /\ show_true (e_store e') {| sh_msgs := ms1 ++ m' :: ms2; sh_cur := length ms1 |} /\
    length ms1 < length (ms1 ++ m' :: ms2) /\ same_messages {| sh_msgs := ms1 ++ m :: ms2; sh_cur := length ms1 |} {| sh_msgs := ms1 ++ m' :: ms2; sh_cur := length ms1 |}).
  { intros ops e' m' R (A1 & A2 & A3 & A4 & A5 & A6). split; [apply R|]. split; [now apply (retagged_one _ _ _ _ U R)|].
    destruct (show_one (e_store e) (e_store e') ops ms1 m m' ms2 (length ms1) U Wf Tr R A1 A4) as [W1 W2]; [apply (retagged_true _ _ _ _ _ (s_tags m) _ R T); auto; now left|].
    split; [exact W1|]. split; [exact W2|]. split; [apply Len|]. apply same_mid; auto. congruence. }
  destruct c as [changes|changes|changes|changes|n]; cbn [do_show]; cbn [show_command_ok] in Ok.
  - destruct Ok as (ops & As). destruct (C94_show_tag eval thr changes ops ms1 m ms2 e Rd As St P (proj1 T) D) as (e' & m' & E & R & Sa). exists e', {| sh_msgs := ms1 ++ m' :: ms2; sh_cur := length ms1 |}. split; [exact E|]. now apply (One ops).
  - destruct Ok as (ops & As). destruct (C94_show_tag_message eval thr changes ops ms1 m ms2 e Rd As St U P T D) as (e' & m' & E & R & Sa). exists e', {| sh_msgs := ms1 ++ m' :: ms2; sh_cur := length ms1 |}. split; [exact E|]. now apply (One ops).
  - destruct Ok as (ops & As). destruct (C94_show_tag_all eval thr changes ops {| sh_msgs := ms1 ++ m :: ms2; sh_cur := length ms1 |} e Rd As St) as (e' & s' & E & R & Ec & Sa).
    { cbn. destruct ms1; discriminate. }
    { intros x I. destruct (Tr x I) as [A B]. split; [now apply Wf|]. split; [apply B|exact A]. }
    exists e', s'. split; [exact E|]. split; [apply R|]. split; [now apply (retagged_one _ _ _ _ U R)|]. cbn [sh_cur sh_msgs] in *.
    assert (Ids : map s_id (sh_msgs s') = map s_id (ms1 ++ m :: ms2)) by (clear -Sa; induction Sa as [|x y xs ys H Sa IH]; [reflexivity|]; cbn [map]; f_equal; [apply H|exact IH]).
    split; [split|split; [|split]].
    + rewrite Ids. apply Wf.
    + intros x I. apply (in_map s_id) in I. rewrite Ids in I. apply in_map_iff in I. destruct I as (y & <- & I). now apply Wf.
    + assert (Mem : forall x, In x (ms1 ++ m :: ms2) -> In (s_id x) (map s_id (ms1 ++ m :: ms2)) /\ true_of (e_store e) (s_id x) (s_tags x)) by (intros x I; split; [now apply in_map|now apply Tr]).
      intros x I. revert Mem. revert R. generalize (map s_id (ms1 ++ m :: ms2)) as ids. intros ids R Mem. clear -Sa R Mem I. induction Sa as [|y z ys zs H Sa IH]; [destruct I|].
      destruct I as [<- |I]; [|apply IH; [exact I|]; intros w J; apply Mem; now right]. destruct H as (A1 & A2 & A3 & A4 & A5 & A6). split; [exact A4|]. rewrite A1. destruct (Mem y (or_introl eq_refl)) as [J Ty].
      now apply (retagged_true _ _ _ _ _ (s_tags y) _ R Ty).
    + rewrite Ec. rewrite <- (map_length s_id (sh_msgs s')), Ids, map_length. apply Len.
    + clear -Sa. unfold same_messages. cbn [sh_msgs]. induction Sa as [|x y xs ys H Sa IH]; constructor; [|exact IH]. destruct H as (A1 & A2 & A3 & _). repeat split; auto. congruence.
  - destruct Ok as (ops & As). unfold show_seen. cbn [sh_msgs sh_cur]. rewrite nth_mid0. destruct (s_visible m && negb (s_seen m)).
    + unfold show_mark_read. destruct changes as [|c0 changes]; [destruct As as (N & _); congruence|].
      destruct (C94_show_tag_message eval thr (el_change_list (c0 :: changes) false) ops ms1 m ms2 e Rd (change_list_asked _ _ As) St U P T D) as (e' & m' & E & R & Sa). rewrite E. cbn [sh_msgs sh_cur]. rewrite nth_mid0, set_nth_mid.
      set (m2 := {| s_id := s_id m'; s_tags := s_tags m'; s_drawn := s_drawn m'; s_seen := true; s_visible := s_visible m' |}).
      exists e', {| sh_msgs := ms1 ++ m2 :: ms2; sh_cur := length ms1 |}. split; [reflexivity|]. destruct Sa as (A1 & A2 & A3 & A4 & A5 & A6). split; [apply R|]. split; [now apply (retagged_one _ _ _ _ U R)|].
      destruct (show_one (e_store e) (e_store e') ops ms1 m m2 ms2 (length ms1) U Wf Tr R A1 A4) as [W1 W2]; [apply (retagged_true _ _ _ _ _ (s_tags m) _ R T); auto; now left|].
      split; [exact W1|]. split; [exact W2|]. split; [apply Len|]. apply same_mid; auto.
    + exists e, {| sh_msgs := ms1 ++ m :: ms2; sh_cur := length ms1 |}. split; [reflexivity|]. do 2 (split; [assumption|]). do 2 (split; [assumption|]). split; [apply Len|apply same_refl].
  - eexists e, _. split; [reflexivity|]. do 2 (split; [assumption|]). split; [exact Wf|]. split; [exact Tr|]. split; [exact Ok|apply same_refl].
Qed.
(** If the show view is true of the database, what it shows is true after any sequence of commands in it: the tags in the header lines
    are those in the database. *)
Theorem C94_show_stays_true :
  forall eval thr cs s e,
  reads_alternatives eval -> sound (e_store e) -> one_id (e_store e) -> show_ok s -> show_true (e_store e) s -> sh_cur s < length (sh_msgs s) ->
  Forall (show_command_ok s) cs ->
  exists s' e', show_history eval thr cs s e s' e' /\ show_ok s' /\ show_true (e_store e') s' /\ map s_id (sh_msgs s') = map s_id (sh_msgs s).
Proof.
  intros eval thr cs. induction cs as [|c cs IH]; intros s e Rd St U Wf Tr L Ok.
  - exists s, e. split; [constructor|auto].
  - inversion Ok as [|? ? O1 O2]; subst. destruct (show_step eval thr c s e Rd St U Wf Tr L O1) as (e1 & s1 & E & S1 & U1 & W1 & T1 & L1 & Sm).
    assert (Ids : map s_id (sh_msgs s1) = map s_id (sh_msgs s)) by (clear -Sm; unfold same_messages in Sm; induction Sm as [|x y xs ys H Sm IH]; [reflexivity|]; cbn [map]; f_equal; [apply H|exact IH]).
    destruct (IH s1 e1 Rd S1 U1 W1 T1 L1) as (s2 & e2 & H & W2 & T2 & M2).
    { assert (Len : length (sh_msgs s1) = length (sh_msgs s)) by (rewrite <- (map_length s_id (sh_msgs s1)), Ids; apply map_length). eapply Forall_impl; [|exact O2]. intros [ch|ch|ch|ch|n]; cbn; rewrite ?Len; auto. }
    exists s2, e2. split; [econstructor; [exact E|exact H]|]. split; [exact W2|]. split; [exact T2|]. congruence.
Qed.
Print Assumptions C94_show_stays_true.

(** A message is marked as read on its own once only: when it has been, and the user has then changed its tags back, or any others, in
    this buffer, it is left as the user wants it. *)
Lemma set_nth_app1 {X} (l : list X) n x : forall y, nth_error l n = Some y -> exists a b, l = a ++ y :: b /\ length a = n /\ set_nth l n x = a ++ x :: b.
Proof. intros y E. apply nth_error_split in E. destruct E as (a & b & -> & <-). exists a, b. rewrite set_nth_mid. auto. Qed.
Lemma seen_kept eval thr c s e e' s' i m : do_show eval thr c s e = (E_ok, e', s') -> nth_error (sh_msgs s) i = Some m -> s_seen m = true ->
  exists m', nth_error (sh_msgs s') i = Some m' /\ s_seen m' = true.
Proof.
  assert (K : forall (l : list smsg) n x i m, (forall y, nth_error l n = Some y -> s_seen y = true -> s_seen x = true) -> nth_error l i = Some m -> s_seen m = true -> exists m', nth_error (set_nth l n x) i = Some m' /\ s_seen m' = true).
  { clear. induction l as [|y l IH]; intros n x i m H E S; [destruct i; discriminate|]. destruct n as [|n], i as [|i]; cbn in *; eauto.
 }
  intros Do E S. destruct c as [ch|ch|ch|ch|n]; cbn [do_show] in Do.
  - unfold show_tag, show_retag_current in Do. destruct (el_tag _ _ _ _ _ _) as [r e2]. destruct r; try discriminate. injection Do as <- <-. destruct (nth_error (sh_msgs s) (sh_cur s)) as [c|] eqn:Ec; [|eauto]. cbn [sh_msgs].
    apply (K _ _ _ i m); auto. intros y Ey Sy. rewrite Ec in Ey. injection Ey as <-. unfold show_retag. destruct (el_update_tags _ _) as [n|]; [destruct (equal_tags _ _)|]; auto.
  - unfold show_tag_message in Do. destruct (nth_error (sh_msgs s) (sh_cur s)) as [c|] eqn:Ec; [|discriminate]. destruct (el_update_tags _ _) as [n|]; [|discriminate]. destruct (equal_tags _ _); [injection Do as <- <-; eauto|].
    destruct (el_tag _ _ _ _ _ _) as [r e2]. destruct r; try discriminate. injection Do as <- <-. cbn [sh_msgs]. apply (K _ _ _ i m); auto. intros y Ey Sy. rewrite Ec in Ey. injection Ey as <-. exact Sy.
  - unfold show_tag_all in Do. destruct (el_tag _ _ _ _ _ _) as [r e2]. destruct r; try discriminate. injection Do as <- <-. cbn [sh_msgs]. exists (show_retag ch m). split; [now apply map_nth_error|]. unfold show_retag. destruct (el_update_tags _ _) as [n|]; [destruct (equal_tags _ _)|]; auto.
  - unfold show_seen in Do. destruct (nth_error (sh_msgs s) (sh_cur s)) as [c|] eqn:Ec; [|injection Do as <- <-; eauto]. destruct (s_visible c && negb (s_seen c)); [|injection Do as <- <-; eauto].
    destruct (show_mark_read eval thr ch false s e) as [[r e2] s2] eqn:Mr. destruct r; try discriminate.
    assert (M2 : exists m2, nth_error (sh_msgs s2) i = Some m2 /\ s_seen m2 = true).
    { unfold show_mark_read in Mr. destruct ch as [|c0 ch]; [injection Mr as <- <-; eauto|]. unfold show_tag_message in Mr. rewrite Ec in Mr. destruct (el_update_tags _ _) as [n|]; [|discriminate]. destruct (equal_tags _ _); [injection Mr as <- <-; eauto|].
      destruct (el_tag _ _ _ _ _ _) as [r e3]. destruct r; try discriminate. injection Mr as <- <-. cbn [sh_msgs]. apply (K _ _ _ i m); auto. intros y Ey Sy. rewrite Ec in Ey. injection Ey as <-. exact Sy. }
    destruct M2 as (m2 & E2 & S2). injection Do as <- <-. destruct (nth_error (sh_msgs s2) (sh_cur s2)) as [c2|] eqn:Ec2; [|eauto]. cbn [sh_msgs]. apply (K _ _ _ i m2); auto.
  - injection Do as <- <-. eauto.
Qed.
Theorem C94_marked_once :
  forall eval thr tags cs s e s1 e1 s2 e2 m,
  nth_error (sh_msgs s) (sh_cur s) = Some m -> s_visible m = true ->
  show_seen eval thr tags s e = (E_ok, e1, s1) -> show_history eval thr cs s1 e1 s2 e2 -> sh_cur s2 = sh_cur s ->
  show_seen eval thr tags s2 e2 = (E_ok, e2, s2).
Proof.
  intros eval thr tags cs s e s1 e1 s2 e2 m Em V Se Hi C2.
  assert (M1 : exists m1, nth_error (sh_msgs s1) (sh_cur s) = Some m1 /\ s_seen m1 = true).
  { unfold show_seen in Se. rewrite Em, V in Se. cbn [andb] in Se. destruct (s_seen m) eqn:Sm; cbn [negb] in Se; [injection Se as <- <-; eauto|].
    destruct (show_mark_read eval thr tags false s e) as [[r e3] s3] eqn:Mr. destruct r; try discriminate. injection Se as <- <-.
    assert (X : sh_cur s3 = sh_cur s /\ exists m3, nth_error (sh_msgs s3) (sh_cur s) = Some m3).
    { unfold show_mark_read in Mr. destruct tags as [|c0 ch]; [injection Mr as <- <-; eauto|]. unfold show_tag_message in Mr. rewrite Em in Mr. destruct (el_update_tags _ _) as [n|]; [|discriminate]. destruct (equal_tags _ _); [injection Mr as <- <-; eauto|].
      destruct (el_tag _ _ _ _ _ _) as [r e4]. destruct r; try discriminate. injection Mr as <- <-. cbn [sh_msgs sh_cur]. split; [reflexivity|]. destruct (set_nth_app1 (sh_msgs s) (sh_cur s) (set_tags n m) m Em) as (a & b & _ & La & ->). rewrite <- La, nth_mid0. eauto. }
    destruct X as (Ec & m3 & E3). rewrite Ec, E3. cbn [sh_msgs]. match goal with |- context [set_nth _ _ ?y] => destruct (set_nth_app1 (sh_msgs s3) (sh_cur s) y m3 E3) as (a & b & _ & La & ->) end. rewrite <- La, nth_mid0. eexists. split; reflexivity. }
  assert (M2 : exists m2, nth_error (sh_msgs s2) (sh_cur s) = Some m2 /\ s_seen m2 = true).
  { clear -M1 Hi. generalize dependent (sh_cur s). intros i M1. induction Hi as [s0 e|c cs s' e s1 e1 s2 e2 Do Hi IH]; [exact M1|]. apply IH. destruct M1 as (m1 & E & S). exact (seen_kept eval thr c s' e e1 s1 i m1 Do E S). }
  destruct M2 as (m2 & E2 & S2). unfold show_seen. now rewrite C2, E2, S2, andb_false_r.
Qed.
Print Assumptions C94_marked_once.

(** The message point is in is marked as read exactly if it is open and has not been. *)
Theorem C94_seen :
  forall eval thr changes ops ms1 m ms2 e,
  reads_alternatives eval -> asked changes ops -> sound (e_store e) -> one_id (e_store e) -> plain_id (s_id m) -> true_of (e_store e) (s_id m) (s_tags m) -> s_drawn m = s_tags m ->
  exists e' m', show_seen eval thr changes {| sh_msgs := ms1 ++ m :: ms2; sh_cur := length ms1 |} e = (E_ok, e', {| sh_msgs := ms1 ++ m' :: ms2; sh_cur := length ms1 |}) /\
    (s_visible m = true -> s_seen m = false -> retagged [s_id m] ops (e_store e) (e_store e') /\ s_seen m' = true /\ s_id m' = s_id m /\ s_visible m' = true /\
       s_drawn m' = s_tags m' /\ tsorted (s_tags m') /\ forall t, In t (s_tags m') <-> tag_after false ops (fun u => In u (s_tags m)) t) /\
    (s_visible m = false \/ s_seen m = true -> e' = e /\ m' = m).
Proof.
  intros eval thr changes ops ms1 m ms2 e Rd As St U P T D. unfold show_seen. cbn [sh_msgs sh_cur]. rewrite nth_mid0. destruct (s_visible m) eqn:V, (s_seen m) eqn:S; cbn [andb negb];
    try (exists e, m; split; [reflexivity|]; split; [congruence|auto]; fail).
  unfold show_mark_read. destruct changes as [|c0 changes]; [destruct As as (N & _); congruence|].
  destruct (C94_show_tag_message eval thr (el_change_list (c0 :: changes) false) ops ms1 m ms2 e Rd (change_list_asked _ _ As) St U P T D) as (e' & m' & E & R & Sa). rewrite E. cbn [sh_msgs sh_cur]. rewrite nth_mid0, set_nth_mid.
  eexists e', _. split; [reflexivity|]. destruct Sa as (A1 & A2 & A3 & A4 & A5 & A6). split; [|intros [X|X]; discriminate]. intros _ _. split; [exact R|]. cbn. rewrite A3, V. auto 8.
Qed.
Print Assumptions C94_seen.

(** When a command does not succeed, what is shown stays as it was. *)
Theorem C94_failure :
  forall eval thr changes pos l pane s e r e',
  (forall l' pane', (tree_tag eval thr changes pos l pane e = (r, e', (l', pane')) \/ tree_tag_thread eval thr changes pos l pane e = (r, e', (l', pane'))) -> r <> E_ok -> l' = l /\ pane' = pane) /\
  (forall s', (show_tag eval thr changes s e = (r, e', s') \/ show_tag_message eval thr changes s e = (r, e', s') \/ show_tag_all eval thr changes s e = (r, e', s') \/ show_seen eval thr changes s e = (r, e', s')) -> r <> E_ok -> s' = s).
Proof.
  intros eval thr changes pos l pane s e r e'.
  assert (M : forall ch s', show_tag_message eval thr ch s e = (r, e', s') -> r <> E_ok -> s' = s).
  { intros ch s' H N. unfold show_tag_message in H. destruct (nth_error _ _); [|congruence]. destruct (el_update_tags _ _); [|congruence]. destruct (equal_tags _ _); [congruence|]. destruct (el_tag _ _ _ _ _ _) as [[] ?]; congruence. }
  split.
  - intros l' p' [H|H] N.
    + unfold tree_tag in H. destruct (el_tag _ _ _ _ _ _) as [[] ?]; [destruct (tree_update_display _ _ _ _)|..]; split; congruence.
    + unfold tree_tag_thread in H. destruct (nth_error _ _); [|split; congruence]. destruct (el_tag _ _ _ _ _ _) as [[] ?]; [destruct (snd _)|..]; split; congruence.
  - intros s' [H|[H|[H|H]]] N.
    + unfold show_tag in H. destruct (el_tag _ _ _ _ _ _) as [[] ?]; congruence.
    + now apply (M changes).
    + unfold show_tag_all in H. destruct (el_tag _ _ _ _ _ _) as [[] ?]; congruence.
    + unfold show_seen in H. destruct (nth_error (sh_msgs s) (sh_cur s)); [|congruence]. destruct (_ && _); [|congruence]. destruct (show_mark_read eval thr changes false s e) as [[r1 e1] s1] eqn:E.
      unfold show_mark_read in E. destruct r1; try congruence; injection H as <- <- <-; (destruct changes; [congruence|]); now apply (M _ _ E).
Qed.
Print Assumptions C94_failure.

(** ** Examples *)
Definition ex_alt (s : bytes) : option query := option_map (fun ids d => existsb (fun id => has_idb id d) ids) (alternatives s).
Lemma ex_alt_ok : reads_alternatives ex_alt.
Proof. intros s ids E. unfold ex_alt. rewrite E. eexists. split; reflexivity. Qed.
Definition ex_docs : store :=
  {| st_docs := [(1%N, {| d_terms := map lit ["Kinbox"; "Kunread"; "Qm1"]%string; d_lastmod := 1%N |});
                 (2%N, {| d_terms := map lit ["Kinbox"; "Qm 2"]%string; d_lastmod := 2%N |});
                 (3%N, {| d_terms := map lit ["Kinbox"; "Kx"; "Qm3"]%string; d_lastmod := 3%N |});
                 (4%N, {| d_terms := map lit ["Kinbox"; "Qm4"]%string; d_lastmod := 4%N |})]; st_ub := 4%N |}.
Definition ex_e : editor := {| e_store := ex_docs; e_history := [] |}.
Definition ex_forest : list (list tree) :=
  [[Tree (lit "m1") (map lit ["inbox"; "unread"]%string) [Tree (lit "m 2") [lit "inbox"] []]]; [Tree (lit "m3") (map lit ["inbox"; "x"]%string) []]].
Definition ex_tree : list tline := insert_forest ex_forest.
Definition ex_msg (id : bytes) (tags : list bytes) : smsg := {| s_id := id; s_tags := tags; s_drawn := tags; s_seen := false; s_visible := true |}.
Definition ex_show : show := {| sh_msgs := [ex_msg (lit "m1") (map lit ["inbox"; "unread"]%string); ex_msg (lit "m 2") [lit "inbox"]]; sh_cur := 0 |}.
Definition ch (l : list string) : list bytes := map lit l.
Definition add_op (t : string) : tagop := {| to_tag := lit t; to_remove := false |}.
Definition rem_op (t : string) : tagop := {| to_tag := lit t; to_remove := true |}.
Ltac plain := split; [discriminate|]; split; [|split; [try discriminate; intros _ X; discriminate X|try discriminate; intros _ r X; discriminate X]]; intros c I; cbn in I; repeat (destruct I as [<- |I]; [split; [intros W; vm_compute in W; intuition discriminate|discriminate]|]); destruct I.
Lemma ex_asked : asked (ch ["-inbox"; "+seen"]%string) [rem_op "inbox"%string; add_op "seen"%string] /\ asked (ch ["+inbox"]%string) [add_op "inbox"%string] /\ asked (ch ["-unread"]%string) [rem_op "unread"%string].
Proof.
  split; [|split]; (split; [discriminate|]; split; [repeat constructor|]; split; [repeat (apply Forall_cons; [plain|]); apply Forall_nil|repeat constructor]).
Qed.
Lemma ex_sound : sound ex_docs.
Proof.
  split; [repeat constructor; cbn; intuition discriminate|]. intros k d H. cbn in H. repeat (destruct (N.eqb k _); [injection H as <-; repeat constructor|]). discriminate.
Qed.
Lemma ex_one : one_id ex_docs.
Proof.
  intros k d a b H A B. cbn in H. unfold has_id in *.
  repeat (destruct (N.eqb k _); [injection H as <-; cbn in A, B; intuition congruence|]). discriminate.
Qed.
Lemma ex_true id tags : (forallb (fun p => negb (has_idb id (snd p)) || equal_tags tags (tags_of (d_terms (snd p)))) (st_docs ex_docs) = true) -> tsorted tags -> true_of ex_docs id tags.
Proof.
  intros H S. split; [exact S|]. intros k d E I t. apply dget_In in E. rewrite forallb_forall in H. apply H in E. cbn [snd] in E. apply has_idb_spec in I. rewrite I in E. cbn [negb orb] in E. apply equal_tags_eq in E. now rewrite E.
Qed.
Lemma ex_plain id : forallb (fun c => negb (beq c (ascii_of_N 10)) && negb (beq c (ascii_of_N 0))) id = true -> plain_id id.
Proof. intros H c I. rewrite forallb_forall in H. apply H in I. apply andb_true_iff in I. destruct I as [A B]. apply negb_true_iff, beq_neq in A. apply negb_true_iff, beq_neq in B. auto. Qed.
(** The hypotheses of the theorems about the tree view and the show view. *)
Example C94_applies :
  reads_alternatives ex_alt /\ sound (e_store ex_e) /\ one_id (e_store ex_e) /\ tree_ok ex_tree /\ tree_true (e_store ex_e) ex_tree /\ show_ok ex_show /\ show_true (e_store ex_e) ex_show /\
  Forall (tree_command_ok ex_tree) [T_tag_thread (ch ["-inbox"; "+seen"]%string) 1; T_tag (ch ["+inbox"]%string) 2] /\ Forall (show_command_ok ex_show) [S_seen (ch ["-unread"]%string); S_tag_all (ch ["-inbox"; "+seen"]%string); S_go 1; S_tag (ch ["+inbox"]%string)].
Proof.
  destruct ex_asked as (A1 & A2 & A3). split; [exact ex_alt_ok|]. split; [exact ex_sound|]. split; [exact ex_one|].
  assert (Ts : tsorted (map lit ["inbox"; "unread"]%string) /\ tsorted [lit "inbox"] /\ tsorted (map lit ["inbox"; "x"]%string)) by (repeat split; repeat constructor). destruct Ts as (T1 & T2 & T3).
  split.
  { split; [|split].
    - exists (map (fun ts => insert_thread ts true) ex_forest). split; [reflexivity|]. repeat constructor; apply insert_thread_spec; discriminate.
    - repeat constructor; cbn; intuition discriminate.
    - intros x I. cbn in I. repeat (destruct I as [<- |I]; [now apply ex_plain|]). destruct I. }
  split; [intros x I; cbn in I; repeat (destruct I as [<- |I]; [apply ex_true; [reflexivity|assumption]|]); destruct I|].
  split.
  { split; [repeat constructor; cbn; intuition discriminate|]. intros x I. cbn in I. repeat (destruct I as [<- |I]; [now apply ex_plain|]). destruct I. }
  split; [intros x I; cbn in I; repeat (destruct I as [<- |I]; [split; [reflexivity|apply ex_true; [reflexivity|assumption]]|]); destruct I|].
  split; repeat constructor; cbn; eauto; lia.
Qed.
Definition ex_after (e : editor) : list (list bytes) := map (ex_tags e) [1; 2; 3; 4]%N.
Example C94_tree_nontrivial :
  let '(r, e1, (l1, _)) := tree_tag_thread ex_alt 0 (ch ["-inbox"; "+seen"]%string) 1 ex_tree None ex_e in
  ids_thread_search ex_tree 1 = lit "id:m1 or id:""m 2""" /\ r = E_ok /\
  ex_after e1 = map (map lit) [["seen"; "unread"]; ["seen"]; ["inbox"; "x"]; ["inbox"]]%string /\
  map t_tags l1 = map (map lit) [["seen"; "unread"]; ["seen"]; ["inbox"; "x"]]%string.
Proof. vm_compute. repeat split. Qed.
Example C94_show_nontrivial :
  let '(r, e1, s1) := show_tag_all ex_alt 0 (ch ["-inbox"; "+seen"]%string) ex_show ex_e in
  let '(r2, e2, s2) := show_seen ex_alt 0 (ch ["-unread"]%string) s1 e1 in
  r = E_ok /\ r2 = E_ok /\ ex_after e2 = map (map lit) [["seen"]; ["seen"]; ["inbox"; "x"]; ["inbox"]]%string /\
  map s_drawn (sh_msgs s2) = map (map lit) [["seen"]; ["seen"]]%string.
Proof. vm_compute. repeat split. Qed.

(** ** When what is shown is not true *)
Definition stale : show := {| sh_msgs := [ex_msg (lit "m1") [lit "inbox"]]; sh_cur := 0 |}.
Lemma ex_has e k t : existsb (bseq t) (ex_tags e k) = true -> tagged (e_store e) k t.
Proof. unfold ex_tags, tagged. destruct (dget k _) as [d|]; [|discriminate]. intros H. apply existsb_exists in H. destruct H as (x & I & E). apply bseq_eq in E. subst x. eauto. Qed.
Lemma ex_has_not e k t : existsb (bseq t) (ex_tags e k) = false -> ~ tagged (e_store e) k t.
Proof. unfold ex_tags, tagged. intros H (d & E & I). rewrite E in H. assert (X : existsb (bseq t) (tags_of (d_terms d)) = true) by (apply existsb_exists; exists t; split; [exact I|now apply bseq_eq]). congruence. Qed.
(** Marking a message as read, or archiving it, does nothing and reports no error if the buffer shows it without the tag,
    although the message has had the tag since (notmuch-show-tag would remove it). *)
Theorem C94_stale_view_refuted :
  exists eval changes ops s e m, reads_alternatives eval /\ asked changes ops /\ sound (e_store e) /\ one_id (e_store e) /\ show_ok s /\
  nth_error (sh_msgs s) (sh_cur s) = Some m /\ (exists d, dget 1%N (st_docs (e_store e)) = Some d /\ has_id (s_id m) d) /\ In (rem_op "unread"%string) ops /\
  show_tag_message eval 0 changes s e = (E_ok, e, s) /\ tagged (e_store e) 1%N (lit "unread") /\
  exists e' s', show_tag eval 0 changes s e = (E_ok, e', s') /\ ~ tagged (e_store e') 1%N (lit "unread").
Proof.
  exists ex_alt, (ch ["-unread"]%string), [rem_op "unread"%string], stale, ex_e, (ex_msg (lit "m1") [lit "inbox"]).
  split; [exact ex_alt_ok|]. split; [apply ex_asked|]. split; [exact ex_sound|]. split; [exact ex_one|].
  split; [split; [repeat constructor; intros []|intros m [<- |[]]; now apply ex_plain]|]. split; [reflexivity|]. split; [eexists; split; [reflexivity|cbn; auto]|]. split; [now left|].
  split; [reflexivity|]. split; [apply ex_has; reflexivity|].
  assert (X : let '(r, e', _) := show_tag ex_alt 0 (ch ["-unread"]%string) stale ex_e in r = E_ok /\ existsb (bseq (lit "unread")) (ex_tags e' 1%N) = false) by (vm_compute; split; reflexivity).
  destruct (show_tag ex_alt 0 (ch ["-unread"]%string) stale ex_e) as [[r e'] s']. destruct X as [-> X]. exists e', s'. split; [reflexivity|]. now apply ex_has_not.
Qed.
Print Assumptions C94_stale_view_refuted.
(** The pane of a tree view is such a buffer without anything from outside: when both are true, and a tag is removed in the tree view,
    the header line in the pane is right, but adding the tag again in the pane by archiving with a prefix argument does nothing. *)
Theorem C94_pane_refuted :
  exists eval l s e e1 l1 s1, reads_alternatives eval /\ tree_ok l /\ tree_true (e_store e) l /\ show_ok s /\ show_true (e_store e) s /\
  tree_tag eval 0 (ch ["-inbox"]%string) 0 l (Some s) e = (E_ok, e1, (l1, Some s1)) /\
  (exists m, nth_error (sh_msgs s1) (sh_cur s1) = Some m /\ ~ In (lit "inbox") (s_drawn m) /\ exists d, dget 1%N (st_docs (e_store e)) = Some d /\ has_id (s_id m) d) /\
  ~ tagged (e_store e1) 1%N (lit "inbox") /\ show_archive_message eval 0 (ch ["-inbox"]%string) true s1 e1 = (E_ok, e1, s1) /\ show_tag_message eval 0 (ch ["+inbox"]%string) s1 e1 = (E_ok, e1, s1).
Proof.
  destruct C94_applies as (H1 & H2 & H3 & H4 & H5 & H6 & H7 & _).
  assert (X : let '(r, e1, (l1, p)) := tree_tag ex_alt 0 (ch ["-inbox"]%string) 0 ex_tree (Some ex_show) ex_e in
    r = E_ok /\ existsb (bseq (lit "inbox")) (ex_tags e1 1%N) = false /\
    p = Some {| sh_msgs := [{| s_id := lit "m1"; s_tags := map lit ["inbox"; "unread"]%string; s_drawn := [lit "unread"]; s_seen := false; s_visible := true |}; ex_msg (lit "m 2") [lit "inbox"]]; sh_cur := 0 |}) by (vm_compute; repeat split).
  destruct (tree_tag ex_alt 0 (ch ["-inbox"]%string) 0 ex_tree (Some ex_show) ex_e) as [[r e1] [l1 p]] eqn:E. destruct X as (-> & X & ->).
  eexists ex_alt, ex_tree, ex_show, ex_e, e1, l1, _. split; [exact H1|]. split; [exact H4|]. split; [exact H5|]. split; [exact H6|]. split; [exact H7|]. split; [exact E|].
  split; [|split; [now apply ex_has_not|split; reflexivity]]. eexists. split; [reflexivity|]. split; [intros [Y|[]]; discriminate Y|]. eexists. split; [reflexivity|cbn; auto].
Qed.
Print Assumptions C94_pane_refuted.
