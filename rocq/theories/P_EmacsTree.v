(** C94: Emacs: changing tags in the tree view and in the show view. *)
From Verif Require Import Bytes Terms Meta DocMap Db DbProofs StrUtil TagOps TagOpsSpec TagLine EmacsTag EmacsTagSpec EmacsTagProofs EmacsTagProofs2 P_EmacsTag EmacsSearch EmacsSearchSpec EmacsTree EmacsTreeSpec EmacsTreeProofs EmacsTreeProofs2.
Local Open Scope nat_scope.

(** ** The tree view *)
(** A line for every message of every thread, with its tags, in the order of the threads and each before its replies; the
    first line of a thread, and no other, is marked as the first. *)
Theorem C94_filled :
  forall f, (forall ts, In ts f -> ts <> []) ->
  insert_forest f = concat (map (fun ts => insert_thread ts true) f) /\
  Forall2 (fun b ts => one_thread b /\ map (fun x => (t_id x, t_tags x)) b = flat_map messages ts) (map (fun ts => insert_thread ts true) f) f.
Proof.
  intros f H. split; [apply flat_map_concat_map|]. induction f as [|ts f IH]; cbn [map]; constructor.
  - apply insert_thread_spec. apply H. now left.
  - apply IH. intros t I. apply H. now right.
Qed.
Print Assumptions C94_filled.

(** On any line of a thread, the query names exactly the messages of the lines of that thread. *)
Theorem C94_thread_query :
  forall before b after i, Forall one_thread before -> one_thread b -> Forall one_thread after -> i < length b ->
  alternatives (ids_thread_search (concat before ++ b ++ concat after) (length (concat before) + i)) = Some (map t_id b).
Proof.
  intros before b after i _ O A L. rewrite ids_back; auto using closed_blocks. apply alternatives_orq. destruct O as (x & xs & -> & _). discriminate.
Qed.
Print Assumptions C94_thread_query.

Lemma relined_spec changes ops x : Forall2 says changes ops -> tsorted (t_tags x) ->
  t_id (relined changes x) = t_id x /\ t_first (relined changes x) = t_first x /\ tsorted (t_tags (relined changes x)) /\
  forall t, In t (t_tags (relined changes x)) <-> tag_after false ops (fun u => In u (t_tags x)) t.
Proof. intros F S. destruct (updated changes ops (t_tags x) F S) as (n & E & S' & N). unfold relined. rewrite E. cbn. auto. Qed.

(** Tagging the thread of the current line: in one command, the messages shown in the lines of this thread get the
    operations, and no other message is touched, not even one that has joined the thread since; of the lines exactly those of the
    thread are drawn again, with the new tags. *)
Theorem C94_tag_thread :
  forall eval thr changes ops before b after i pane e,
  reads_alternatives eval -> asked changes ops -> sound (e_store e) ->
  Forall one_thread before -> one_thread b -> Forall one_thread after -> i < length b ->
  (forall x, In x b -> plain_id (t_id x) /\ tsorted (t_tags x)) ->
  exists e' b' pane', tree_tag_thread eval thr changes (length (concat before) + i) (concat before ++ b ++ concat after) pane e = (E_ok, e', (concat before ++ b' ++ concat after, pane')) /\
    retagged (map t_id b) ops (e_store e) (e_store e') /\
    Forall2 (fun x x' => t_id x' = t_id x /\ t_first x' = t_first x /\ tsorted (t_tags x') /\ forall t, In t (t_tags x') <-> tag_after false ops (fun u => In u (t_tags x)) t) b b'.
Proof.
  intros eval thr changes ops before b after i pane e Rd As St _ O A L Pl. pose proof (closed_blocks after A) as Cl.
  assert (Nb : map t_id b <> []) by (destruct O as (x & xs & -> & _); discriminate).
  assert (Pi : forall id, In id (map t_id b) -> plain_id id) by (intros id I; apply in_map_iff in I; destruct I as (x & <- & I); now apply Pl).
  destruct (tag_ids eval thr changes ops _ _ e As Rd (alternatives_orq _ Nb) (orq_line _ Nb Pi) St) as (e' & E & R & _).
  unfold tree_tag_thread. assert (exists x, nth_error (concat before ++ b ++ concat after) (length (concat before) + i) = Some x) as (x0 & ->).
  { destruct (nth_error _ _) as [x|] eqn:Ex; [eauto|]. apply nth_error_None in Ex. rewrite !app_length in Ex. lia. }
  rewrite ids_back by assumption. rewrite E.
  rewrite (thread_back (fun p st => (tt, tree_update_display changes p (fst st) (snd st))) (fun _ => tt) (relined changes) (repane changes)); auto.
  - cbn [snd]. eexists _, _, _. split; [reflexivity|]. split; [exact R|]. destruct As as (_ & F & _). clear -Pl F. induction b as [|x b IH]; cbn [map]; constructor.
    + apply relined_spec; [exact F|]. apply Pl. now left.
    + apply IH. intros y I. apply Pl. now right.
  - intros pre x post a. cbn [fst snd]. now rewrite display_back.
Qed.
Print Assumptions C94_tag_thread.

Lemma orq1 id : orq [id] = el_id_to_query id. Proof. reflexivity. Qed.
Lemma tag_id eval thr changes ops id e : asked changes ops -> reads_alternatives eval -> plain_id id -> sound (e_store e) ->
  exists e', el_tag eval thr (Some (el_id_to_query id)) changes false e = (E_ok, e') /\ retagged [id] ops (e_store e) (e_store e').
Proof.
  intros As Rd P St. destruct (tag_ids eval thr changes ops (orq [id]) [id] e As Rd) as (e' & E & R & _); [now apply alternatives_orq|apply orq_line; [discriminate|intros j [<- |[]]; exact P]|exact St|]. rewrite orq1 in E. eauto.
Qed.
(** Tagging the message of the current line.  If the message pane shows this message, its header line gets the new tags
    too. *)
Theorem C94_tag_message :
  forall eval thr changes ops l1 x l2 pane e,
  reads_alternatives eval -> asked changes ops -> sound (e_store e) -> plain_id (t_id x) -> tsorted (t_tags x) ->
  exists e' x' pane', tree_tag eval thr changes (length l1) (l1 ++ x :: l2) pane e = (E_ok, e', (l1 ++ x' :: l2, pane')) /\
    retagged [t_id x] ops (e_store e) (e_store e') /\
    t_id x' = t_id x /\ t_first x' = t_first x /\ tsorted (t_tags x') /\ (forall t, In t (t_tags x') <-> tag_after false ops (fun u => In u (t_tags x)) t) /\
    (forall s m, pane = Some s -> nth_error (sh_msgs s) (sh_cur s) = Some m -> s_id m = t_id x -> t_tags x' <> t_tags x ->
       exists s' m', pane' = Some s' /\ sh_cur s' = sh_cur s /\ nth_error (sh_msgs s') (sh_cur s') = Some m' /\ s_id m' = t_id x /\ s_drawn m' = t_tags x').
Proof.
  intros eval thr changes ops l1 x l2 pane e Rd As St P S. destruct (tag_id eval thr changes ops (t_id x) e As Rd P St) as (e' & E & R).
  unfold tree_tag, tree_message_id. rewrite nth_mid0. cbn [option_map]. rewrite E, display_back. exists e', (relined changes x), (repane changes pane x). split; [reflexivity|]. split; [exact R|].
  destruct As as (_ & F & _). destruct (relined_spec changes ops x F S) as (A & B & C & D). repeat (split; [assumption|]).
  intros s m -> Em Ei Nt. unfold repane, tree_update_display. cbn [nth_error]. unfold relined in *. destruct (el_update_tags (t_tags x) changes) as [n|]; [|now elim Nt]. cbn [t_tags] in *.
  destruct (equal_tags (t_tags x) n) eqn:Q; [apply equal_tags_eq in Q; congruence|]. cbn [snd option_map]. rewrite Em, Ei. assert (bseq (el_id_to_query (t_id x)) (el_id_to_query (t_id x)) = true) as -> by now apply bseq_eq.
  unfold show_update_tags. rewrite Em. apply nth_error_split in Em. destruct Em as (a & b & Es & La). rewrite Es, <- La, set_nth_mid. eexists _, _. split; [reflexivity|]. cbn [sh_cur sh_msgs]. split; [reflexivity|]. rewrite nth_mid0. split; [reflexivity|]. cbn. auto.
Qed.
Print Assumptions C94_tag_message.

(** Where there is no message, tagging a thread does nothing and tagging a message is refused. *)
Theorem C94_no_message :
  forall eval thr changes pos l pane e, length l <= pos ->
  tree_tag eval thr changes pos l pane e = (E_refused, e, (l, pane)) /\ tree_tag_thread eval thr changes pos l pane e = (E_ok, e, (l, pane)).
Proof.
  intros eval thr changes pos l pane e L. apply nth_error_None in L. unfold tree_tag, tree_tag_thread, tree_message_id. rewrite L. cbn [option_map]. rewrite C79_refused by now right. auto.
Qed.
Print Assumptions C94_no_message.

(** Archiving makes the changes of notmuch-archive-tags, or with a prefix argument the opposite ones; without any it does nothing. *)
Lemma change_list_says tags ops (un : bool) : Forall2 says tags ops -> Forall plain_op ops -> Forall2 says (el_change_list tags un) (if un then map opposite ops else ops).
Proof.
  intros F P. destruct un; [now apply change_list_reverse|]. induction F as [|c o tags ops S1 F IH]; [constructor|]. inversion P; subst. cbn [el_change_list map]. constructor; [|now apply IH]. unfold el_change.
  pose proof (plain_says_no_NL c o H1 S1) as N. assert (B : existsb (fun l => match l with c :: _ => beq c "+"%char || beq c "-"%char | [] => false end) (el_lines [] c) = true).
  { apply existsb_exists. exists c. split; [apply el_lines_In; [intros []|]; now apply EmacsTagProofs2.whole_line|]. rewrite S1. now destruct (to_remove o). }
  rewrite B. exact S1.
Qed.
Theorem C94_archive :
  forall eval thr tags ops (un : bool) pos l pane s e, Forall2 says tags ops -> Forall plain_op ops ->
  exists changes, Forall2 says changes (if un then map opposite ops else ops) /\
    tree_archive_message eval thr tags un pos l pane e = (if Nat.eqb (length tags) 0 then (E_ok, e, (l, pane)) else tree_tag eval thr changes pos l pane e) /\
    tree_archive_thread eval thr tags un pos l pane e = (if Nat.eqb (length tags) 0 then (E_ok, e, (l, pane)) else tree_tag_thread eval thr changes pos l pane e) /\
    show_archive_message eval thr tags un s e = (if Nat.eqb (length tags) 0 then (E_ok, e, s) else show_tag_message eval thr changes s e) /\
    show_archive_thread eval thr tags un s e = (if Nat.eqb (length tags) 0 then (E_ok, e, s) else show_tag_all eval thr changes s e) /\
    show_mark_read eval thr tags un s e = (if Nat.eqb (length tags) 0 then (E_ok, e, s) else show_tag_message eval thr changes s e).
Proof.
  intros eval thr tags ops un pos l pane s e F P. exists (el_change_list tags un). split; [now apply change_list_says|]. destruct tags; repeat split.
Qed.
Print Assumptions C94_archive.

(** ** Any sequence of changes in a tree view *)
Lemma one_thread_map (f : tline -> tline) b : (forall x, t_first (f x) = t_first x) -> one_thread b -> one_thread (map f b).
Proof.
  intros H (x & xs & -> & F & G). exists (f x), (map f xs). split; [reflexivity|]. split; [now rewrite H|]. intros y I. apply in_map_iff in I. destruct I as (z & <- & I). rewrite H. auto.
Qed.
Lemma relined_id changes x : t_id (relined changes x) = t_id x /\ t_first (relined changes x) = t_first x.
Proof. unfold relined. destruct (el_update_tags _ _); auto. Qed.
Lemma block_at (bs : list (list tline)) : forall n, n < length (concat bs) -> exists before b after i, bs = before ++ b :: after /\ i < length b /\ n = length (concat before) + i.
Proof.
  induction bs as [|b bs IH]; cbn [concat]; intros n L; [cbn in L; lia|]. rewrite app_length in L. destruct (Nat.lt_ge_cases n (length b)) as [H|H].
  - exists [], b, bs, n. auto.
  - destruct (IH (n - length b)) as (be & c & af & i & -> & Li & E); [lia|]. exists (b :: be), c, af, i. split; [reflexivity|]. split; [exact Li|]. cbn [concat]. rewrite app_length. lia.
Qed.
Lemma tree_step eval thr c l pane e :
  reads_alternatives eval -> sound (e_store e) -> one_id (e_store e) -> tree_ok l -> tree_true (e_store e) l -> tree_command_ok l c ->
  exists e' l' pane', do_tree eval thr c l pane e = (E_ok, e', (l', pane')) /\ sound (e_store e') /\ one_id (e_store e') /\ tree_ok l' /\ tree_true (e_store e') l' /\
    map t_id l' = map t_id l /\ map t_first l' = map t_first l.
Proof.
  intros Rd St U ((bs & El & Fb) & Nd & Pl) Tr Ok.
  assert (Key : forall ops before mid after changes e', l = before ++ mid ++ after -> Forall2 says changes ops -> retagged (map t_id mid) ops (e_store e) (e_store e') ->
    sound (e_store e') /\ one_id (e_store e') /\ tree_true (e_store e') (before ++ map (relined changes) mid ++ after) /\
    map t_id (before ++ map (relined changes) mid ++ after) = map t_id l /\ map t_first (before ++ map (relined changes) mid ++ after) = map t_first l).
  { intros ops before mid after changes e' -> F R. split; [apply R|]. split; [now apply (retagged_one _ _ _ _ U R)|].
    assert (Out : forall x, In x before \/ In x after -> ~ In (t_id x) (map t_id mid)).
    { intros x I J. rewrite !map_app in Nd. apply (in_map t_id) in J || idtac. destruct I as [I|I]; apply (in_map t_id) in I.
      - revert Nd I J. generalize (map t_id before) (map t_id mid) (map t_id after) (t_id x). clear. intros a b c y Nd I J. induction a as [|z a IH]; [destruct I|]. cbn in Nd. inversion Nd; subst. destruct I as [-> |I]; [apply H1; apply in_or_app; right; apply in_or_app; now left|auto].
      - revert Nd I J. generalize (map t_id before) (map t_id mid) (map t_id after) (t_id x). clear. intros a b c y Nd I J. induction a as [|z a IH]; [|cbn in Nd; inversion Nd; auto]. cbn in Nd. induction b as [|z b IH]; [destruct J|]. cbn in Nd. inversion Nd; subst. destruct J as [-> |J]; [apply H1; apply in_or_app; now right|auto]. }
    split; [|split].
    - intros x I. rewrite !in_app_iff in I. destruct I as [I|[I|I]].
      + apply (retagged_other _ _ _ _ _ _ U R); [apply Tr; rewrite !in_app_iff; auto|apply Out; auto].
      + apply in_map_iff in I. destruct I as (y & <- & I). assert (T : true_of (e_store e) (t_id y) (t_tags y)) by (apply Tr; rewrite !in_app_iff; auto).
        destruct (relined_spec changes ops y F (proj1 T)) as (A & _ & C & D). rewrite A. apply (retagged_true _ _ _ _ _ (t_tags y) _ R T); auto. now apply in_map.
      + apply (retagged_other _ _ _ _ _ _ U R); [apply Tr; rewrite !in_app_iff; auto|apply Out; auto].
    - rewrite !map_app, map_map. f_equal. f_equal. apply map_ext. intros x. apply relined_id.
    - rewrite !map_app, map_map. f_equal. f_equal. apply map_ext. intros x. apply relined_id. }
  assert (Wf : forall l', map t_id l' = map t_id l -> (exists bs', l' = concat bs' /\ Forall one_thread bs') -> tree_ok l').
  { intros l' E B. split; [exact B|]. rewrite E. split; [exact Nd|]. intros x I. apply (in_map t_id) in I. rewrite E in I. apply in_map_iff in I. destruct I as (y & <- & I). now apply Pl. }
  destruct c as [changes pos|changes pos]; destruct Ok as ((ops & As) & L); cbn [do_tree].
  - rewrite El in L. destruct (block_at bs pos L) as (be & b & af & i & -> & Li & ->). rewrite concat_app in El. cbn [concat] in El.
    destruct (nth_error b i) as [x|] eqn:Ex; [|apply nth_error_None in Ex; lia]. apply nth_error_split in Ex. destruct Ex as (b1 & b2 & -> & Lb). rewrite <- Lb.
    assert (El2 : l = (concat be ++ b1) ++ [x] ++ (b2 ++ concat af)) by (rewrite El; rewrite <- !app_assoc; reflexivity).
    assert (Px : plain_id (t_id x)) by (apply Pl; rewrite El2, !in_app_iff; right; left; now left).
    destruct (tag_id eval thr changes ops (t_id x) e As Rd Px St) as (e' & E & R).
    destruct (Key ops (concat be ++ b1) [x] (b2 ++ concat af) changes e' El2) as (K1 & K2 & K3 & K4 & K5); [apply As|exact R|].
    exists e', ((concat be ++ b1) ++ relined changes x :: b2 ++ concat af), (repane changes pane x).
    split; [|split; [exact K1|split; [exact K2|split; [|split; [exact K3|split; [exact K4|exact K5]]]]]].
    + rewrite El2. rewrite <- app_length. unfold tree_tag, tree_message_id. cbn [app]. rewrite nth_mid0. cbn [option_map]. now rewrite E, display_back.
    + apply Wf; [exact K4|]. exists (be ++ (b1 ++ relined changes x :: b2) :: af). split; [rewrite concat_app; cbn [concat]; rewrite <- !app_assoc; reflexivity|].
      apply Forall_app in Fb. destruct Fb as [F1 F2]. inversion F2 as [|? ? O F3]; subst. apply Forall_app. split; [exact F1|]. constructor; [|exact F3].
      destruct O as (y & ys & Eb & Fy & Fys). destruct (relined_id changes x) as [_ Fr]. destruct b1 as [|z b1]; cbn [app] in *; injection Eb as -> <-.
      * exists (relined changes y), b2. rewrite Fr. auto.
      * exists y, (b1 ++ relined changes x :: b2). split; [reflexivity|]. split; [exact Fy|]. intros w I. rewrite in_app_iff in I. cbn in I. destruct I as [I|[<- |I]].
        -- apply Fys. rewrite in_app_iff. auto.
        -- rewrite Fr. apply Fys. rewrite in_app_iff. right. now left.
        -- apply Fys. rewrite in_app_iff. right. now right.
  - rewrite El in L. destruct (block_at bs pos L) as (be & b & af & i & -> & Li & ->). rewrite concat_app in El. cbn [concat] in El.
    apply Forall_app in Fb. destruct Fb as [F1 F2]. inversion F2 as [|? ? O F3]; subst. pose proof (closed_blocks af F3) as Cl.
    assert (Nb : map t_id b <> []) by (destruct O as (x & xs & -> & _); discriminate).
    assert (Pi : forall id, In id (map t_id b) -> plain_id id) by (intros id I; apply in_map_iff in I; destruct I as (x & <- & I); apply Pl; rewrite !in_app_iff; auto).
    destruct (tag_ids eval thr changes ops _ _ e As Rd (alternatives_orq _ Nb) (orq_line _ Nb Pi) St) as (e' & E & R & _).
    destruct (Key ops (concat be) b (concat af) changes e' eq_refl) as (K1 & K2 & K3 & K4 & K5); [apply As|exact R|].
    unfold tree_tag_thread. assert (exists x, nth_error (concat be ++ b ++ concat af) (length (concat be) + i) = Some x) as (x0 & ->).
    { destruct (nth_error _ _) as [x|] eqn:Ex; [eauto|]. apply nth_error_None in Ex. rewrite !app_length in Ex. lia. }
    rewrite ids_back by assumption. rewrite E.
    rewrite (thread_back (fun p st => (tt, tree_update_display changes p (fst st) (snd st))) (fun _ => tt) (relined changes) (repane changes)); auto.
    + cbn [snd]. eexists _, _, _. split; [reflexivity|]. split; [exact K1|split; [exact K2|split; [|split; [exact K3|split; [exact K4|exact K5]]]]].
      apply Wf; [exact K4|]. exists (be ++ map (relined changes) b :: af). split; [rewrite concat_app; reflexivity|]. apply Forall_app. split; [exact F1|]. constructor; [|exact F3]. apply one_thread_map; [|exact O]. intros x. apply relined_id.
    + intros pre x post a. cbn [fst snd]. now rewrite display_back.
Qed.
(** If the lines of a tree view are true of the database, then after any sequence of tag commands in it, on messages and on threads, all of
    them succeeded, the same messages are shown in the same threads and the tags shown are those in the database. *)
Theorem C94_tree_stays_true :
  forall eval thr cs l pane e,
  reads_alternatives eval -> sound (e_store e) -> one_id (e_store e) -> tree_ok l -> tree_true (e_store e) l -> Forall (tree_command_ok l) cs ->
  exists l' pane' e', tree_history eval thr cs l pane e l' pane' e' /\ tree_ok l' /\ tree_true (e_store e') l' /\ map t_id l' = map t_id l /\ map t_first l' = map t_first l.
Proof.
  intros eval thr cs. induction cs as [|c cs IH]; intros l pane e Rd St U Wf Tr Ok.
  - exists l, pane, e. split; [constructor|auto].
  - inversion Ok as [|? ? O1 O2]; subst. destruct (tree_step eval thr c l pane e Rd St U Wf Tr O1) as (e1 & l1 & p1 & E & S1 & U1 & W1 & T1 & M1 & F1).
    destruct (IH l1 p1 e1 Rd S1 U1 W1 T1) as (l2 & p2 & e2 & H & W2 & T2 & M2 & F2).
    { assert (Len : length l1 = length l) by (rewrite <- (map_length t_id l1), M1; apply map_length). eapply Forall_impl; [|exact O2]. intros [ch p|ch p]; cbn; rewrite Len; auto. }
    exists l2, p2, e2. split; [econstructor; [exact E|exact H]|]. split; [exact W2|]. split; [exact T2|]. split; congruence.
Qed.
Print Assumptions C94_tree_stays_true.
