(** Lemmas about killed and repeated tagging. *)
From Verif Require Import Bytes DocMap TagOps TagOpsSpec TagOpsProofs Maildir MailStore TagKill TagKillSpec EmacsTagProofs2.
Local Open Scope N_scope.

Lemma same_but_refl d : same_but d d.
Proof. repeat split. Qed.
Lemma same_but_trans a b c : same_but a b -> same_but b c -> same_but a c.
Proof. intros (A1 & A2 & A3 & A4 & A5 & A6) (B1 & B2 & B3 & B4 & B5 & B6). repeat split; congruence. Qed.

(** ** The set of tags *)
Lemma In_add_tag t u l : In t (add_tag u l) <-> t = u \/ In t l.
Proof.
  unfold add_tag. destruct (existsb (bseq u) l) eqn:E; [|cbn; intuition].
  apply existsb_bseq in E. split; [auto|]. intros [->|H]; auto.
Qed.
Lemma In_remove_tag t u l : In t (remove_tag u l) <-> In t l /\ t <> u.
Proof.
  unfold remove_tag. rewrite filter_In, negb_true_iff. split; intros [H1 H2]; split; auto.
  - intros ->. now rewrite (proj2 (bseq_eq u u) eq_refl) in H2.
  - destruct (bseq_spec u t); congruence.
Qed.
Lemma new_tags_false ops : forall tags t,
  In t (fold_left (fun ts o => if to_remove o then remove_tag (to_tag o) ts else add_tag (to_tag o) ts) ops tags) <->
  tag_after false ops (fun u => In u tags) t.
Proof.
  induction ops as [|o ops IH]; intros tags t; cbn [fold_left].
  - unfold tag_after. split; [intros H; right; split; [intros x []|auto]|].
    intros [(p & q & E & _)|(_ & _ & H)]; [now destruct p|exact H].
  - rewrite IH, tag_after_cons. apply tag_after_ext. intros u. destruct (to_remove o); [apply In_remove_tag|apply In_add_tag].
Qed.
Lemma tag_after_true ops P t : tag_after true ops P t <-> tag_after false ops (fun _ => False) t.
Proof. unfold tag_after. intuition discriminate. Qed.
Lemma new_tags_spec ra ops tags t : In t (new_tags_of ra ops tags) <-> tag_after ra ops (fun u => In u tags) t.
Proof.
  unfold new_tags_of. rewrite new_tags_false. destruct ra; [|reflexivity]. rewrite tag_after_true. apply tag_after_ext. cbn. tauto.
Qed.
Lemma tag_after_mono ra ops P Q t : (forall u, P u <-> Q u) -> (tag_after ra ops P t <-> tag_after ra ops Q t).
Proof. intros H. unfold tag_after. now rewrite H. Qed.
Lemma tag_after_idem ra ops P t : tag_after ra ops (tag_after ra ops P) t <-> tag_after ra ops P t.
Proof. unfold tag_after. tauto. Qed.
Lemma unchanged_tags ops tags : existsb (fun o => if to_remove o then existsb (bseq (to_tag o)) tags else negb (existsb (bseq (to_tag o)) tags)) ops = false ->
  forall t, tag_after false ops (fun u => In u tags) t <-> In t tags.
Proof.
  intros E t.
  assert (H : forall o, In o ops -> (to_remove o = false -> In (to_tag o) tags) /\ (to_remove o = true -> ~ In (to_tag o) tags)).
  { intros o Ho. assert (X : (if to_remove o then existsb (bseq (to_tag o)) tags else negb (existsb (bseq (to_tag o)) tags)) = false).
    { destruct (if to_remove o then _ else _) eqn:X; [|reflexivity].
      assert (Y : existsb (fun o => if to_remove o then existsb (bseq (to_tag o)) tags else negb (existsb (bseq (to_tag o)) tags)) ops = true) by (apply existsb_exists; eauto).
      congruence. }
    split; intros R; rewrite R in X.
    - apply existsb_bseq. now apply negb_false_iff.
    - intros I. apply existsb_bseq in I. congruence. }
  unfold tag_after. split.
  - intros [L|(_ & _ & L)]; [|exact L]. apply last_op_In in L. now apply (H _ L).
  - intros I. destruct (scan_back_spec t ops 0%Z) as [[L _]|[[L _]|[L _]]]; [|auto|auto].
    apply last_op_In in L. apply H in L as [_ L]. elim (L eq_refl I).
Qed.

Section Command.
Variable ok : bytes -> bool.
Variables ra po sync : bool.
Variable ops : list tagop.

(** What is written: documents that got all the operations. *)
Definition tagged_doc (d d' : mdoc) : Prop := same_but d d' /\ m_tags d' = new_tags_of ra ops (m_tags d).
Definition good (rs : list (N * mdoc)) (a : action) : Prop :=
  match a with AWrite k d' => exists d, In (k, d) rs /\ tagged_doc d d' | ARename _ _ => True end.

Lemma sync_good to_set to_clear k d0 d rs : In (k, d0) rs -> tagged_doc d0 d -> forall files names dk,
  Forall (good rs) (fst (sync_actions ok to_set to_clear k d files names dk)).
Proof.
  intros I T. induction files as [|f files IH]; intros names dk; cbn [sync_actions]; [constructor|].
  destruct (filename_is_in_maildir f); [|apply IH]. destruct (new_maildir_filename f to_set to_clear) as [g|]; [|apply IH].
  destruct (bseq f g); [apply IH|]. destruct (_ && _); [|apply IH].
  specialize (IH (add_name g (remove_name f names)) (rename_file f g dk)).
  destruct (sync_actions _ _ _ _ _ _ _ _) as [l dk']. cbn [fst] in *. constructor; [exact I0 || exact Logic.I|]. constructor; [|exact IH].
  exists d0. split; [exact I|]. destruct T as (T1 & T2). split; [|exact T2]. exact T1.
Qed.
Lemma message_good k d rs dk : In (k, d) rs -> Forall (good rs) (fst (message_actions ok ra po sync ops k d dk)) /\
  ((fst (message_actions ok ra po sync ops k d dk) = [] /\ po = false /\ makes_changes (m_tags d) ops ra = false) \/
   exists l, fst (message_actions ok ra po sync ops k d dk) = AWrite k (set_tags (new_tags_of ra ops (m_tags d)) d) :: l /\ Forall (fun a => match a with AWrite j _ => j = k | _ => True end) l).
Proof.
  intros I. unfold message_actions. destruct (negb po && negb (makes_changes (m_tags d) ops ra)) eqn:E.
  - split; [constructor|]. left. apply andb_true_iff in E as [E1 E2]. apply negb_true_iff in E1, E2. auto.
  - set (d1 := set_tags _ d). assert (T : tagged_doc d d1) by (split; [repeat split|reflexivity]).
    assert (W : good rs (AWrite k d1)) by (exists d; auto).
    destruct sync; [|split; [constructor; [exact W|constructor]|right; exists []; auto]].
    destruct (get_maildir_flag_actions (m_tags d1)) as [a b].
    pose proof (sync_good a b k d d1 rs I T (m_files d1) (m_files d1) dk) as G.
    assert (K : forall files names dk, Forall (fun x => match x with AWrite j _ => j = k | _ => True end) (fst (sync_actions ok a b k d1 files names dk))).
    { clear. induction files as [|f files IH]; intros names dk; cbn [sync_actions]; [constructor|].
      destruct (filename_is_in_maildir f); [|apply IH]. destruct (new_maildir_filename f a b) as [g|]; [|apply IH].
      destruct (bseq f g); [apply IH|]. destruct (_ && _); [|apply IH].
      specialize (IH (add_name g (remove_name f names)) (rename_file f g dk)).
      destruct (sync_actions _ _ _ _ _ _ _ _) as [l dk']. cbn [fst] in *. constructor; [exact Logic.I|]. constructor; [reflexivity|exact IH]. }
    specialize (K (m_files d1) (m_files d1) dk).
    destruct (sync_actions _ _ _ _ _ _ _ _) as [l dk']. cbn [fst] in *. split; [now constructor|]. right. exists l. auto.
Qed.
Lemma command_good rs0 : forall rs dk, incl rs rs0 -> Forall (good rs0) (command_actions ok ra po sync ops rs dk).
Proof.
  induction rs as [|[k d] rs IH]; intros dk I; cbn [command_actions]; [constructor|].
  destruct (message_good k d rs0 dk) as [G _]; [apply I; now left|].
  destruct (message_actions _ _ _ _ _ _ _ _) as [l dk']. cbn [fst] in G. apply Forall_app. split; [exact G|].
  apply IH. intros x Hx. apply I. now right.
Qed.
End Command.

(** ** Running *)
Definition run_acts (acts : list action) (w : world) : world := fold_left (fun w a => exec a w) acts w.
Lemma run_acts_cons a acts w : run_acts (a :: acts) w = run_acts acts (exec a w). Proof. reflexivity. Qed.
Lemma run_acts_app a b w : run_acts (a ++ b) w = run_acts b (run_acts a w). Proof. apply fold_left_app. Qed.

(** What a killed run leaves is what was seen after some beginning of the effects, and the
    disk after some longer beginning. *)
Lemma run_acts_durable acts : forall w, w_durable (run_acts acts w) = w_durable w.
Proof. induction acts as [|a acts IH]; intros w; [reflexivity|]. rewrite run_acts_cons, IH. now destruct a. Qed.
Lemma run_acts_ext acts : forall w w', w_seen w = w_seen w' -> w_disk w = w_disk w' ->
  w_seen (run_acts acts w) = w_seen (run_acts acts w') /\ w_disk (run_acts acts w) = w_disk (run_acts acts w').
Proof.
  induction acts as [|a acts IH]; intros w w' A B; [auto|]. rewrite !run_acts_cons. apply IH; destruct a; cbn; congruence.
Qed.
Lemma killed_prefix acts w w' : killed acts w w' ->
  w_seen w' = w_durable w' /\
  exists p q, acts = p ++ q /\ w_disk w' = w_disk (run_acts p w) /\
    (w_durable w' = w_durable w \/ exists p1 p2, p = p1 ++ p2 /\ w_durable w' = w_seen (run_acts p1 w)).
Proof.
  induction 1 as [acts w|a acts w w' K (IH0 & p & q & -> & D & IH)|acts w w' K (IH0 & p & q & -> & D & IH)].
  - split; [reflexivity|]. exists [], acts. repeat split; auto.
  - split; [exact IH0|]. exists (a :: p), q. split; [reflexivity|]. split; [exact D|].
    destruct IH as [IH|(p1 & p2 & -> & IH)]; [left; rewrite IH; now destruct a|right; exists (a :: p1), p2; auto].
  - split; [exact IH0|]. exists p, q. split; [reflexivity|].
    destruct (run_acts_ext p (flush w) w eq_refl eq_refl) as [_ X]. split; [congruence|].
    destruct IH as [IH|(p1 & p2 & -> & IH)].
    + right. exists [], p. split; [reflexivity|]. exact IH.
    + right. exists p1, p2. split; [reflexivity|]. rewrite IH. now destruct (run_acts_ext p1 (flush w) w eq_refl eq_refl).
Qed.

(** Good effects only ever give a message all the operations. *)
Lemma run_good ra ops rs acts : Forall (good ra ops rs) acts -> forall w, NoDup (map fst rs) ->
  (forall k d, In (k, d) rs -> dget k (w_seen w) = Some d \/ exists d', dget k (w_seen w) = Some d' /\ tagged_doc ra ops d d') ->
  (forall k d, In (k, d) rs -> dget k (w_seen (run_acts acts w)) = Some d \/ exists d', dget k (w_seen (run_acts acts w)) = Some d' /\ tagged_doc ra ops d d') /\
  (forall k, ~ In k (map fst rs) -> dget k (w_seen (run_acts acts w)) = dget k (w_seen w)).
Proof.
  induction 1 as [|a acts G F IH]; intros w N H; [auto|]. rewrite run_acts_cons. destruct a as [k0 d0|f g].
  - destruct G as (d & I & T). destruct (IH (exec (AWrite k0 d0) w) N) as [A B].
    + intros k d' I'. cbn [exec w_seen]. rewrite dget_dput. destruct (N.eqb_spec k k0) as [->|]; [|now apply H].
      right. exists d0. split; [reflexivity|].
      assert (d' = d) as -> by (apply (In_dget_nodup k0 d' rs N) in I'; apply (In_dget_nodup k0 d rs N) in I; congruence). exact T.
    + split; [exact A|]. intros k Hk. rewrite B by exact Hk. cbn [exec w_seen]. rewrite dget_dput.
      destruct (N.eqb_spec k k0) as [->|]; [|reflexivity]. elim Hk. now apply (in_map fst) in I.
  - apply (IH (exec (ARename f g) w) N H).
Qed.

Lemma results_In q ra ops m k d : In (k, d) (results q ra ops m) -> In (k, d) m /\ q d = true.
Proof. unfold results. rewrite filter_In. cbn [snd]. intros [A B]. apply andb_true_iff in B. tauto. Qed.
Lemma results_NoDup q ra ops m : NoDup (map fst m) -> NoDup (map fst (results q ra ops m)).
Proof.
  unfold results. induction m as [|[k d] m IH]; intros N; [constructor|]. inversion N as [|? ? N1 N2]; subst. cbn [filter].
  destruct (_ && _); [|auto]. cbn [map fst]. constructor; [|auto]. intros I. apply N1. apply in_map_iff in I as (x & E & I).
  apply filter_In in I as [I _]. rewrite <- E. now apply in_map.
Qed.

(** ** Order *)
Lemma prefix_split {A} (a b p : list A) : (exists q, a ++ b = p ++ q) -> (exists q, a = p ++ q) \/ exists p', p = a ++ p' /\ exists q, b = p' ++ q.
Proof.
  revert p. induction a as [|x a IH]; intros p (q & E).
  - right. exists p. split; [reflexivity|]. exists q. exact E.
  - destruct p as [|y p]; [left; exists (x :: a); reflexivity|]. cbn in E. injection E as -> E.
    destruct (IH p (ex_intro _ q E)) as [(q' & ->)|(p' & -> & H)]; [left; exists q'; reflexivity|right; exists p'; auto].
Qed.
Lemma other_writes k acts : Forall (fun a => match a with AWrite j _ => j <> k | _ => True end) acts -> forall w,
  dget k (w_seen (run_acts acts w)) = dget k (w_seen w).
Proof.
  induction 1 as [|a acts G F IH]; intros w; [reflexivity|]. rewrite run_acts_cons, IH. destruct a as [j d|]; [|reflexivity].
  cbn. rewrite dget_dput. destruct (N.eqb_spec k j); congruence.
Qed.
Lemma writes_of ok ra po sync ops k rs : ~ In k (map fst rs) -> forall dk,
  Forall (fun a => match a with AWrite j _ => j <> k | _ => True end) (command_actions ok ra po sync ops rs dk).
Proof.
  intros N dk. pose proof (command_good ok ra po sync ops rs rs dk (fun x H => H)) as G. eapply Forall_impl; [|exact G].
  intros [j d|] H; [|exact Logic.I]. destruct H as (d0 & I & _). intros ->. apply N. now apply (in_map fst) in I.
Qed.
Lemma incl_prefix {A} (P : A -> Prop) p q : Forall P (p ++ q) -> Forall P p.
Proof. intros H. now apply Forall_app in H. Qed.

Lemma stays_tagged ra ops rs k d p : Forall (good ra ops rs) p -> NoDup (map fst rs) -> In (k, d) rs -> forall w,
  (exists d', dget k (w_seen w) = Some d' /\ tagged_doc ra ops d d') ->
  exists d', dget k (w_seen (run_acts p w)) = Some d' /\ tagged_doc ra ops d d'.
Proof.
  intros F N I. induction F as [|x p G F IH]; intros w Hd; [exact Hd|]. rewrite run_acts_cons. apply IH.
  destruct x as [j e|]; [|exact Hd]. cbn [exec w_seen]. rewrite dget_dput. destruct (N.eqb_spec k j) as [<-|]; [|exact Hd].
  destruct G as (d0 & Y & T). exists e. split; [reflexivity|].
  assert (d0 = d) as -> by (apply (In_dget_nodup k d0 rs N) in Y; apply (In_dget_nodup k d rs N) in I; congruence). exact T.
Qed.

(** After any beginning of the effects, the messages up to some point have all the
    operations and the others are untouched. *)
Lemma prefix_order ok ra po sync ops : forall rs dk p q w, NoDup (map fst rs) ->
  (forall k d, In (k, d) rs -> dget k (w_seen w) = Some d) ->
  command_actions ok ra po sync ops rs dk = p ++ q ->
  exists done todo, rs = done ++ todo /\
    (forall k d, In (k, d) done -> exists d', dget k (w_seen (run_acts p w)) = Some d' /\ same_but d d' /\ forall t, In t (m_tags d') <-> tag_after ra ops (fun u => In u (m_tags d)) t) /\
    (forall k d, In (k, d) todo -> dget k (w_seen (run_acts p w)) = Some d).
Proof.
  induction rs as [|[k d] rs IH]; intros dk p q w N H E; cbn [command_actions] in E.
  - exists [], []. split; [reflexivity|]. split; intros ? ? [].
  - destruct (message_good ok ra po sync ops k d ((k, d) :: rs) dk (or_introl eq_refl)) as [G S].
    destruct (message_good ok ra po sync ops k d [(k, d)] dk (or_introl eq_refl)) as [G1 _].
    destruct (message_actions ok ra po sync ops k d dk) as [l dk'] eqn:M. cbn [fst] in G, S, G1.
    pose proof N as N0. inversion N as [|? ? N1 N2]; subst.
    assert (L : forall j, j <> k -> Forall (fun a => match a with AWrite i _ => i <> j | _ => True end) l).
    { intros j Hj. eapply Forall_impl; [|exact G1]. intros [i e|]; [|auto]. intros (d0 & [X|[]] & _). injection X as <- <-. congruence. }
    destruct (prefix_split l _ p (ex_intro _ q E)) as [(q' & El)|(p' & -> & q' & E')].
    + destruct p as [|a p].
      { exists [], ((k, d) :: rs). split; [reflexivity|]. split; [intros ? ? []|exact H]. }
      destruct S as [(-> & _)|(l' & S & K)]; [discriminate El|].
      assert (Gp : Forall (good ra ops [(k, d)]) p).
      { rewrite El in G1. cbn in G1. inversion G1 as [|? ? _ G2]; subst. now apply incl_prefix in G2. }
      exists [(k, d)], rs. split; [reflexivity|]. split.
      * intros j e [X|[]]. injection X as <- <-. rewrite S in El. injection El as <- El. rewrite run_acts_cons.
        destruct (stays_tagged ra ops [(k, d)] k d p Gp) with (w := exec (AWrite k (set_tags (new_tags_of ra ops (m_tags d)) d)) w) as (d' & A & B & C).
        -- repeat constructor; intros [].
        -- now left.
        -- cbn. rewrite dget_dput_same. eexists. split; [reflexivity|]. split; [repeat split|reflexivity].
        -- exists d'. split; [exact A|]. split; [exact B|]. intros t. rewrite C. apply new_tags_spec.
      * intros j e I. rewrite other_writes; [apply H; now right|]. rewrite El in L. apply (incl_prefix _ (a :: p) q'). apply L.
        intros ->. apply N1. now apply (in_map fst) in I.
    + rewrite run_acts_app. destruct (IH dk' p' q' (run_acts l w) N2) as (done & todo & -> & A & B); [|exact E'|].
      { intros j e I. rewrite other_writes; [apply H; now right|]. apply L. intros ->. apply N1. now apply (in_map fst) in I. }
      exists ((k, d) :: done), todo. split; [reflexivity|]. split; [|exact B].
      intros j e [X|I]; [|now apply A]. injection X as <- <-.
      assert (P' : forall w, dget k (w_seen (run_acts p' w)) = dget k (w_seen w)).
      { apply other_writes. apply (incl_prefix _ p' q'). rewrite <- E'. apply writes_of. exact N1. }
      rewrite P'. destruct S as [(-> & -> & S)|(l' & -> & K)].
      * exists d. split; [cbn; apply H; now left|]. split; [apply same_but_refl|]. intros t. symmetry. now apply makes_changes_false.
      * inversion G1 as [|? ? _ G2]; subst. rewrite run_acts_cons.
        destruct (stays_tagged ra ops [(k, d)] k d l' G2) with (w := exec (AWrite k (set_tags (new_tags_of ra ops (m_tags d)) d)) w) as (d' & A' & B' & C').
        -- repeat constructor; intros [].
        -- now left.
        -- cbn. rewrite dget_dput_same. eexists. split; [reflexivity|]. split; [repeat split|reflexivity].
        -- exists d'. split; [exact A'|]. split; [exact B'|]. intros t. rewrite C'. apply new_tags_spec.
Qed.

Lemma all_done ok ra po sync ops : forall rs w dk, NoDup (map fst rs) -> (forall k d, In (k, d) rs -> dget k (w_seen w) = Some d) ->
  forall j e, In (j, e) rs -> exists d', dget j (w_seen (run_acts (command_actions ok ra po sync ops rs dk) w)) = Some d' /\
    same_but e d' /\ forall t, In t (m_tags d') <-> tag_after ra ops (fun u => In u (m_tags e)) t.
Proof.
  induction rs as [|[k d] rs' IH]; intros w dk Nr Hw j e I; [destruct I|].
  cbn [command_actions]. destruct (message_good ok ra po sync ops k d [(k, d)] dk (or_introl eq_refl)) as [G1 S].
  destruct (message_actions ok ra po sync ops k d dk) as [l dk'] eqn:M. cbn [fst] in G1, S. inversion Nr as [|? ? N1 N2]; subst.
  assert (L : forall j, j <> k -> Forall (fun a => match a with AWrite i _ => i <> j | _ => True end) l).
  { intros i Hi. eapply Forall_impl; [|exact G1]. intros [x y|]; [|auto]. intros (d0 & [X|[]] & _). injection X as <- <-. congruence. }
  rewrite run_acts_app. destruct I as [X|I].
  - injection X as <- <-. rewrite other_writes by now apply writes_of. destruct S as [(-> & P & S)|(l' & -> & K)].
    + exists d. split; [apply Hw; now left|]. split; [apply same_but_refl|]. intros t. symmetry. now apply makes_changes_false.
    + inversion G1 as [|? ? _ G2]; subst. rewrite run_acts_cons.
      destruct (stays_tagged ra ops [(k, d)] k d l' G2) with (w := exec (AWrite k (set_tags (new_tags_of ra ops (m_tags d)) d)) w) as (d' & A' & B' & C').
      * repeat constructor; intros [].
      * now left.
      * cbn. rewrite dget_dput_same. eexists. split; [reflexivity|]. split; [repeat split|reflexivity].
      * exists d'. split; [exact A'|]. split; [exact B'|]. intros t. rewrite C'. apply new_tags_spec.
  - apply IH; auto. intros i x Ix. rewrite other_writes; [apply Hw; now right|]. apply L. intros ->. apply N1. now apply (in_map fst) in Ix.
Qed.

(** ** A complete run *)
Lemma finish_effect ok sync ra q ops w : NoDup (map fst (w_seen w)) ->
  (forall k d, dget k (w_seen w) = Some d -> exists d', dget k (w_durable (finish (tag_actions ok sync ra q ops w) w)) = Some d' /\ same_but d d' /\
     forall t, In t (m_tags d') <-> (if q d then tag_after ra ops (fun u => In u (m_tags d)) t else In t (m_tags d))) /\
  (forall k, dget k (w_seen w) = None -> dget k (w_durable (finish (tag_actions ok sync ra q ops w) w)) = None).
Proof.
  intros N. unfold finish, tag_actions. cbn [flush w_durable].
  set (rs := results q ra ops (w_seen w)). set (acts := command_actions _ _ _ _ _ rs _).
  change (fold_left (fun w a => exec a w) acts w) with (run_acts acts w).
  pose proof (results_NoDup q ra ops (w_seen w) N) as Nr. fold rs in Nr.
  assert (H0 : forall k d, In (k, d) rs -> dget k (w_seen w) = Some d /\ q d = true).
  { intros k d I. apply results_In in I as [I Q]. split; [now apply In_dget_nodup|exact Q]. }
  assert (O : forall k, ~ In k (map fst rs) -> dget k (w_seen (run_acts acts w)) = dget k (w_seen w)).
  { intros k Hk. apply other_writes. now apply writes_of. }
  split.
  - intros k d Hd. destruct (in_dec N.eq_dec k (map fst rs)) as [I|I].
    + apply in_map_iff in I as ([k' d0] & X & I). cbn in X. subst k'. destruct (H0 k d0 I) as [Y Q]. rewrite Hd in Y. injection Y as <-.
      rewrite Q.
      assert (T := all_done ok ra (negb ra) sync ops rs w (w_disk w) Nr (fun k d I => proj1 (H0 k d I))).
      destruct (T k d I) as (d' & T1 & T2 & T3). exists d'. auto.
    + rewrite O by exact I. exists d. split; [exact Hd|]. split; [apply same_but_refl|]. intros t. destruct (q d) eqn:Q; [|reflexivity].
      assert (C : ra = false /\ ops <> [] /\ existsb (would_change d) ops = false).
      { assert (F : (q d && (ra || match ops with [] => true | _ => existsb (would_change d) ops end)) = false).
        { destruct (q d && (ra || match ops with [] => true | _ => existsb (would_change d) ops end)) eqn:F; [|reflexivity].
          elim I. apply (in_map fst) with (x := (k, d)). apply filter_In. split; [now apply dget_In|exact F]. }
        rewrite Q in F. cbn in F. apply orb_false_iff in F as [F1 F2]. split; [exact F1|]. destruct ops; [discriminate|]. split; [discriminate|exact F2]. }
      destruct C as (-> & _ & C). symmetry. now apply unchanged_tags.
  - intros k Hk. rewrite O; [exact Hk|]. intros I. apply in_map_iff in I as ([k' d0] & X & I). cbn in X. subst k'.
    destruct (H0 k d0 I) as [Y _]. congruence.
Qed.

(** ** Files *)
Lemma run_disk p : forall w, NoDup (sources p ++ targets p) -> (forall g, In g (targets p) -> w_disk w g = None) ->
  (forall f c, w_disk w f = Some c ->
     (w_disk (run_acts p w) f = Some c /\ ~ In f (sources p)) \/ exists g, In (ARename f g) p /\ w_disk (run_acts p w) g = Some c) /\
  (forall g, w_disk w g = None -> ~ In g (targets p) -> w_disk (run_acts p w) g = None).
Proof.
  induction p as [|a p IH] using rev_ind; intros w N F.
  - split; [intros f c H; left; auto|auto].
  - assert (Es : sources (p ++ [a]) = sources p ++ sources [a]) by (unfold sources; now rewrite flat_map_app).
    assert (Et : targets (p ++ [a]) = targets p ++ targets [a]) by (unfold targets; now rewrite flat_map_app).
    rewrite Es, Et in *. destruct a as [k d|f g].
    + cbn [sources targets flat_map app] in *. rewrite !app_nil_r in *. destruct (IH w N F) as [A B]. rewrite run_acts_app. cbn.
      split; [|exact B]. intros x c H. destruct (A x c H) as [X|(y & X & Y)]; [left; exact X|]. right. exists y. split; [apply in_or_app; now left|exact Y].
    + cbn [sources targets flat_map app] in *.
      assert (N' : NoDup (sources p ++ targets p) /\ ~ In f (sources p) /\ ~ In f (targets p) /\ ~ In g (sources p) /\ ~ In g (targets p)).
      { rewrite <- app_assoc in N. cbn in N. pose proof (NoDup_remove_1 _ _ _ N) as N1. pose proof (NoDup_remove_2 _ _ _ N) as N2.
        rewrite app_assoc in N1. pose proof (NoDup_remove_1 _ _ _ N1) as N3. pose proof (NoDup_remove_2 _ _ _ N1) as N4.
        rewrite app_nil_r in N3, N4. rewrite !in_app_iff in N2. rewrite in_app_iff in N4. cbn [In] in N2. repeat split; try exact N3; intros X; [apply N2|apply N2|apply N4|apply N4]; tauto. }
      destruct N' as (N1 & Fs & Ft & Gs & Gt).
      destruct (IH w N1) as [A B]; [intros y Hy; apply F; apply in_or_app; now left|].
      assert (Gn : w_disk w g = None) by (apply F; apply in_or_app; right; now left).
      rewrite run_acts_app. cbn [run_acts fold_left exec w_disk]. unfold rename_file. split.
      * intros x c H. destruct (A x c H) as [[X1 X2]|(y & X & Y)].
        -- destruct (bseq_spec x f) as [->|Hxf].
           ++ right. exists g. split; [apply in_or_app; right; now left|]. now rewrite (proj2 (bseq_eq g g) eq_refl).
           ++ left. destruct (bseq_spec x g) as [->|_]; [congruence|].
              split; [exact X1|]. rewrite in_app_iff. cbn. intuition.
        -- right. exists y. split; [apply in_or_app; now left|].
           assert (Ty : In y (targets p)) by (unfold targets; apply in_flat_map; exists (ARename x y); split; [exact X|now left]).
           destruct (bseq_spec y g) as [->|_]; [contradiction|]. destruct (bseq_spec y f) as [->|_]; [contradiction|]. exact Y.
      * intros y Hy Ny. rewrite in_app_iff in Ny. cbn in Ny. destruct (bseq_spec y g) as [->|_]; [elim Ny; auto|].
        destruct (bseq_spec y f) as [->|_]; [reflexivity|]. apply B; auto.
Qed.
Lemma NoDup_drop {A} (a b c e : list A) : NoDup ((a ++ b) ++ c ++ e) -> NoDup (a ++ c).
Proof.
  intros N. assert (N1 : NoDup ((a ++ b) ++ c)).
  { rewrite app_assoc in N. revert N. generalize ((a ++ b) ++ c). clear. induction e as [|x e IH]; intros l N; [now rewrite app_nil_r in N|].
    apply NoDup_remove_1 in N. now apply IH. }
  clear N e. revert a N1. induction b as [|x b IH]; intros a N; [now rewrite app_nil_r in N|].
  rewrite <- app_assoc in N. cbn in N. apply NoDup_remove_1 in N. apply IH. now rewrite <- app_assoc.
Qed.
Lemma sub_clean p q dk : clean (p ++ q) dk -> clean p dk.
Proof.
  intros [N F]. unfold clean, sources, targets in *. rewrite !flat_map_app in N. rewrite flat_map_app in F. split.
  - now apply NoDup_drop in N.
  - intros g Hg. apply F. apply in_or_app. now left.
Qed.

(** ** Killed *)
Lemma run_keys acts : forall w, NoDup (map fst (w_seen w)) -> NoDup (map fst (w_seen (run_acts acts w))).
Proof.
  induction acts as [|a acts IH]; intros w N; [exact N|]. rewrite run_acts_cons. apply IH. destruct a; [now apply dput_keys|exact N].
Qed.
Lemma killed_seen ok sync ra q ops w w' : at_rest w -> killed (tag_actions ok sync ra q ops w) w w' ->
  exists p r, tag_actions ok sync ra q ops w = p ++ r /\ w_seen w' = w_seen (run_acts p w) /\ at_rest w'.
Proof.
  intros [E N] K. destruct (killed_prefix _ _ _ K) as (A & p & r & X & D & [B|(p1 & p2 & -> & B)]).
  - exists [], (tag_actions ok sync ra q ops w). split; [reflexivity|]. cbn. rewrite A, B, E. split; [reflexivity|]. split; [exact A|]. rewrite A, B, <- E. exact N.
  - exists p1, (p2 ++ r). split; [rewrite X; now rewrite app_assoc|]. rewrite A, B. split; [reflexivity|]. split; [exact A|].
    rewrite A, B. now apply run_keys.
Qed.
Lemma killed_effect ok sync ra q ops w w' : at_rest w -> killed (tag_actions ok sync ra q ops w) w w' ->
  at_rest w' /\
  (forall k d, dget k (w_seen w) = Some d -> exists d', dget k (w_seen w') = Some d' /\ same_but d d' /\
     (d' = d \/ (q d = true /\ forall t, In t (m_tags d') <-> tag_after ra ops (fun u => In u (m_tags d)) t))) /\
  (forall k, dget k (w_seen w) = None -> dget k (w_seen w') = None).
Proof.
  intros R K. destruct (killed_seen _ _ _ _ _ _ _ R K) as (p & r & E & S & R'). destruct R as [_ N].
  set (rs := results q ra ops (w_seen w)) in *.
  assert (G : Forall (good ra ops rs) p).
  { apply (incl_prefix _ p r). rewrite <- E. apply command_good. intros x H; exact H. }
  assert (H0 : forall k d, In (k, d) rs -> dget k (w_seen w) = Some d /\ q d = true).
  { intros k d I. apply results_In in I as [I Q]. split; [now apply In_dget_nodup|exact Q]. }
  destruct (run_good ra ops rs p G w (results_NoDup q ra ops _ N)) as [A B].
  { intros k d I. left. now apply H0. }
  rewrite S. split; [exact R'|]. split.
  - intros k d Hd. destruct (in_dec N.eq_dec k (map fst rs)) as [I|I].
    + apply in_map_iff in I as ([k' d0] & X & I). cbn in X. subst k'. destruct (H0 k d0 I) as [Y Q]. rewrite Hd in Y. injection Y as <-.
      destruct (A k d I) as [X|(d' & X & T1 & T2)].
      * exists d. split; [exact X|]. split; [apply same_but_refl|now left].
      * exists d'. split; [exact X|]. split; [exact T1|]. right. split; [exact Q|]. intros t. rewrite T2. apply new_tags_spec.
    + rewrite B by exact I. exists d. split; [exact Hd|]. split; [apply same_but_refl|now left].
  - intros k Hk. rewrite B; [exact Hk|]. intros I. apply in_map_iff in I as ([k' d0] & X & I). cbn in X. subst k'.
    destruct (H0 k d0 I) as [Y _]. congruence.
Qed.
