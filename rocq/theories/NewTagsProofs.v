(** Which tags "notmuch new" gives to new messages: the run is a sequence of files added
    followed by a sequence of files removed. *)
From Verif Require Import Bytes Terms DocMap MsgId MsgIdProofs MailStore MailStoreSpec MailStoreProofs MailStoreProofs2 Maildir MaildirSpec MaildirProofs3 New NewSpec NewProofs NewProofs2 NewProofs3 NewProofs4 NewProofs5 NewProofs7 NewProofs8 NewProofs9 NewProofs10 NewProofs12 P_Maildir.
From Coq Require Import Sorted Permutation.
Local Open Scope N_scope.

Section Tags.
Variable compressed : bytes -> bytes.
Hypothesis compressed_short : forall s, (length (compressed s) <= 189)%nat.
Variables (sync : bool) (new_tags : list bytes).
Variable A : bytes -> bytes -> Prop.
Notation canon := (canon compressed).
Notation inv := (inv compressed).
Notation mail s := (n_mail (s_db s)).
Notation remove_filename := (New.remove_filename compressed sync).
Notation remove_filenames := (remove_filenames compressed sync).
Notation remove_directory := (remove_directory compressed sync).
Notation removal_loop := (removal_loop compressed sync).
Notation directory_loop := (directory_loop compressed sync).
Notation adds := (adds compressed sync new_tags A).

(** ---- the removals ---- *)
Inductive removes (P : bytes -> Prop) : mdb -> mdb -> Prop :=
| removes_refl m : removes P m m
| removes_file m name m1 m2 : P name -> remove_filename name m = Some m1 -> removes P m1 m2 -> removes P m m2.
Lemma removes_trans P a b c : removes P a b -> removes P b c -> removes P a c.
Proof. intros H1 H2. induction H1; [exact H2|]. eapply removes_file; eauto. Qed.
Lemma removes_weaken (P Q : bytes -> Prop) a b : (forall n, P n -> Q n) -> removes P a b -> removes Q a b.
Proof. intros H R. induction R; [apply removes_refl|]. eapply removes_file; eauto. Qed.
Lemma remove_filenames_removes names : forall m m', remove_filenames names m = Some m' -> removes (fun n => In n names) m m'.
Proof.
  induction names as [|n names IH]; intros m m' E; cbn [New.remove_filenames] in E; [injection E as <-; apply removes_refl|].
  destruct (remove_filename n m) as [m1|] eqn:E1; [|discriminate]. eapply removes_file; [now left|exact E1|].
  eapply removes_weaken; [|apply IH; exact E]. intros x X. now right.
Qed.
Lemma removal_loop_removes names : forall s s', removal_loop names s = Some s' -> removes (fun n => In n names) (mail s) (mail s').
Proof.
  induction names as [|n names IH]; intros s s' E; cbn [New.removal_loop] in E; [injection E as <-; apply removes_refl|].
  destruct (interrupted_spec s) as (i & s1 & Ei & Edb & _). rewrite Ei in E. destruct i; [injection E as <-; rewrite Edb; apply removes_refl|].
  rewrite Edb in E. destruct (remove_filename n (mail s)) as [m1|] eqn:E1; [|discriminate]. eapply removes_file; [now left|exact E1|].
  apply IH in E. cbn in E. eapply removes_weaken; [|exact E]. intros x X. now right.
Qed.
Lemma remove_directory_removes : forall fuel p db db', remove_directory fuel p db = Some db' -> removes (below p) (n_mail db) (n_mail db').
Proof.
  induction fuel as [|fuel IH]; intros p db db' E; cbn [New.remove_directory] in E; [discriminate|].
  destruct (dir_get p db); [|injection E as <-; apply removes_refl].
  destruct (remove_filenames (map (child p) (child_files p db)) (n_mail db)) as [m|] eqn:E1; [|discriminate].
  apply remove_filenames_removes in E1.
  assert (R1 : removes (below p) (n_mail db) m) by (eapply removes_weaken; [|exact E1]; intros x X; apply in_map_iff in X as (n & <- & _); exists n; reflexivity).
  eapply removes_trans; [exact R1|]. clear R1 E1.
  set (db1 := {| n_mail := m; n_dirs := n_dirs db |}) in *. change m with (n_mail db1).
  revert E. generalize (child_dirs p db1). intros l. 
  assert (G : forall l db2 db3, (fix go subdirs db := match subdirs with
                                          | [] => Some db
                                          | q :: subdirs => match remove_directory fuel (child p q) db with
                                                            | Some db => go subdirs db
                                                            | None => None
                                                            end
                                          end) l db2 = Some db3 -> removes (below p) (n_mail db2) (n_mail db3)).
  { clear l. induction l as [|q l IHl]; intros db2 db3 E; [injection E as <-; apply removes_refl|].
    destruct (remove_directory fuel (child p q) db2) as [db4|] eqn:E2; [|discriminate].
    eapply removes_trans; [|apply IHl; exact E]. apply IH in E2. eapply removes_weaken; [|exact E2].
    intros x (r & ->). exists (q ++ SLASH :: r). apply child_child. }
  intros E. match type of E with match ?X with _ => _ end = _ => destruct X as [db2|] eqn:E2 end; [|discriminate]. injection E as <-. exact (G l db1 db2 E2).
Qed.
Lemma directory_loop_removes paths : forall s s', directory_loop paths s = Some s' -> removes (fun n => exists p, In p paths /\ below p n) (mail s) (mail s').
Proof.
  induction paths as [|p paths IH]; intros s s' E; cbn [New.directory_loop] in E; [injection E as <-; apply removes_refl|].
  destruct (interrupted_spec s) as (i & s1 & Ei & Edb & _). rewrite Ei in E. destruct i; [injection E as <-; rewrite Edb; apply removes_refl|].
  rewrite Edb in E. destruct (remove_directory _ p (s_db s)) as [db1|] eqn:E1; [|discriminate]. apply remove_directory_removes in E1. apply IH in E. cbn in E.
  eapply removes_trans; eapply removes_weaken; [|exact E1| |exact E].
  - intros x X. exists p. split; [now left|exact X].
  - intros x (q & Q & X). exists q. split; [now right|exact X].
Qed.

(** Removing a file leaves all other messages as they are, and makes none. *)
Lemma flags_to_tags_other id m : inv m -> inv (flags_to_tags compressed id m) /\
  (forall k d, has m k d -> m_id d <> canon id -> has (flags_to_tags compressed id m) k d) /\
  (forall k d', has (flags_to_tags compressed id m) k d' -> exists d, has m k d /\ m_id d = m_id d' /\ m_ghost d = m_ghost d' /\ m_files d' = m_files d /\
     m_tags d' = if bseq (m_id d) (canon id) then maildir_flags_to_tags (m_files d) (m_tags d) else m_tags d).
Proof.
  intros Hi. unfold flags_to_tags. pose proof (find_message_spec compressed id m (i_sorted _ m Hi)) as F.
  destruct (find_message compressed id m) as [[k d]|].
  2:{ split; [exact Hi|]. split; [auto|]. intros k d H. exists d. split; [exact H|]. destruct (bseq_spec (m_id d) (canon id)) as [Q|Q]; [|auto]. exfalso. exact (F k d H Q). }
  destruct F as [F1 F2]. destruct (retag_spec compressed id (maildir_flags_to_tags (m_files d) (m_tags d)) m Hi) as (Hi' & _ & _ & Hh).
  split; [exact Hi'|]. split.
  - intros j e H N. apply Hh. exists e. split; [exact H|]. now rewrite (proj2 (bseq_neq _ _) N).
  - intros j e' H. apply Hh in H as (e & H & ->). exists e. split; [exact H|]. destruct (bseq_spec (m_id e) (canon id)) as [Q|Q]; cbn; [|auto].
    assert (j = k) by (apply (i_unique _ m Hi j e k d H F1); congruence). subst j. assert (e = d) by (unfold has in *; congruence). subst e. auto.
Qed.
Lemma remove_filename_other name m m' : inv m -> remove_filename name m = Some m' ->
  inv m' /\ (forall k d, has m k d -> m_ghost d = false -> ~ In name (m_files d) -> has m' k d) /\
  (forall k d', has m' k d' -> m_ghost d' = false -> exists d, has m k d /\ m_id d = m_id d' /\ m_ghost d = false).
Proof.
  intros Hi. unfold New.remove_filename, find_by_filename.
  pose proof (MailStoreProofs.find_spec (fun kd => existsb (bseq name) (m_files (snd kd))) (docs m)) as F.
  destruct (find _ (docs m)) as [[k0 d0]|].
  2:{ intros [= <-]. split; [exact Hi|]. split; [auto|]. intros k d H G. exists d. auto. }
  destruct F as [F1 F2]. cbn in F2. apply (In_dget_sorted _ _ _ (i_sorted _ m Hi)) in F1. change (has m k0 d0) in F1. apply tmem_In in F2.
  destruct (remove_message_spec compressed name m Hi) as (st & m1 & E & Hi1 & _ & _ & D). rewrite E.
  assert (S1 : (forall k d, has m k d -> m_ghost d = false -> ~ In name (m_files d) -> has m1 k d) /\
               (forall k d', has m1 k d' -> m_ghost d' = false -> exists d, has m k d /\ m_id d = m_id d' /\ m_ghost d = false)).
  { destruct D as [(_ & _ & Hn)|(k & d & t & H & Hin & Hg & T & D)]; [exfalso; exact (Hn k0 d0 F1 F2)|].
    destruct D as [(_ & _ & d' & H' & Hd' & Hf & Ho)|(_ & Hf & D)].
    - split.
      + intros j e He G N. apply Ho; [|exact He]. intros ->. assert (e = d) by (unfold has in *; congruence). now subst.
      + intros j e He G. destruct (N.eq_dec j k) as [->|Q]; [|apply Ho in He; [|exact Q]; exists e; auto].
        assert (e = d') by (unfold has in *; congruence). subst e. exists d. split; [exact H|]. rewrite Hd' . cbn. auto.
    - destruct D as [(_ & Ho)|(Hgh & Ho)].
      + split.
        * intros j e He G N. apply Ho. right. split; [|exact He]. intros ->. assert (e = d) by (unfold has in *; congruence). now subst.
        * intros j e He G. apply Ho in He as [(-> & ->)|[Hj He]]; [discriminate G|]. exists e. auto.
      + split.
        * intros j e He G N. apply Ho. split; [exact He|]. intros Y. assert (Q : j <> k) by (intros ->; assert (e = d) by (unfold has in *; congruence); now subst).
          rewrite (Hgh j e He Q Y) in G. discriminate.
        * intros j e He G. apply Ho in He as [He Ht]. exists e. auto. }
  destruct st; try (intros [= <-]; split; [exact Hi1|exact S1]).
  destruct sync; [|intros [= <-]; split; [exact Hi1|exact S1]]. intros [= <-].
  destruct (flags_to_tags_other (m_id d0) m1 Hi1) as (I2 & R2 & K2). split; [exact I2|]. destruct S1 as (S1 & S2). split.
  - intros k d H G N. apply R2; [now apply S1|]. rewrite (i_canon _ m Hi k0 d0 F1). intros Q. assert (k = k0) by exact (i_unique _ m Hi k d k0 d0 H F1 Q). subst k.
    assert (d = d0) by (unfold has in *; congruence). now subst.
  - intros k d' H G. apply K2 in H as (d & H & X1 & X2 & _). destruct (S2 k d H) as (e & Y1 & Y2 & Y3); [congruence|]. exists e. split; [exact Y1|]. split; [congruence|exact Y3].
Qed.
Lemma removes_other P m m' : removes P m m' -> inv m ->
  (forall k d, has m k d -> m_ghost d = false -> (forall n, In n (m_files d) -> ~ P n) -> has m' k d) /\
  (forall k d', has m' k d' -> m_ghost d' = false -> exists d, has m k d /\ m_id d = m_id d' /\ m_ghost d = false).
Proof.
  intros R. induction R as [m|m name m1 m2 Hp E R IH]; intros Hi; [split; [auto|intros k d H G; exists d; auto]|].
  destruct (remove_filename_other name m m1 Hi E) as (I1 & S1 & S2). destruct (IH I1) as (T1 & T2). split.
  - intros k d H G N. apply T1; auto. apply S1; auto. intros X. exact (N _ X Hp).
  - intros k d' H G. destruct (T2 k d' H G) as (d1 & X1 & X2 & X3). destruct (S2 k d1 X1 X3) as (d & Y1 & Y2 & Y3). exists d. split; [exact Y1|]. split; [congruence|exact Y3].
Qed.

(** ---- the additions ---- *)
Lemma singleton (l : list bytes) x : NoDup l -> In x l -> (forall y, In y l -> y = x) -> l = [x].
Proof.
  intros N I H. destruct l as [|a [|b l]]; [destruct I| |].
  - now rewrite (H a (or_introl eq_refl)).
  - exfalso. apply NoDup_cons_iff in N as (N & _). apply N. left. rewrite (H a (or_introl eq_refl)). apply H. right. now left.
Qed.
Lemma index_tags name f keys ok s st s' : inv s -> (forall r, In r keys -> canon r <> canon (f_id f)) ->
  index_file compressed name f keys ok s = Some (st, s') ->
  inv s' /\ forall k d', has s' k d' ->
    (exists d, has s k d /\ m_id d' = m_id d /\ m_ghost d' = m_ghost d /\ m_tags d' = m_tags d /\ m_files d' = m_files d /\ (ok = true -> m_id d <> canon (f_id f))) \/
    (m_ghost d' = true /\ m_tags d' = [] /\ m_id d' <> canon (f_id f)) \/
    (st = M_success /\ m_id d' = canon (f_id f) /\ m_ghost d' = false /\ m_files d' = [name] /\ (forall k0 d, has s k0 d -> m_id d = canon (f_id f) -> m_ghost d = true) /\
      forall t, In t (m_tags d') <-> In t (f_auto_tags f) \/ exists d, has s k d /\ m_id d = m_id d' /\ In t (m_tags d)) \/
    (st = M_duplicate /\ m_id d' = canon (f_id f) /\ m_ghost d' = false /\ exists d, has s k d /\ m_id d = m_id d' /\ m_ghost d = false /\
      (forall n, In n (m_files d') <-> n = name \/ In n (m_files d)) /\
      forall t, In t (m_tags d') <-> In t (f_auto_tags f) \/ In t (m_tags d)).
Proof.
  intros Hi Hs E. destruct (index_file_spec compressed compressed_short name f keys ok s Hi Hs) as (st0 & s0 & phi & t & E0 & Hi' & Hev & Hcf & _ & Hself & _ & _ & Est).
  rewrite E in E0. injection E0 as <- <-. split; [exact Hi'|]. intros k d' H.
  destruct ok.
  - destruct (Hself eq_refl) as (ks & ds & X1 & X2 & X3 & X4 & X5 & X6 & X7 & X8 & X9).
    destruct (bytes_eq_dec (m_id d') (canon (f_id f))) as [Q|Q].
    + assert (k = ks) by (apply (i_unique _ s' Hi' k d' ks ds H X1); congruence). subst k. assert (d' = ds) by (unfold has in *; congruence). subst ds. clear X1.
      right. right. assert (ID : forall d, has s ks d -> m_id d = m_id d') by (intros d Hd; destruct (Hev ks d Hd) as (e & He & Hid & _); assert (e = d') by (unfold has in *; congruence); now subst).
      destruct (existsb _ (docs s)) eqn:Ex in Est.
      * right. apply existsb_exists in Ex as ([j e] & Hin & Hp). cbn in Hp. apply andb_true_iff in Hp as [Hp1 Hp2]. apply bseq_eq in Hp1. apply negb_true_iff in Hp2.
        apply (In_dget_sorted _ _ _ (i_sorted _ s Hi)) in Hin. change (has s j e) in Hin.
        destruct (Hev j e Hin) as (e' & He' & Hid & _ & Hgh & _ & Htag & Hf & _). assert (j = ks) by (apply (i_unique _ s' Hi' j e' ks d' He' H); congruence). subst j.
        assert (e' = d') by (unfold has in *; congruence). subst e'.
        split; [exact Est|]. split; [exact Q|]. split; [exact X3|]. exists e. split; [exact Hin|]. split; [congruence|]. split; [exact Hp2|]. split.
        -- intros n. split.
           ++ intros N. destruct (X7 n N) as [N'|(d & Hd & N')]; [now left|right]. assert (d = e) by (unfold has in *; congruence). now subst.
           ++ intros [->|N]; [exact X5|now apply Hf].
        -- intros g. split.
           ++ intros N. destruct (X8 g N) as [N'|(d & Hd & N')]; [now left|right]. assert (d = e) by (unfold has in *; congruence). now subst.
           ++ intros [N|N]; [now apply X9|now apply Htag].
      * left. assert (GH : forall k0 d, has s k0 d -> m_id d = canon (f_id f) -> m_ghost d = true).
        { intros k0 d Hd Hid. destruct (m_ghost d) eqn:G; [reflexivity|]. exfalso.
          assert (Y : existsb (fun kd => bseq (m_id (snd kd)) (canon (f_id f)) && negb (m_ghost (snd kd))) (docs s) = true).
          { apply existsb_exists. exists (k0, d). split; [now apply dget_In|]. cbn. rewrite Hid, bseq_refl, G. reflexivity. }
          congruence. }
        split; [exact Est|]. split; [exact Q|]. split; [exact X3|]. split; [|split; [exact GH|]].
        -- apply singleton; [exact (i_nodup _ s' Hi' ks d' H)|exact X5|]. intros y Y. destruct (X7 y Y) as [Z|(d & Hd & Z)]; [exact Z|]. exfalso.
           pose proof (i_files _ s Hi ks d Hd) as W. rewrite (GH ks d Hd) in W by (rewrite (ID d Hd); exact Q). destruct W as [W _]. rewrite W in Z. destruct Z.
        -- intros g. split.
           ++ intros N. destruct (X8 g N) as [N'|(d & Hd & N')]; [now left|right]. exists d. split; [exact Hd|]. split; [now apply ID|exact N'].
           ++ intros [N|(d & Hd & _ & N)]; [now apply X9|]. destruct (Hev ks d Hd) as (e & He & _ & _ & _ & _ & Htag & _). assert (e = d') by (unfold has in *; congruence). subst e. now apply Htag.
    + destruct (Hcf k d' H) as [(e & He & Hid)|(_ & _ & [[_ Hid]|(r & t' & _ & ->)])]; [|contradiction|right; left; cbn; auto].
      left. destruct (Hev k e He) as (e' & He' & Hid' & _ & _ & Hsame & _). rewrite Hid in Hsame. specialize (Hsame Q).
      assert (e' = d') by (unfold has in *; congruence). subst e'. subst d'. exists e. cbn in *. split; [exact He|]. repeat (split; [reflexivity|]). intros _. congruence.
  - destruct (index_file_fail compressed compressed_short name f keys s Hi) as (s1 & phi1 & E1 & _ & Hm & _). rewrite E in E1. injection E1 as _ <-.
    destruct (Hcf k d' H) as [(e & He & Hid)|(_ & _ & [[X _]|(r & t' & Hr & ->)])]; [|discriminate X|right; left; cbn; auto].
    left. exists e. split; [exact He|]. pose proof (Hm k e He) as Y. assert (d' = set_threads (map phi1 (m_threads e)) e) by (unfold has in *; congruence). subst d'. cbn. repeat (split; [reflexivity|]). discriminate.
Qed.

(** The tags a new message with the files [fs] gets on top of what indexing sets. *)
Definition given (fs : list bytes) (t : bytes) : Prop :=
  (sync = true /\ In t (maildir_flags_to_tags fs [])) \/ (In t new_tags /\ ~ (t = lit "unread" /\ has_maildir_flag fs "S"%char = true)).
Lemma new_tags_fold (skip : bool) nt : forall tags t,
  In t (fold_left (fun tags t => if negb (bseq (lit "unread") t) || negb skip then add_tag t tags else tags) nt tags) <->
  In t tags \/ (In t nt /\ ~ (t = lit "unread" /\ skip = true)).
Proof.
  induction nt as [|a nt IH]; intros tags t; cbn [fold_left]; [split; [auto|intros [H|[[] _]]; exact H]|]. rewrite IH.
  destruct (bseq_spec (lit "unread") a) as [<-|Q].
  - destruct skip; cbn [negb orb].
    + split.
      * intros [H|[H1 H2]]; [auto|right; split; [now right|exact H2]].
      * intros [H|[[H1|H1] H2]]; [auto| |auto]. exfalso. apply H2. auto.
    + rewrite add_tag_In. split.
      * intros [[-> |H]|[H1 H2]]; [right; split; [now left|intros [_ X]; discriminate X]|auto|right; split; [now right|exact H2]].
      * intros [H|[[<-|H1] H2]]; auto.
  - cbn [negb orb]. rewrite add_tag_In. split.
    + intros [[-> |H]|[H1 H2]]; [right; split; [now left|intros [X _]; congruence]|auto|right; split; [now right|exact H2]].
    + intros [H|[[<-|H1] H2]]; auto.
Qed.
Lemma add_new_tags_other id m : inv m -> inv (add_new_tags compressed new_tags id m) /\
  (forall k d', has (add_new_tags compressed new_tags id m) k d' -> exists d, has m k d /\ m_id d = m_id d' /\ m_ghost d = m_ghost d' /\ m_files d' = m_files d /\
     (m_id d <> canon id -> d' = d) /\
     (m_id d = canon id -> forall t, In t (m_tags d') <-> In t (m_tags d) \/ (In t new_tags /\ ~ (t = lit "unread" /\ has_maildir_flag (m_files d) "S"%char = true)))).
Proof.
  intros Hi. unfold add_new_tags. pose proof (find_message_spec compressed id m (i_sorted _ m Hi)) as F.
  destruct (find_message compressed id m) as [[k d]|].
  2:{ split; [exact Hi|]. intros k d H. exists d. split; [exact H|]. do 3 (split; [reflexivity|]). split; [auto|]. intros Q. exfalso. exact (F k d H Q). }
  destruct F as [F1 F2]. match goal with |- context [retag compressed id ?T m] => destruct (retag_spec compressed id T m Hi) as (Hi' & _ & _ & Hh) end.
  split; [exact Hi'|]. intros j e' H. apply Hh in H as (e & H & ->). exists e. split; [exact H|].
  destruct (bseq_spec (m_id e) (canon id)) as [Q|Q].
  - cbn. do 3 (split; [reflexivity|]). split; [contradiction|]. intros _ t.
    assert (j = k) by (apply (i_unique _ m Hi j e k d H F1); congruence). subst j. assert (e = d) by (unfold has in *; congruence). subst e. apply new_tags_fold.
  - do 3 (split; [reflexivity|]). split; [auto|contradiction].
Qed.

(** ---- one message that is new in this run ---- *)
Variable id : bytes.
Definition common (t : bytes) : Prop := t <> lit "unread" /\ (sync = true -> ~ flag_tag t).
Definition tagged (m : mdb) : Prop := forall k d, has m k d -> m_id d = id ->
  if m_ghost d then m_tags d = []
  else (forall t, ~ A id t -> common t -> (In t (m_tags d) <-> In t new_tags)) /\
       (forall f t, m_files d = [f] -> ~ A id t -> (In t (m_tags d) <-> given [f] t)).
Lemma given_common fs t : common t -> (given fs t <-> In t new_tags).
Proof.
  intros [C1 C2]. unfold given. split.
  - intros [[S H]|[H _]]; [|exact H]. apply flags_only_flag_tags in H; [destruct H|auto].
  - intros H. right. split; [exact H|]. intros [X _]. contradiction.
Qed.
(** Reading the flags of a message with tags [tags] none of which is [t]. *)
Lemma flags_absent fs tags t : ~ In t tags -> (In t (maildir_flags_to_tags fs tags) <-> In t (maildir_flags_to_tags fs [])).
Proof.
  intros N. destruct (ensure_maildir_flags fs) as [fl|] eqn:E.
  - rewrite !(flags_to_tags_In fs _ fl t E). cbn. tauto.
  - unfold maildir_flags_to_tags. rewrite E. cbn. tauto.
Qed.
Lemma add_file_tagged p n f keys ok s s' : inv (mail s) -> ~ recorded (s_db s) (child p n) ->
  (forall r, In r keys -> canon r <> canon (f_id f)) -> (forall t, In t (f_auto_tags f) -> A (canon (f_id f)) t) ->
  add_file compressed sync new_tags p n (Some (f, keys, ok)) s = Some s' -> tagged (mail s) -> inv (mail s') /\ tagged (mail s').
Proof.
  intros Hi Hr Hk Ha E T. unfold add_file in E.
  destruct (index_file compressed (child p n) f keys ok (mail s)) as [[st m1]|] eqn:E1; [|discriminate].
  destruct (index_tags _ _ _ _ _ _ _ Hi Hk E1) as (I1 & S1).
  assert (F : inv (mail s') /\ forall k d', has (mail s') k d' -> exists d, has m1 k d /\ m_id d = m_id d' /\ m_ghost d = m_ghost d' /\ m_files d' = m_files d /\
     (st = M_index_error \/ m_id d <> canon (f_id f) -> m_tags d' = m_tags d) /\
     (m_id d = canon (f_id f) -> forall t, In t (m_tags d') <->
        match st with
        | M_index_error => In t (m_tags d)
        | M_duplicate => In t (if sync then maildir_flags_to_tags (m_files d) (m_tags d) else m_tags d)
        | M_success => In t (if sync then maildir_flags_to_tags (m_files d) (m_tags d) else m_tags d) \/ (In t new_tags /\ ~ (t = lit "unread" /\ has_maildir_flag (m_files d) "S"%char = true))
        end)).
  { set (m2 := if sync then flags_to_tags compressed (f_id f) m1 else m1) in *.
    assert (F2 : inv m2 /\ forall k d', has m2 k d' -> exists d, has m1 k d /\ m_id d = m_id d' /\ m_ghost d = m_ghost d' /\ m_files d' = m_files d /\
      (m_id d <> canon (f_id f) -> m_tags d' = m_tags d) /\ (m_id d = canon (f_id f) -> m_tags d' = if sync then maildir_flags_to_tags (m_files d) (m_tags d) else m_tags d)).
    { unfold m2. destruct sync.
      - destruct (flags_to_tags_other (f_id f) m1 I1) as (J1 & _ & J3). split; [exact J1|]. intros k d' H. destruct (J3 k d' H) as (d & X1 & X2 & X3 & X4 & X5).
        exists d. split; [exact X1|]. split; [exact X2|]. split; [exact X3|]. split; [exact X4|]. split.
        + intros Q. now rewrite (proj2 (bseq_neq _ _) Q) in X5.
        + intros Q. now rewrite Q, bseq_refl in X5.
      - split; [exact I1|]. intros k d H. exists d. auto 10. }
    destruct F2 as (I2 & F2). injection E as <-. destruct st; cbn [s_db vanish with_db n_mail].
    - destruct (add_new_tags_other (f_id f) m2 I2) as (I3 & F3). split; [exact I3|]. intros k d' H. destruct (F3 k d' H) as (d2 & X1 & X2 & X3 & X4 & X5 & X6).
      destruct (F2 k d2 X1) as (d & Y1 & Y2 & Y3 & Y4 & Y5 & Y6). exists d. split; [exact Y1|]. split; [congruence|]. split; [congruence|]. split; [congruence|]. split.
      + intros [X|X]; [discriminate X|]. rewrite (X5 ltac:(congruence)). now apply Y5.
      + intros Q t. rewrite (X6 ltac:(congruence)), (Y6 Q), Y4. reflexivity.
    - split; [exact I2|]. intros k d' H. destruct (F2 k d' H) as (d & Y1 & Y2 & Y3 & Y4 & Y5 & Y6). exists d. split; [exact Y1|]. split; [exact Y2|]. split; [exact Y3|]. split; [exact Y4|]. split.
      + intros [X|X]; [discriminate X|]. now apply Y5.
      + intros Q t. now rewrite (Y6 Q).
    - split; [exact I1|]. intros k d H. exists d. split; [exact H|]. do 3 (split; [reflexivity|]). split; [reflexivity|]. intros _ t. reflexivity. }
  destruct F as (I2 & F). split; [exact I2|]. intros k d' H Hid. destruct (F k d' H) as (d1 & X1 & X2 & X3 & X4 & X5 & X6). rewrite Hid in X2. rewrite <- X3, X4.
  destruct (S1 k d1 X1) as [(d & Y1 & Y2 & Y3 & Y4 & Y5 & Y6)|[(Y1 & Y2 & Y3)|[(Y1 & Y2 & Y3 & Y4 & Y5 & Y6)|(Y1 & Y2 & Y3 & d & Y4 & Y5 & Y6 & Y7 & Y8)]]].
  - (* as before *)
    assert (Td := T k d Y1 ltac:(congruence)). rewrite <- Y3 in Td. rewrite <- Y4, <- Y5 in Td.
    destruct (bytes_eq_dec (m_id d1) (canon (f_id f))) as [Q|Q].
    + assert (Eok : ok = false) by (destruct ok; [exfalso; apply Y6; congruence|reflexivity]). subst ok.
      assert (st = M_index_error).
      { destruct (index_file_fail compressed compressed_short (child p n) f keys (mail s) Hi) as (sf & ph & Ef & _). congruence. }
      rewrite X5 by now left. exact Td.
    + rewrite X5 by now right. exact Td.
  - rewrite Y1. rewrite X5 by now right. exact Y2.
  - (* new *)
    rewrite Y3. specialize (X6 Y2). rewrite Y1 in X6.
    assert (Old : forall t, ~ A id t -> ~ In t (m_tags d1)).
    { intros t N H0. apply Y6 in H0 as [H0|(d & H1 & H2 & H3)].
      - apply N. replace id with (canon (f_id f)) by congruence. now apply Ha.
      - pose proof (T k d H1 ltac:(congruence)) as Td. rewrite (Y5 k d H1 ltac:(congruence)) in Td. rewrite Td in H3. destruct H3. }
    assert (G : forall t, ~ A id t -> (In t (m_tags d') <-> given (m_files d1) t)).
    { intros t N. rewrite X6. unfold given. specialize (Old t N). destruct sync.
      - rewrite (flags_absent _ _ _ Old). intuition.
      - intuition discriminate. }
    split.
    + intros t N C. rewrite (G t N). now apply given_common.
    + intros g t Eg N. rewrite (G t N), Eg. reflexivity.
  - (* another file *)
    rewrite Y3. specialize (X6 Y2). rewrite Y1 in X6. pose proof (T k d Y4 ltac:(congruence)) as Td. rewrite Y6 in Td. destruct Td as [Td _]. split.
    + intros t N C. rewrite X6. rewrite <- (Td t N C).
      assert (E8 : In t (m_tags d1) <-> In t (m_tags d)).
      { rewrite Y8. split; [|auto]. intros [X|X]; [|exact X]. exfalso. apply N. replace id with (canon (f_id f)) by congruence. now apply Ha. }
      destruct C as [_ C]. destruct sync; [|exact E8]. rewrite flags_only_flag_tags by auto. exact E8.
    + intros g t Eg N. exfalso. pose proof (i_files _ _ Hi k d Y4) as X. rewrite Y6 in X. destruct (m_files d) as [|h l] eqn:Ef; [contradiction|].
      assert (Z1 : In h (m_files d1)) by (apply Y7; right; now left). assert (Z2 : In (child p n) (m_files d1)) by (apply Y7; now left).
      rewrite Eg in Z1, Z2. destruct Z1 as [Z1|[]], Z2 as [Z2|[]]. apply Hr. exists (m_id d), k, d. split; [exact Y4|]. split; [|reflexivity]. rewrite Ef. left. congruence.
Qed.
Lemma adds_tagged m m' : adds m m' -> inv m -> tagged m -> inv m' /\ tagged m'.
Proof.
  intros H. induction H as [m|m p n f keys ok s s' H IH Hi Hr Hk Ha E]; [auto|]. intros I T. destruct (IH I T) as (_ & T'). eapply add_file_tagged; eassumption.
Qed.
End Tags.

(** ---- the run ---- *)
Section RunTags.
Variable compressed : bytes -> bytes.
Hypothesis compressed_short : forall s, (length (compressed s) <= 189)%nat.
Notation inv := (inv compressed).
Theorem run_tags w db e db' id : inv (n_mail db) -> good_ndb db -> possible compressed w -> run_new compressed w db = Some (e, db') ->
  (forall k d, has (n_mail db) k d -> m_id d = id -> m_ghost d = true /\ m_tags d = []) ->
  forall k d, has (n_mail db') k d -> m_id d = id -> m_ghost d = false ->
  (forall t, ~ auto_tag compressed w id t -> common (w_sync w) t -> (In t (m_tags d) <-> In t (w_tags w))) /\
  (forall f t, m_files d = [f] -> ~ auto_tag compressed w id t -> (In t (m_tags d) <-> given (w_sync w) (w_tags w) [f] t)).
Proof.
  intros Hi Hg Hp E Fr. pose proof (possible_legal compressed w Hp) as Hleg. destruct Hp as [Hgt _]. unfold run_new, New.notmuch_new in E.
  set (root := w_root w) in *. set (A := auto_tag compressed w) in *.
  set (s := {| s_db := db; s_removed_files := []; s_removed_dirs := []; s_mtimes := []; s_vanished := 0; s_tick := w_ticks w |}) in *.
  assert (T0 : tagged (w_sync w) (w_tags w) A id (n_mail db)) by (intros k d H Hid; destruct (Fr k d H Hid) as [-> ->]; reflexivity).
  destruct (dirb root) eqn:Hdb.
  2:{ rewrite (ltac:(destruct root; try discriminate; reflexivity) : add_files compressed (w_full_scan w) (w_sync w) (w_tags w) (w_verbatim w) (w_regex w) (w_time w) root [] s = Some (false, s)) in E.
      injection E as _ <-. intros k d H Hid G. destruct (Fr k d H Hid) as [X _]. congruence. }
  apply dirb_is_dir in Hdb.
  destruct (walk_all compressed compressed_short (w_full_scan w) (w_sync w) (w_tags w) (w_verbatim w) (w_regex w) (w_time w) A root Hdb [] s false) as (b & s1 & E1 & F);
    [now left|exact Hgt|exact Hleg|exact Hi|exact Hg|discriminate|].
  rewrite E1 in E. destruct F as [e_inv e_good e_sound e_mono e_keeps e_files e_dirs e_dmono e_dsound e_mt e_tick e_done e_van e_adds].
  destruct (adds_tagged compressed compressed_short _ _ _ id _ _ e_adds Hi T0) as [_ T1].
  destruct b; [|injection E as _ <-; intros k d H Hid G; specialize (T1 k d H Hid); rewrite G in T1; exact T1].
  destruct (removal_loop compressed (w_sync w) (s_removed_files s1) s1) as [s2|] eqn:E2; [|discriminate].
  destruct (directory_loop compressed (w_sync w) (s_removed_dirs s2) s2) as [s3|] eqn:E3; [|discriminate].
  assert (Q2 : s_removed_dirs s2 = s_removed_dirs s1 /\ good_ndb (s_db s3)).
  { destruct (removal_loop_spec compressed (w_sync w) (s_removed_files s1) s1 e_inv e_good) as (s2' & El & L). rewrite E2 in El. injection El as <-.
    destruct L as [A1 A2 A3 A4 A5 A6 A7 A8 A9 A10 A11 A12 A13]. split; [exact A10|].
    destruct (directory_loop_spec compressed (w_sync w) (s_removed_dirs s2) s2 A1 A2) as (s3' & El3 & L3). rewrite E3 in El3. injection El3 as <-. apply L3. }
  destruct Q2 as [Q2 G3].
  apply removal_loop_removes in E2. apply directory_loop_removes in E3. rewrite Q2 in E3.
  destruct e_files as (qf & Qf1 & Qf2 & _). destruct e_dirs as (qd & Qd1 & Qd2 & _). cbn [s s_removed_files s_removed_dirs app] in Qf1, Qd1. rewrite Qf1 in E2. rewrite Qd1 in E3.
  assert (R : removes compressed (w_sync w) (gone (w_verbatim w) (w_regex w) [] root) (n_mail (s_db s1)) (n_mail (s_db s3))).
  { eapply removes_trans.
    - eapply removes_weaken; [|exact E2]. intros n Hn. left. now apply Qf2.
    - eapply removes_weaken; [|exact E3]. intros n (p & H & B). right. exists p. split; [now apply Qd2|exact B]. }
  assert (Edb : n_mail db' = n_mail (s_db s3)).
  { destruct (mtime_loop_spec (s_mtimes s3) s3 G3) as (C1 & _).
    destruct (interrupted_spec (mtime_loop (s_mtimes s3) s3)) as (i & s5 & Ei & Ed & _). rewrite Ei in E. injection E as _ <-. rewrite Ed. exact C1. }
  rewrite Edb. clear E E2 E3 Edb. destruct (removes_other _ _ _ _ _ R e_inv) as (S1 & S2).
  intros k d' H' Hid Hg'. destruct (S2 k d' H' Hg') as (d & X1 & X2 & X3).
  assert (H3 : has (n_mail (s_db s3)) k d).
  { apply S1; [exact X1|exact X3|]. intros n Hn. assert (Rn : rec (n_mail (s_db s1)) n id) by (exists k, d; split; [exact X1|]; split; [exact Hn|congruence]).
    apply e_sound in Rn as [(k0 & d0 & Y1 & Y2 & Y3)|(_ & m & keys & Y & _)].
    - exfalso. destruct (Fr k0 d0 Y1 Y3) as [Y4 _]. pose proof (i_files _ _ Hi k0 d0 Y1) as W. rewrite Y4 in W. destruct W as [W _]. rewrite W in Y2. destruct Y2.
    - eapply visible_not_gone; eassumption. }
  assert (d' = d) by (unfold has in *; congruence). subst d'. specialize (T1 k d X1 Hid). rewrite X3 in T1. exact T1.
Qed.
End RunTags.
