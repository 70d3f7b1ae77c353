(** Dates and subject of a thread after all its messages were added (C42, C47). *)
From Verif Require Import Bytes Terms XQuery DocSet Thread Query QuerySpec ThreadSummarySpec QueryProofs QueryProofs2 QueryProofs3.
From Coq Require Import Sorted Permutation.
Local Open Scope nat_scope.

Definition older (a b : xdoc) : Prop := (xd_date a <= xd_date b)%Z.
Definition strictly_older (a b : xdoc) : Prop := (xd_date a < xd_date b)%Z.

Lemma SS_snoc {A} (R : A -> A -> Prop) l d : StronglySorted R (l ++ [d]) -> StronglySorted R l /\ forall x, In x l -> R x d.
Proof.
  induction l as [|a l IH]; cbn [app]; intros H; [split; [constructor|intros x []]|].
  inversion H as [|? ? H1 H2]; subst. destruct (IH H1) as (I1 & I2). rewrite Forall_forall in H2. split.
  - constructor; [exact I1|]. apply Forall_forall. intros x Hx. apply H2, in_app_iff. now left.
  - intros x [<-|Hx]; [apply H2, in_app_iff; right; now left|auto].
Qed.
Lemma filter_snoc {A} p (l : list A) d : filter p (l ++ [d]) = filter p l ++ (if p d then [d] else []).
Proof. rewrite filter_app. cbn. destruct (p d); reflexivity. Qed.

Lemma snoc_cases {A} (l : list A) : l = [] \/ exists M e, l = M ++ [e].
Proof. induction l as [|e M _] using rev_ind; [now left|right; eauto]. Qed.

Section Sum.
  Variables (omit : omit_mode) (ex : list bytes) (sort : sort_mode) (P : N -> bool) (tid : bytes).
  Definition mt (docs : list xdoc) : list xdoc := filter (fun d => P (xd_id d)) docs.
  Definition nx (docs : list xdoc) : list xdoc := filter (fun d => P (xd_id d) && negb (message_excluded omit ex d)) docs.
  Definition base (docs : list xdoc) : option bytes :=
    match filter (kept omit ex) docs with [] => None | d :: _ => Some (raw_subject d) end.
  Definition all_kept (docs : list xdoc) : Prop := forall d, In d docs -> P (xd_id d) = true -> kept omit ex d = true.
  Definition keep_subject (cur : option bytes) (d : xdoc) : option bytes := if empty_string cur then new_subject cur d else cur.

  Lemma step_split docs d t' : bodies omit ex sort P (docs ++ [d]) (thread_init tid) = Some t' ->
    exists t, bodies omit ex sort P docs (thread_init tid) = Some t /\ loop_body omit ex sort P t d = Some t'.
  Proof.
    rewrite bodies_app. destruct (bodies omit ex sort P docs (thread_init tid)) as [t|]; [|discriminate].
    cbn [bodies]. intros H. exists t. split; [reflexivity|]. destruct (loop_body omit ex sort P t d); [exact H|discriminate].
  Qed.
  Lemma all_kept_snoc docs d : all_kept (docs ++ [d]) -> all_kept docs /\ (P (xd_id d) = true -> kept omit ex d = true).
  Proof. intros H. split; [intros e He; apply H, in_app_iff; now left|apply H, in_app_iff; right; now left]. Qed.
  Lemma mt_sub docs : all_kept docs -> filter (kept omit ex) docs = [] -> mt docs = [].
  Proof.
    intros K E. destruct (mt docs) as [|d l] eqn:M; [reflexivity|]. exfalso.
    assert (H : In d (mt docs)) by (rewrite M; now left). apply filter_In in H as (H & Hp).
    assert (In d (filter (kept omit ex) docs)) by (apply filter_In; split; [exact H|apply K; auto]). rewrite E in H0. contradiction.
  Qed.
  Lemma nx_sub docs d : In d (nx docs) -> In d (mt docs).
  Proof. unfold nx, mt. rewrite !filter_In. rewrite andb_true_iff. tauto. Qed.
  Lemma base_snoc docs d : base (docs ++ [d]) = match base docs with Some s => Some s | None => if kept omit ex d then Some (raw_subject d) else None end.
  Proof. unfold base. rewrite filter_snoc. destruct (filter (kept omit ex) docs); [|reflexivity]. destruct (kept omit ex d); reflexivity. Qed.

  Lemma sum_dates docs : forall t, StronglySorted older docs -> all_kept docs ->
    bodies omit ex sort P docs (thread_init tid) = Some t ->
    th_matched t = length (nx docs) /\
    (forall M d, mt docs = M ++ [d] -> th_newest t = xd_date d) /\
    (forall d l, nx docs = d :: l -> th_oldest t = xd_date d) /\
    (nx docs = [] -> forall M d, mt docs = M ++ [d] -> th_oldest t = xd_date d).
  Proof.
    induction docs as [|d docs IH] using rev_ind; intros t' S K E.
    - injection E as <-. cbn. repeat split; auto; intros; try discriminate; destruct M; discriminate.
    - destruct (step_split _ _ _ E) as (t & Et & Es). apply SS_snoc in S as (S & Sd). apply all_kept_snoc in K as (K & Kd).
      destruct (IH t S K Et) as (I1 & I2 & I3 & I4). pose proof (body_dates _ _ _ _ _ _ _ Es Kd) as B.
      unfold nx, mt. rewrite !filter_snoc. fold (nx docs) (mt docs).
      destruct (P (xd_id d)) eqn:EP; cbn [andb].
      2:{ destruct B as (B1 & B2 & B3 & _). rewrite B1, B2, B3, !app_nil_r. auto. }
      destruct B as (t1 & T1 & T2 & T3 & T4 & B1 & B2 & _ & B4).
      assert (C0 : mt docs = [] \/ exists M e, mt docs = M ++ [e] /\ older e d).
      { destruct (snoc_cases (mt docs)) as [EM|(M & e & EM)]; [now left|]. right. exists M, e. split; [exact EM|].
        apply Sd. assert (X : In e (mt docs)) by (rewrite EM; apply in_app_iff; right; now left). now apply filter_In in X. }
      assert (C1 : nx docs = [] -> c_old t1 d = true /\ c_new t1 d = true).
      { intros N. unfold c_old, c_new. rewrite T4, I1, N. cbn. now rewrite !orb_true_r. }
      assert (C2 : forall e l, nx docs = e :: l -> c_old t1 d = false).
      { intros e l N. unfold c_old. rewrite T2, T4, I1, N. rewrite (I3 e l N). cbn [length Nat.eqb]. rewrite orb_false_r.
        apply Z.ltb_ge. apply Sd. assert (X : In e (nx docs)) by (rewrite N; now left). apply nx_sub in X. now apply filter_In in X. }
      assert (NEW : th_newest t' = xd_date d).
      { rewrite B2. destruct (c_new t1 d) eqn:CN; [reflexivity|]. unfold c_new in CN. apply orb_false_iff in CN as (CN & CM).
        apply Z.ltb_ge in CN. destruct C0 as [C0|(M & e & C0 & L)].
        - exfalso. rewrite T4, I1 in CM. destruct (nx docs) as [|e l] eqn:N; [discriminate|].
          assert (X : In e (nx docs)) by (rewrite N; now left). apply nx_sub in X. rewrite C0 in X. contradiction.
        - rewrite T3 in *. rewrite (I2 M e C0) in *. unfold older in L. lia. }
      split; [|split; [|split]].
      + rewrite B4, I1, app_length. destruct (message_excluded omit ex d); cbn; lia.
      + intros M e Q. apply app_inj_tail in Q as (_ & <-). exact NEW.
      + intros e l Q. rewrite B1. destruct (nx docs) as [|f l'] eqn:N.
        * destruct (C1 eq_refl) as (-> & _). destruct (message_excluded omit ex d); [discriminate|]. cbn in Q. injection Q as <- _. reflexivity.
        * rewrite (C2 f l' eq_refl). cbn [app] in Q. injection Q as <- _. rewrite T2. apply (I3 f l' eq_refl).
      + intros Q M e Q2. apply app_eq_nil in Q as (Q & _). destruct (C1 Q) as (C & _). rewrite B1, C.
        apply app_inj_tail in Q2 as (_ & <-). reflexivity.
  Qed.

  Lemma fold_new_some M s : exists r, fold_left new_subject M (Some s) = Some r.
  Proof. revert s. induction M as [|d M IH]; intros s; cbn [fold_left]; [eauto|]. unfold new_subject at 2. destruct (usable d); apply IH. Qed.

  Lemma subject_none docs t : all_kept docs -> bodies omit ex sort P docs (thread_init tid) = Some t ->
    match base docs with None => th_subject t = None | Some _ => exists s, th_subject t = Some s end.
  Proof.
    revert t. induction docs as [|d docs IH] using rev_ind; intros t' K E; [injection E as <-; reflexivity|].
    destruct (step_split _ _ _ E) as (t & Et & Es). apply all_kept_snoc in K as (K & Kd).
    specialize (IH t K Et). pose proof (body_dates _ _ _ _ _ _ _ Es Kd) as B. rewrite base_snoc.
    destruct (P (xd_id d)).
    - destruct B as (t1 & T1 & _ & _ & _ & _ & _ & B & _). rewrite (Kd eq_refl).
      assert (N : exists s, th_subject t' = Some s).
      { rewrite B. unfold subj1, new_subject. rewrite T1. unfold with_raw.
        destruct (usable d); destruct (c_old t1 d && is_oldest_first sort);
          match goal with |- context [if ?b then _ else _] => destruct b end; eauto. }
      destruct (base docs); exact N.
    - destruct B as (_ & _ & _ & B). rewrite B. destruct (base docs).
      + destruct IH as (s & ->). destruct (kept omit ex d); unfold with_raw; eauto.
      + destruct (kept omit ex d); unfold with_raw; [eauto|exact IH].
  Qed.

  (** the raw subject of the first message is in place when a message is added. *)
  Lemma with_raw_ok docs t d : all_kept docs -> bodies omit ex sort P docs (thread_init tid) = Some t -> kept omit ex d = true ->
    with_raw t d = match base docs with Some _ => th_subject t | None => base (docs ++ [d]) end.
  Proof.
    intros K E Kd. pose proof (subject_none docs t K E) as S. rewrite base_snoc, Kd. unfold with_raw.
    destruct (base docs); [destruct S as (s & ->); reflexivity|rewrite S; reflexivity].
  Qed.
  Lemma base_none_mt docs : all_kept docs -> base docs = None -> mt docs = [].
  Proof. intros K E. apply mt_sub; [exact K|]. unfold base in E. destruct (filter (kept omit ex) docs); [reflexivity|discriminate]. Qed.

  Lemma strict_c_new docs t t1 d : StronglySorted older docs -> (forall x, In x docs -> older x d) -> all_kept docs ->
    bodies omit ex sort P docs (thread_init tid) = Some t -> (forall x, In x (mt docs) -> strictly_older x d) ->
    th_newest t1 = th_newest t -> th_matched t1 = th_matched t -> c_new t1 d = true.
  Proof.
    intros S Sd K E SO N M. destruct (sum_dates docs t S K E) as (I1 & I2 & _ & _). unfold c_new. rewrite N, M, I1.
    destruct (snoc_cases (mt docs)) as [EM|(L & e & EM)].
    - assert (nx docs = []) as ->; [|cbn; apply orb_true_r]. destruct (nx docs) as [|e l] eqn:NX; [reflexivity|].
      assert (X : In e (nx docs)) by (rewrite NX; now left). apply nx_sub in X. rewrite EM in X. contradiction.
    - rewrite (I2 L e EM). assert (strictly_older e d) by (apply SO; rewrite EM; apply in_app_iff; right; now left). unfold strictly_older in H.
      apply orb_true_iff. left. now apply Z.ltb_lt.
  Qed.

  (** newest first (and every order but oldest first). *)
  Lemma subject_newest docs : forall t, is_oldest_first sort = false -> StronglySorted older docs -> all_kept docs ->
    StronglySorted strictly_older (mt docs) -> bodies omit ex sort P docs (thread_init tid) = Some t ->
    th_subject t = fold_left new_subject (mt docs) (base docs).
  Proof.
    induction docs as [|d docs IH] using rev_ind; intros t' F S K SO E; [injection E as <-; reflexivity|].
    destruct (step_split _ _ _ E) as (t & Et & Es). apply SS_snoc in S as (S & Sd). apply all_kept_snoc in K as (K & Kd).
    pose proof (body_dates _ _ _ _ _ _ _ Es Kd) as B. unfold mt in SO |- *. rewrite filter_snoc in SO |- *.
    destruct (P (xd_id d)) eqn:EP.
    - apply SS_snoc in SO as (SO & SOd). fold (mt docs) in SO, SOd |- *. specialize (IH t F S K SO Et). specialize (Kd eq_refl).
      destruct B as (t1 & T1 & T2 & T3 & T4 & _ & _ & B & _).
      rewrite (strict_c_new docs t t1 d S Sd K Et SOd T3 T4), F in B. cbn [andb negb orb] in B. rewrite B, fold_left_app. cbn [fold_left].
      unfold subj1. rewrite F, andb_false_r, T1, (with_raw_ok docs t d K Et Kd).
      destruct (base docs) eqn:EB.
      + rewrite base_snoc, EB, IH. reflexivity.
      + rewrite (base_none_mt docs K EB). reflexivity.
    - rewrite app_nil_r in SO |- *. fold (mt docs) in SO |- *. specialize (IH t F S K SO Et). destruct B as (_ & _ & _ & B). rewrite B, base_snoc.
      destruct (kept omit ex d) eqn:Kd'.
      + rewrite (with_raw_ok docs t d K Et Kd'). destruct (base docs) eqn:EB; [exact IH|]. rewrite (base_none_mt docs K EB), base_snoc, EB, Kd'. reflexivity.
      + rewrite IH. destruct (base docs); reflexivity.
  Qed.

  (** oldest first. *)
  Lemma subject_oldest docs : forall t, is_oldest_first sort = true -> StronglySorted older docs -> all_kept docs ->
    (forall d, In d docs -> P (xd_id d) = true -> message_excluded omit ex d = false) ->
    StronglySorted strictly_older (mt docs) -> bodies omit ex sort P docs (thread_init tid) = Some t ->
    th_subject t = match mt docs with [] => base docs | d0 :: rest => fold_left keep_subject rest (new_subject (base docs) d0) end.
  Proof.
    induction docs as [|d docs IH] using rev_ind; intros t' F S K NE SO E; [injection E as <-; reflexivity|].
    destruct (step_split _ _ _ E) as (t & Et & Es). apply SS_snoc in S as (S & Sd). apply all_kept_snoc in K as (K & Kd).
    assert (NE' : forall e, In e docs -> P (xd_id e) = true -> message_excluded omit ex e = false)
      by (intros e He; apply NE, in_app_iff; now left).
    pose proof (body_dates _ _ _ _ _ _ _ Es Kd) as B. unfold mt in SO |- *. rewrite filter_snoc in SO |- *.
    destruct (P (xd_id d)) eqn:EP.
    - apply SS_snoc in SO as (SO & SOd). fold (mt docs) in SO, SOd |- *. specialize (IH t F S K NE' SO Et). specialize (Kd eq_refl).
      destruct B as (t1 & T1 & T2 & T3 & T4 & _ & _ & B & _).
      rewrite (strict_c_new docs t t1 d S Sd K Et SOd T3 T4), F in B. cbn [andb negb orb] in B. unfold subj1 in B. rewrite F, andb_true_r, T1 in B.
      destruct (sum_dates docs t S K Et) as (I1 & I2 & I3 & _).
      pose proof (with_raw_ok docs t d K Et Kd) as W. rewrite W in B.
      destruct (mt docs) as [|e0 rest] eqn:EM.
      + assert (nx docs = []) as NX.
        { destruct (nx docs) as [|e l] eqn:NX; [reflexivity|].
          assert (X : In e (nx docs)) by (rewrite NX; now left). apply nx_sub in X. rewrite EM in X. contradiction. }
        assert (C : c_old t1 d = true) by (unfold c_old; rewrite T4, I1, NX; cbn; apply orb_true_r).
        rewrite C in B. cbn [app fold_left].
        assert (BB : base (docs ++ [d]) = match base docs with Some _ => th_subject t | None => base (docs ++ [d]) end).
        { rewrite base_snoc, Kd. destruct (base docs); [now rewrite IH|reflexivity]. }
        rewrite <- BB in B. rewrite B. generalize (base (docs ++ [d])). intros b. unfold new_subject.
        destruct (usable d) as [r|] eqn:U; [|destruct (empty_string b); reflexivity]. destruct (empty_string (Some r)); reflexivity.
      + assert (NX : exists l, nx docs = e0 :: l).
        { assert (X : forall l : list xdoc, (forall e, In e l -> P (xd_id e) = true -> message_excluded omit ex e = false) -> nx l = mt l).
          { intros l Hl. unfold nx, mt. apply filter_ext_in. intros e He. destruct (P (xd_id e)) eqn:Pe; [|reflexivity]. now rewrite (Hl e He Pe). }
          rewrite (X docs NE'), EM. eauto. }
        destruct NX as (l & NX).
        assert (C : c_old t1 d = false).
        { unfold c_old. rewrite T2, T4, I1, NX, (I3 e0 l NX). cbn [length Nat.eqb]. rewrite orb_false_r. apply Z.ltb_ge.
          apply Sd. assert (X : In e0 (mt docs)) by (rewrite EM; now left). now apply filter_In in X. }
        rewrite C in B. cbn [app]. rewrite fold_left_app. cbn [fold_left].
        destruct (base docs) as [s|] eqn:EB; [|rewrite (base_none_mt docs K EB) in EM; discriminate].
        rewrite base_snoc, EB. rewrite B, IH. reflexivity.
    - rewrite app_nil_r in SO |- *. fold (mt docs) in SO |- *. specialize (IH t F S K NE' SO Et). destruct B as (_ & _ & _ & B). rewrite B, base_snoc.
      destruct (kept omit ex d) eqn:Kd'.
      + rewrite (with_raw_ok docs t d K Et Kd'). destruct (base docs) eqn:EB; [exact IH|]. rewrite (base_none_mt docs K EB), base_snoc, EB, Kd'. reflexivity.
      + rewrite IH. destruct (base docs); reflexivity.
  Qed.

  (** in any case the subject comes from a matched message or from the first one. *)
  Lemma subject_origin docs : forall t, all_kept docs -> bodies omit ex sort P docs (thread_init tid) = Some t ->
    th_subject t = base docs \/ exists d, In d (mt docs) /\ th_subject t = usable d /\ usable d <> None.
  Proof.
    induction docs as [|d docs IH] using rev_ind; intros t' K E; [injection E as <-; now left|].
    destruct (step_split _ _ _ E) as (t & Et & Es). apply all_kept_snoc in K as (K & Kd).
    specialize (IH t K Et). pose proof (body_dates _ _ _ _ _ _ _ Es Kd) as B. unfold mt. rewrite filter_snoc.
    destruct (P (xd_id d)) eqn:EP.
    - specialize (Kd eq_refl). destruct B as (t1 & T1 & _ & _ & _ & _ & _ & B & _).
      assert (N : th_subject t' = with_raw t d \/ th_subject t' = usable d /\ usable d <> None).
      { rewrite B. unfold subj1, new_subject. rewrite T1.
        destruct (usable d); destruct (c_old t1 d && is_oldest_first sort);
          match goal with |- context [if ?b then _ else _] => destruct b end; auto; right; split; auto; discriminate. }
      fold (mt docs). destruct N as [N|(N & U)].
      + rewrite N, (with_raw_ok docs t d K Et Kd). destruct (base docs) eqn:EB; [|now left].
        destruct IH as [->|(e & He & Q & U)]; [left; now rewrite base_snoc, EB|].
        right. exists e. split; [apply in_app_iff; now left|auto].
      + right. exists d. split; [apply in_app_iff; right; now left|auto].
    - rewrite app_nil_r. fold (mt docs). destruct B as (_ & _ & _ & B). rewrite B.
      destruct (kept omit ex d) eqn:Kd'.
      + rewrite (with_raw_ok docs t d K Et Kd'). destruct (base docs) eqn:EB; [|now left].
        destruct IH as [->|X]; [left; now rewrite base_snoc, EB|now right].
      + destruct IH as [->|X]; [left; rewrite base_snoc, Kd'; destruct (base docs); reflexivity|now right].
  Qed.
End Sum.

(** what the folds mean. *)
Lemma fold_new_spec M : forall b,
  (exists M1 d M2 r, M = M1 ++ d :: M2 /\ usable d = Some r /\ (forall e, In e M2 -> usable e = None) /\ fold_left new_subject M b = Some r) \/
  ((forall e, In e M -> usable e = None) /\ fold_left new_subject M b = b).
Proof.
  induction M as [|d M IH] using rev_ind; intros b; [right; split; [intros e []|reflexivity]|].
  rewrite fold_left_app. cbn [fold_left]. change (new_subject (fold_left new_subject M b) d) with (match usable d with Some s => Some s | None => fold_left new_subject M b end).
  destruct (usable d) as [r|] eqn:U.
  - left. exists M, d, [], r. split; [reflexivity|]. split; [exact U|]. split; [intros e []|reflexivity].
  - destruct (IH b) as [(M1 & e & M2 & r & -> & H1 & H2 & H3)|(H1 & H2)].
    + left. exists M1, e, (M2 ++ [d]), r. rewrite <- app_assoc. split; [reflexivity|]. split; [exact H1|]. split; [|exact H3].
      intros f Hf. apply in_app_iff in Hf as [Hf|[<-|[]]]; auto.
    + right. split; [|exact H2]. intros f Hf. apply in_app_iff in Hf as [Hf|[<-|[]]]; auto.
Qed.
Lemma fold_keep_spec M : forall b, 
  (empty_string b = false /\ fold_left keep_subject M b = b) \/
  (empty_string b = true /\ exists M1 d M2 r, M = M1 ++ d :: M2 /\ usable d = Some r /\ (forall e, In e M1 -> usable e = None) /\ fold_left keep_subject M b = Some r) \/
  (empty_string b = true /\ (forall e, In e M -> usable e = None) /\ fold_left keep_subject M b = b).
Proof.
  induction M as [|d M IH]; intros b; cbn [fold_left].
  - destruct (empty_string b) eqn:E; [right; right; split; [reflexivity|]; split; [intros e []|reflexivity]|left; auto].
  - change (keep_subject b d) with (if empty_string b then new_subject b d else b). destruct (empty_string b) eqn:E.
    + right. unfold new_subject. destruct (usable d) as [r|] eqn:U.
      * left. split; [reflexivity|]. exists [], d, M, r. split; [reflexivity|]. split; [exact U|]. split; [intros e []|].
        assert (NE : empty_string (Some r) = false).
        { unfold usable in U. destruct (xd_subject d) as [s|]; [|discriminate]. destruct (clean_subject s); [discriminate|]. injection U as <-. reflexivity. }
        destruct (IH (Some r)) as [(_ & ->)|[(X & _)|(X & _)]]; [reflexivity|congruence|congruence].
      * destruct (IH b) as [(X & _)|[(_ & M1 & e & M2 & r & -> & H1 & H2 & H3)|(_ & H1 & H2)]]; [congruence| |].
        -- left. split; [reflexivity|]. exists (d :: M1), e, M2, r. split; [reflexivity|]. split; [exact H1|]. split; [|exact H3].
           intros f [<-|Hf]; auto.
        -- right. split; [reflexivity|]. split; [|exact H2]. intros f [<-|Hf]; auto.
    + left. split; [reflexivity|]. destruct (IH b) as [(_ & X)|[(X & _)|(X & _)]]; [exact X|congruence|congruence].
Qed.
