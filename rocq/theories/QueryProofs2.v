(** Proofs about threads: _notmuch_thread_create and the thread iterator (C24). *)
From Verif Require Import Bytes Terms XQuery DocSet Thread Query QuerySpec QueryProofs.
From Coq Require Import Sorted Permutation.
Local Open Scope nat_scope.

Definition author_of (d : xdoc) : option bytes :=
  match xd_from d, xd_author d with Some from, Some a => Some (cleanup_author a from) | _, _ => None end.
Definition is_all (o : omit_mode) : bool := match o with EXCLUDE_ALL => true | _ => false end.
Definition kept (omit : omit_mode) (ex : list bytes) (d : xdoc) : bool :=
  negb (message_excluded omit ex d && is_all omit).
Definition member (P : N -> bool) (omit : omit_mode) (ex : list bytes) (d : xdoc) : tmember :=
  mk_tmember d (message_excluded omit ex d) (P (xd_id d)) (author_of d).

Lemma hashed_last l m : hashed (l ++ [m]) (xd_mid (mb_doc m)) = Some m.
Proof. induction l as [|x l IH]; cbn; [now rewrite bseq_refl|]. now rewrite IH. Qed.
Lemma flag_match_last l m :
  flag_match (l ++ [m]) (xd_mid (mb_doc m)) = l ++ [mk_tmember (mb_doc m) (mb_excluded m) true (mb_author m)].
Proof. induction l as [|x l IH]; cbn [app flag_match]; [cbn; now rewrite bseq_refl|]. now rewrite hashed_last, IH. Qed.

(** one message added: nothing but the subject and dates depends on the order. *)
Record effect (omit : omit_mode) (ex : list bytes) (P : N -> bool) (docs : list xdoc) (t t' : thread) : Prop := mk_effect {
  ef_id : th_id t' = th_id t;
  ef_messages : th_messages t' = th_messages t ++ map (member P omit ex) (filter (kept omit ex) docs);
  ef_total : th_total t' = th_total t + length (filter (kept omit ex) docs);
  ef_files : th_files t' = th_files t + list_sum (map xd_files (filter (kept omit ex) docs));
  ef_matched : th_matched t' = th_matched t +
      length (filter (fun d => P (xd_id d) && negb (message_excluded omit ex d)) docs);
  ef_authors : th_authors t' = fold_left (fun l d => add_author (author_of d) l) (filter (kept omit ex) docs) (th_authors t);
  ef_mauthors : th_matched_authors t' =
      fold_left (fun l d => add_author (author_of d) l) (filter (fun d => P (xd_id d)) docs) (th_matched_authors t);
  ef_tags : th_tags t' = fold_left (fun ts d => fold_left (fun ts tag => tadd tag ts) (doc_tags (xd_terms d)) ts)
      (filter (kept omit ex) docs) (th_tags t)
}.

(** the state after adding one message, as the loop body computes it. *)
Definition loop_body (omit : omit_mode) (ex : list bytes) (sort : sort_mode) (P : N -> bool) (t : thread) (d : xdoc) : option thread :=
  let t1 := thread_add_message omit ex t d in
  if P (xd_id d) then thread_add_matched_message t1 d (message_excluded omit ex d && negb (is_all omit)) sort
  else Some t1.

Lemma set_subject_other t d :
  let t' := set_subject_from_message t d in
  th_id t' = th_id t /\ th_messages t' = th_messages t /\ th_total t' = th_total t /\ th_files t' = th_files t /\
  th_matched t' = th_matched t /\ th_authors t' = th_authors t /\ th_matched_authors t' = th_matched_authors t /\
  th_tags t' = th_tags t /\ th_oldest t' = th_oldest t /\ th_newest t' = th_newest t.
Proof.
  cbn zeta. unfold set_subject_from_message. destruct (xd_subject d) as [s|]; [|tauto].
  destruct (clean_subject s); [tauto|]. cbn. tauto.
Qed.

(** the subject and date part of _thread_add_matched_message. *)
Definition dated (t : thread) (d : xdoc) (sort : sort_mode) : thread :=
  let date := xd_date d in
  let t := if (date <? th_oldest t)%Z || Nat.eqb (th_matched t) 0
           then let t := set_oldest t date in
                if is_oldest_first sort then set_subject_from_message t d else t
           else t in
  if (th_newest t <? date)%Z || Nat.eqb (th_matched t) 0
  then let t := set_newest t date in
       if negb (is_oldest_first sort) || empty_string (th_subject t)
       then set_subject_from_message t d else t
  else t.

Definition same_other (t t' : thread) : Prop :=
  th_id t' = th_id t /\ th_messages t' = th_messages t /\ th_total t' = th_total t /\ th_files t' = th_files t /\
  th_matched t' = th_matched t /\ th_authors t' = th_authors t /\ th_matched_authors t' = th_matched_authors t /\
  th_tags t' = th_tags t.
Lemma same_refl t : same_other t t. Proof. unfold same_other; tauto. Qed.
Lemma same_trans a b c : same_other a b -> same_other b c -> same_other a c.
Proof. unfold same_other. intros. intuition congruence. Qed.
Lemma same_subject t d : same_other t (set_subject_from_message t d).
Proof. unfold same_other. pose proof (set_subject_other t d) as H. cbn zeta in H. tauto. Qed.
Lemma same_oldest t z : same_other t (set_oldest t z). Proof. repeat split. Qed.
Lemma same_newest t z : same_other t (set_newest t z). Proof. repeat split. Qed.

Lemma dated_other t d sort : same_other t (dated t d sort).
Proof.
  unfold dated. cbv zeta.
  assert (H1 : same_other t (if ((xd_date d <? th_oldest t)%Z || (th_matched t =? 0))%bool
     then (if is_oldest_first sort then set_subject_from_message (set_oldest t (xd_date d)) d else set_oldest t (xd_date d)) else t)).
  { destruct (_ || _); [|apply same_refl]. destruct (is_oldest_first sort); [|apply same_oldest].
    eapply same_trans; [apply same_oldest|apply same_subject]. }
  revert H1. generalize (if ((xd_date d <? th_oldest t)%Z || (th_matched t =? 0))%bool
     then (if is_oldest_first sort then set_subject_from_message (set_oldest t (xd_date d)) d else set_oldest t (xd_date d)) else t).
  intros t1 H1. destruct (_ || _); [|exact H1]. eapply same_trans; [exact H1|].
  destruct (_ || _); [|apply same_newest]. eapply same_trans; [apply same_newest|apply same_subject].
Qed.

Lemma matched_eq t d excl sort l m :
  th_messages t = l ++ [m] -> mb_doc m = d ->
  exists t', thread_add_matched_message t d excl sort = Some t' /\
    th_id t' = th_id t /\ th_messages t' = l ++ [mk_tmember d (mb_excluded m) true (mb_author m)] /\
    th_total t' = th_total t /\ th_files t' = th_files t /\
    th_matched t' = (if excl then th_matched t else S (th_matched t)) /\
    th_authors t' = th_authors t /\ th_matched_authors t' = add_author (mb_author m) (th_matched_authors t) /\
    th_tags t' = th_tags t /\ th_subject t' = th_subject (dated t d sort) /\
    th_oldest t' = th_oldest (dated t d sort) /\ th_newest t' = th_newest (dated t d sort).
Proof.
  intros E <-. unfold thread_add_matched_message. fold (dated t (mb_doc m) sort).
  change (exists t', (match hashed (th_messages (dated t (mb_doc m) sort)) (xd_mid (mb_doc m)) with
    | None => None | Some h => Some (mk_thread (th_id (dated t (mb_doc m) sort)) (th_subject (dated t (mb_doc m) sort)) (th_authors (dated t (mb_doc m) sort))
              (add_author (mb_author h) (th_matched_authors (dated t (mb_doc m) sort))) (th_tags (dated t (mb_doc m) sort))
              (flag_match (th_messages (dated t (mb_doc m) sort)) (xd_mid (mb_doc m)))
              (th_total (dated t (mb_doc m) sort)) (th_files (dated t (mb_doc m) sort))
              (if excl then th_matched (dated t (mb_doc m) sort) else S (th_matched (dated t (mb_doc m) sort)))
              (th_oldest (dated t (mb_doc m) sort)) (th_newest (dated t (mb_doc m) sort))) end) = Some t' /\
    th_id t' = th_id t /\ th_messages t' = l ++ [mk_tmember (mb_doc m) (mb_excluded m) true (mb_author m)] /\
    th_total t' = th_total t /\ th_files t' = th_files t /\
    th_matched t' = (if excl then th_matched t else S (th_matched t)) /\
    th_authors t' = th_authors t /\ th_matched_authors t' = add_author (mb_author m) (th_matched_authors t) /\
    th_tags t' = th_tags t /\ th_subject t' = th_subject (dated t (mb_doc m) sort) /\
    th_oldest t' = th_oldest (dated t (mb_doc m) sort) /\ th_newest t' = th_newest (dated t (mb_doc m) sort)).
  destruct (dated_other t (mb_doc m) sort) as (-> & -> & -> & -> & -> & -> & -> & ->).
  rewrite E, hashed_last, flag_match_last. eexists. split; [reflexivity|]. cbn. tauto.
Qed.

Lemma add_kept omit ex t d : kept omit ex d = true ->
  let t' := thread_add_message omit ex t d in
  th_id t' = th_id t /\ th_messages t' = th_messages t ++ [mk_tmember d (message_excluded omit ex d) false (author_of d)] /\
  th_total t' = S (th_total t) /\ th_files t' = th_files t + xd_files d /\ th_matched t' = th_matched t /\
  th_authors t' = add_author (author_of d) (th_authors t) /\ th_matched_authors t' = th_matched_authors t /\
  th_tags t' = fold_left (fun ts tag => tadd tag ts) (doc_tags (xd_terms d)) (th_tags t) /\
  th_oldest t' = th_oldest t /\ th_newest t' = th_newest t /\
  th_subject t' = Some (match th_subject t with Some s => s | None => match xd_subject d with Some s => s | None => [] end end).
Proof.
  intros K. cbn zeta. unfold thread_add_message, kept, is_all in *.
  destruct (message_excluded omit ex d), omit; cbn in K; try discriminate; cbn; (repeat split; [destruct (th_subject t); reflexivity]).
Qed.
Lemma add_dropped omit ex t d : kept omit ex d = false -> thread_add_message omit ex t d = t.
Proof.
  unfold thread_add_message, kept, is_all. destruct (message_excluded omit ex d), omit; cbn; intros; try discriminate; reflexivity.
Qed.

Lemma body_ok omit ex sort P t d : (P (xd_id d) = true -> kept omit ex d = true) ->
  exists t', loop_body omit ex sort P t d = Some t' /\ effect omit ex P [d] t t'.
Proof.
  intros H. unfold loop_body. destruct (kept omit ex d) eqn:K.
  - destruct (add_kept omit ex t d K) as (A1 & A2 & A3 & A4 & A5 & A6 & A7 & A8 & _).
    assert (NA : message_excluded omit ex d && is_all omit = false) by (unfold kept in K; now apply negb_true_iff in K).
    destruct (P (xd_id d)) eqn:EP.
    + destruct (matched_eq (thread_add_message omit ex t d) d (message_excluded omit ex d && negb (is_all omit)) sort _ _ A2 eq_refl)
        as (t' & E & M1 & M2 & M3 & M4 & M5 & M6 & M7 & M8 & _).
      exists t'. split; [exact E|]. cbn [mb_excluded mb_author] in *.
      assert (EX : message_excluded omit ex d && negb (is_all omit) = message_excluded omit ex d)
        by (destruct (message_excluded omit ex d), (is_all omit); try reflexivity; discriminate).
      rewrite EX in M5.
      constructor; cbn [filter map fold_left length list_sum fold_right]; rewrite ?K, ?EP; cbn [filter map fold_left length list_sum fold_right andb].
      * congruence.
      * rewrite M2. unfold member. now rewrite EP.
      * lia.
      * lia.
      * destruct (message_excluded omit ex d); cbn [negb length]; lia.
      * congruence.
      * congruence.
      * congruence.
    + exists (thread_add_message omit ex t d). split; [reflexivity|].
      constructor; cbn [filter map fold_left length list_sum fold_right]; rewrite ?K, ?EP; cbn [filter map fold_left length list_sum fold_right andb].
      * congruence.
      * rewrite A2. unfold member. now rewrite EP.
      * lia.
      * lia.
      * lia.
      * congruence.
      * congruence.
      * congruence.
  - destruct (P (xd_id d)) eqn:EP; [specialize (H eq_refl); discriminate|].
    rewrite add_dropped by exact K. exists t. split; [reflexivity|].
    constructor; cbn [filter map fold_left length list_sum fold_right]; rewrite ?K, ?EP; cbn [filter map fold_left length list_sum fold_right andb];
      rewrite ?app_nil_r; auto; lia.
Qed.

Lemma effect_nil omit ex P t : effect omit ex P [] t t.
Proof. constructor; cbn; rewrite ?app_nil_r; auto; lia. Qed.
Lemma effect_cons omit ex P d docs t t1 t2 :
  effect omit ex P [d] t t1 -> effect omit ex P docs t1 t2 -> effect omit ex P (d :: docs) t t2.
Proof.
  intros A B. assert (F : forall p : xdoc -> bool, filter p (d :: docs) = filter p [d] ++ filter p docs)
    by (intros p; cbn; destruct (p d); reflexivity).
  constructor; rewrite ?F.
  - rewrite (ef_id _ _ _ _ _ _ B). apply A.
  - rewrite (ef_messages _ _ _ _ _ _ B), (ef_messages _ _ _ _ _ _ A), map_app, app_assoc. reflexivity.
  - rewrite (ef_total _ _ _ _ _ _ B), (ef_total _ _ _ _ _ _ A), app_length. lia.
  - rewrite (ef_files _ _ _ _ _ _ B), (ef_files _ _ _ _ _ _ A), map_app, list_sum_app. lia.
  - rewrite (ef_matched _ _ _ _ _ _ B), (ef_matched _ _ _ _ _ _ A), app_length. lia.
  - rewrite (ef_authors _ _ _ _ _ _ B), (ef_authors _ _ _ _ _ _ A), fold_left_app. reflexivity.
  - rewrite (ef_mauthors _ _ _ _ _ _ B), (ef_mauthors _ _ _ _ _ _ A), fold_left_app. reflexivity.
  - rewrite (ef_tags _ _ _ _ _ _ B), (ef_tags _ _ _ _ _ _ A), fold_left_app. reflexivity.
Qed.
Lemma effect_ext omit ex P P' docs t t' : (forall d, In d docs -> P (xd_id d) = P' (xd_id d)) ->
  effect omit ex P docs t t' -> effect omit ex P' docs t t'.
Proof.
  intros H E. destruct E as [E1 E2 E3 E4 E5 E6 E7 E8]. constructor; auto.
  - rewrite E2. f_equal. apply map_ext_in. intros d Hd. apply filter_In in Hd as (Hd & _). unfold member. now rewrite H.
  - rewrite E5. f_equal. f_equal. apply filter_ext_in. intros d Hd. now rewrite H.
  - rewrite E7. f_equal. apply filter_ext_in. auto.
Qed.

(** the body threaded through the list. *)
Fixpoint bodies (omit : omit_mode) (ex : list bytes) (sort : sort_mode) (P : N -> bool) (docs : list xdoc) (t : thread) : option thread :=
  match docs with
  | [] => Some t
  | d :: docs' => match loop_body omit ex sort P t d with None => None | Some t' => bodies omit ex sort P docs' t' end
  end.
Lemma bodies_ext omit ex sort P P' docs : (forall d, In d docs -> P (xd_id d) = P' (xd_id d)) ->
  forall t, bodies omit ex sort P docs t = bodies omit ex sort P' docs t.
Proof.
  induction docs as [|d docs IH]; intros H t; cbn [bodies]; [reflexivity|]. unfold loop_body. rewrite (H d) by now left.
  destruct (if P' (xd_id d) then _ else _); [|reflexivity]. apply IH. intros; apply H; now right.
Qed.

Lemma create_loop_ok omit ex sort docs : forall P t set,
  ds_rep set P -> NoDup (map xd_id docs) -> (forall d, In d docs -> P (xd_id d) = true -> kept omit ex d = true) ->
  exists t' set', create_loop omit ex sort docs t set = Some (t', set') /\
    ds_rep set' (fun j => P j && negb (existsb (N.eqb j) (map xd_id docs))) /\
    effect omit ex P docs t t' /\ bodies omit ex sort P docs t = Some t'.
Proof.
  induction docs as [|d docs IH]; intros P t set R N K; cbn [create_loop].
  - exists t, set. split; [reflexivity|]. split; [|split; [apply effect_nil|reflexivity]].
    split; [apply R|]. intros id. cbn. rewrite andb_true_r. apply R.
  - inversion N as [|? ? Nd Nl]; subst.
    destruct (body_ok omit ex sort P t d (K d (or_introl eq_refl))) as (t1 & E1 & F1).
    cbn [bodies]. rewrite E1. unfold loop_body in E1.
    pose proof (proj2 R (xd_id d)) as C. rewrite C. destruct (P (xd_id d)) eqn:EP.
    + destruct (ds_remove_rep set P (xd_id d) R) as (set1 & Es & R1). rewrite Es.
      fold (is_all omit). rewrite E1.
      assert (X : forall e, In e docs -> P (xd_id e) && negb (N.eqb (xd_id e) (xd_id d)) = P (xd_id e)).
      { intros e He. destruct (N.eqb_spec (xd_id e) (xd_id d)) as [Q|]; [|apply andb_true_r].
        exfalso. apply Nd. rewrite <- Q. now apply in_map. }
      destruct (IH _ t1 set1 R1 Nl) as (t2 & set2 & E2 & R2 & F2 & B2).
      { intros e He Hp. rewrite X in Hp by exact He. apply K; [now right|exact Hp]. }
      exists t2, set2. split; [exact E2|]. split; [|split].
      * split; [apply R2|]. intros id. rewrite (proj2 R2). cbn [map existsb]. now rewrite negb_orb, andb_assoc.
      * eapply effect_cons; [exact F1|]. eapply effect_ext; [|exact F2]. exact X.
      * rewrite <- B2. apply bodies_ext. intros e He. symmetry. now apply X.
    + injection E1 as <-.
      destruct (IH P (thread_add_message omit ex t d) set R Nl) as (t2 & set2 & E2 & R2 & F2 & B2); [intros e He; apply K; now right|].
      exists t2, set2. split; [exact E2|]. split; [|split].
      * split; [apply R2|]. intros id. rewrite (proj2 R2). cbn [map existsb]. f_equal.
        destruct (N.eqb_spec id (xd_id d)) as [->|]; [rewrite EP|]; reflexivity.
      * eapply effect_cons; eauto.
      * exact B2.
Qed.

(** * Threads of a single-threaded database *)
Lemma doc_thread_In ts tid : doc_thread ts = Some tid -> In (lit "G" ++ tid) ts.
Proof.
  induction ts as [|t ts IH]; cbn [doc_thread]; [discriminate|]. destruct (strip_prefix (lit "G") t) as [g|] eqn:E.
  - intros H. injection H as <-. apply strip_prefix_Some in E. subst. now left.
  - intros H. right. auto.
Qed.
Lemma doc_thread_Some ts tid : In (lit "G" ++ tid) ts -> exists u, doc_thread ts = Some u.
Proof.
  induction ts as [|t ts IH]; cbn [doc_thread]; [intros []|]. intros [->|H].
  - rewrite strip_prefix_app. eauto.
  - destruct (strip_prefix (lit "G") t); eauto.
Qed.
Lemma thread_of db d : single_threaded db -> In d db -> is_mail d ->
  exists tid, doc_thread (xd_terms d) = Some tid /\ forall u, in_thread d u <-> u = tid.
Proof.
  intros S Hd Hm. destruct (S d Hd Hm) as (tid & H). exists tid. split; [|exact H].
  destruct (doc_thread_Some (xd_terms d) tid) as (u & E); [now apply (H tid)|]. rewrite E. f_equal.
  apply H. now apply doc_thread_In.
Qed.

Lemma find_doc_ok db d : NoDup (map xd_id db) -> In d db -> find_doc db (xd_id d) = Some d.
Proof.
  intros N Hd. unfold find_doc. destruct (find (fun e => (xd_id e =? xd_id d)%N) db) as [e|] eqn:E.
  - apply find_some in E as (He & Q). apply N.eqb_eq in Q. f_equal. eapply id_inj; eauto.
  - exfalso. eapply find_none in E; [|exact Hd]. cbn in E. now rewrite N.eqb_refl in E.
Qed.
Lemma thread_docs_In db tid d : In d (thread_docs db tid) <-> In d db /\ is_mail d /\ in_thread d tid.
Proof.
  unfold thread_docs. rewrite get_mset_In. unfold matches. cbn [xmatch]. rewrite andb_true_iff, !tmem_In. reflexivity.
Qed.

Lemma nth_skipn (l : list N) n i : nth_error (skipn n l) i = nth_error l (n + i).
Proof. revert l. induction n as [|n IH]; intros l; [reflexivity|]. destruct l; [destruct i; reflexivity|]. cbn. apply IH. Qed.

Section Iter.
  Variables (db : list xdoc) (q : query) (R : list xdoc).
  Hypothesis IDS : ids_ok db.
  Hypothesis ST : single_threaded db.
  Hypothesis RN : NoDup (map xd_id R).
  Hypothesis RDB : forall d, In d R -> In d db /\ is_mail d.
  Hypothesis RK : forall d, In d R -> kept (q_omit q) (q_exclude q) d = true.

  Definition in_R (id : N) : bool := existsb (N.eqb id) (map xd_id R).

  (** [inv t done]: the iterator's set holds the results whose thread is not in [done]. *)
  Definition inv (t : threads) (done : list bytes) : Prop :=
    t_query t = q /\ t_ids t = map xd_id R /\
    exists P, ds_rep (t_set t) P /\
      (forall id, P id = true -> in_R id = true) /\
      (forall d, In d R -> (P (xd_id d) = true <-> forall tid, in_thread d tid -> ~ In tid done)).

  Lemma valid_from_spec set P ids : ds_rep set P -> forall pos, exists k,
    valid_from ids pos set = Some (pos + k) /\ k <= length ids /\
    (forall i, i < k -> forall id, nth_error ids i = Some id -> P id = false) /\
    (k < length ids -> exists id, nth_error ids k = Some id /\ P id = true).
  Proof.
    intros (_ & C). induction ids as [|id ids IH]; intros pos; cbn [valid_from].
    - exists 0. rewrite Nat.add_0_r. cbn. repeat split; auto; lia.
    - rewrite C. destruct (P id) eqn:E.
      + exists 0. rewrite Nat.add_0_r. cbn. repeat split; [lia|lia|]. intros _. eauto.
      + destruct (IH (S pos)) as (k & E1 & L & H1 & H2). exists (S k). rewrite E1. cbn [length].
        split; [f_equal; lia|]. split; [lia|]. split.
        * intros [|i] Hi x Hx; cbn in Hx; [injection Hx as <-; exact E|]. eapply (H1 i); [lia|exact Hx].
        * intros Hk. cbn. apply H2. lia.
  Qed.

  (** what one notmuch_threads_get delivers. *)
  Record delivered (done : list bytes) (P : N -> bool) (th : thread) : Prop := mk_delivered {
    dl_fresh : ~ In (th_id th) done;
    dl_seed : exists d, In d R /\ in_thread d (th_id th);
    dl_effect : effect (q_omit q) (q_exclude q) P (thread_docs db (th_id th)) (thread_init (th_id th)) th;
    dl_bodies : bodies (q_omit q) (q_exclude q) (q_sort q) P (thread_docs db (th_id th)) (thread_init (th_id th)) = Some th;
    dl_match : forall d, In d (thread_docs db (th_id th)) -> (P (xd_id d) = true <-> In d R)
  }.

  Lemma valid_ok t done : inv t done -> exists b t', threads_valid t = Some (b, t') /\ inv t' done /\ t_pos t <= t_pos t'.
  Proof using Type.
    intros (Q & I & P & Rp & H1 & H2). unfold threads_valid.
    destruct (valid_from_spec _ _ (skipn (t_pos t) (t_ids t)) Rp (t_pos t)) as (k & -> & _).
    eexists _, _. split; [reflexivity|]. cbn [t_pos]. split; [|lia]. split; [exact Q|]. split; [exact I|]. exists P. auto.
  Qed.

  Lemma get_ok t done : inv t done ->
    (exists t', threads_get db t = Some (None, t') /\ inv t' done) \/
    (exists th t' P, threads_get db t = Some (Some th, t') /\ inv t' (th_id th :: done) /\ delivered done P th /\
        t_pos t <= t_pos t' /\ t_pos t' < length R).
  Proof using All.
    intros (Q & I & P & Rp & H1 & H2). unfold threads_get, threads_valid.
    destruct (valid_from_spec _ _ (skipn (t_pos t) (t_ids t)) Rp (t_pos t)) as (k & -> & Lk & B & A).
    destruct (Nat.ltb_spec (t_pos t + k) (length (t_ids t))) as [L|L].
    2:{ left. eexists. split; [reflexivity|]. split; [exact Q|]. split; [exact I|]. exists P. auto. }
    right. cbn [t_ids t_pos t_query t_set].
    destruct A as (id & E & Pid); [rewrite skipn_length; lia|].
    assert (E' : nth_error (t_ids t) (t_pos t + k) = Some id).
    { now rewrite nth_skipn in E. }
    rewrite E'. rewrite I in E'. apply nth_error_In in E'. apply in_map_iff in E' as (d & <- & Hd).
    destruct (RDB d Hd) as (Hdb & Hm). destruct IDS as (IN & IB).
    unfold thread_create. rewrite (find_doc_ok db d IN Hdb).
    destruct (thread_of db d ST Hdb Hm) as (tid & Et & Ht). rewrite Et, Q.
    assert (TD : forall e, In e (thread_docs db tid) -> P (xd_id e) = true <-> In e R).
    { intros e He. apply thread_docs_In in He as (Hedb & Hem & Hte). split.
      - intros Hp. apply H1 in Hp. unfold in_R in Hp. apply existsb_ids in Hp as (f & Hf & Ef); [|auto].
        assert (f = e) by (eapply id_inj; [exact IN|apply RDB; exact Hf|exact Hedb|exact Ef]). now subst.
      - intros HR. apply H2; [exact HR|]. intros u Hu.
        destruct (thread_of db e ST Hedb Hem) as (v & _ & Hv).
        assert (u = tid) by (rewrite (proj1 (Hv u) Hu); symmetry; now apply Hv). subst u.
        apply H2 with (d := d); [exact Hd|exact Pid|now apply Ht]. }
    destruct (create_loop_ok (q_omit q) (q_exclude q) (q_sort q) (thread_docs db tid) P (thread_init tid) (t_set t) Rp)
      as (th & set' & Ec & Rp' & Ef & Bo).
    { apply get_mset_nodup, IN. }
    { intros e He Hp. apply RK. now apply TD. }
    rewrite Ec. assert (ID : th_id th = tid) by (rewrite (ef_id _ _ _ _ _ _ Ef); reflexivity).
    eexists th, _, P. split; [reflexivity|]. split.
    - split; [first [reflexivity|exact Q]|]. split; [exact I|]. eexists. split; [exact Rp'|]. split.
      + intros j Hj. apply andb_true_iff in Hj as (Hj & _). now apply H1.
      + intros e He. destruct (RDB e He) as (Hedb & Hem). rewrite andb_true_iff, negb_true_iff.
        destruct (thread_of db e ST Hedb Hem) as (v & _ & Hv). rewrite H2 by exact He. rewrite ID.
        assert (X : existsb (N.eqb (xd_id e)) (map xd_id (thread_docs db tid)) = true <-> v = tid).
        { rewrite existsb_ids by auto. split.
          - intros (f & Hf & Q'). apply thread_docs_In in Hf as (F1 & F2 & F3).
            assert (f = e) by (eapply id_inj; eauto). subst f. symmetry. now apply Hv.
          - intros ->. exists e. split; [|reflexivity]. apply thread_docs_In. split; [exact Hedb|]. split; [exact Hem|]. now apply Hv. }
        rewrite <- not_true_iff_false, X. split.
        * intros (N1 & N2) u Hu [<-|Hin]; [apply N2; symmetry; now apply Hv|exact (N1 u Hu Hin)].
        * intros Hall. split; [intros u Hu Hin; apply (Hall u Hu); now right|].
          intros ->. apply (Hall tid); [now apply Hv|now left].
    - cbn [t_pos]. split; [|split; [lia|rewrite I, map_length in L; exact L]]. rewrite <- ID in *. constructor.
      + rewrite H2 in Pid by exact Hd. apply Pid. apply Ht. reflexivity.
      + exists d. split; [exact Hd|]. apply Ht. reflexivity.
      + exact Ef.
      + exact Bo.
      + exact TD.
  Qed.

  Lemma get_at t P id : ds_rep (t_set t) P -> nth_error (t_ids t) (t_pos t) = Some id -> P id = true ->
    threads_get db t = match thread_create db (q_omit (t_query t)) (q_exclude (t_query t)) (q_sort (t_query t)) id (t_set t) with
                       | None => None
                       | Some (th, set) => Some (Some th, mk_threads (t_query t) (t_ids t) (t_pos t) set)
                       end.
  Proof using Type.
    intros Rp Hn Pid. unfold threads_get, threads_valid.
    destruct (valid_from_spec _ _ (skipn (t_pos t) (t_ids t)) Rp (t_pos t)) as (k & -> & Lk & B & _).
    assert (k = 0).
    { destruct k; [reflexivity|]. rewrite (B 0 ltac:(lia) id) in Pid; [discriminate|]. rewrite nth_skipn, Nat.add_0_r. exact Hn. }
    subst k. rewrite Nat.add_0_r. cbn [t_query t_ids t_pos t_set].
    replace (t_pos t <? length (t_ids t)) with true by (symmetry; apply Nat.ltb_lt, nth_error_Some; congruence).
    rewrite Hn. reflexivity.
  Qed.

  (** positions already passed in the client loop hold no more results. *)
  Definition passed (t : threads) : Prop := forall P, ds_rep (t_set t) P ->
    forall i id, i < t_pos t -> nth_error (t_ids t) i = Some id -> P id = false.

  (** thread [a] has a result that comes before every result of thread [b]. *)
  Definition first_before (a b : thread) : Prop :=
    exists i d, nth_error R i = Some d /\ in_thread d (th_id a) /\
      forall j e, nth_error R j = Some e -> in_thread e (th_id b) -> i < j.

  Lemma seed_thread t P id d : ds_rep (t_set t) P -> t_query t = q -> (forall id, P id = true -> in_R id = true) ->
    nth_error (t_ids t) (t_pos t) = Some id -> P id = true -> In d R -> xd_id d = id ->
    forall th t', threads_get db t = Some (Some th, t') -> t_pos t' = t_pos t /\ in_thread d (th_id th).
  Proof using All.
    intros Rp Q H1 Hn Pid Hd Ed th t' E2. rewrite (get_at t P id Rp Hn Pid) in E2. subst id.
    destruct (RDB d Hd) as (Hdb & Hm). destruct IDS as (IN & IB).
    destruct (thread_of db d ST Hdb Hm) as (tid & Et & Ht).
    unfold thread_create in E2. rewrite (find_doc_ok db d IN Hdb), Et in E2.
    destruct (create_loop _ _ _ _ _ _) as [[th' ?]|] eqn:Ec; [|discriminate]. injection E2 as -> <-. split; [reflexivity|].
    destruct (create_loop_ok (q_omit (t_query t)) (q_exclude (t_query t)) (q_sort (t_query t)) (thread_docs db tid) P (thread_init tid) (t_set t) Rp)
      as (th2 & set2 & Ec2 & _ & Ef2 & _).
    { apply get_mset_nodup, IN. }
    { intros e He Hpe. rewrite Q. apply RK. apply H1 in Hpe. unfold in_R in Hpe. apply existsb_ids in Hpe as (f & Hff & Efe); [|auto].
      apply thread_docs_In in He as (Hedb & _).
      assert (f = e) by (eapply id_inj; [exact IN|apply RDB; exact Hff|exact Hedb|exact Efe]). now subst. }
    rewrite Ec2 in Ec. injection Ec as -> _. rewrite (ef_id _ _ _ _ _ _ Ef2). apply Ht. reflexivity.
  Qed.

  Lemma loop_ok fuel : forall t done, inv t done -> passed t -> length R < fuel + t_pos t -> t_pos t <= length R ->
    exists l, threads_loop fuel db t = Some l /\
      NoDup (map th_id l) /\ (forall th, In th l -> ~ In (th_id th) done) /\
      (forall th, In th l -> exists done' P, delivered done' P th) /\
      (forall d, In d R -> forall tid, in_thread d tid -> In tid done \/ In tid (map th_id l)) /\
      StronglySorted first_before l.
  Proof using All.
    induction fuel as [|fuel IH]; intros t done Hi Hp Hf Hl; [lia|].
    cbn [threads_loop]. pose proof Hi as (Q & I & P & Rp & H1 & H2).
    unfold threads_valid.
    destruct (valid_from_spec _ _ (skipn (t_pos t) (t_ids t)) Rp (t_pos t)) as (k & Ev & Lk & B & A).
    rewrite Ev.
    assert (B' : forall i id, i < t_pos t + k -> nth_error (t_ids t) i = Some id -> P id = false).
    { intros i id Hik Hn. destruct (Nat.lt_ge_cases i (t_pos t)) as [C|C]; [exact (Hp P Rp i id C Hn)|].
      apply (B (i - t_pos t)); [lia|]. rewrite nth_skipn. replace (t_pos t + (i - t_pos t)) with i by lia. exact Hn. }
    destruct (Nat.ltb_spec (t_pos t + k) (length (t_ids t))) as [L|L].
    - set (t1 := mk_threads (t_query t) (t_ids t) (t_pos t + k) (t_set t)).
      destruct A as (id0 & Hid0 & Pid0); [rewrite skipn_length; lia|]. rewrite nth_skipn in Hid0.
      assert (I1 : inv t1 done) by (split; [exact Q|split; [exact I|exists P; auto]]).
      destruct (get_ok t1 done I1) as [(t2 & E2 & _)|(th & t2 & P2 & E2 & I2 & D2 & L2 & L3)].
      + exfalso. rewrite (get_at t1 P id0 Rp Hid0 Pid0) in E2.
        destruct (thread_create _ _ _ _ _ _) as [[? ?]|]; discriminate.
      + assert (exists d0, nth_error R (t_pos t + k) = Some d0 /\ xd_id d0 = id0) as (d0 & Hd0 & Ed0).
        { rewrite I, nth_error_map in Hid0. destruct (nth_error R (t_pos t + k)) as [d0|]; [|discriminate].
          exists d0. split; [reflexivity|]. now injection Hid0. }
        destruct (seed_thread t1 P id0 d0 Rp Q H1 Hid0 Pid0 (nth_error_In _ _ Hd0) Ed0 th t2 E2) as (SAME & SEED).
        cbn [t1 t_pos] in SAME.
        rewrite E2. destruct (IH (threads_next t2) (th_id th :: done)) as (l & El & N & F & Dl & C & SO).
        * destruct I2 as (Q2 & I2' & X). split; [exact Q2|]. split; [exact I2'|exact X].
        * (* passed *)
          intros P3 Rp3 i id Hik Hn. cbn [threads_next t_pos t_ids t_set] in *.
          destruct I2 as (_ & I2' & P4 & Rp4 & H14 & H24).
          assert (P3 id = P4 id) as -> by (pose proof (proj2 Rp3 id); pose proof (proj2 Rp4 id); congruence).
          (* at this position: the thread just delivered contains it, or it was passed *)
          rewrite I2' in Hn.
          assert (exists d, In d R /\ xd_id d = id) as (d & Hd & Ed)
            by (apply nth_error_In in Hn; apply in_map_iff in Hn as (d & <- & Hd); eauto).
          destruct (P4 id) eqn:EP4; [exfalso|reflexivity].
          rewrite <- Ed in EP4. rewrite H24 in EP4 by exact Hd.
          assert (Pold : P id = true).
          { rewrite <- Ed. apply H2; [exact Hd|]. intros u Hu Hin. apply (EP4 u Hu). now right. }
          assert (i < t_pos t + k \/ i = t_pos t + k) as [C|C] by lia.
          -- rewrite (B' i id C) in Pold; [discriminate|]. rewrite I. exact Hn.
          -- (* the seed *)
             subst i. rewrite nth_error_map, Hd0 in Hn. injection Hn as Hn.
             assert (d0 = d) by (eapply id_inj; [apply IDS|apply RDB; eapply nth_error_In; exact Hd0|apply RDB; exact Hd|congruence]).
             subst d0. apply (EP4 _ SEED). now left.
        * cbn [threads_next t_pos]. cbn [t1 t_pos] in L2. lia.
        * cbn [threads_next t_pos]. lia.
        * rewrite El. exists (th :: l). split; [reflexivity|]. cbn [map]. split; [|split; [|split; [|split]]].
          -- constructor; [|exact N]. intros X. apply in_map_iff in X as (th' & E' & H'). apply (F th' H'). left. now rewrite E'.
          -- intros th' [<-|H']; [apply D2|]. intros X. apply (F th' H'). now right.
          -- intros th' [<-|H']; [eauto|now apply Dl].
          -- intros d Hd tid Ht. destruct (C d Hd tid Ht) as [[<-|X]|X]; [right; now left|now left|right; now right].
          -- constructor; [exact SO|]. apply Forall_forall. intros b Hb. exists (t_pos t + k), d0. split; [exact Hd0|].
             split; [exact SEED|]. intros j e Hj He.
             assert (Pe : P (xd_id e) = true).
             { apply H2; [eapply nth_error_In; exact Hj|]. intros u Hu Hin. apply (F b Hb). right.
               destruct (RDB e (nth_error_In _ _ Hj)) as (Hdb & Hm). destruct (thread_of db e ST Hdb Hm) as (v & _ & Hv).
               rewrite (proj1 (Hv _) He), <- (proj1 (Hv _) Hu). exact Hin. }
             destruct (Nat.lt_trichotomy (t_pos t + k) j) as [X|[X|X]]; [exact X| |].
             ++ exfalso. subst j. assert (e = d0) by congruence. subst e. apply (F b Hb). left.
                destruct (RDB d0 (nth_error_In _ _ Hd0)) as (Hdb & Hm). destruct (thread_of db d0 ST Hdb Hm) as (v & _ & Hv).
                rewrite (proj1 (Hv _) SEED). symmetry. now apply Hv.
             ++ exfalso. rewrite (B' j (xd_id e) X) in Pe; [discriminate|]. rewrite I, nth_error_map, Hj. reflexivity.
    - exists []. split; [reflexivity|]. cbn. split; [constructor|]. split; [tauto|]. split; [tauto|]. split; [|constructor].
      intros d Hd tid Ht. left.
      assert (Pd : P (xd_id d) = false).
      { destruct (In_nth_error (map xd_id R) (xd_id d) (in_map _ _ _ Hd)) as (i & Hn). rewrite <- I in Hn.
        eapply B'; [|exact Hn]. apply nth_error_Some_lt in Hn || (assert (i < length (t_ids t)) by (apply nth_error_Some; congruence); lia). }
      destruct (in_dec bytes_eq_dec tid done) as [|NI]; [assumption|exfalso].
      rewrite <- not_true_iff_false in Pd. apply Pd. apply H2; [exact Hd|]. intros u Hu.
      destruct (RDB d Hd) as (Hdb & Hm). destruct (thread_of db d ST Hdb Hm) as (v & _ & Hv).
      rewrite (proj1 (Hv u) Hu), <- (proj1 (Hv tid) Ht). exact NI.
  Qed.

  (** any sequence of calls. *)
  Lemma calls_ok cs : forall t done, inv t done ->
    exists l t' done', run_calls db cs t = Some (l, t') /\ inv t' done' /\
      NoDup (map th_id l) /\ (forall th, In th l -> ~ In (th_id th) done) /\
      (forall th, In th l -> exists done'' P, delivered done'' P th).
  Proof using All.
    induction cs as [|c cs IH]; intros t done Hi; cbn [run_calls].
    - exists [], t, done. cbn. repeat split; try apply Hi; [constructor|tauto|tauto].
    - destruct c.
      + destruct (valid_ok t done Hi) as (b & t' & E & I' & _). rewrite E. now apply (IH t' done).
      + destruct (get_ok t done Hi) as [(t' & E & I')|(th & t' & P & E & I' & D & _)]; rewrite E.
        * destruct (IH t' done I') as (l & t'' & dn & E' & R'). rewrite E'. exists l, t'', dn. split; [reflexivity|exact R'].
        * destruct (IH t' _ I') as (l & t'' & dn & E' & R1 & R2 & R3 & R4). rewrite E'.
          exists (th :: l), t'', dn. split; [reflexivity|]. split; [exact R1|]. cbn [map]. split; [|split].
          -- constructor; [|exact R2]. intros X. apply in_map_iff in X as (th' & E2 & H'). apply (R3 th' H'). left. now rewrite E2.
          -- intros th' [<-|H']; [apply D|]. intros X. apply (R3 th' H'). now right.
          -- intros th' [<-|H']; [eauto|now apply R4].
      + apply (IH (threads_next t) done). destruct Hi as (Q & I & X). split; [exact Q|]. split; [exact I|exact X].
  Qed.
End Iter.
