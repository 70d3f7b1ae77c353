(** Properties C24 (thread search) and C25 (excluded tags).  [configure (Some x) tags m s] is
    a query with parsed form [x], to which notmuch_query_add_tag_exclude was applied for
    each of [tags], with exclusion mode [m] and order [s]. *)
From Verif Require Import Bytes Terms XQuery DocSet Thread Query QuerySpec ThreadSummarySpec QueryProofs QueryProofs2 QueryProofs3 QueryProofs5.
From Coq Require Import Sorted Permutation.
Local Open Scope nat_scope.

(** C25.  A message search returns, each once and in the requested order, the mail that
    matches and (in the modes TRUE and ALL) carries no excluded tag other than the ones the
    query itself names; in mode FLAG, and only there, exactly the messages with such a tag
    are flagged. *)
Theorem C25_search :
  forall db x tags m s, ids_ok db ->
  exists ms l, search_messages db (configure (Some x) tags m s) = Some ms /\ iterate_messages ms = Some l /\
    NoDup (map fst l) /\ Sorted (in_order s) (map fst l) /\
    (forall d b, In (d, b) l <-> selected db x tags m d /\ (b = true <-> m = EXCLUDE_FLAG /\ excluded x tags d)).
Proof.
  intros db x tags m s I. destruct (search_ok db x tags m s I) as (ms & l & E & J & _ & N & S & H).
  exists ms, l. split; [exact E|]. split; [exact J|]. split; [eapply NoDup_map_inv; exact N|]. auto.
Qed.
Print Assumptions C25_search.

(** notmuch_query_add_tag_exclude reports IGNORED exactly for the tags the query names. *)
Theorem C25_add_exclude :
  forall q x tag, q_parse q = Some x ->
  (snd (add_tag_exclude q tag) = EX_IGNORED /\ names_tag x tag /\ fst (add_tag_exclude q tag) = q) \/
  (snd (add_tag_exclude q tag) = EX_SUCCESS /\ ~ names_tag x tag).
Proof.
  intros q x tag E. unfold add_tag_exclude, names_tag. rewrite E. destruct (tmem (lit "K" ++ tag) (xterms x)) eqn:T; cbn.
  - left. now apply tmem_In in T.
  - right. now apply tmem_false in T.
Qed.
Print Assumptions C25_add_exclude.

(** Counting gives the number of mail that matches and is not excluded, in every mode. *)
Theorem C25_count :
  forall db x tags m s, ids_ok db ->
  exists l, count_messages db (configure (Some x) tags m s) = Some (length l) /\ NoDup l /\
    forall d, In d l <-> selected db x tags EXCLUDE_TRUE d.
Proof.
  intros db x tags m s (N & _). rewrite count_ok. eexists. split; [reflexivity|]. split.
  - apply NoDup_filter. eapply NoDup_map_inv; exact N.
  - intros d. rewrite filter_In, andb_true_iff, mail_query_match, negb_true_iff, <- not_true_iff_false, exclude_spec. unfold selected. tauto.
Qed.
Print Assumptions C25_count.

(** So counting agrees with searching in the modes TRUE and ALL ... *)
Theorem C25_count_agrees_partial :
  forall db x tags m s, ids_ok db -> m = EXCLUDE_TRUE \/ m = EXCLUDE_ALL ->
  exists ms l, search_messages db (configure (Some x) tags m s) = Some ms /\ iterate_messages ms = Some l /\
    count_messages db (configure (Some x) tags m s) = Some (length l).
Proof.
  intros db x tags m s I M. destruct (C25_search db x tags m s I) as (ms & l & E & J & N & _ & H).
  exists ms, l. split; [exact E|]. split; [exact J|].
  destruct (C25_count db x tags m s I) as (c & -> & Nc & Hc). f_equal. rewrite <- (map_length fst l).
  apply Permutation_length, NoDup_Permutation; [exact Nc|exact N|]. intros d. rewrite Hc, in_map_iff.
  assert (SE : selected db x tags m d <-> selected db x tags EXCLUDE_TRUE d) by (destruct M as [-> | ->]; reflexivity).
  split.
  - intros Hs. exists (d, false). split; [reflexivity|]. apply H. split; [now apply SE|].
    split; [discriminate|]. intros (F & _). destruct M; congruence.
  - intros ((e & b) & <- & He). apply H in He as (He & _). now apply SE.
Qed.
Print Assumptions C25_count_agrees_partial.

(** A database of five messages in three threads. *)
Definition doc (id : N) (date : Z) (terms : list bytes) : xdoc :=
  mk_xdoc id (lit "Tmail" :: terms) date (lit "m" ++ [ascii_of_N (48 + id)]) (Some (lit "a@x")) (Some (lit "A")) (Some (lit "s")) 1 None [].
Definition ex_db : list xdoc :=
  [ doc 1 10 [lit "Kinbox"; lit "G1"]; doc 2 40 [lit "Kinbox"; lit "Kspam"; lit "G2"]; doc 3 30 [lit "Kinbox"; lit "G1"];
    doc 8 20 [lit "G2"]; doc 9 50 [lit "Kinbox"; lit "G3"] ].
Definition ex_query : xq := XTerm (lit "Kinbox").
Example ex_db_ok : ids_ok ex_db /\ single_threaded ex_db.
Proof.
  split.
  - split; [repeat constructor; cbn; intuition discriminate|]. intros d Hd. repeat (destruct Hd as [<-|Hd]; [reflexivity|]). destruct Hd.
  - intros d Hd _.
    assert (H : forall pre g, (forall u, ~ In (lit "G" ++ u) pre) -> forall d, xd_terms d = pre ++ [lit "G" ++ g] -> exists tid, forall u, in_thread d u <-> u = tid).
    { intros pre g N e E. exists g. intros u. unfold in_thread. rewrite E, in_app_iff. cbn [In]. split.
      - intros [X|[X|[]]]; [exfalso; exact (N u X)|]. now apply app_inv_head in X.
      - intros ->. right. now left. }
    repeat (destruct Hd as [<-|Hd]; [first
      [ apply (H [lit "Tmail"; lit "Kinbox"] (lit "1")); [intros u; cbn; intuition discriminate|reflexivity]
      | apply (H [lit "Tmail"; lit "Kinbox"; lit "Kspam"] (lit "2")); [intros u; cbn; intuition discriminate|reflexivity]
      | apply (H [lit "Tmail"] (lit "2")); [intros u; cbn; intuition discriminate|reflexivity]
      | apply (H [lit "Tmail"; lit "Kinbox"] (lit "3")); [intros u; cbn; intuition discriminate|reflexivity] ]|]).
    destruct Hd.
Qed.

(** ... but not in the modes FALSE and FLAG: the search returns the message tagged spam and
    the count leaves it out. *)
Theorem C25_count_agrees_refuted :
  forall m, m = EXCLUDE_FALSE \/ m = EXCLUDE_FLAG ->
  exists db x tags s ms l n, ids_ok db /\
    search_messages db (configure (Some x) tags m s) = Some ms /\ iterate_messages ms = Some l /\
    count_messages db (configure (Some x) tags m s) = Some n /\ n <> length l.
Proof.
  intros m [-> | ->]; exists ex_db, ex_query, [lit "spam"], SORT_NEWEST_FIRST; eexists _, _, _;
    (split; [apply ex_db_ok|]); (split; [vm_compute; reflexivity|]); (split; [vm_compute; reflexivity|]);
    (split; [vm_compute; reflexivity|]); discriminate.
Qed.
Print Assumptions C25_count_agrees_refuted.

Example C25_example :
  (exists ms l, search_messages ex_db (configure (Some ex_query) [lit "spam"] EXCLUDE_TRUE SORT_OLDEST_FIRST) = Some ms /\
    iterate_messages ms = Some l /\ map (fun p => xd_id (fst p)) l = [1%N; 3%N; 9%N]) /\
  (exists ms l, search_messages ex_db (configure (Some ex_query) [lit "spam"] EXCLUDE_FLAG SORT_NEWEST_FIRST) = Some ms /\
    iterate_messages ms = Some l /\ map (fun p => (xd_id (fst p), snd p)) l = [(9%N, false); (2%N, true); (3%N, false); (1%N, false)]) /\
  (exists ms l, search_messages ex_db (configure (Some (XOp OP_AND ex_query (XTerm (lit "Kspam")))) [lit "spam"] EXCLUDE_TRUE SORT_UNSORTED) = Some ms /\
    iterate_messages ms = Some l /\ map (fun p => xd_id (fst p)) l = [2%N]).
Proof. repeat split; eexists _, _; (split; [vm_compute; reflexivity|]); (split; vm_compute; reflexivity). Qed.

(** C24.  The loop `for (; valid; move_to_next) get' ends and gives each thread that holds a
    selected message exactly once, and no other; the threads come in the order of their
    first selected message; the thread count is the number of threads returned. *)
Theorem C24_thread_search :
  forall db x tags m s, ids_ok db -> single_threaded db ->
  let q := configure (Some x) tags m s in
  exists ts, search_threads db q = Some ts /\
  forall fuel, length db < fuel ->
  exists l, threads_loop fuel db ts = Some l /\
    NoDup (map th_id l) /\
    (forall tid, In tid (map th_id l) <-> exists d, selected db x tags m d /\ in_thread d tid) /\
    (forall d, selected db x tags m d -> exists th, In th l /\ in_thread d (th_id th) /\
       forall th', In th' l -> in_thread d (th_id th') -> th' = th) /\
    StronglySorted (fun a b => exists d, selected db x tags m d /\ in_thread d (th_id a) /\
      forall e, selected db x tags m e -> in_thread e (th_id b) -> in_order s d e) l /\
    (forall th, In th l -> thread_result db q th) /\
    count_threads db q = Some (length l).
Proof.
  intros db x tags m s I ST q. destruct (start db x tags m s I) as (R & ts & E & _). exists ts. split; [exact E|].
  intros fuel L. destruct (loop_facts db x tags m s I ST ts fuel E L) as (l & El & N & H & S).
  exists l. split; [exact El|]. split; [exact N|]. split; [exact H|]. split; [|split; [exact S|split]].
  - intros d Hd. destruct (thread_of db d ST) as (tid & _ & Ht); [apply Hd|apply Hd|].
    assert (T : In tid (map th_id l)) by (apply H; exists d; split; [exact Hd|now apply Ht]).
    apply in_map_iff in T as (th & <- & Hth). exists th. split; [exact Hth|]. split; [now apply Ht|].
    intros th' Hth' X. apply Ht in X. clear - N Hth Hth' X. induction l as [|a l IH]; [destruct Hth|]. cbn [map] in N.
    inversion N as [|? ? Na Nl]; subst. destruct Hth as [->|Hth], Hth' as [->|Hth']; auto.
    + exfalso. apply Na. rewrite <- X. now apply in_map.
    + exfalso. apply Na. rewrite X. now apply in_map.
  - intros th Hth. exact (loop_results db x tags m s ts fuel l th E El Hth).
  - destruct (count_threads_ok db x tags m s I ST) as (h & Eh & Nh & Hh). unfold q. rewrite Eh. f_equal.
    rewrite <- (map_length th_id l). apply Permutation_length, NoDup_Permutation; [exact Nh|exact N|].
    intros t. rewrite Hh, H. reflexivity.
Qed.
Print Assumptions C24_thread_search.

(** Whatever calls are made on the iterator, in whatever order, they succeed, never read
    outside the set of matches, and never deliver the same thread twice. *)
Theorem C24_any_calls :
  forall db x tags m s cs, ids_ok db -> single_threaded db ->
  let q := configure (Some x) tags m s in
  exists ts l ts', search_threads db q = Some ts /\ run_calls db cs ts = Some (l, ts') /\ NoDup (map th_id l).
Proof.
  intros db x tags m s cs I ST q. destruct (start db x tags m s I) as (R & ts & E & _).
  destruct (calls_succeed db x tags m s I ST ts cs E) as (l & ts' & Rc). exists ts, l, ts'.
  split; [exact E|]. split; [exact Rc|]. exact (results_nodup db x tags m s I ST ts cs l ts' E Rc).
Qed.
Print Assumptions C24_any_calls.

(** A thread delivered by any sequence of calls holds exactly the mail of the database with
    its thread id (without the excluded ones, in mode ALL), oldest first, each once; the
    messages the search selected are the ones flagged as matching, and the excluded ones
    (unless exclusion is off) the ones flagged as excluded. *)
Theorem C24_thread_contents :
  forall db x tags m s th, ids_ok db -> single_threaded db ->
  thread_result db (configure (Some x) tags m s) th ->
  NoDup (thread_mail th) /\
  StronglySorted (fun a b => (xd_date a <= xd_date b)%Z) (thread_mail th) /\
  (forall d, In d (thread_mail th) <-> In d db /\ is_mail d /\ in_thread d (th_id th) /\ (m = EXCLUDE_ALL -> ~ excluded x tags d)) /\
  (forall mb, In mb (th_messages th) ->
     (mb_match mb = true <-> selected db x tags m (mb_doc mb)) /\
     (mb_excluded mb = true <-> m <> EXCLUDE_FALSE /\ excluded x tags (mb_doc mb))) /\
  (exists mb, In mb (th_messages th) /\ mb_match mb = true).
Proof.
  intros db x tags m s th I ST Hr. destruct (fa_P _ _ _ _ _ _ (result_facts db x tags m s I ST th Hr)) as (P & (d0 & Hd0 & Ht0) & Ef & _ & HP & K).
  pose proof (ef_messages _ _ _ _ _ _ Ef) as M. cbn [thread_init th_messages app] in M.
  assert (KE : forall d, kept m (q_exclude (cq x tags m s)) d = true <-> (m = EXCLUDE_ALL -> ~ excluded x tags d)).
  { intros d. unfold kept. rewrite negb_true_iff, andb_false_iff. 
    pose proof (message_excluded_spec x tags m s d) as X. fold (cq x tags m s) in X. split.
    - intros [H|H] Em Hx; [|subst m; discriminate]. rewrite <- not_true_iff_false, X in H. apply H. split; [subst m; discriminate|exact Hx].
    - intros H. destruct m; try (right; reflexivity). left. rewrite <- not_true_iff_false, X. intros (_ & Hx). now apply H. }
  assert (D : thread_mail th = filter (kept m (q_exclude (cq x tags m s))) (thread_docs db (th_id th))).
  { unfold thread_mail. rewrite M, map_map. cbn [member mb_doc]. apply map_id. }
  rewrite D. split; [|split; [|split; [|split]]].
  - apply NoDup_filter. eapply NoDup_map_inv. apply get_mset_nodup, I.
  - pose proof (thread_docs_sorted db (th_id th)) as SS. revert SS. generalize (thread_docs db (th_id th)).
    induction 1 as [|a l SS IH F]; cbn [filter]; [constructor|]. destruct (kept _ _ a); [|exact IH]. constructor; [exact IH|].
    rewrite Forall_forall in *. intros b Hb. apply filter_In in Hb as (Hb & _). apply F, Hb.
  - intros d. rewrite filter_In, thread_docs_In, KE. tauto.
  - intros mb Hmb. rewrite M in Hmb. apply in_map_iff in Hmb as (d & <- & Hd). apply filter_In in Hd as (Hd & _).
    cbn [member mb_match mb_excluded mb_doc]. split; [now apply HP|]. apply message_excluded_spec.
  - exists (member P m (q_exclude (cq x tags m s)) d0).
    assert (Hdoc : In d0 (thread_docs db (th_id th))) by (apply thread_docs_In; destruct Hd0 as (A & B & _); auto).
    assert (Hp : P (xd_id d0) = true) by now apply HP.
    split; [|exact Hp]. rewrite M. apply in_map, filter_In. split; [exact Hdoc|]. now apply K.
Qed.
Print Assumptions C24_thread_contents.

Example C24_example :
  exists ts l, search_threads ex_db (configure (Some ex_query) [] EXCLUDE_TRUE SORT_NEWEST_FIRST) = Some ts /\
    threads_loop 10 ex_db ts = Some l /\ map th_id l = [lit "3"; lit "2"; lit "1"] /\
    map (fun th => map (fun mb => (xd_id (mb_doc mb), mb_match mb)) (th_messages th)) l =
      [[(9%N, true)]; [(8%N, false); (2%N, true)]; [(1%N, true); (3%N, true)]] /\
    count_threads ex_db (configure (Some ex_query) [] EXCLUDE_TRUE SORT_NEWEST_FIRST) = Some 3.
Proof. eexists _, _. split; [vm_compute; reflexivity|]. split; [vm_compute; reflexivity|]. repeat split; vm_compute; reflexivity. Qed.

(** Without the guarantee that a message is in one thread only, a thread can be delivered
    whose messages were already delivered with another one. *)
Example C24_needs_single_threads :
  exists db ts l, ids_ok db /\ search_threads db (configure (Some XAll) [] EXCLUDE_TRUE SORT_OLDEST_FIRST) = Some ts /\
    threads_loop 10 db ts = Some l /\ count_threads db (configure (Some XAll) [] EXCLUDE_TRUE SORT_OLDEST_FIRST) <> Some (length l).
Proof.
  exists [doc 1 10 [lit "G1"]; doc 2 20 [lit "G2"; lit "G1"]].
  eexists _, _. split; [split; [repeat constructor; cbn; intuition discriminate|]|].
  { intros d Hd. repeat (destruct Hd as [<-|Hd]; [reflexivity|]). destruct Hd. }
  split; [vm_compute; reflexivity|]. split; [vm_compute; reflexivity|]. vm_compute. discriminate.
Qed.
