(** Properties C42 (thread subject) and C47 (thread summary): what a thread delivered by a
    search, through any sequence of calls on the iterator, says about itself. *)
From Verif Require Import Bytes Terms XQuery DocSet Thread Query QuerySpec ThreadSummarySpec QueryProofs QueryProofs2 QueryProofs3 QueryProofs4 QueryProofs5 ThreadSummaryProofs.
From Coq Require Import Sorted Permutation.
Local Open Scope nat_scope.

Lemma thread_mail_eq db x tags m s th P :
  effect m (q_exclude (cq x tags m s)) P (thread_docs db (th_id th)) (thread_init (th_id th)) th ->
  all_kept m (q_exclude (cq x tags m s)) P (thread_docs db (th_id th)) ->
  thread_mail th = filter (kept m (q_exclude (cq x tags m s))) (thread_docs db (th_id th)) /\
  matched_mail th = mt P (thread_docs db (th_id th)).
Proof.
  intros Ef K. pose proof (ef_messages _ _ _ _ _ _ Ef) as M. cbn [thread_init th_messages app] in M.
  unfold thread_mail, matched_mail. rewrite M. split; [rewrite map_map; cbn [member mb_doc]; apply map_id|].
  unfold all_kept in K. revert K. generalize (thread_docs db (th_id th)). intros l. induction l as [|d l IH]; intros K; [reflexivity|].
  unfold mt. cbn [filter]. fold (mt P l). specialize (IH (fun e He => K e (or_intror He))). specialize (K d (or_introl eq_refl)).
  destruct (kept _ _ d); cbn [map filter member mb_match mb_doc].
  - destruct (P (xd_id d)); cbn [map mb_doc]; [f_equal|]; exact IH.
  - destruct (P (xd_id d)); [specialize (K eq_refl); discriminate|exact IH].
Qed.
Lemma member_matched omit ex P l : length (filter (fun mb => mb_match mb && negb (mb_excluded mb)) (map (member P omit ex) (filter (kept omit ex) l))) =
  length (filter (fun d => P (xd_id d) && negb (message_excluded omit ex d)) l).
Proof.
  induction l as [|d l IH]; [reflexivity|]. cbn [filter].
  destruct (kept omit ex d) eqn:K; cbn [map filter member mb_match mb_excluded].
  - destruct (P (xd_id d) && negb (message_excluded omit ex d)); cbn [length]; [f_equal|]; exact IH.
  - unfold kept in K. apply negb_false_iff, andb_true_iff in K as (-> & _). rewrite andb_false_r. exact IH.
Qed.

(** C47.  The totals. *)
Theorem C47_counts :
  forall db x tags m s th, ids_ok db -> single_threaded db ->
  thread_result db (configure (Some x) tags m s) th ->
  th_total th = length (thread_mail th) /\
  th_files th = list_sum (map xd_files (thread_mail th)) /\
  th_matched th = length (filter (fun mb => mb_match mb && negb (mb_excluded mb)) (th_messages th)).
Proof.
  intros db x tags m s th I ST Hr. destruct (fa_P _ _ _ _ _ _ (result_facts db x tags m s I ST th Hr)) as (P & _ & Ef & _ & HP & K).
  destruct (thread_mail_eq db x tags m s th P Ef K) as (-> & _). destruct Ef as [_ EM ET EF EX _ _ _]. cbn in EM, ET, EF, EX.
  split; [exact ET|]. split; [exact EF|]. rewrite EM, member_matched. exact EX.
Qed.
Print Assumptions C47_counts.

(** The tags are the tags of its messages, sorted, each once. *)
Theorem C47_tags :
  forall db x tags m s th, ids_ok db -> single_threaded db ->
  thread_result db (configure (Some x) tags m s) th ->
  tsorted (th_tags th) /\ forall t, In t (th_tags th) <-> exists d, In d (thread_mail th) /\ has_tag d t.
Proof.
  intros db x tags m s th I ST Hr. destruct (fa_P _ _ _ _ _ _ (result_facts db x tags m s I ST th Hr)) as (P & _ & Ef & _ & HP & K).
  destruct (thread_mail_eq db x tags m s th P Ef K) as (-> & _). destruct Ef as [_ _ _ _ _ _ _ ET]. rewrite ET. split.
  - apply fold_tags_sorted. constructor.
  - intros t. rewrite fold_tags_In. cbn. tauto.
Qed.
Print Assumptions C47_tags.

(** The authors: those of matching messages first, then after a bar the others, each once,
    in the order of their first message -- if a matching message has an author at all. *)
Theorem C47_authors_partial :
  forall db x tags m s th, ids_ok db -> single_threaded db ->
  thread_result db (configure (Some x) tags m s) th ->
  let matched := first_seen [] (map display_author (matched_mail th)) in
  matched <> [] ->
  authors_string th = authors_line matched (without matched (first_seen [] (map display_author (thread_mail th)))).
Proof.
  intros db x tags m s th I ST Hr matched. destruct (fa_P _ _ _ _ _ _ (result_facts db x tags m s I ST th Hr)) as (P & _ & Ef & _ & HP & K).
  destruct (thread_mail_eq db x tags m s th P Ef K) as (E1 & E2). subst matched. rewrite E1, E2. destruct Ef as [_ _ _ _ _ EA EMA _].
  cbn [thread_init th_authors th_matched_authors] in EA, EMA. rewrite fold_authors in EA, EMA. cbn [app] in EA, EMA.
  change author_of with display_author in EA, EMA. unfold mt. rewrite <- EA, <- EMA. apply authors_string_ok.
Qed.
Print Assumptions C47_authors_partial.

(** The two lists name exactly the authors of those messages, each once. *)
Theorem C47_authors_once :
  forall l a, NoDup (first_seen [] l) /\ (In a (first_seen [] l) <-> In (Some a) l).
Proof. intros l a. split; [apply first_seen_nodup|]. rewrite first_seen_In. cbn. tauto. Qed.
Print Assumptions C47_authors_once.

(** An author is shown under its own name, or with "Last, First" turned around; the buffer
    of the original name suffices. *)
Theorem C47_author_name :
  forall raw from, shown_as raw from (cleanup_author raw from) /\ length (cleanup_author raw from) <= length raw.
Proof. intros raw from. split; [apply cleanup_ok|apply cleanup_length]. Qed.
Print Assumptions C47_author_name.

Definition mdoc (id : N) (date : Z) (author : option bytes) (subject : bytes) (terms : list bytes) : xdoc :=
  mk_xdoc id (lit "Tmail" :: lit "G1" :: terms) date (lit "m" ++ [ascii_of_N (48 + id)]) (Some (lit "who <w@x>")) author (Some subject) 1 None [].

Definition the_thread (db : list xdoc) (q : query) : option thread :=
  match search_threads db q with
  | None => None
  | Some ts => match run_calls db [CALL_get] ts with Some ([th], _) => Some th | _ => None end
  end.
Lemma the_thread_result db q th : the_thread db q = Some th -> thread_result db q th.
Proof.
  unfold the_thread. destruct (search_threads db q) as [ts|] eqn:E; [|discriminate].
  destruct (run_calls db [CALL_get] ts) as [[[|t [|]] ts']|] eqn:R; try discriminate. intros H. injection H as <-.
  exists ts, [CALL_get], [t], ts'. split; [exact E|]. split; [exact R|now left].
Qed.
Lemma mdocs_ok db : (forall d, In d db -> exists id date author subject terms, d = mdoc id date author subject terms /\ (id < 2 ^ 32 - 1)%N /\ forall u, ~ In (lit "G" ++ u) terms) ->
  NoDup (map xd_id db) -> ids_ok db /\ single_threaded db.
Proof.
  intros H N. split.
  - split; [exact N|]. intros d Hd. destruct (H d Hd) as (id & date & a & sb & ts & -> & L & _). exact L.
  - intros d Hd _. destruct (H d Hd) as (id & date & a & sb & ts & -> & _ & G). exists (lit "1"). intros u.
    unfold in_thread. cbn [mdoc xd_terms In]. split; [|intros ->; right; now left].
    intros [X|[X|X]]; [discriminate X|now injection X|exfalso; exact (G u X)].
Qed.
Ltac mdocs := apply mdocs_ok; [intros d Hd; repeat (destruct Hd as [<-|Hd]; [do 5 eexists; split; [reflexivity|]; split; [reflexivity|]; intros u; cbn; intuition discriminate|]); destruct Hd
  | repeat constructor; cbn; intuition discriminate].

(** Without one the text "(null)" appears before the bar. *)
Theorem C47_authors_refuted :
  exists db x tags m s th, ids_ok db /\ single_threaded db /\
  thread_result db (configure (Some x) tags m s) th /\
  first_seen [] (map display_author (matched_mail th)) = [] /\
  authors_string th = lit "(null)| Ann".
Proof.
  exists [mdoc 1 10 (Some (lit "Ann")) (lit "hi") []; mdoc 2 20 None (lit "Re: hi") [lit "Kx"]], (XTerm (lit "Kx")), [], EXCLUDE_TRUE, SORT_NEWEST_FIRST.
  eexists. split; [|split]; [mdocs|mdocs|]. split; [apply the_thread_result; vm_compute; reflexivity|].
  split; vm_compute; reflexivity.
Qed.
Print Assumptions C47_authors_refuted.

(** The dates are those of the oldest and the newest matching message (the oldest one only
    if the mode is not FLAG). *)
Theorem C47_newest_date :
  forall db x tags m s th, ids_ok db -> single_threaded db ->
  thread_result db (configure (Some x) tags m s) th ->
  (exists d, In d (matched_mail th) /\ th_newest th = xd_date d) /\
  (forall d, In d (matched_mail th) -> (xd_date d <= th_newest th)%Z).
Proof.
  intros db x tags m s th I ST Hr. destruct (fa_P _ _ _ _ _ _ (result_facts db x tags m s I ST th Hr)) as (P & (d0 & Hd0 & Ht0) & Ef & Bo & HP & K).
  destruct (thread_mail_eq db x tags m s th P Ef K) as (_ & ->).
  pose proof (thread_docs_sorted db (th_id th)) as SS.
  destruct (sum_dates _ _ _ _ _ _ th SS K Bo) as (_ & H & _).
  destruct (snoc_cases (mt P (thread_docs db (th_id th)))) as [E|(M & e & E)].
  - exfalso. assert (X : In d0 (mt P (thread_docs db (th_id th)))); [|rewrite E in X; exact X].
    assert (In d0 (thread_docs db (th_id th))) by (apply thread_docs_In; destruct Hd0 as (A & B & _); auto).
    apply filter_In. split; [assumption|]. now apply HP.
  - rewrite (H M e E). split; [exists e; split; [rewrite E; apply in_app_iff; right; now left|reflexivity]|].
    intros d Hd. rewrite E in Hd. apply in_app_iff in Hd as [Hd|[<-|[]]]; [|lia].
    assert (SM : StronglySorted older (mt P (thread_docs db (th_id th)))).
    { clear - SS. induction SS as [|a l SS IH F]; [constructor|]. unfold mt. cbn [filter]. fold (mt P l).
      destruct (P (xd_id a)); [|exact IH]. constructor; [exact IH|]. rewrite Forall_forall in *. intros b Hb. apply filter_In in Hb as (Hb & _). auto. }
    rewrite E in SM. apply SS_snoc in SM as (_ & SM). exact (SM d Hd).
Qed.
Print Assumptions C47_newest_date.

Theorem C47_oldest_date_partial :
  forall db x tags m s th, ids_ok db -> single_threaded db -> m <> EXCLUDE_FLAG ->
  thread_result db (configure (Some x) tags m s) th ->
  (exists d, In d (matched_mail th) /\ th_oldest th = xd_date d) /\
  (forall d, In d (matched_mail th) -> (th_oldest th <= xd_date d)%Z).
Proof.
  intros db x tags m s th I ST NF Hr. destruct (fa_P _ _ _ _ _ _ (result_facts db x tags m s I ST th Hr)) as (P & (d0 & Hd0 & Ht0) & Ef & Bo & HP & K).
  destruct (thread_mail_eq db x tags m s th P Ef K) as (_ & ->).
  pose proof (thread_docs_sorted db (th_id th)) as SS.
  destruct (sum_dates _ _ _ _ _ _ th SS K Bo) as (_ & _ & H & _).
  assert (NX : nx m (q_exclude (cq x tags m s)) P (thread_docs db (th_id th)) = mt P (thread_docs db (th_id th))).
  { unfold nx, mt. apply filter_ext_in. intros d Hd. destruct (P (xd_id d)) eqn:EP; [|reflexivity]. cbn [andb]. apply negb_true_iff.
    apply HP in EP as (_ & _ & _ & X); [|exact Hd]. rewrite <- not_true_iff_false. unfold cq. rewrite message_excluded_spec. intros (N & Y).
    destruct m; contradiction. }
  rewrite NX in H.
  destruct (mt P (thread_docs db (th_id th))) as [|e M] eqn:E.
  - exfalso. assert (X : In d0 (mt P (thread_docs db (th_id th)))); [|rewrite E in X; exact X].
    assert (In d0 (thread_docs db (th_id th))) by (apply thread_docs_In; destruct Hd0 as (A & B & _); auto).
    apply filter_In. split; [assumption|]. now apply HP.
  - rewrite (H e M eq_refl). split; [exists e; split; [now left|reflexivity]|].
    intros d [<-|Hd]; [lia|].
    assert (SM : StronglySorted older (mt P (thread_docs db (th_id th)))).
    { clear - SS. induction SS as [|a l SS IH F]; [constructor|]. unfold mt. cbn [filter]. fold (mt P l).
      destruct (P (xd_id a)); [|exact IH]. constructor; [exact IH|]. rewrite Forall_forall in *. intros b Hb. apply filter_In in Hb as (Hb & _). auto. }
    rewrite E in SM. inversion SM as [|? ? _ F]; subst. rewrite Forall_forall in F. exact (F d Hd).
Qed.
Print Assumptions C47_oldest_date_partial.

(** With mode FLAG an excluded match that is older than the first other match is left out
    of the oldest date (but not of the newest). *)
Theorem C47_oldest_date_refuted :
  exists db x tags m s th d, ids_ok db /\ single_threaded db /\
  thread_result db (configure (Some x) tags m s) th /\ In d (matched_mail th) /\ (xd_date d < th_oldest th)%Z.
Proof.
  exists [mdoc 1 10 None (lit "hi") [lit "Kspam"]; mdoc 2 20 None (lit "hi") []], XAll, [lit "spam"], EXCLUDE_FLAG, SORT_NEWEST_FIRST.
  eexists _, _. split; [|split]; [mdocs|mdocs|]. split; [apply the_thread_result; vm_compute; reflexivity|].
  split; [left; reflexivity|reflexivity].
Qed.
Print Assumptions C47_oldest_date_refuted.

(** The header promises the dates of the oldest message in the thread; it is that of the
    oldest matching one. *)
Theorem C47_oldest_of_thread_refuted :
  exists db x tags m s th d, ids_ok db /\ single_threaded db /\
  thread_result db (configure (Some x) tags m s) th /\ In d (thread_mail th) /\ (xd_date d < th_oldest th)%Z.
Proof.
  exists [mdoc 1 10 None (lit "hi") []; mdoc 2 20 None (lit "hi") [lit "Kx"]], (XTerm (lit "Kx")), [], EXCLUDE_TRUE, SORT_NEWEST_FIRST.
  eexists _, _. split; [|split]; [mdocs|mdocs|]. split; [apply the_thread_result; vm_compute; reflexivity|].
  split; [left; reflexivity|reflexivity].
Qed.
Print Assumptions C47_oldest_of_thread_refuted.

(** C42.  Cleaning a subject removes one leading "Re: ", "Aw: ", "Vs: " or "Sv: " (any
    case) and nothing else. *)
Theorem C42_clean_subject :
  forall s, bare s (clean_subject s) /\ forall r, bare s r -> r = clean_subject s.
Proof. intros s. split; [now apply clean_subject_bare|]. intros r H. apply clean_subject_bare in H. auto. Qed.
Print Assumptions C42_clean_subject.

(** A chain of prefixes is not removed. *)
Theorem C42_chain_refuted :
  exists s p r, reply_prefix p /\ clean_subject s = p ++ r /\ r <> [].
Proof. exists (lit "Re: Re: hello"), (lit "Re: "), (lit "hello"). split; [now left|]. split; [reflexivity|discriminate]. Qed.
Print Assumptions C42_chain_refuted.

(** The subject of a thread is always the cleaned subject of a matching message, or the
    subject, as it is, of the first message. *)
Theorem C42_subject_origin :
  forall db x tags m s th, ids_ok db -> single_threaded db ->
  thread_result db (configure (Some x) tags m s) th ->
  (exists d r, In d (matched_mail th) /\ bare_subject d r /\ th_subject th = Some r) \/
  (exists d rest, thread_mail th = d :: rest /\ th_subject th = Some (raw_subject d)).
Proof.
  intros db x tags m s th I ST Hr. destruct (fa_P _ _ _ _ _ _ (result_facts db x tags m s I ST th Hr)) as (P & (d0 & Hd0 & Ht0) & Ef & Bo & HP & K).
  destruct (thread_mail_eq db x tags m s th P Ef K) as (-> & ->).
  destruct (subject_origin _ _ _ _ _ _ th K Bo) as [E|(d & Hd & E & U)].
  - right. rewrite E. unfold base. destruct (filter _ _) as [|d l] eqn:F; [|eauto]. exfalso.
    assert (X : In d0 (filter (kept m (q_exclude (cq x tags m s))) (thread_docs db (th_id th)))); [|rewrite F in X; exact X].
    assert (Hdoc : In d0 (thread_docs db (th_id th))) by (apply thread_docs_In; destruct Hd0 as (A & B & _); auto).
    apply filter_In. split; [exact Hdoc|]. apply K; [exact Hdoc|]. now apply HP.
  - left. destruct (usable d) as [r|] eqn:Er; [|contradiction]. exists d, r. split; [exact Hd|]. split; [now apply usable_spec|exact E].
Qed.
Print Assumptions C42_subject_origin.

(** Newest first: the cleaned subject of the newest matching message that has one; only if
    none has, the first message's subject. *)
Theorem C42_newest_first :
  forall db x tags m s th, ids_ok db -> single_threaded db -> s <> SORT_OLDEST_FIRST ->
  thread_result db (configure (Some x) tags m s) th ->
  StronglySorted (fun a b => (xd_date a < xd_date b)%Z) (matched_mail th) ->
  (exists d r, In d (matched_mail th) /\ bare_subject d r /\ th_subject th = Some r /\
     forall e r', In e (matched_mail th) -> bare_subject e r' -> (xd_date e <= xd_date d)%Z) \/
  ((forall e r', In e (matched_mail th) -> ~ bare_subject e r') /\
   exists d rest, thread_mail th = d :: rest /\ th_subject th = Some (raw_subject d)).
Proof.
  intros db x tags m s th I ST NO Hr. pose proof (C42_subject_origin db x tags m s th I ST Hr) as ORI.
  destruct (fa_P _ _ _ _ _ _ (result_facts db x tags m s I ST th Hr)) as (P & (d0 & Hd0 & Ht0) & Ef & Bo & HP & K).
  destruct (thread_mail_eq db x tags m s th P Ef K) as (EM & EMM). rewrite EMM in *. intros SO.
  assert (F : is_oldest_first s = false) by (destruct s; auto; contradiction).
  pose proof (subject_newest _ _ _ _ _ _ th F (thread_docs_sorted db (th_id th)) K SO Bo) as E.
  destruct (fold_new_spec (mt P (thread_docs db (th_id th))) (base m (q_exclude (cq x tags m s)) (thread_docs db (th_id th))))
    as [(M1 & d & M2 & r & Q & U & N & Q2)|(N & Q2)].
  - left. exists d, r. split; [rewrite Q; apply in_app_iff; right; now left|]. split; [now apply usable_spec|]. split; [congruence|].
    intros e r' He Hb. rewrite Q in He, SO. apply in_app_iff in He as [He|[<-|He]]; [|lia|].
    + clear - SO He. induction M1 as [|a M1 IH]; [destruct He|]. cbn [app] in SO. inversion SO as [|? ? SO' F]; subst.
      destruct He as [<-|He]; [|auto]. rewrite Forall_forall in F. specialize (F d). enough (xd_date a < xd_date d)%Z by lia.
      apply F, in_app_iff. right. now left.
    + exfalso. apply N in He. apply usable_spec in Hb. congruence.
  - right. split; [intros e r' He Hb; apply usable_spec in Hb; rewrite (N e He) in Hb; discriminate|].
    destruct ORI as [(d & r & Hd & Hb & _)|X]; [exfalso; apply usable_spec in Hb; rewrite (N d Hd) in Hb; discriminate|exact X].
Qed.
Print Assumptions C42_newest_first.

(** Oldest first: the cleaned subject of the oldest matching message [d] if it has one;
    otherwise the first message's subject if that is not empty; otherwise the cleaned
    subject of the oldest matching message that has one. *)
Theorem C42_oldest_first :
  forall db x tags m th d f rest, ids_ok db -> single_threaded db -> m <> EXCLUDE_FLAG ->
  thread_result db (configure (Some x) tags m SORT_OLDEST_FIRST) th ->
  StronglySorted (fun a b => (xd_date a < xd_date b)%Z) (matched_mail th) ->
  In d (matched_mail th) -> (forall e, In e (matched_mail th) -> (xd_date d <= xd_date e)%Z) ->
  thread_mail th = f :: rest ->
  (forall r, bare_subject d r -> th_subject th = Some r) /\
  ((forall r, ~ bare_subject d r) -> raw_subject f <> [] -> th_subject th = Some (raw_subject f)) /\
  ((forall r, ~ bare_subject d r) -> raw_subject f = [] ->
     (exists e r, In e (matched_mail th) /\ bare_subject e r /\ th_subject th = Some r /\
        forall e' r', In e' (matched_mail th) -> bare_subject e' r' -> (xd_date e <= xd_date e')%Z) \/
     ((forall e r, In e (matched_mail th) -> ~ bare_subject e r) /\ th_subject th = Some [])).
Proof.
  intros db x tags m th d f rest0 I ST NF Hr SO Hd Min Hf.
  destruct (fa_P _ _ _ _ _ _ (result_facts db x tags m _ I ST th Hr)) as (P & _ & Ef & Bo & HP & K).
  destruct (thread_mail_eq db x tags m _ th P Ef K) as (EM & EMM). rewrite EMM in *. rewrite EM in Hf.
  assert (NE : forall d, In d (thread_docs db (th_id th)) -> P (xd_id d) = true -> message_excluded m (q_exclude (cq x tags m SORT_OLDEST_FIRST)) d = false).
  { intros e He EP. apply HP in EP as (_ & _ & _ & X); [|exact He]. rewrite <- not_true_iff_false. unfold cq. rewrite message_excluded_spec. intros (N & Y).
    destruct m; contradiction. }
  pose proof (subject_oldest m _ SORT_OLDEST_FIRST _ _ _ th eq_refl (thread_docs_sorted db (th_id th)) K NE SO Bo) as E.
  assert (EB : base m (q_exclude (cq x tags m SORT_OLDEST_FIRST)) (thread_docs db (th_id th)) = Some (raw_subject f)) by (unfold base; now rewrite Hf).
  rewrite EB in E.
  destruct (mt P (thread_docs db (th_id th))) as [|d1 rest] eqn:EM1; [destruct Hd|].
  assert (d = d1).
  { destruct Hd as [<-|Hd]; [reflexivity|exfalso]. inversion SO as [|? ? _ F]; subst. rewrite Forall_forall in F.
    specialize (F d Hd). specialize (Min d1 (or_introl eq_refl)). lia. }
  subst d1. split; [|split].
  - intros r Hb. apply usable_spec in Hb. unfold new_subject in E. rewrite Hb in E.
    assert (NEm : empty_string (Some r) = false) by (apply usable_spec in Hb as (s0 & _ & _ & N); destruct r; [contradiction|reflexivity]).
    destruct (fold_keep_spec rest (Some r)) as [(_ & X)|[(X & _)|(X & _)]]; congruence.
  - intros U Rn. apply usable_none in U. unfold new_subject in E. rewrite U in E.
    assert (NEm : empty_string (Some (raw_subject f)) = false) by (destruct (raw_subject f); [contradiction|reflexivity]).
    destruct (fold_keep_spec rest (Some (raw_subject f))) as [(_ & X)|[(X & _)|(X & _)]]; congruence.
  - intros U Rn. pose proof (proj2 (usable_none d) U) as U'. unfold new_subject in E. rewrite U', Rn in E.
    destruct (fold_keep_spec rest (Some [])) as [(X & _)|[(_ & M1 & e & M2 & r & Q & Ue & N & X)|(_ & N & X)]]; [discriminate| |].
    + left. exists e, r. split; [right; rewrite Q; apply in_app_iff; right; now left|]. split; [now apply usable_spec|]. split; [congruence|].
      inversion SO as [|? ? SO' _]; subst. intros e' r' [<-|He'] Hb; [exfalso; exact (U r' Hb)|].
      apply in_app_iff in He' as [He'|[<-|He']].
      * exfalso. apply usable_spec in Hb. rewrite (N e' He') in Hb. discriminate.
      * lia.
      * clear - SO' He'. induction M1 as [|a M1 IH]; cbn [app] in SO'; inversion SO' as [|? ? S2 F]; subst; [|auto].
        rewrite Forall_forall in F. specialize (F e' He'). lia.
    + right. split; [|congruence]. intros e r [<-|He] Hb; [exact (U r Hb)|]. apply usable_spec in Hb. rewrite (N e He) in Hb. discriminate.
Qed.
Print Assumptions C42_oldest_first.

(** A thread may show an uncleaned subject: that of its first message, when no matching
    message has a subject. *)
Theorem C42_uncleaned_refuted :
  exists db x tags m s th p r, ids_ok db /\ single_threaded db /\
  thread_result db (configure (Some x) tags m s) th /\ reply_prefix p /\ th_subject th = Some (p ++ r).
Proof.
  exists [mdoc 1 10 None (lit "Re: hi") []; mdoc 2 20 None (lit "Re: ") [lit "Kx"]], (XTerm (lit "Kx")), [], EXCLUDE_TRUE, SORT_NEWEST_FIRST.
  eexists _, (lit "Re: "), (lit "hi"). split; [|split]; [mdocs|mdocs|]. split; [apply the_thread_result; vm_compute; reflexivity|].
  split; [now left|reflexivity].
Qed.
Print Assumptions C42_uncleaned_refuted.

Definition ex_thread_db : list xdoc :=
  [ mdoc 1 10 (Some (lit "Ann")) (lit "plan") [lit "Kwork"]; mdoc 2 20 (Some (lit "Bob")) (lit "RE: plan") [lit "Kinbox"];
    mdoc 3 30 (Some (lit "Ann")) (lit "Re: plan B") [lit "Kinbox"; lit "Kunread"]; mdoc 4 40 (Some (lit "Cy")) (lit "Sv: plan C") [] ].
Example C47_example :
  ids_ok ex_thread_db /\ single_threaded ex_thread_db /\
  exists th, thread_result ex_thread_db (configure (Some (XTerm (lit "Kinbox"))) [] EXCLUDE_TRUE SORT_NEWEST_FIRST) th /\
    th_subject th = Some (lit "plan B") /\ authors_string th = lit "Bob, Ann| Cy" /\ th_tags th = [lit "inbox"; lit "unread"; lit "work"] /\
    th_total th = 4 /\ th_matched th = 2 /\ th_oldest th = 20%Z /\ th_newest th = 30%Z /\
    StronglySorted (fun a b => (xd_date a < xd_date b)%Z) (matched_mail th).
Proof.
  split; [mdocs|]. split; [mdocs|]. eexists. split; [apply the_thread_result; vm_compute; reflexivity|].
  repeat (split; [reflexivity|]). vm_compute. repeat constructor.
Qed.
Example C42_example :
  exists th, thread_result ex_thread_db (configure (Some (XTerm (lit "Kinbox"))) [] EXCLUDE_TRUE SORT_OLDEST_FIRST) th /\
    th_subject th = Some (lit "plan") /\ cleanup_author (lit "Worth, Carl") (lit "carl.worth@x.org") = lit "Carl Worth".
Proof. eexists. split; [apply the_thread_result; vm_compute; reflexivity|]. split; vm_compute; reflexivity. Qed.
