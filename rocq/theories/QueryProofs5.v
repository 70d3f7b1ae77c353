(** Putting it together for a configured query (C24, C42, C47). *)
From Verif Require Import Bytes Terms XQuery DocSet Thread Query QuerySpec ThreadSummarySpec QueryProofs QueryProofs2 QueryProofs3 QueryProofs4.
From Coq Require Import Sorted Permutation.
Local Open Scope nat_scope.

Lemma loop_calls fuel db : forall t l, threads_loop fuel db t = Some l -> exists cs t', run_calls db cs t = Some (l, t').
Proof.
  induction fuel as [|f IH]; intros t l; cbn [threads_loop]; [discriminate|].
  destruct (threads_valid t) as [[[|] t1]|] eqn:V; [| |discriminate].
  - destruct (threads_get db t1) as [[[th|] t2]|] eqn:G; try discriminate.
    destruct (threads_loop f db (threads_next t2)) as [l'|] eqn:L; [|discriminate]. intros H. injection H as <-.
    destruct (IH _ _ L) as (cs & t' & R). exists (CALL_valid :: CALL_get :: CALL_next :: cs), t'.
    cbn [run_calls]. rewrite V, G, R. reflexivity.
  - intros H. injection H as <-. exists [], t. reflexivity.
Qed.

Lemma in_order_trans s a b c : in_order s a b -> in_order s b c -> in_order s a c.
Proof. destruct s; cbn; try lia; auto. apply bleb_trans. Qed.

Lemma thread_docs_sorted db tid : StronglySorted older (thread_docs db tid).
Proof.
  apply Sorted_StronglySorted; [intros a b c; unfold older; lia|].
  unfold thread_docs. apply sort_docs_sorted; unfold le_date, older; intros a b H; lia.
Qed.

Section Q.
  Variables (db : list xdoc) (x : xq) (tags : list bytes) (m : omit_mode) (s : sort_mode).
  Hypothesis IDS : ids_ok db.
  Hypothesis ST : single_threaded db.
  Definition cq := configure (Some x) tags m s.

  Lemma q_facts : q_omit cq = m /\ q_sort cq = s.
  Proof using Type. destruct (configure_exclude x tags m s) as (_ & A & B & _). auto. Qed.

  Lemma selected_kept d : selected db x tags m d -> kept (q_omit cq) (q_exclude cq) d = true.
  Proof using Type.
    intros (_ & _ & _ & H). destruct q_facts as (-> & _). unfold kept. apply negb_true_iff.
    destruct (message_excluded m (q_exclude cq) d) eqn:E; [|reflexivity]. apply message_excluded_spec in E as (_ & E).
    destruct m; try reflexivity; contradiction.
  Qed.

  (** the search, and the invariant at its start. *)
  Lemma start : exists R ts, search_threads db cq = Some ts /\ inv cq R ts [] /\ t_pos ts = 0 /\
    NoDup (map xd_id R) /\ (forall d, In d R <-> selected db x tags m d) /\ StronglySorted (in_order s) R /\ length R <= length db.
  Proof using IDS.
    destruct (search_ok db x tags m s IDS) as (ms & l & E & _ & D & N & S & H).
    assert (HR : forall d, In d (map fst l) <-> selected db x tags m d).
    { intros d. rewrite in_map_iff. split.
      - intros ((e & b) & <- & He). now apply H in He.
      - intros Hs. exists (d, match m with EXCLUDE_FLAG => xmatch (exclude_tags cq) d | _ => false end). split; [reflexivity|].
        apply H. split; [exact Hs|]. destruct m; try (split; [discriminate|intros (F & _); discriminate]).
        unfold cq; rewrite exclude_spec. tauto. }
    destruct (ds_init_rep (map xd_id (map fst l))) as (set & Es & Rp).
    { intros id Hi. apply in_map_iff in Hi as (d & <- & Hd). apply HR in Hd. apply IDS, Hd. }
    exists (map fst l), (mk_threads cq (map xd_id (map fst l)) 0 set). unfold search_threads. fold cq in E. rewrite E, D, Es.
    split; [reflexivity|]. split; [|split; [reflexivity|]].
    - split; [reflexivity|]. split; [reflexivity|]. exists (in_R (map fst l)). split; [exact Rp|]. split; [auto|].
      intros d Hd. split; [intros _ tid _ []|]. intros _. unfold in_R. apply existsb_ids; [auto|eauto].
    - split; [exact N|]. split; [exact HR|]. split.
      + apply Sorted_StronglySorted; [intros a b c; apply in_order_trans|exact S].
      + rewrite <- (map_length xd_id), <- (map_length xd_id db). apply NoDup_incl_length; [exact N|].
        intros i Hi. apply in_map_iff in Hi as (d & <- & Hd). apply in_map. apply HR in Hd. apply Hd.
  Qed.

  (** everything known of one thread. *)
  Record facts (th : thread) : Prop := mk_facts {
    fa_P : exists P, (exists d, selected db x tags m d /\ in_thread d (th_id th)) /\
      effect m (q_exclude cq) P (thread_docs db (th_id th)) (thread_init (th_id th)) th /\
      bodies m (q_exclude cq) s P (thread_docs db (th_id th)) (thread_init (th_id th)) = Some th /\
      (forall d, In d (thread_docs db (th_id th)) -> (P (xd_id d) = true <-> selected db x tags m d)) /\
      all_kept m (q_exclude cq) P (thread_docs db (th_id th))
  }.
  Lemma delivered_facts R done P th : (forall d, In d R <-> selected db x tags m d) ->
    delivered db cq R done P th -> facts th.
  Proof using Type.
    intros HR D. destruct q_facts as (Qo & Qs). destruct D as [_ (d & Hd & Ht) E B M]. rewrite Qo, ?Qs in *. constructor.
    exists P. split; [exists d; rewrite <- HR; auto|]. split; [exact E|]. split; [exact B|].
    assert (M' : forall d, In d (thread_docs db (th_id th)) -> (P (xd_id d) = true <-> selected db x tags m d))
      by (intros e He; rewrite <- HR; auto).
    split; [exact M'|]. intros e He Hp. apply M' in Hp; [|exact He]. apply selected_kept in Hp. now rewrite Qo in Hp.
  Qed.

  Lemma result_facts th : thread_result db cq th -> facts th.
  Proof using IDS ST.
    intros (ts & cs & l & ts' & E & Rc & Hin). destruct start as (R & ts0 & E0 & I & _ & N & HR & _).
    rewrite E in E0. injection E0 as <-.
    assert (HK : forall d, In d R -> kept (q_omit cq) (q_exclude cq) d = true) by (intros d Hd; apply selected_kept, HR, Hd).
    assert (HD : forall d, In d R -> In d db /\ is_mail d) by (intros d Hd; apply HR in Hd; split; apply Hd).
    destruct (calls_ok db cq R IDS ST N HD HK cs ts [] I) as (l0 & t0 & dn & Rc0 & _ & _ & _ & D).
    rewrite Rc in Rc0. injection Rc0 as <- <-. destruct (D th Hin) as (done & P & Dl).
    exact (delivered_facts R done P th HR Dl).
  Qed.

  Lemma results_nodup ts cs l ts' : search_threads db cq = Some ts -> run_calls db cs ts = Some (l, ts') -> NoDup (map th_id l).
  Proof using IDS ST.
    intros E Rc. destruct start as (R & ts0 & E0 & I & _ & N & HR & _). rewrite E in E0. injection E0 as <-.
    assert (HK : forall d, In d R -> kept (q_omit cq) (q_exclude cq) d = true) by (intros d Hd; apply selected_kept, HR, Hd).
    assert (HD : forall d, In d R -> In d db /\ is_mail d) by (intros d Hd; apply HR in Hd; split; apply Hd).
    destruct (calls_ok db cq R IDS ST N HD HK cs ts [] I) as (l0 & t0 & dn & Rc0 & _ & N0 & _).
    rewrite Rc in Rc0. injection Rc0 as <- <-. exact N0.
  Qed.
  Lemma calls_succeed ts cs : search_threads db cq = Some ts -> exists l ts', run_calls db cs ts = Some (l, ts').
  Proof using IDS ST.
    intros E. destruct start as (R & ts0 & E0 & I & _ & N & HR & _). rewrite E in E0. injection E0 as <-.
    assert (HK : forall d, In d R -> kept (q_omit cq) (q_exclude cq) d = true) by (intros d Hd; apply selected_kept, HR, Hd).
    assert (HD : forall d, In d R -> In d db /\ is_mail d) by (intros d Hd; apply HR in Hd; split; apply Hd).
    destruct (calls_ok db cq R IDS ST N HD HK cs ts [] I) as (l0 & t0 & dn & Rc0 & _). eauto.
  Qed.

  (** every thread once, in the order of their first results. *)
  Lemma loop_facts ts fuel : search_threads db cq = Some ts -> length db < fuel ->
    exists l, threads_loop fuel db ts = Some l /\ NoDup (map th_id l) /\
      (forall tid, In tid (map th_id l) <-> exists d, selected db x tags m d /\ in_thread d tid) /\
      StronglySorted (fun a b => exists d, selected db x tags m d /\ in_thread d (th_id a) /\
        forall e, selected db x tags m e -> in_thread e (th_id b) -> in_order s d e) l.
  Proof using IDS ST.
    intros E L. destruct start as (R & ts0 & E0 & I & Z & N & HR & SR & LR). rewrite E in E0. injection E0 as <-.
    assert (HK : forall d, In d R -> kept (q_omit cq) (q_exclude cq) d = true) by (intros d Hd; apply selected_kept, HR, Hd).
    assert (HD : forall d, In d R -> In d db /\ is_mail d) by (intros d Hd; apply HR in Hd; split; apply Hd).
    destruct (loop_ok db cq R IDS ST N HD HK fuel ts [] I) as (l & El & Nl & _ & Dl & C & SO).
    { intros P _ i id Hi. rewrite Z in Hi. lia. }
    { lia. } { lia. }
    exists l. split; [exact El|]. split; [exact Nl|]. split.
    - intros tid. split.
      + intros H. apply in_map_iff in H as (th & <- & Hth). destruct (Dl th Hth) as (done & P & D).
        destruct (fa_P th (delivered_facts R done P th HR D)) as (P' & Hd & _). exact Hd.
      + intros (d & Hd & Ht). destruct (C d (proj2 (HR d) Hd) tid Ht) as [[]|H]; exact H.
    - assert (NS : forall i j d e, nth_error R i = Some d -> nth_error R j = Some e -> i < j -> in_order s d e).
      { clear - SR. induction SR as [|a R SR IH F]; intros i j d e Hi Hj Lij; [destruct i; discriminate|].
        destruct j as [|j]; [lia|]. cbn in Hj. destruct i as [|i]; cbn in Hi.
        - injection Hi as <-. rewrite Forall_forall in F. apply F. eapply nth_error_In; exact Hj.
        - apply (IH i j); auto. lia. }
      clear - SO HR NS. induction SO as [|a l SO IH F]; constructor; [exact IH|]. rewrite Forall_forall in *. intros b Hb.
      destruct (F b Hb) as (i & d & Hi & Ha & H). exists d. split; [apply HR; eapply nth_error_In; exact Hi|]. split; [exact Ha|].
      intros e He Hte. destruct (In_nth_error R e (proj2 (HR e) He)) as (j & Hj). exact (NS i j d e Hi Hj (H j e Hj Hte)).
  Qed.

  Lemma loop_results ts fuel l th : search_threads db cq = Some ts -> threads_loop fuel db ts = Some l -> In th l -> thread_result db cq th.
  Proof using Type. intros E L H. destruct (loop_calls fuel db ts l L) as (cs & t' & Rc). exists ts, cs, l, t'. auto. Qed.
End Q.

(** counting threads *)
Lemma thread_ids_ok db l : single_threaded db -> (forall d, In d l -> In d db /\ is_mail d) -> forall h, tsorted h ->
  exists h', thread_ids l h = Some h' /\ tsorted h' /\ forall t, In t h' <-> In t h \/ exists d, In d l /\ in_thread d t.
Proof.
  intros ST. induction l as [|d l IH]; intros H h Sh; cbn [thread_ids].
  - exists h. split; [reflexivity|]. split; [exact Sh|]. intros t. split; [auto|]. intros [X|(d & [] & _)]; exact X.
  - destruct (H d (or_introl eq_refl)) as (Hdb & Hm). destruct (thread_of db d ST Hdb Hm) as (tid & -> & Ht).
    destruct (IH (fun e He => H e (or_intror He)) (tadd tid h) (tadd_sorted tid h Sh)) as (h' & E & S' & M).
    exists h'. split; [exact E|]. split; [exact S'|]. intros t. rewrite M, tadd_In. split.
    + intros [[->|X]|(e & He & X)]; [right; exists d; split; [now left|now apply Ht]|now left|right; exists e; split; [now right|exact X]].
    + intros [X|(e & [<-|He] & X)]; [left; now right|left; left; now apply Ht|right; eauto].
Qed.

Lemma count_threads_ok db x tags m s : ids_ok db -> single_threaded db ->
  exists h, count_threads db (configure (Some x) tags m s) = Some (length h) /\ NoDup h /\
    forall t, In t h <-> exists d, selected db x tags m d /\ in_thread d t.
Proof.
  intros I ST. unfold count_threads.
  change (set_sort (configure (Some x) tags m s) SORT_UNSORTED) with (configure (Some x) tags m SORT_UNSORTED).
  destruct (search_ok db x tags m SORT_UNSORTED I) as (ms & l & E & _ & D & N & S & H). rewrite E.
  assert (HR : forall d, In d (ms_docs ms) <-> selected db x tags m d).
  { intros d. rewrite D, in_map_iff. split.
    - intros ((e & b) & <- & He). now apply H in He.
    - intros Hs. exists (d, match m with EXCLUDE_FLAG => xmatch (exclude_tags (cq x tags m s)) d | _ => false end). split; [reflexivity|].
      apply H. split; [exact Hs|]. destruct m; try (split; [discriminate|intros (F & _); discriminate]).
      unfold cq. rewrite exclude_spec. tauto. }
  destruct (thread_ids_ok db (ms_docs ms) ST) with (h := @nil bytes) as (h & -> & Sh & M).
  { intros d Hd. apply HR in Hd. split; apply Hd. } { constructor. }
  exists h. split; [reflexivity|]. split; [now apply tsorted_nodup|]. intros t. rewrite M. split.
  - intros [[]|(d & Hd & X)]. exists d. split; [now apply HR|exact X].
  - intros (d & Hd & X). right. exists d. split; [now apply HR|exact X].
Qed.
