From Verif Require Import Bytes Hex StrUtil Terms Meta StringMap DocMap Db Props
  TagOps TagLine Dump DumpSpec DumpProofs DumpProofs2 DumpProofs3 PropsSpec NmGit NmGitSpec NmGitProofs NmGitProofs2.
Local Open Scope nat_scope.

Lemma bsl_eq_eq a b : bsl_eq a b = true <-> a = b.
Proof.
  revert b. induction a as [|x a IH]; destruct b as [|y b]; cbn; try (split; [discriminate|congruence]); [tauto|].
  rewrite andb_true_iff, bseq_eq, IH. split; [intros [-> ->]; reflexivity|intros [= -> ->]; auto].
Qed.
Lemma sum_eq_eq a b : sum_eq a b = true <-> a = b.
Proof.
  destruct a, b; cbn; try (split; [discriminate|congruence]); [|tauto]. rewrite bsl_eq_eq. split; [intros ->; reflexivity|congruence].
Qed.

(** ** The index *)
Lemma iapply_sorted idx o : tsorted idx -> tsorted (iapply idx o).
Proof. intros H. destruct o; cbn; destruct (path_ok p); auto using tadd_sorted, trem_sorted. Qed.
Lemma iapply_all_sorted ops idx : tsorted idx -> tsorted (iapply_all ops idx).
Proof. revert idx. induction ops as [|o ops IH]; intros idx H; [exact H|]. apply IH, iapply_sorted, H. Qed.
Lemma iapply_all_app a b idx : iapply_all (a ++ b) idx = iapply_all b (iapply_all a idx).
Proof. unfold iapply_all. apply fold_left_app. Qed.
Lemma dels_In ps idx p : tsorted idx -> In p (iapply_all (map I_del ps) idx) <-> In p idx /\ ~ (In p ps /\ path_ok p = true).
Proof.
  revert idx. induction ps as [|q ps IH]; intros idx H; cbn [map].
  - cbn. tauto.
  - change (iapply_all (I_del q :: map I_del ps) idx) with (iapply_all (map I_del ps) (iapply idx (I_del q))).
    rewrite IH by now apply iapply_sorted. cbn [iapply]. destruct (path_ok q) eqn:E.
    + rewrite trem_In by now apply tsorted_nodup. cbn [In]. split.
      * intros ((A & B) & C). split; [exact A|]. intros ([-> |X] & Y); [congruence|tauto].
      * intros (A & B). split; [split; [exact A|]|].
        -- intros ->. apply B. split; [now left|exact E].
        -- intros (X & Y). apply B. split; [now right|exact Y].
    + cbn [In]. split; intros (A & B); (split; [exact A|]).
      * intros ([-> |X] & Y); [congruence|tauto].
      * intros (X & Y). apply B. split; [now right|exact Y].
Qed.
Lemma adds_In ps idx p : In p (iapply_all (map I_add ps) idx) <-> In p idx \/ (In p ps /\ path_ok p = true).
Proof.
  revert idx. induction ps as [|q ps IH]; intros idx; cbn [map].
  - cbn. tauto.
  - change (iapply_all (I_add q :: map I_add ps) idx) with (iapply_all (map I_add ps) (iapply idx (I_add q))).
    rewrite IH. cbn [iapply]. destruct (path_ok q) eqn:E.
    + rewrite tadd_In. cbn [In]. split; [intros [[-> |A]|(A & B)]; auto|]. intros [A|([-> |A] & B)]; auto.
    + cbn [In]. split; [intros [A|(A & B)]; auto|]. intros [A|([-> |A] & B)]; auto. congruence.
Qed.

(** ** Dictionaries *)
Lemma dict_add_In i t d j u : In (j, u) (flat_map (fun p => map (pair (fst p)) (snd p)) (dict_add i t d)) <->
  (j = i /\ u = t) \/ In (j, u) (flat_map (fun p => map (pair (fst p)) (snd p)) d).
Proof.
  induction d as [|(k & ts) d IH]; cbn [dict_add flat_map map fst snd app].
  - cbn. split; [intros [[= <- <-]|[]]; auto|intros [(-> & ->)|[]]; auto].
  - destruct (bseq_spec i k) as [->|Hn]; cbn [flat_map fst snd]; rewrite !in_app_iff.
    + assert (X : In (j, u) (map (pair k) (if tmem t ts then ts else ts ++ [t])) <-> (j = k /\ u = t) \/ In (j, u) (map (pair k) ts)).
      { rewrite !in_map_iff. destruct (tmem t ts) eqn:E.
        - apply tmem_In in E. split; [intros H; now right|]. intros [(-> & ->)|H]; [now exists t|exact H].
        - split.
          + intros (x & [= -> ->] & Hx). apply in_app_or in Hx as [Hx|[<-|[]]]; [right; now exists u|now left].
          + intros [(-> & ->)|(x & [= -> ->] & Hx)]; [exists t|exists u]; (split; [reflexivity|]); apply in_or_app; [right; now left|now left]. }
      tauto.
    + rewrite IH. tauto.
Qed.
Definition pairs_of (d : list (bytes * list bytes)) : list (bytes * bytes) := flat_map (fun p => map (pair (fst p)) (snd p)) d.
Lemma dict_of_In l i t : In (i, t) (pairs_of (dict_of l)) <-> In (i, t) l.
Proof.
  unfold dict_of. assert (G : forall d, In (i, t) (pairs_of (fold_left (fun d p => dict_add (fst p) (snd p) d) l d)) <-> In (i, t) (pairs_of d) \/ In (i, t) l).
  { induction l as [|(j & u) l IH]; intros d; cbn [fold_left]; [cbn; tauto|]. rewrite IH. unfold pairs_of at 1. cbn [fst snd]. rewrite dict_add_In. fold (pairs_of d).
    cbn [In]. split; [intros [[(-> & ->)|H]|H]; auto|]. intros [H|[[= <- <-]|H]]; auto. }
  rewrite G. cbn. tauto.
Qed.
Lemma dict_ids l : NoDup (map fst (dict_of l)) /\ Forall (fun p => snd p <> []) (dict_of l).
Proof.
  unfold dict_of. assert (G : forall d, NoDup (map fst d) /\ Forall (fun p : bytes * list bytes => snd p <> []) d ->
    NoDup (map fst (fold_left (fun d p => dict_add (fst p) (snd p) d) l d)) /\ Forall (fun p => snd p <> []) (fold_left (fun d p => dict_add (fst p) (snd p) d) l d)).
  { induction l as [|(j & u) l IH]; intros d H; cbn [fold_left]; [exact H|]. apply IH. clear IH. cbn [fst snd]. destruct H as [Hn Hf].
    assert (K : forall x, In x (map fst (dict_add j u d)) <-> x = j \/ In x (map fst d)).
    { intros x. clear. induction d as [|(k & ts) d IH]; cbn [dict_add map fst In].
      - intuition.
      - destruct (bseq_spec j k) as [->|]; cbn [map fst In]; [|rewrite IH]; intuition. }
    induction d as [|(k & ts) d IH]; cbn [dict_add].
    - split; repeat constructor; [intros []|discriminate].
    - cbn [map fst] in Hn. inversion Hn as [|? ? N1 N2]; subst. inversion Hf as [|? ? F1 F2]; subst. cbn [snd] in F1.
      destruct (bseq_spec j k) as [->|Hjk].
      + split; [exact Hn|]. constructor; [|exact F2]. cbn [snd]. destruct (tmem u ts); [exact F1|]. now destruct ts.
      + assert (K' : forall x, In x (map fst (dict_add j u d)) <-> x = j \/ In x (map fst d)).
        { intros x. specialize (K x). cbn [dict_add] in K. clear - Hjk. induction d as [|(k' & ts') d IH]; cbn [dict_add map fst In].
          - intuition.
          - destruct (bseq_spec j k') as [->|]; cbn [map fst In]; [|rewrite IH]; intuition. }
        destruct (IH N2 F2 K') as [A B]. split; [|constructor; [exact F1|exact B]]. cbn [map fst]. constructor; [|exact A].
        rewrite K'. intros [->|X]; [congruence|contradiction]. }
  apply G. split; constructor.
Qed.

Section S.
Variable hash : bytes -> bytes.
Hypothesis Hh : hash_ok hash.
Variable v : fmt.
Variable prefix : bytes.
Variable cfg : list (bytes * bytes).
Variable props : bytes -> list (bytes * bytes).
Hypothesis Hp : prefix_ok prefix.
Hypothesis Hcfg : Forall cfg_item_ok cfg.
Local Notation tp := (tag_path hash v).
Local Notation ip := (id_path hash v).

Lemma to_dumped_ok db m : db_ok props db -> In m (g_msgs db) -> dumpable (to_dumped props m).
Proof.
  intros (_ & _ & H) Hm. destruct (H m Hm) as (A & B & C & _ & _ & D & E). split; [|exact A].
  destruct A as (A & _). unfold msg_ok, to_dumped. cbn. repeat split; auto.
  - now apply Forall_forall.
  - apply Forall_forall. intros (k & w) X. destruct (E k w X) as (E1 & E2 & E3 & E4). repeat split; auto.
Qed.
Lemma read_run_dump since db : db_ok props db ->
  read_dump prefix (run_dump prefix cfg props since db) =
  Some (map (fun m => (g_id m, unprefixed prefix (g_tags m))) (filter (dump_match prefix since) (g_msgs db))).
Proof.
  intros H. unfold run_dump. destruct Hp as (P1 & P2 & _).
  change {| inc_config := true; inc_properties := true; inc_tags := true |} with everything.
  rewrite read_dump_ok; auto.
  - f_equal. rewrite map_map. reflexivity.
  - apply Forall_forall. intros x X. apply in_map_iff in X as (m & <- & Hm). apply filter_In in Hm as (Hm & _). now apply to_dumped_ok with db.
Qed.
Lemma unprefixed_In ts t : In t (unprefixed prefix ts) <-> In (prefix ++ t) ts.
Proof.
  induction ts as [|x ts IH]; cbn [unprefixed]; [tauto|]. destruct (strip_prefix prefix x) as [r|] eqn:E.
  - apply strip_prefix_Some in E as ->. cbn [In]. rewrite IH. split; [intros [-> |X]; auto|]. intros [X|X]; [left; now apply app_inv_head in X|auto].
  - rewrite IH. cbn [In]. split; [auto|]. intros [->|X]; [|exact X]. rewrite strip_prefix_app in E. discriminate.
Qed.
Lemma tracked_match m t : In (prefix ++ t) (g_tags m) -> tag_match prefix m = true.
Proof.
  intros H. unfold tag_match. apply existsb_exists. exists (prefix ++ t). split; [exact H|]. destruct Hp as (_ & _ & ->). apply starts_with_app. now exists t.
Qed.

Lemma add_ops_map id ts : add_ops hash v id ts = map I_add (map (tp id) ts).
Proof. unfold add_ops. now rewrite map_map. Qed.
Lemma del_ops_map id ts : del_ops hash v id ts = map I_del (map (tp id) ts).
Proof. unfold del_ops. now rewrite map_map. Qed.

(** Full dump. *)
Lemma full_ops_In l idx p :
  In p (iapply_all (flat_map (fun q => [] ++ add_ops hash v (fst q) (snd q)) l) idx) <->
  In p idx \/ (exists id ts t, In (id, ts) l /\ In t ts /\ p = tp id t /\ path_ok p = true).
Proof.
  revert idx. induction l as [|(id & ts) l IH]; intros idx; cbn [flat_map app fst snd].
  - cbn. split; [auto|]. intros [H|(? & ? & ? & [] & _)]; exact H.
  - rewrite iapply_all_app, IH, add_ops_map, adds_In. rewrite in_map_iff. split.
    + intros [[H|((t & <- & Ht) & Hk)]|(i & us & t & H & Ht & E & Hk)]; [now left| |].
      * right. exists id, ts, t. repeat split; auto. now left.
      * right. exists i, us, t. repeat split; auto. now right.
    + intros [H|(i & us & t & [[= <- <-]|H] & Ht & -> & Hk)]; [auto| |].
      * left. right. split; [now exists t|exact Hk].
      * right. now exists i, us, t.
Qed.

(** Incremental dump. *)
Definition step_ops (idx0 : list bytes) (q : bytes * list bytes) : list iop :=
  clear_ops hash v idx0 (fst q) ++ add_ops hash v (fst q) (snd q).
Lemma step_In idx0 id ts idx p : tsorted idx -> (forall q, In q idx0 -> exists i t, q = tp i t /\ path_ok q = true) ->
  In p (iapply_all (step_ops idx0 (id, ts)) idx) <->
  (exists t, In t ts /\ p = tp id t /\ path_ok p = true) \/ (In p idx /\ ~ (In p idx0 /\ dirname p = ip id)).
Proof.
  intros Hs H0. unfold step_ops, clear_ops. cbn [fst snd]. rewrite iapply_all_app, add_ops_map, adds_In, dels_In by exact Hs.
  rewrite filter_In, andb_true_iff, bseq_eq, in_map_iff. split.
  - intros [(A & B)|((t & <- & Ht) & Hk)].
    + right. split; [exact A|]. intros (C & D). apply B. destruct (H0 p C) as (i & t & -> & K). repeat split; auto. apply path_tags.
    + left. exists t. auto.
  - intros [(t & Ht & -> & Hk)|(A & B)].
    + right. split; [now exists t|exact Hk].
    + left. split; [exact A|]. tauto.
Qed.
Lemma inc_ops_In idx0 l : NoDup (map fst l) -> (forall q, In q idx0 -> exists i t, q = tp i t /\ path_ok q = true) ->
  forall idx p, tsorted idx ->
  (forall q id, In q idx -> In id (map fst l) -> dirname q = ip id -> In q idx0) ->
  In p (iapply_all (flat_map (step_ops idx0) l) idx) <->
  (exists id ts t, In (id, ts) l /\ In t ts /\ p = tp id t /\ path_ok p = true) \/
  (In p idx /\ ~ (exists id, In id (map fst l) /\ dirname p = ip id)).
Proof.
  intros Hn H0. induction l as [|(id & ts) l IH]; intros idx p Hs Hsub; cbn [flat_map map fst In] in *.
  - cbn. split; [intros H; right; split; [exact H|intros (? & [] & _)]|]. intros [(? & ? & ? & [] & _)|(H & _)]; exact H.
  - inversion Hn as [|? ? N1 N2]; subst. rewrite iapply_all_app.
    rewrite IH; [|exact N2|now apply iapply_all_sorted|].
    + rewrite step_In by assumption. split.
      * intros [(i & us & t & A & B)|([(t & A & B & C)|(A & B)] & D)].
        -- left. exists i, us, t. split; [now right|exact B].
        -- left. exists id, ts, t. auto.
        -- right. split; [exact A|]. intros (i & [<-|Hi] & E); [|apply D; now exists i]. apply B. split; [|exact E].
           apply Hsub with id; auto.
      * intros [(i & us & t & [[= <- <-]|A] & B & C & D)|(A & B)].
        -- right. split; [left; now exists t|]. intros (i & Hi & E). subst p. rewrite dirname_path in E by exact Hh. apply id_path_inj in E; [|exact Hh]. congruence.
        -- left. exists i, us, t. auto.
        -- right. split; [right; split; [exact A|]|].
           ++ intros (X & Y). apply B. exists id. auto.
           ++ intros (i & Hi & E). apply B. exists i. auto.
    + intros q i Hq Hi E. apply step_In in Hq; [|assumption..]. destruct Hq as [(t & _ & -> & _)|(Hq & _)].
      * rewrite dirname_path in E by exact Hh. apply id_path_inj in E; [|exact Hh]. congruence.
      * apply Hsub with i; auto.
Qed.

Lemma index_exact r db : db_ok props db -> usable prefix db -> cache_valid hash v prefix r db ->
  exists idx, index_tags hash v prefix cfg props r db = Some idx /\ tsorted idx /\
    forall p, In p idx <-> exists id t, tracked prefix db id t /\ p = tp id t.
Proof.
  intros Hd Hu Hc. unfold index_tags. rewrite read_run_dump by exact Hd.
  set (since := incremental prefix r db). set (idx0 := if must_reset prefix r then [] else match r_priv r with Some i => i | None => [] end).
  eexists. split; [reflexivity|].
  assert (UP : forall id t, tracked prefix db id t -> path_ok (tp id t) = true) by (intros id t T; apply path_accepted; [exact Hh|]; now apply Hu).
  assert (M : must_reset prefix r = true /\ since = None \/
     must_reset prefix r = false /\ exists c idx, r_cache r = Some c /\ gc_prefix c = prefix /\ gc_sum c = Some idx /\ r_priv r = Some idx /\ since = Some (gc_lastmod c)).
  { subst since. unfold must_reset, incremental. unfold cache_valid in Hc. destruct (r_cache r) as [c|]; [|now left]. destruct Hc as (C1 & C2).
    destruct (bseq_spec (gc_prefix c) prefix) as [E|E]; cbn [negb andb orb]; [|left; auto].
    destruct (gc_sum c) as [s|] eqn:G; [|congruence]. destruct (sum_eq (Some s) (r_priv r)) eqn:Q; cbn [negb].
    - right. split; [reflexivity|]. apply sum_eq_eq in Q. destruct (C2 E Q) as (U & _ & _). destruct Hd as (_ & Hne & _).
      exists c, s. rewrite U, bseq_refl. rewrite (proj2 (bseq_neq _ _) Hne). cbn. repeat split; auto.
    - left. rewrite !andb_false_r. auto. }
  destruct M as [(M1 & M2)|(M1 & c & idx & E1 & E2 & E3 & E4 & M2)].
  - assert (I0 : idx0 = []) by (unfold idx0; now rewrite M1). rewrite M2, I0.
    split; [apply iapply_all_sorted; constructor|]. intros p. rewrite full_ops_In. split.
    + intros [[]|(id & ts & t & A & B & -> & _)]. apply in_map_iff in A as (m & [= <- <-] & Hm). apply filter_In in Hm as (Hm & Hf).
      unfold dump_match in Hf. apply andb_true_iff in Hf as (Hf & _). apply (proj1 (unprefixed_In _ _)) in B. exists (g_id m), t. split; [now exists m|reflexivity].
    + intros (id & t & T & ->). right. destruct T as (m & A & B & <- & C). exists (g_id m), (unprefixed prefix (g_tags m)), t.
      split; [|split; [now apply unprefixed_In|split; [reflexivity|apply UP; now exists m]]].
      apply in_map_iff. exists m. split; [reflexivity|]. apply filter_In. split; [exact A|]. unfold dump_match. rewrite B. cbn. now apply tracked_match with t.
  - assert (I0 : idx0 = idx) by (unfold idx0; rewrite M1, E4; reflexivity). rewrite M2, I0.
    unfold cache_valid in Hc. rewrite E1 in Hc. destruct Hc as (_ & Hc). destruct (Hc E2 ltac:(congruence)) as (_ & _ & Hc'). destruct (Hc' idx E4) as (Hs & C1 & C2). clear Hc Hc'.
    assert (C1' : forall p, In p idx -> exists m t, In m (g_msgs db) /\ g_mail m = true /\ p = tp (g_id m) t /\ path_ok p = true /\ ((g_mod m <= gc_lastmod c)%N -> In (prefix ++ t) (g_tags m))).
    { intros p X. destruct (C1 p X) as (m & t & A & B & C & D & E & F). apply path_for_iff in C as ->; [|exact Hh]. exists m, t. repeat split; auto. apply path_accepted; auto. }
    split; [apply iapply_all_sorted; exact Hs|]. intros p.
    change (fun q : bytes * list bytes => clear_ops hash v idx (fst q) ++ add_ops hash v (fst q) (snd q)) with (step_ops idx).
    destruct Hd as (Hn & _ & Hd).
    assert (Hid : forall m m', In m (g_msgs db) -> In m' (g_msgs db) -> g_id m = g_id m' -> m = m').
    { clear - Hn. induction (g_msgs db) as [|x l IH]; [intros ? ? []|]. cbn [map] in Hn. inversion Hn as [|? ? N1 N2]; subst.
      intros m m' [<-|A] [<-|B] E; auto; exfalso; apply N1; [rewrite E|rewrite <- E]; now apply in_map. }
    rewrite inc_ops_In; [| | |exact Hs|intros q i Hq _ _; exact Hq].
    + split.
      * intros [(id & ts & t & A & B & -> & _)|(A & B)].
        -- apply in_map_iff in A as (m & [= <- <-] & Hm). apply filter_In in Hm as (Hm & Hf). unfold dump_match in Hf. apply andb_true_iff in Hf as (Hf & _).
           apply (proj1 (unprefixed_In _ _)) in B. exists (g_id m), t. split; [now exists m|reflexivity].
        -- destruct (C1' p A) as (m & t & Hm & Hl & -> & _ & F). exists (g_id m), t. split; [|reflexivity]. exists m. repeat split; auto. apply F.
           destruct (N.le_gt_cases (g_mod m) (gc_lastmod c)) as [G|G]; [exact G|]. exfalso. apply B. exists (g_id m). split; [|now apply dirname_path].
           rewrite map_map. cbn [fst]. apply in_map. apply filter_In. split; [exact Hm|]. unfold dump_match. rewrite Hl. cbn. now apply N.ltb_lt.
      * intros (id & t & (m & Hm & Hl & <- & Ht) & ->). destruct (N.le_gt_cases (g_mod m) (gc_lastmod c)) as [G|G].
        -- right. split.
           ++ destruct (C2 m t Hm Hl G Ht) as (p & P & X). apply path_for_iff in P as ->; assumption.
           ++ intros (i & Hi & E). rewrite dirname_path in E by exact Hh. apply id_path_inj in E; [|exact Hh]. subst i.
              rewrite map_map in Hi. cbn [fst] in Hi. apply in_map_iff in Hi as (m' & E' & Hm'). apply filter_In in Hm' as (Hm' & Hf).
              assert (m' = m) by (apply Hid; auto). subst m'. unfold dump_match in Hf. rewrite Hl in Hf. cbn in Hf. apply N.ltb_lt in Hf. lia.
        -- left. exists (g_id m), (unprefixed prefix (g_tags m)), t. split; [|split; [now apply unprefixed_In|split; [reflexivity|apply UP; now exists m]]].
           apply in_map_iff. exists m. split; [reflexivity|]. apply filter_In. split; [exact Hm|]. unfold dump_match. rewrite Hl. cbn. now apply N.ltb_lt.
    + rewrite map_map. cbn [fst]. clear - Hn. induction (g_msgs db) as [|x l IH]; [constructor|]. cbn [map] in Hn. inversion Hn as [|? ? N1 N2]; subst.
      cbn [filter]. destruct (dump_match prefix (Some (gc_lastmod c)) x); [|now apply IH]. cbn [map]. constructor; [|now apply IH].
      intros X. apply N1. apply in_map_iff in X as (m & E & Hm). apply filter_In in Hm as (Hm & _). rewrite <- E. now apply in_map.
    + intros q X. destruct (C1' q X) as (m & t & _ & _ & E & K & _). exists (g_id m), t. auto.
Qed.
End S.
