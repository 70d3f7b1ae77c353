From Verif Require Import Bytes Terms Meta Regexp RegexpSpec.
From Coq Require Import Sorted.
Local Open Scope N_scope.

Section P.
Variable re : bytes -> bool.
Notation entry := (N * bytes)%type (only parsing).
Definition hit (e : entry) : bool := re (c_str (snd e)).

Fixpoint asc (l : list entry) : Prop :=
  match l with [] => True | e :: l' => (forall x, In x l' -> fst e < fst x) /\ asc l' end.
Lemma asc_app a b : asc (a ++ b) -> asc a /\ asc b /\ forall x y, In x a -> In y b -> fst x < fst y.
Proof.
  induction a as [|e a IH]; cbn; [intros H; repeat split; trivial; intros ? ? []|].
  intros [H1 H2]. destruct (IH H2) as (A & B & C). repeat split; trivial.
  - intros x Hx. apply H1. apply in_or_app; now left.
  - intros x y [<- |Hx] Hy; [apply H1, in_or_app; now right|now apply C].
Qed.
Lemma stream_asc slot db : ascending db -> asc (valuestream slot db).
Proof.
  unfold valuestream. induction db as [|d db IH]; cbn; [trivial|]. intros [H1 H2].
  destruct (negb _); cbn; [|now apply IH]. split; [|now apply IH].
  intros x Hx. apply in_map_iff in Hx as (e & <- & He). apply filter_In in He as [He _]. now apply H1.
Qed.
Definition PM (M : list entry) (did : N) : Prop := exists v, In (did, v) M /\ hit (did, v) = true.
Lemma PM_stream slot db did : PM (valuestream slot db) did <-> value_matches re slot db did.
Proof.
  unfold PM, value_matches, valuestream, hit. split.
  - intros (v & H & E). apply in_map_iff in H as (d & X & H). injection X as <- <-. apply filter_In in H as [H N0].
    exists d. repeat split; trivial. intros Z. rewrite Z in N0. discriminate N0.
  - intros (d & H & <- & Hn & E). exists (rd_value d slot). split; [|exact E].
    apply in_map_iff. exists d. split; [reflexivity|]. apply filter_In. split; [exact H|].
    destruct (rd_value d slot); [congruence|reflexivity].
Qed.

(** drop_below and scan as suffixes. *)
Lemma drop_split did l : exists pre, l = pre ++ drop_below did l /\ (forall x, In x pre -> fst x < did) /\
  (asc l -> forall x, In x (drop_below did l) -> did <= fst x).
Proof.
  induction l as [|e l IH]; cbn.
  - exists []. repeat split; intros; contradiction.
  - destruct (fst e <? did) eqn:E.
    + destruct IH as (pre & E1 & H1 & H2). exists (e :: pre). split; [cbn; now rewrite <- E1|]. split.
      * intros x [<- |Hx]; [now apply N.ltb_lt|now apply H1].
      * intros [_ A]. now apply H2.
    + exists []. split; [reflexivity|]. split; [intros x []|]. intros [A _] x [<- |Hx]; [now apply N.ltb_ge|].
      apply N.ltb_ge in E. specialize (A x Hx). lia.
Qed.
Lemma scan_split l : exists pre, l = pre ++ scan re l /\ (forall x, In x pre -> hit x = false) /\
  (forall e l', scan re l = e :: l' -> hit e = true).
Proof.
  induction l as [|e l IH]; cbn.
  - exists []. repeat split; [intros x []|discriminate].
  - destruct (re (c_str (snd e))) eqn:E.
    + exists []. repeat split; [intros x []|]. now intros ? ? [= <- _].
    + destruct IH as (pre & E1 & H1 & H2). exists (e :: pre). split; [cbn; now rewrite <- E1|]. split; [|exact H2].
      intros x [<- |Hx]; [exact E|now apply H1].
Qed.

(** The invariant: what is left, and the bound between what is passed and what is left. *)
Definition inv (M : list entry) (lo : N) (r : list entry) : Prop :=
  exists pre, M = pre ++ r /\ (forall x, In x pre -> hit x = true -> fst x < lo) /\ (forall x, In x r -> hit x = true -> lo <= fst x).

Lemma inv_scan M lo r : inv M lo r -> inv M lo (scan re r).
Proof.
  intros (pre & E & H1 & H2). destruct (scan_split r) as (p2 & E2 & H3 & _). exists (pre ++ p2).
  split; [now rewrite <- app_assoc, <- E2|]. split.
  - intros x Hx Hh. apply in_app_or in Hx as [Hx|Hx]; [now apply H1|]. rewrite (H3 x Hx) in Hh. discriminate.
  - intros x Hx. apply H2. rewrite E2. apply in_or_app; now right.
Qed.
Lemma inv_drop M lo did r : asc M -> inv M lo r -> inv M (N.max did lo) (drop_below did r).
Proof.
  intros A (pre & E & H1 & H2). subst M. destruct (asc_app _ _ A) as (_ & Ar & _).
  destruct (drop_split did r) as (p2 & E2 & H3 & H4). exists (pre ++ p2).
  split; [now rewrite <- app_assoc, <- E2|]. split.
  - intros x Hx Hh. apply in_app_or in Hx as [Hx|Hx]; [specialize (H1 x Hx Hh)|specialize (H3 x Hx)]; lia.
  - intros x Hx Hh. specialize (H4 Ar x Hx). assert (In x r) by (rewrite E2; apply in_or_app; now right). specialize (H2 x H Hh). lia.
Qed.
Lemma inv_tl M lo e r : asc M -> inv M lo (e :: r) -> (hit e = true -> lo <= fst e) -> inv M (N.max lo (fst e + 1)) r.
Proof.
  intros A (pre & E & H1 & H2) He. exists (pre ++ [e]). split; [now rewrite <- app_assoc|]. subst M.
  destruct (asc_app _ _ A) as (_ & [B _] & _). split.
  - intros x Hx Hh. apply in_app_or in Hx as [Hx|[<- |[]]]; [specialize (H1 x Hx Hh)|]; lia.
  - intros x Hx Hh. specialize (H2 x (or_intror Hx) Hh). specialize (B x Hx). lia.
Qed.
Lemma inv_tl_miss M lo e r : inv M lo (e :: r) -> hit e = false -> inv M lo r.
Proof.
  intros (pre & E & H1 & H2) He. exists (pre ++ [e]). split; [now rewrite <- app_assoc|]. split.
  - intros x Hx Hh. apply in_app_or in Hx as [Hx|[<- |[]]]; [now apply H1|congruence].
  - intros x Hx. apply H2. now right.
Qed.

(** Reading off the answer. *)
Definition here (r : list entry) : answer := match r with [] => AtEnd | e :: _ => Document (fst e) end.
Lemma least_here M lo r : asc M -> inv M lo r -> (forall e l', r = e :: l' -> hit e = true) -> least (PM M) lo (here r).
Proof.
  intros A (pre & E & H1 & H2) Hh. subst M. destruct r as [|e r]; cbn.
  - intros d (v & Hv & Hit) Hle. rewrite app_nil_r in Hv. specialize (H1 _ Hv Hit). cbn in H1. lia.
  - specialize (Hh e r eq_refl). repeat split.
    + exists (snd e). destruct e as [d v]. split; [apply in_or_app; right; now left|exact Hh].
    + apply H2; [now left|exact Hh].
    + intros d (v & Hv & Hit) Hle. apply in_app_or in Hv as [Hv|[Hv|Hv]].
      * specialize (H1 _ Hv Hit). cbn in H1. lia.
      * subst e. cbn. lia.
      * destruct (asc_app _ _ A) as (_ & [B _] & _). specialize (B _ Hv). cbn in B. lia.
Qed.

(** The source stands at a place. *)
Definition stands (M : list entry) (pl : place) (s : source) : Prop :=
  match pl with
  | Before => s = mk_source false (At M)
  | On d => exists v l, s = mk_source true (At ((d, v) :: l)) /\ hit (d, v) = true /\ inv M d ((d, v) :: l)
  | After d => s_started s = true /\ inv M (d + 1) (rest (s_it s)) /\
      match s_it s with At (e :: _) => hit e = false | _ => True end
  | Done => s = mk_source true (At [])
  end.

Lemma inv_all M : inv M 0 M.
Proof. exists []. repeat split; [intros x []|]. intros; lia. Qed.
Lemma inv_up M lo lo' d v l : asc M -> inv M lo ((d, v) :: l) -> lo <= d -> lo' = d -> inv M lo' ((d, v) :: l).
Proof.
  intros A (pre & E & H1 & H2) Hle ->. exists pre. split; [exact E|]. subst M. destruct (asc_app _ _ A) as (_ & [B _] & _). split.
  - intros x Hx Hh. specialize (H1 x Hx Hh). lia.
  - intros x [<- |Hx] Hh; [cbn; lia|]. specialize (B x Hx). cbn in B. lia.
Qed.
Lemma stands_scan M lo r : asc M -> inv M lo r -> stands M (place_of (here (scan re r))) (mk_source true (At (scan re r))) /\ least (PM M) lo (here (scan re r)).
Proof.
  intros A H. apply inv_scan in H. destruct (scan_split r) as (_ & _ & _ & Hh). pose proof (least_here _ _ _ A H Hh) as L. split; [|exact L].
  destruct (scan re r) as [|[d v] l]; cbn; [reflexivity|]. exists v, l. split; [reflexivity|]. specialize (Hh _ _ eq_refl). split; [exact Hh|].
  cbn in L. destruct L as (_ & L & _). now apply (inv_up M lo).
Qed.
Lemma where_now_scan r : where_now (mk_source true (At r)) = Some (here r).
Proof. now destruct r as [|[d v] r]. Qed.

Lemma stands_inv M pl s : pl <> Done -> stands M pl s -> inv M (floor pl) (rest (s_it s)).
Proof.
  destruct pl as [|d|d|]; cbn; intros Hd H.
  - subst s. apply inv_all.
  - destruct H as (v & l & -> & _ & H). exact H.
  - destruct H as (_ & H & _). exact H.
  - congruence.
Qed.

Lemma call_correct M pl s c : asc M -> stands M pl s -> allowed pl c ->
  exists a s', do_call re c s = Some (a, s') /\ step (PM M) pl c a (place_after c a) /\ stands M (place_after c a) s'.
Proof.
  intros A Hs [Hd Hc]. destruct c as [|did|did lazy].
  - (* next *)
    cbn [do_call]. unfold next.
    assert (G : exists r lo, (if s_started s && negb (at_end s) then it_next (s_it s) else Some (s_it s)) = Some (At r) /\ inv M lo r /\
                (forall a, least (PM M) lo a -> step (PM M) pl Next a (place_of a))).
    { destruct pl as [|d|d|]; cbn in Hs.
      - subst s. exists M, 0. split; [reflexivity|]. split; [apply inv_all|]. intros. now constructor.
      - destruct Hs as (v & l & -> & Hh & H). exists l, (d + 1). cbn. split; [reflexivity|]. split; [|intros; now constructor].
        pose proof (inv_tl M d (d, v) l A H) as T. cbn in T. replace (N.max d (d + 1)) with (d + 1) in T by lia. apply T. intros _. lia.
      - destruct s as [st it]. cbn in Hs. destruct Hs as (-> & H & Hh). unfold at_end. cbn [s_started s_it].
        destruct it as [[|e l]|l]; cbn in *.
        + exists [], (d + 1). split; [reflexivity|]. split; [exact H|]. intros; now constructor.
        + exists l, (d + 1). split; [reflexivity|]. split; [now apply (inv_tl_miss M _ e)|]. intros; now constructor.
        + exists l, (d + 1). split; [reflexivity|]. split; [exact H|]. intros; now constructor.
      - congruence. }
    destruct G as (r & lo & E & I & K). rewrite E, where_now_scan. destruct (stands_scan M lo r A I) as (S1 & S2).
    eexists _, _. split; [reflexivity|]. assert (Epl : place_after Next (here (scan re r)) = place_of (here (scan re r))) by now destruct (scan re r).
    rewrite Epl. split; [now apply K|exact S1].
  - cbn [do_call]. unfold skip_to_doc, it_skip_to. rewrite where_now_scan.
    pose proof (inv_drop M _ did _ A (stands_inv M pl s Hd Hs)) as I. destruct (stands_scan M _ _ A I) as (S1 & S2).
    eexists _, _. split; [reflexivity|].
    assert (Epl : place_after (SkipTo did) (here (scan re (drop_below did (rest (s_it s))))) = place_of (here (scan re (drop_below did (rest (s_it s)))))) by now destruct (scan re (drop_below did (rest (s_it s)))).
    rewrite Epl. split; [now apply step_skip|exact S1].
  - pose proof (inv_drop M _ did _ A (stands_inv M pl s Hd Hs)) as I. replace (N.max did (floor pl)) with did in I by lia.
    cbn [do_call]. unfold check, it_check.
    assert (Ar : asc (rest (s_it s)) /\ True).
    { split; [|trivial]. pose proof (stands_inv M pl s Hd Hs) as (p & E & _). subst M. now apply asc_app in A. }
    destruct (drop_split did (rest (s_it s))) as (_ & _ & _ & Hge). specialize (Hge (proj1 Ar)).
    assert (Asub : asc (drop_below did (rest (s_it s)))).
    { destruct I as (p & E & _). rewrite E in A. now apply asc_app in A. }
    remember (drop_below did (rest (s_it s))) as r eqn:Er. clear Er.
    assert (MISS : forall e l, r = e :: l -> hit e = false -> inv M (did + 1) r).
    { intros e l -> He. destruct I as (p & E & H1 & H2). exists p. split; [exact E|]. split.
      - intros x Hx Hh. specialize (H1 x Hx Hh). lia.
      - intros x [<- |Hx] Hh; [congruence|]. destruct Asub as [B _]. specialize (B x Hx). specialize (Hge e (or_introl eq_refl)). lia. }
    assert (NOT : (forall x, In x r -> hit x = true -> did < fst x) -> ~ PM M did).
    { intros H (v & Hv & Hit). destruct I as (p & E & H1 & _). subst M. apply in_app_or in Hv as [Hv|Hv].
      - specialize (H1 _ Hv Hit). cbn in H1. lia.
      - specialize (H _ Hv Hit). cbn in H. lia. }
    assert (NOT2 : (forall x, In x r -> hit x = true -> did < fst x) -> inv M (did + 1) r).
    { intros H. destruct I as (p & E & H1 & _). exists p. split; [exact E|]. split.
      - intros x Hx Hh. specialize (H1 x Hx Hh). lia.
      - intros x Hx Hh. specialize (H x Hx Hh). lia. }
    destruct r as [|[d v] l].
    + assert (N1 : ~ PM M did) by (apply NOT; intros x []). assert (N2 : inv M (did + 1) []) by (apply NOT2; intros x []).
      destruct lazy; (eexists _, _; split; [reflexivity|]; split; [now apply step_check_no|cbn; repeat split; trivial]).
    + destruct (lazy && negb (d =? did)) eqn:L.
      * apply andb_prop in L as [_ L]. apply negb_true_iff, N.eqb_neq in L.
        assert (Hgt : forall x, In x ((d, v) :: l) -> hit x = true -> did < fst x).
        { intros x [<- |Hx] _; cbn.
          - specialize (Hge (d, v) (or_introl eq_refl)). cbn in Hge. lia.
          - destruct Asub as [B _]. specialize (B x Hx). specialize (Hge (d, v) (or_introl eq_refl)). cbn in *. lia. }
        eexists _, _. split; [reflexivity|]. split; [apply step_check_no; [exact Hd|now apply NOT]|]. cbn. repeat split; trivial. now apply NOT2.
      * clear L. destruct (re (c_str (snd (d, v)))) eqn:H.
        -- eexists _, _. split; [reflexivity|]. cbn [fst place_after]. assert (LH : least (PM M) did (Document d)).
           { apply (least_here M did ((d, v) :: l) A I). now intros ? ? [= <- _]. }
           split; [now apply step_check_yes|]. cbn. exists v, l. split; [reflexivity|]. split; [exact H|]. cbn in LH. destruct LH as (_ & LH & _). now apply (inv_up M did).
        -- eexists _, _. split; [reflexivity|]. cbn [place_after]. split.
           ++ apply step_check_no; [exact Hd|]. apply NOT. intros x [<- |Hx] Hh; [unfold hit in Hh; congruence|].
              destruct Asub as [B _]. specialize (B x Hx). specialize (Hge (d, v) (or_introl eq_refl)). cbn in *. lia.
           ++ cbn. repeat split; trivial. now apply (MISS (d, v) l).
Qed.

Lemma calls_answered M : asc M -> forall cs pl s, stands M pl s ->
  (forall l, do_calls re cs s = Some l -> obeys pl cs l -> steps (PM M) pl cs l).
Proof.
  intros A. induction cs as [|c cs IH]; intros pl s Hs l E Ho.
  - injection E as <-. constructor.
  - cbn in E. destruct (do_call re c s) as [[a s']|] eqn:D; [|discriminate].
    destruct (do_calls re cs s') as [l'|] eqn:E2; [|discriminate]. injection E as <-. destruct Ho as [Ha Ho].
    destruct (call_correct M pl s c A Hs Ha) as (a' & s'' & D' & ST & S'). rewrite D in D'. injection D' as <- <-.
    econstructor; [exact ST|]. eapply IH; eauto.
Qed.

(** Draining. *)
Lemma drain_list M : asc M -> forall fuel r s, (length r < fuel)%nat ->
  (s_started s = false /\ s_it s = At r \/ s_started s = true /\ exists e, s_it s = At (e :: r)) ->
  drain re fuel s = Some (map fst (filter hit r)).
Proof.
  intros A. induction fuel as [|f IH]; intros r s Hl Hs; [lia|]. cbn [drain do_call].
  assert (E : next re s = Some (mk_source true (At (scan re r)))).
  { unfold next, at_end. destruct s as [st it]. cbn in *. destruct Hs as [[-> ->]|[-> (e & ->)]]; reflexivity. }
  rewrite E, where_now_scan. clear E Hs.
  assert (F : filter hit r = filter hit (scan re r)).
  { destruct (scan_split r) as (p & E & Hm & _). rewrite E at 1. rewrite filter_app.
    assert (X : filter hit p = []); [|now rewrite X]. clear E. induction p as [|x p IHp]; [reflexivity|]. cbn. rewrite (Hm x (or_introl eq_refl)). apply IHp. intros y Hy. apply Hm. now right. }
  rewrite F. destruct (scan_split r) as (p & E & _ & Hh). destruct (scan re r) as [|e l]; cbn [here]; [reflexivity|].
  cbn [filter]. rewrite (Hh e l eq_refl). cbn [map]. rewrite (IH l); [reflexivity| |right; split; [reflexivity|now exists e]].
  apply (f_equal (@length entry)) in E. rewrite app_length in E. cbn in E. lia.
Qed.
Lemma source_docids_eq slot db : ascending db -> source_docids re slot db = Some (map fst (filter hit (valuestream slot db))).
Proof.
  intros A. unfold source_docids. apply (drain_list _ (stream_asc slot db A)).
  - unfold valuestream. rewrite map_length. assert (H : forall (f : rdoc -> bool) l, (length (filter f l) <= length l)%nat).
    { intros f l. induction l as [|x l IH]; cbn; [lia|]. destruct (f x); cbn; lia. }
    specialize (H (fun d => negb (bseq (rd_value d slot) [])) db). lia.
  - left. now split.
Qed.
Lemma source_In slot db did : ascending db -> exists l, source_docids re slot db = Some l /\ (In did l <-> value_matches re slot db did).
Proof.
  intros A. eexists. split; [now apply source_docids_eq|]. rewrite <- PM_stream. unfold PM. rewrite in_map_iff. split.
  - intros ([d v] & <- & H). apply filter_In in H as [H1 H2]. now exists v.
  - intros (v & H1 & H2). exists (did, v). split; [reflexivity|]. now apply filter_In.
Qed.
Lemma source_sorted slot db l : ascending db -> source_docids re slot db = Some l -> StronglySorted N.lt l.
Proof.
  intros A. rewrite source_docids_eq by exact A. intros [= <-]. pose proof (stream_asc slot db A) as H.
  induction (valuestream slot db) as [|e r IH]; cbn; [constructor|]. destruct H as [H1 H2]. specialize (IH H2).
  destruct (hit e); [|exact IH]. cbn. constructor; [exact IH|]. rewrite Forall_forall. intros x Hx.
  apply in_map_iff in Hx as (y & <- & Hy). apply filter_In in Hy as [Hy _]. now apply H1.
Qed.
End P.
