(** C91: Emacs: a tag change made in a search view reaches exactly the messages of the lines in the region. *)
From Verif Require Import Bytes Terms Meta DocMap Db StrUtil TagOps TagOpsSpec TagLine SearchCmd EmacsTag EmacsTagSpec EmacsTagProofs EmacsTagProofs2 P_EmacsTag EmacsSearch EmacsSearchSpec EmacsSearchProofs EmacsSearchProofs2.
Local Open Scope nat_scope.

Lemma meets_len {draw l beg end_ i} : meets draw l beg end_ i -> i < length l. Proof. now intros [H _]. Qed.
Lemma nth_mid {A} (pre mid post : list A) i x : length pre <= i < length pre + length mid -> nth_error (pre ++ mid ++ post) i = Some x -> In x mid.
Proof. intros H E. rewrite nth_error_app2, nth_error_app1 in E by lia. now apply nth_error_In in E. Qed.
Lemma mid_nth {A} (pre mid post : list A) x : In x mid -> exists i, length pre <= i < length pre + length mid /\ nth_error (pre ++ mid ++ post) i = Some x.
Proof.
  intros I. apply In_nth_error in I. destruct I as (k & E). assert (k < length mid) by (apply nth_error_Some; congruence). exists (length pre + k). split; [lia|].
  rewrite nth_error_app2, nth_error_app1 by lia. now replace (length pre + k - length pre) with k by lia.
Qed.

(** The query sent names exactly the messages of the lines that meet the region (or the matched ones), however Emacs finds
    those lines; there is none if there is no such message. *)
Theorem C91_query :
  forall draw l rest ts beg end_ only, 1 <= beg -> shows l ts ->
  match stable_query draw {| v_lines := l; v_rest := rest |} beg end_ only with
  | Some q => exists ids, disjunction q = Some ids /\
      forall id, In id ids <-> exists i t m, meets draw l beg end_ i /\ nth_error ts i = Some t /\ In (id, m) t /\ (only = true -> m = true)
  | None => forall i t id m, meets draw l beg end_ i -> nth_error ts i = Some t -> In (id, m) t -> only = true /\ m = false
  end.
Proof.
  intros draw l rest ts beg end_ only Hb Sh. destruct (stable_query_text draw l rest ts beg end_ only Hb Sh) as (a & b & c & -> & M & ->).
  assert (Ids : forall id, In id (concat (flat_map (gl only) b)) <-> exists i t m, meets draw l beg end_ i /\ nth_error (a ++ b ++ c) i = Some t /\ In (id, m) t /\ (only = true -> m = true)).
  { intros id. assert (X : In id (concat (flat_map (gl only) b)) <-> exists t, In t b /\ In id (concat (gl only t))).
    { clear. induction b as [|t b IH]; cbn; [split; [intros []|intros (? & [] & _)]|]. rewrite concat_app, in_app_iff, IH. split.
      - intros [I|(u & I & J)]; eauto.
      - intros (u & [<- |I] & J); eauto. }
    rewrite X. split.
    - intros (t & I & J). apply gl_ids in J. destruct J as (m & J & K). destruct (mid_nth a b c t I) as (i & L & E). exists i, t, m. split; [now apply M|auto].
    - intros (i & t & m & Me & E & J & K). apply M in Me. exists t. split; [now apply (nth_mid a b c i)|]. apply gl_ids. eauto. }
  destruct (flat_map (gl only) b) as [|g gs] eqn:E.
  - intros i t id m Me Et I. destruct only, m; auto; exfalso; apply (Ids id); eexists _, _, _; (split; [exact Me|]; split; [exact Et|]; split; [exact I|congruence]).
  - exists (concat (g :: gs)). split; [apply disjunction_whole; discriminate|exact Ids].
Qed.
Print Assumptions C91_query.

(** Tagging the lines in a region: the messages shown in the lines that meet it get the operations, in one command; no
    other message is touched, such as one that has joined a thread since.  Without any message nothing is run. *)
Theorem C91_messages :
  forall draw eval thr changes ops l rest ts beg end_ only e,
  1 <= beg -> shows l ts -> ids_plain ts -> reads_disjunctions eval ->
  Forall2 says changes ops -> Forall plain_op ops -> Forall tagop_valid ops -> changes <> [] -> sound (e_store e) ->
  let v := {| v_lines := l; v_rest := rest |} in
  ((exists i t id m, meets draw l beg end_ i /\ nth_error ts i = Some t /\ In (id, m) t /\ (only = true -> m = true)) ->
   exists e' v', search_tag draw eval thr changes v beg end_ only e = (E_ok, e', v') /\ sound (e_store e') /\
     (exists q, e_history e' = (q, changes) :: e_history e) /\
     forall k d, dget k (st_docs (e_store e)) = Some d -> forall t,
       (addressed draw l ts beg end_ only d -> (tagged (e_store e') k t <-> tag_after false ops (tagged (e_store e) k) t)) /\
       (~ addressed draw l ts beg end_ only d -> (tagged (e_store e') k t <-> tagged (e_store e) k t))) /\
  ((forall i t id m, meets draw l beg end_ i -> nth_error ts i = Some t -> In (id, m) t -> only = true /\ m = false) ->
   search_tag draw eval thr changes v beg end_ only e = (E_refused, e, v)).
Proof.
  intros draw eval thr changes ops l rest ts beg end_ only e Hb Sh Pl Rd F P V Ne St v.
  pose proof (C91_query draw l rest ts beg end_ only Hb Sh) as Q. fold v in Q.
  pose proof (stable_query_text draw l rest ts beg end_ only Hb Sh) as T. fold v in T.
  unfold search_tag. destruct (stable_query draw v beg end_ only) as [q|]; split.
  - intros _. destruct Q as (ids & D & I). destruct (Rd q ids D) as (qq & Ev & Qq).
    assert (LQ : line_query q q).
    { destruct T as (a & b & c & Ets & M & T). destruct (flat_map (gl only) b) as [|g gs] eqn:E; [discriminate T|]. injection T as ->.
      rewrite disjunction_whole in D by discriminate. assert (Ei : concat (g :: gs) = ids) by congruence.
      apply whole_line. intros id J x Jx. rewrite Ei in J. apply I in J. destruct J as (i & t & m & _ & Et & J & _). apply nth_error_In in Et. exact (Pl t id m Et J x Jx). }
    destruct (C79_tag_effect eval thr changes ops q q qq false e F P V LQ Ne Ev St) as (e' & A & B & H & _ & D1 & D2).
    rewrite A. eexists _, _. split; [reflexivity|]. split; [exact B|]. split; [eauto|]. intros k d Ed t.
    assert (Sel : selected qq (e_store e) k <-> addressed draw l ts beg end_ only d).
    { unfold selected, addressed. split.
      - intros (d' & E' & X). rewrite Ed in E'. injection E' as <-. rewrite Qq in X. apply existsb_exists in X. destruct X as (id & J & X). apply I in J. destruct J as (i & u & m & J1 & J2 & J3 & J4).
        exists i, u, id, m. repeat (split; [assumption|]). unfold has_idb in X. apply existsb_exists in X. destruct X as (y & Y1 & Y2). apply bseq_eq in Y2. unfold has_id. now rewrite Y2.
      - intros (i & u & id & m & J1 & J2 & J3 & J4 & J5). exists d. split; [exact Ed|]. rewrite Qq. apply existsb_exists. exists id. split; [apply I; eauto 8|]. unfold has_idb. apply existsb_exists. eexists. split; [exact J5|now apply bseq_eq]. }
    split; intros X; [apply D1; now apply Sel|apply D2; now rewrite Sel].
  - intros N. destruct Q as (ids & D & I). exfalso. destruct T as (a & b & c & Ets & M & T). destruct (flat_map (gl only) b) as [|g gs] eqn:E; [discriminate T|].
    injection T as ->. rewrite disjunction_whole in D by discriminate. assert (Ei : concat (g :: gs) = ids) by congruence.
    assert (Gn : g <> []).
    { assert (In g (flat_map (gl only) b)) as X by (rewrite E; now left). apply in_flat_map in X. destruct X as (t & _ & X). unfold gl in X. intros ->.
      apply in_app_or in X. destruct X as [X|X]; [destruct only; [destruct X|]|]; [destruct (others t)|destruct (matched t)]; cbn in X; intuition discriminate. }
    destruct g as [|id g]; [now elim Gn|]. destruct (proj1 (I id)) as (i & t & m & J1 & J2 & J3 & J4); [rewrite <- Ei; now left|].
    destruct (N i t id m J1 J2 J3) as [O ->]. now specialize (J4 O).
  - intros (i & t & id & m & J1 & J2 & J3 & J4). exfalso. destruct (Q i t id m J1 J2 J3) as [O ->]. now specialize (J4 O).
  - intros _. rewrite C79_refused by now right. reflexivity.
Qed.
Print Assumptions C91_messages.

(** Which lines are drawn again, and with which tags: those that meet the region, although the lines change their width
    while it happens. *)
Theorem C91_lines :
  forall draw changes ops v beg end_ i r, 1 <= beg -> Forall2 says changes ops ->
  nth_error (v_lines v) i = Some r -> NoDup (r_tags r) ->
  exists r', nth_error (v_lines (retag draw changes v beg end_)) i = Some r' /\ r_query r' = r_query r /\ r_matched r' = r_matched r /\
    (~ meets draw (v_lines v) beg end_ i -> r' = r) /\
    (meets draw (v_lines v) beg end_ i -> tsorted (r_tags r') /\ forall t, In t (r_tags r') <-> tag_after false ops (fun u => In u (r_tags r)) t).
Proof.
  intros draw changes ops [l rest] beg end_ i r Hb F E N. cbn [v_lines] in *. destruct (retag_text draw changes l rest beg end_ Hb) as (a & b & c & El & M & ->). cbn [v_lines]. subst l.
  destruct (el_update_spec changes ops F (r_tags r) N) as (tg & L1 & L2 & L3). destruct (el_sort_spec tg L2) as [S1 S2].
  assert (Nt : new_tags changes r = {| r_matched := r_matched r; r_query := r_query r; r_tags := el_sort tg |}) by (unfold new_tags, el_update_tags; now rewrite L1).
  destruct (Nat.lt_ge_cases i (length a)) as [H|H]; [|destruct (Nat.lt_ge_cases i (length a + length b)) as [H'|H']].
  - exists r. rewrite nth_error_app1 in * by lia. do 3 (split; [auto; fail|]). split; [auto|]. intros X. apply M in X. lia.
  - exists (new_tags changes r). rewrite nth_error_app2, nth_error_app1 in * by (rewrite ?map_length; lia). split; [now apply map_nth_error|]. rewrite Nt. cbn [r_query r_matched r_tags].
    split; [reflexivity|]. split; [reflexivity|]. split; [intros X; elim X; apply M; lia|]. intros _. split; [exact S1|]. intros t. now rewrite S2, L3.
  - exists r. rewrite nth_error_app2, nth_error_app2 in * by (rewrite ?map_length; lia). rewrite map_length. do 3 (split; [auto; fail|]). split; [auto|]. intros X. apply M in X. lia.
Qed.
Print Assumptions C91_lines.

Lemma after_union {K} (In_ : K -> Prop) (P : K -> bytes -> Prop) ops t k0 : In_ k0 ->
  (tag_after false ops (fun u => exists k, In_ k /\ P k u) t <-> exists k, In_ k /\ tag_after false ops (P k) t).
Proof.
  intros H0. unfold tag_after. split.
  - intros [H|(H & _ & k & Hk & Hp)]; [exists k0; auto|exists k; auto].
  - intros (k & Hk & [H|(H & _ & Hp)]); [now left|right; eauto 6].
Qed.
(** A line that showed the tags of the messages of its thread shows them afterwards, if all of them were addressed. *)
Theorem C91_display :
  forall draw eval thr changes ops l rest ts beg end_ only e i r t,
  1 <= beg -> shows l ts -> ids_plain ts -> reads_disjunctions eval ->
  Forall2 says changes ops -> Forall plain_op ops -> Forall tagop_valid ops -> changes <> [] -> sound (e_store e) ->
  nth_error l i = Some r -> nth_error ts i = Some t -> meets draw l beg end_ i -> (only = true -> forall id m, In (id, m) t -> m = true) ->
  let member k := exists d id m, dget k (st_docs (e_store e)) = Some d /\ In (id, m) t /\ has_id id d in
  NoDup (r_tags r) -> (exists k, member k) -> (forall g, In g (r_tags r) <-> exists k, member k /\ tagged (e_store e) k g) ->
  exists e' v' r', search_tag draw eval thr changes {| v_lines := l; v_rest := rest |} beg end_ only e = (E_ok, e', v') /\
    nth_error (v_lines v') i = Some r' /\ forall g, In g (r_tags r') <-> exists k, member k /\ tagged (e_store e') k g.
Proof.
  intros draw eval thr changes ops l rest ts beg end_ only e i r t Hb Sh Pl Rd F P V Ne St Er Et Me All member N (k0 & K0) Sh0.
  destruct (C91_messages draw eval thr changes ops l rest ts beg end_ only e Hb Sh Pl Rd F P V Ne St) as [H _].
  destruct K0 as (d0 & id0 & m0 & D0 & I0 & J0). destruct H as (e' & v' & A & _ & _ & B).
  { exists i, t, id0, m0. repeat (split; [assumption|]). intros O. exact (All O _ _ I0). }
  assert (Ev : v' = retag draw changes {| v_lines := l; v_rest := rest |} beg end_).
  { unfold search_tag in A. destruct (el_tag _ _ _ _ _ _) as [[]]; congruence. }
  destruct (C91_lines draw changes ops {| v_lines := l; v_rest := rest |} beg end_ i r Hb F Er N) as (r' & R1 & _ & _ & _ & R2).
  destruct (R2 Me) as [_ R3]. exists e', v', r'. split; [exact A|]. split; [now rewrite Ev|]. intros g. rewrite R3.
  rewrite (tag_after_ext ops _ (fun u => exists k, member k /\ tagged (e_store e) k u) g Sh0).
  rewrite (after_union member (tagged (e_store e)) ops g k0) by (exists d0, id0, m0; auto).
  split; intros (k & (d & id & m & D & I & J) & X); exists k; (split; [exists d, id, m; auto|]); (assert (Ad : addressed draw l ts beg end_ only d) by (exists i, t, id, m; repeat (split; [assumption|]); split; [intros O; exact (All O _ _ I)|exact J])).
  - now apply (proj2 (proj1 (B k d D g) Ad)).
  - now apply (proj1 (proj1 (B k d D g) Ad)).
Qed.
Print Assumptions C91_display.

(** "*" and archiving. *)
Lemma sums_mono (f : result -> nat) l i : list_sum (map f (firstn i l)) <= list_sum (map f l).
Proof. revert l. induction i as [|i IH]; intros [|r l]; cbn; try lia. specialize (IH l). unfold list_sum in IH. lia. Qed.
Theorem C91_tag_all :
  forall draw l rest i, meets draw l 1 (point_max draw {| v_lines := l; v_rest := rest |}) i <-> i < length l.
Proof.
  intros draw l rest i. split; [apply meets_len|]. intros L. split; [exact L|]. exists (start draw l i).
  destruct (nth_error l i) as [r|] eqn:E; [|apply nth_error_None in E; lia].
  assert (X := W_firstn_step draw l i r E). pose proof (width_pos draw r). rewrite !start_W. split; [lia|]. split; [|lia]. right. unfold point_max. cbn [v_lines v_rest].
  change (list_sum (map (width draw) l)) with (W draw l). assert (Y := sums_mono (width draw) l (S i)). unfold W in *. lia.
Qed.
Print Assumptions C91_tag_all.
(** With the tag changes of notmuch-archive-tags, "a" makes these changes and C-u a the opposite ones (C91_messages says to
    which messages); without any it does nothing. *)
Theorem C91_archive :
  forall draw eval thr tags ops unarchive v beg end_ e, Forall2 says tags ops -> Forall plain_op ops ->
  Forall2 says (el_change_list tags unarchive) (if unarchive then map opposite ops else ops) /\ search_archive draw eval thr tags unarchive v beg end_ e =
    if Nat.eqb (length tags) 0 then (E_ok, e, v) else search_tag draw eval thr (el_change_list tags unarchive) v beg end_ false e.
Proof.
  intros draw eval thr tags ops unarchive v beg end_ e F P. split; [|destruct tags; reflexivity]. destruct unarchive; [now apply change_list_reverse|].
  induction F as [|c o tags ops S1 F IH]; [constructor|]. inversion P; subst. cbn [el_change_list map]. constructor; [|now apply IH]. unfold el_change.
  pose proof (plain_says_no_NL c o H1 S1) as N. assert (B : existsb (fun l => match l with c :: _ => beq c "+"%char || beq c "-"%char | [] => false end) (el_lines [] c) = true).
  { apply existsb_exists. exists c. split; [apply el_lines_In; [intros []|]; now apply EmacsTagProofs2.whole_line|]. rewrite S1. now destruct (to_remove o). }
  rewrite B. exact S1.
Qed.
Print Assumptions C91_archive.

(** ** Examples *)
Definition ex_reads (s : bytes) : option query := option_map (fun ids d => existsb (fun id => has_idb id d) ids) (disjunction s).
Lemma ex_reads_ok : reads_disjunctions ex_reads.
Proof. intros s ids E. unfold ex_reads. rewrite E. eexists. split; reflexivity. Qed.
Definition ex_threads : list thread := [[(lit "m1", true); (lit "m 2", false)]; [(lit "m3", true)]; [(lit "m4", true)]].
Definition ex_line (t : thread) (tags : list bytes) : result := {| r_matched := 1; r_query := get_thread_query t None None; r_tags := tags |}.
Definition ex_lines : list result := [ex_line (nth 0 ex_threads []) (map lit ["inbox"; "x"]%string); ex_line (nth 1 ex_threads []) (map lit ["inbox"]%string); ex_line (nth 2 ex_threads []) (map lit ["inbox"; "x"]%string)].
Definition ex_view : view := {| v_lines := ex_lines; v_rest := 22 |}.
(** A line is twenty characters and the tags. *)
Definition ex_draw (r : result) : nat := 20 + length (concat (r_tags r)).
Definition ex_store5 : store :=
  {| st_docs := [(1%N, {| d_terms := map lit ["Kinbox"; "Kx"; "Qm1"]%string; d_lastmod := 1%N |});
                 (2%N, {| d_terms := map lit ["Kx"; "Qm 2"]%string; d_lastmod := 2%N |});
                 (3%N, {| d_terms := map lit ["Kinbox"; "Qm3"]%string; d_lastmod := 3%N |});
                 (4%N, {| d_terms := map lit ["Kinbox"; "Kx"; "Qm4"]%string; d_lastmod := 4%N |});
                 (5%N, {| d_terms := map lit ["Kinbox"; "Kx"; "Qm5"]%string; d_lastmod := 5%N |})]; st_ub := 5%N |}.
Definition ex_ed : editor := {| e_store := ex_store5; e_history := [] |}.
Definition minus_x : list bytes := [lit "-x"].
Definition minus_x_ops : list tagop := [{| to_tag := lit "x"; to_remove := true |}].
Example C91_hypotheses :
  shows ex_lines ex_threads /\ ids_plain ex_threads /\ reads_disjunctions ex_reads /\ sound ex_store5 /\ Forall2 says minus_x minus_x_ops /\ Forall plain_op minus_x_ops /\ Forall tagop_valid minus_x_ops.
Proof.
  split; [repeat constructor|]. split.
  { intros t id m I J c K. assert (X : forallb (fun t => forallb (fun p => forallb (fun c => negb (beq c (ascii_of_N 10)) && negb (beq c (ascii_of_N 0))) (fst p)) t) ex_threads = true) by reflexivity.
    rewrite forallb_forall in X. apply X in I. rewrite forallb_forall in I. apply I in J. rewrite forallb_forall in J. apply J in K. apply andb_true_iff in K. destruct K as [A B].
    apply negb_true_iff, beq_neq in A. apply negb_true_iff, beq_neq in B. auto. }
  split; [exact ex_reads_ok|]. split.
  { split; [repeat constructor; cbn; intuition discriminate|]. intros k d H. cbn in H.
    repeat (destruct (N.eqb k _); [injection H as <-; repeat constructor|]). discriminate. }
  split; [repeat constructor|]. split; [|repeat constructor].
  apply Forall_cons; [|apply Forall_nil]. split; [discriminate|]. split; [|split; [discriminate|discriminate]].
  intros c [<-|[]]. split; [intros W; vm_compute in W; intuition discriminate|discriminate].
Qed.
Definition ex_shown (v : view) : list (list bytes) := map r_tags (v_lines v).
(** A region from the middle of the first line to the first character of the third: two lines. *)
Example C91_nontrivial :
  let '(r, e1, v1) := search_tag ex_draw ex_reads 0 (map lit ["-inbox"; "+seen"]%string) ex_view 5 54 false ex_ed in
  stable_query ex_draw ex_view 5 54 false = Some (lit "(id:""m 2"") or (id:m1) or (id:m3)") /\
  r = E_ok /\ map (ex_tags e1) [1; 2; 3; 4; 5]%N = map (map lit) [["seen"; "x"]; ["seen"; "x"]; ["seen"]; ["inbox"; "x"]; ["inbox"; "x"]]%string /\
  ex_shown v1 = map (map lit) [["seen"; "x"]; ["seen"]; ["inbox"; "x"]]%string.
Proof. vm_compute. repeat split. Qed.

(** "*" changes the matched messages only, but the lines are drawn as if all of the messages had changed. *)
Theorem C91_display_tag_all_refuted :
  exists draw eval changes l rest ts e e' v' i r',
  shows l ts /\ reads_disjunctions eval /\ sound (e_store e) /\
  search_tag_all draw eval 0 changes {| v_lines := l; v_rest := rest |} e = (E_ok, e', v') /\
  (forall g, In g (r_tags (nth i l r')) <-> exists k, In k [1; 2]%N /\ tagged (e_store e) k g) /\
  nth_error (v_lines v') i = Some r' /\ tagged (e_store e') 2%N (lit "x") /\ ~ In (lit "x") (r_tags r') /\
  (exists id m, In (id, m) (nth i ts []) /\ exists d, dget 2%N (st_docs (e_store e)) = Some d /\ has_id id d).
Proof.
  assert (X : exists e' v', search_tag_all ex_draw ex_reads 0 minus_x ex_view ex_ed = (E_ok, e', v') /\ ex_tags e' 2%N = [lit "x"] /\ map r_tags (firstn 1 (v_lines v')) = [[lit "inbox"]]).
  { eexists _, _. vm_compute. repeat split. }
  destruct X as (e' & v' & A & B & C). destruct C91_hypotheses as (H1 & _ & H3 & H4 & _).
  destruct (v_lines v') as [|r' l'] eqn:El; [discriminate|]. cbn in C. injection C as C.
  exists ex_draw, ex_reads, minus_x, ex_lines, 22, ex_threads, ex_ed, e', v', 0, r'.
  split; [exact H1|]. split; [exact H3|]. split; [exact H4|]. split; [exact A|]. split.
  { intros g. change (In g (map lit ["inbox"; "x"]%string) <-> exists k, In k [1; 2]%N /\ tagged ex_store5 k g). split.
    - intros [<- |[<- |[]]]; exists 1%N; (split; [now left|]); eexists; (split; [reflexivity|]); vm_compute; auto.
    - intros (k & [<- |[<- |[]]] & d & [= <-] & I); vm_compute in I; cbn; intuition. }
  split; [now rewrite El|]. split.
  { unfold tagged. unfold ex_tags in B. destruct (dget 2%N (st_docs (e_store e'))) as [d|] eqn:E; [|discriminate]. exists d. split; [reflexivity|]. rewrite B. now left. }
  split; [rewrite C; intros [X|[]]; discriminate X|]. exists (lit "m 2"), false. split; [right; now left|]. eexists. split; [reflexivity|]. vm_compute. auto.
Qed.
Print Assumptions C91_display_tag_all_refuted.
