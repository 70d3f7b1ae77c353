(** C58: notmuch show prints the messages asked for, each once, replies below what they reply
    to. *)
From Verif Require Import Bytes Terms XQuery DocSet Thread Query QuerySpec QueryProofs ThreadSummarySpec ThreadTree ThreadTreeSpec ThreadTreeProofs SearchCmd SearchCmdSpec SearchCmdProofs ShowCmd ShowCmdSpec ShowCmdProofs P_ThreadTree P_Query P_SearchCmd.
From Coq Require Import Sorted Permutation.
Local Open Scope nat_scope.

(** --exclude=true leaves excluded messages out, --exclude=false flags them. *)
Definition mode (exclude : bool) : omit_mode := if exclude then EXCLUDE_TRUE else EXCLUDE_FLAG.
(** The messages to be shown. *)
Definition wanted (db : list xdoc) (x : xq) (tags : list bytes) (exclude entire : bool) (shown : xdoc -> bool) : Prop :=
  forall d, shown d = true <-> entire = true \/ selected db x tags (mode exclude) d.
(** One thread as it should be printed. *)
Definition thread_printed (shown : xdoc -> bool) (th : thread) (i : item) : Prop :=
  exists F, i = IList (map (node_item shown 0) F) /\
    Forall replies_below F /\ Sorted older F /\
    NoDup (concat (map docs_of F)) /\ incl (concat (map docs_of F)) (thread_mail th) /\
    (thread_mail th <> [] -> F <> []) /\
    (no_cycle (thread_mail th) -> Permutation (concat (map docs_of F)) (thread_mail th)).
Definition summary_args (exclude : bool) (sort : sort_mode) (offset limit : Z) : search_args :=
  {| s_exclude := mode exclude; s_sort := sort; s_output := O_SUMMARY; s_offset := offset; s_limit := limit; s_dupe := -1 |}.

Lemma add_excludes_keeps tags : forall q q', add_excludes q tags = Some q' -> q_omit q' = q_omit q.
Proof.
  induction tags as [|t tags IH]; intros q q' H; cbn [add_excludes] in H; [now injection H as <-|].
  unfold add_tag_exclude in H. destruct (q_parse q); [|discriminate H]. destruct (tmem _ _); apply IH in H; exact H.
Qed.
Lemma add_excludes_ok x tags : forall q, q_parse q = Some x -> exists q', add_excludes q tags = Some q'.
Proof.
  induction tags as [|t tags IH]; intros q H; cbn [add_excludes]; [eauto|]. unfold add_tag_exclude. rewrite H. destruct (tmem _ _); apply IH; [exact H|reflexivity].
Qed.
Lemma show_query x tags exclude sort : exists q', add_excludes (set_sort (query_create (Some x)) sort) tags = Some q' /\
  forall offset limit, search_prepare (Some x) tags (summary_args exclude sort offset limit) = Some (if exclude then q' else set_omit_excluded q' EXCLUDE_FLAG).
Proof.
  destruct (add_excludes_ok x tags (set_sort (query_create (Some x)) sort) eq_refl) as (q' & E). exists q'. split; [exact E|].
  intros offset limit. unfold search_prepare, summary_args, mode. cbn [s_sort s_exclude s_output]. destruct exclude; cbn [output_eqb]; rewrite E; [|reflexivity].
  f_equal. apply add_excludes_keeps in E. destruct q'; cbn in *. now subst.
Qed.
Lemma show_search db files x tags exclude sort offset limit l :
  search_command db files false (Some x) tags (summary_args exclude sort offset limit) = Out (Threads l) ->
  exists q', add_excludes (set_sort (query_create (Some x)) sort) tags = Some q' /\
    do_search_threads db (if exclude then q' else set_omit_excluded q' EXCLUDE_FLAG) offset limit = Out l.
Proof.
  intros H. destruct (show_query x tags exclude sort) as (q' & E & P). exists q'. split; [exact E|].
  unfold search_command in H. cbn [s_dupe s_output summary_args] in H. cbn [output_eqb negb andb Z.eqb Pos.eqb] in H. rewrite P in H. cbn [s_offset s_limit summary_args] in H.
  destruct (do_search_threads _ _ _ _); try discriminate H. now injection H as <-.
Qed.

(** Positions of members with distinct messages. *)
Lemma NoDup_docs ms l : NoDup (map mb_doc ms) -> NoDup l -> (forall i, In i l -> i < length ms) -> NoDup (map (fun i => mb_doc (nth i ms no_member)) l).
Proof.
  intros N NL R. induction NL as [|i l NI NL IH]; [constructor|]. cbn. constructor; [|apply IH; intros j J; apply R; now right].
  intros X. apply in_map_iff in X as (j & E & J). apply NI. replace i with j; [exact J|].
  apply (proj1 (NoDup_nth (map mb_doc ms) (mb_doc no_member)) N); rewrite ?map_length, ?map_nth; [apply R; now right|apply R; now left|exact E].
Qed.
Lemma show_thread_printed opens qsort omit entire th shown : sorts qsort -> NoDup (thread_mail th) ->
  (forall mb, In mb (th_messages th) -> shown (mb_doc mb) = to_show omit entire mb) ->
  (forall d, In d (thread_mail th) -> shown d = true -> opens d = true) ->
  exists i, show_thread opens qsort omit entire th = Some (i, true) /\ thread_printed shown th i.
Proof.
  intros Q N H O. destruct (show_thread_ok opens qsort Q omit entire th) as (F & F1 & F2 & F3 & F4 & F5 & F6 & F7).
  assert (IM : forall i, In i (concat (map ppre F)) -> In (nth i (th_messages th) no_member) (th_messages th)) by (intros i X; apply nth_In; now apply F2).
  eexists. split.
  { rewrite F3. f_equal. f_equal. apply forallb_forall. intros i X. unfold fine. rewrite <- (H _ (IM i X)).
    destruct (shown _) eqn:S; [|reflexivity]. cbn. apply O; [|exact S]. unfold thread_mail. apply in_map. now apply IM. }
  exists (map (to_tree (th_messages th)) F). split.
  { f_equal. rewrite map_map. apply map_ext_in. intros t T.
    assert (IN : forall i, In i (ppre t) -> In i (concat (map ppre F))) by (intros i X; apply in_concat; exists (ppre t); split; [now apply in_map|exact X]).
    apply pitem_node; intros i X; [apply H; apply IM; auto|]. intros S. apply O; [|exact S]. unfold thread_mail. apply in_map. apply IM; auto. }
  split; [exact F4|]. split; [exact F5|]. rewrite docs_of_forest. split; [now apply NoDup_docs|]. split.
  { intros d X. apply in_map_iff in X as (i & <- & X). unfold thread_mail. apply in_map. now apply IM. }
  split; [intros NE X; apply map_eq_nil in X; apply F6; [|exact X]; intros Y; apply NE; unfold thread_mail; now rewrite Y|].
  intros AC. unfold thread_mail in *. rewrite <- (all_docs th). apply Permutation_map. now apply F7.
Qed.

(** The command prints the threads that notmuch search shows for the same query, sort, offset
    and limit (which they are: C52), in this order; and every thread as a tree in which each
    message is below one that it names, siblings oldest first, no message twice, those that
    are not wanted replaced by null; all messages are there if they name each other without a
    cycle. *)
Theorem C58_threads : forall db files x tags exclude sort entire qsort opens shown offset limit,
  ids_ok db -> single_threaded db -> sorts qsort -> fits db offset limit ->
  wanted db x tags exclude entire shown -> (forall d, In d db -> shown d = true -> opens d = true) ->
  exists l items,
    search_command db files false (Some x) tags (summary_args exclude sort offset limit) = Out (Threads l) /\
    show_command opens qsort db (Some x) tags
      {| v_exclude := exclude; v_sort := sort; v_entire := entire; v_unthreaded := false; v_single := false; v_offset := offset; v_limit := limit |} =
    Out (IList items, true) /\
    Forall2 (thread_printed shown) l items.
Proof.
  intros db files x tags exclude sort entire qsort opens shown offset limit I ST Q FT W O.
  destruct (C52_threads db files false x tags (mode exclude) sort O_SUMMARY I ST (or_introl eq_refl)) as (l & _ & _ & _ & TH & C).
  specialize (C offset limit FT). fold (summary_args exclude sort offset limit) in C.
  destruct (show_search _ _ _ _ _ _ _ _ _ C) as (q' & EQ & ES). exists (window offset limit l).
  assert (IW : forall th, In th (window offset limit l) -> In th l).
  { intros th. unfold window. intros X. assert (Y : In th (skipn (if (0 <=? offset)%Z then Z.to_nat offset else length l - Z.to_nat (- offset)) l)).
    { destruct (limit <? 0)%Z; [exact X|]. rewrite <- (firstn_skipn (Z.to_nat limit)). apply in_or_app. now left. }
    rewrite <- (firstn_skipn (if (0 <=? offset)%Z then Z.to_nat offset else length l - Z.to_nat (- offset)) l). apply in_or_app. now right. }
  assert (ALL : exists items, show_all (show_thread opens qsort exclude entire) (window offset limit l) = Some (items, true) /\ Forall2 (thread_printed shown) (window offset limit l) items).
  { clear - TH IW I Q W O. induction (window offset limit l) as [|th w IH]; [exists []; split; [reflexivity|constructor]|].
    destruct IH as (items & E & F); [intros t T; apply IW; now right|].
    destruct (TH th (IW th (or_introl eq_refl))) as (N & _ & D & MB).
    destruct (show_thread_printed opens qsort exclude entire th shown Q N) as (i & Ei & Pi).
    - intros mb M. destruct (MB mb M) as (M1 & M2). assert (WD := W (mb_doc mb)). unfold to_show. apply eq_true_iff_eq. rewrite WD, orb_true_iff, andb_true_iff, M1, orb_true_iff, !negb_true_iff.
      assert (EX : mb_excluded mb = false <-> ~ (mb_excluded mb = true)) by (destruct (mb_excluded mb); split; congruence).
      rewrite EX, M2. unfold mode, selected. destruct exclude; cbn [in_force]; intuition congruence.
    - intros d M. apply O. apply D in M. tauto.
    - exists (i :: items). cbn [show_all]. rewrite Ei, E. split; [reflexivity|]. constructor; assumption. }
  destruct ALL as (items & EA & FA). exists items. split; [exact C|]. split; [|exact FA].
  unfold show_command. cbn [v_single v_sort v_exclude v_unthreaded v_entire v_offset v_limit]. rewrite EQ.
  unfold do_show_threaded. rewrite ES, EA. reflexivity.
Qed.

Lemma tree_ind' (P : tree -> Prop) : (forall d kids, Forall P kids -> P (Tree d kids)) -> forall t, P t.
Proof. intros H. fix IH 1. intros [d kids]. apply H. induction kids as [|k kids IHk]; constructor; [apply IH|exact IHk]. Qed.
Lemma printed_node shown t : forall n, map fst (printed (node_item shown n t)) = filter shown (docs_of t).
Proof.
  induction t as [d kids IH] using tree_ind'. intros n.
  assert (K : forall m, map fst (concat (map printed (map (node_item shown m) kids))) = filter shown (concat (map docs_of kids))).
  { intros m. induction IH as [|k kids Hk HK IHK]; [reflexivity|]. cbn [map concat]. now rewrite map_app, filter_app, Hk, IHK. }
  cbn [node_item docs_of filter]. destruct (shown d); cbn [printed map concat app]; rewrite app_nil_r, K; reflexivity.
Qed.
Lemma printed_forest shown n F : map fst (concat (map printed (map (node_item shown n) F))) = filter shown (concat (map docs_of F)).
Proof. induction F as [|t F IH]; [reflexivity|]. cbn [map concat]. now rewrite map_app, filter_app, printed_node, IH. Qed.
Lemma node_schema shown t : forall n, thread_node (node_item shown n t).
Proof.
  induction t as [d kids IH] using tree_ind'. intros n. cbn [node_item].
  destruct (shown d); constructor; apply Forall_map; eapply Forall_impl; try exact IH; auto.
Qed.
Lemma NoDup_concat_disjoint {A B} (f : A -> list B) l : NoDup l -> (forall a, In a l -> NoDup (f a)) ->
  (forall a b x, In a l -> In b l -> In x (f a) -> In x (f b) -> a = b) -> NoDup (concat (map f l)).
Proof.
  assert (APP : forall u v : list B, NoDup u -> NoDup v -> (forall x, In x u -> In x v -> False) -> NoDup (u ++ v)).
  { intros u v NU NV H. induction NU as [|x u NX NU IH]; [exact NV|]. cbn. constructor; [|apply IH; intros y Y Z; apply (H y); [now right|exact Z]].
    rewrite in_app_iff. intros [X|X]; [contradiction|]. apply (H x); [now left|exact X]. }
  induction 1 as [|a l NI N IH]; intros H D; [constructor|]. cbn. apply APP.
  - apply H. now left.
  - apply IH; [intros b Bi; apply H; now right|]. intros b c x Bi Ci. apply D; now right.
  - intros x X Y. apply in_concat in Y as (u & U & Y). apply in_map_iff in U as (b & <- & Bi). apply NI.
    rewrite (D a b x); auto; [now left|now right].
Qed.

(** Without --offset and --limit: no message is printed twice, and those printed are the
    selected messages, or with --entire-thread the mail of the threads that have a selected
    message; in the documented structure.  All of them are printed if no message of the
    database names itself through others. *)
Theorem C58_messages : forall db x tags exclude sort entire qsort opens shown,
  ids_ok db -> single_threaded db -> sorts qsort -> (Z.of_nat (length db) < 2 ^ 31)%Z ->
  wanted db x tags exclude entire shown -> (forall d, In d db -> shown d = true -> opens d = true) ->
  let right d := if entire then In d db /\ is_mail d /\ exists e tid, selected db x tags (mode exclude) e /\ in_thread e tid /\ in_thread d tid
                 else selected db x tags (mode exclude) d in
  exists i, show_command opens qsort db (Some x) tags
      {| v_exclude := exclude; v_sort := sort; v_entire := entire; v_unthreaded := false; v_single := false; v_offset := 0; v_limit := -1 |} = Out (i, true) /\
    schema_thread_set i /\ NoDup (map fst (printed i)) /\
    (forall d, In d (map fst (printed i)) -> right d) /\
    (no_cycle db -> forall d, right d -> In d (map fst (printed i))).
Proof.
  intros db x tags exclude sort entire qsort opens shown I ST Q LN W O right.
  assert (FT : fits db 0 (-1)) by (unfold fits; lia).
  destruct (C58_threads db (fun _ => []) x tags exclude sort entire qsort opens shown 0 (-1) I ST Q FT W O) as (l & items & ES & EC & F).
  destruct (C52_threads db (fun _ => []) false x tags (mode exclude) sort O_SUMMARY I ST (or_introl eq_refl)) as (l' & NI & IDS & _ & TH & C).
  specialize (C 0%Z (-1)%Z FT). fold (summary_args exclude sort 0 (-1)) in C. rewrite C in ES. injection ES as ES. change (window 0 (-1) l') with (skipn 0 l') in ES. cbn [skipn] in ES. subst l'.
  exists (IList items). split; [exact EC|].
  assert (MF : mode exclude = EXCLUDE_ALL -> False) by (unfold mode; destruct exclude; discriminate).
  assert (MI : in_force (mode exclude) O_SUMMARY = mode exclude) by (unfold mode; destruct exclude; reflexivity). rewrite MI in *.
  assert (PF : exists Fs, Forall2 (fun th f => incl f (thread_mail th) /\ NoDup f /\ (no_cycle (thread_mail th) -> Permutation f (thread_mail th))) l Fs /\
                 map fst (printed (IList items)) = filter shown (concat Fs)).
  { clear - F. cbn [printed]. induction F as [|th i l items (T & -> & _ & _ & N & IN & _ & P) F IH]; [exists []; split; [constructor|reflexivity]|].
    destruct IH as (Fs & F2 & E). exists (concat (map docs_of T) :: Fs). split; [constructor; auto|]. cbn [map concat]. rewrite map_app, filter_app, E. f_equal. cbn [printed]. apply printed_forest. }
  destruct PF as (Fs & F2 & EP). rewrite EP.
  assert (ND : NoDup (concat (map thread_mail l))).
  { apply NoDup_concat_disjoint; [eapply NoDup_map_inv; exact NI|intros th T; apply (TH th T)|].
    intros a b d A B DA DB. apply (TH a A) in DA as (D1 & D2 & D3 & _). apply (TH b B) in DB as (_ & _ & D4 & _).
    destruct (ST d D1 D2) as (tid & U). apply U in D3, D4. clear - NI A B D3 D4. assert (E : th_id a = th_id b) by congruence. clear D3 D4.
    induction l as [|th l IH]; [destruct A|]. cbn in NI. apply NoDup_cons_iff in NI as (X & NI). destruct A as [-> |A], B as [-> |B]; auto.
    - exfalso. apply X. rewrite E. now apply in_map.
    - exfalso. apply X. rewrite <- E. now apply in_map. }
  assert (IL : incl (concat Fs) (concat (map thread_mail l)) /\ NoDup (concat Fs)).
  { clear - F2 ND. induction F2 as [|th f l Fs (IN & N & _) F2 IH]; [split; [intros d []|constructor]|]. cbn [map concat] in *.
    assert (N2 : NoDup (concat (map thread_mail l)) /\ forall d, In d (thread_mail th) -> ~ In d (concat (map thread_mail l))).
    { clear - ND. induction (thread_mail th) as [|d u IHu]; [split; [exact ND|intros d []]|]. cbn in ND. apply NoDup_cons_iff in ND as (X & ND).
      destruct (IHu ND) as (A & B). split; [exact A|]. intros e [<-|E]; [|auto]. intros Y. apply X. apply in_or_app. now right. }
    destruct (IH (proj1 N2)) as (I1 & I2). split.
    - apply incl_app; [intros d D; apply in_or_app; left; now apply IN|intros d D; apply in_or_app; right; now apply I1].
    - clear - N I1 I2 IN N2. destruct N2 as (_ & N2). induction N as [|d f NX N IHf]; [exact I2|]. cbn. constructor.
      + rewrite in_app_iff. intros [X|X]; [contradiction|]. apply (N2 d); [apply IN; now left|now apply I1].
      + apply IHf. intros e E. apply IN. now right. }
  destruct IL as (IL & NF).
  assert (RM : forall d, In d (concat (map thread_mail l)) /\ shown d = true <-> right d).
  { intros d. assert (WD := W d). rewrite WD. unfold right. split.
    - intros (D & S). apply in_concat in D as (u & U & D). apply in_map_iff in U as (th & <- & T). apply (TH th T) in D as (D1 & D2 & D3 & _).
      destruct entire; [|destruct S as [S|S]; [discriminate S|exact S]]. split; [exact D1|]. split; [exact D2|].
      destruct (proj1 (IDS (th_id th)) (in_map _ _ _ T)) as (e & E1 & E2). exists e, (th_id th). auto.
    - intros R.
      assert (X : exists e tid, selected db x tags (mode exclude) e /\ in_thread e tid /\ in_thread d tid /\ In d db /\ is_mail d).
      { destruct entire; [destruct R as (A & B & e & tid & R); exists e, tid; tauto|]. destruct (ST d (proj1 R) (proj1 (proj2 R))) as (tid & U).
        exists d, tid. assert (in_thread d tid) by now apply U. assert (R0 := R). destruct R as (R1 & R2 & R3). split; [exact R0|]. tauto. }
      destruct X as (e & tid & E1 & E2 & E3 & E4 & E5). split; [|destruct entire; auto].
      assert (T := proj2 (IDS tid) (ex_intro _ e (conj E1 E2))). apply in_map_iff in T as (th & <- & T).
      apply in_concat. exists (thread_mail th). split; [now apply in_map|]. apply (TH th T). split; [exact E4|]. split; [exact E5|]. split; [exact E3|]. intros X. destruct (MF X). }
  split.
  { exists items. split; [reflexivity|]. clear - F. induction F as [|th i l items (T & -> & _) F IH]; constructor; [|exact IH]. eexists. split; [reflexivity|].
    apply Forall_map, Forall_forall. intros t _. apply node_schema. }
  split; [now apply NoDup_filter|]. split.
  - intros d D. apply filter_In in D as (D & S). apply RM. split; [now apply IL|exact S].
  - intros AC d D. apply RM in D as (D & S). apply filter_In. split; [|exact S]. apply in_concat in D as (u & U & D). apply in_map_iff in U as (th & <- & T).
    assert (AT : no_cycle (thread_mail th)).
    { destruct AC as (rank & AC). exists rank. intros a b A B. apply AC; [apply (TH th T) in A; tauto|apply (TH th T) in B; tauto]. }
    clear - F2 T D AT. induction F2 as [|th' f l Fs (_ & _ & P) F2 IH]; [destruct T|]. cbn [concat]. apply in_or_app. destruct T as [-> |T]; [left|right; auto].
    apply (Permutation_in d (Permutation_sym (P AT))). exact D.
Qed.

(** Messages whose file cannot be read: everything else is printed as it would be, and the
    command fails just if there is one among those to be shown. *)
Definition readable_only (opens : xdoc -> bool) (r r0 : result (item * bool)) : Prop :=
  match r, r0 with
  | Out (i, ok), Out (i0, ok0) => ok0 = true /\ printed i = filter (fun p => opens (fst p)) (printed i0) /\ ok = forallb (fun p => opens (fst p)) (printed i0)
  | Fail, Fail => True
  | Undef, Undef => True
  | _, _ => False
  end.
Definition readable_opt (opens : xdoc -> bool) (r r0 : option (item * bool)) : Prop :=
  match r, r0 with
  | Some (i, ok), Some (i0, ok0) => ok0 = true /\ printed i = filter (fun p => opens (fst p)) (printed i0) /\ ok = forallb (fun p => opens (fst p)) (printed i0)
  | None, None => True
  | _, _ => False
  end.
Definition readable_list (opens : xdoc -> bool) (r r0 : option (list item * bool)) : Prop :=
  match r, r0 with
  | Some (i, ok), Some (i0, ok0) => ok0 = true /\ printed (IList i) = filter (fun p => opens (fst p)) (printed (IList i0)) /\ ok = forallb (fun p => opens (fst p)) (printed (IList i0))
  | None, None => True
  | _, _ => False
  end.
Lemma readable_show_list opens omit entire ms fuel : forall r n l,
  readable_opt opens (show_list opens omit entire ms fuel r n l) (show_list (fun _ => true) omit entire ms fuel r n l).
Proof.
  induction fuel as [|fuel IH]; intros r n l; [exact I|]. cbn [show_list].
  set (lp := fix loop (l : list nat) : option (list item * bool) := _).
  set (l0 := fix loop (l : list nat) : option (list item * bool) := match l with [] => Some ([], true) | i :: l' => let m := nth i ms no_member in let '(own, ok) := if to_show omit entire m then show_message (fun _ => true) _ _ else _ in _ end).
  assert (G : readable_list opens (lp l) (l0 l)).
  { clear - IH. induction l as [|i l IHl]; cbn [lp l0]; fold lp l0; [repeat split|].
    set (m := nth i ms no_member). cbv zeta. unfold show_message.
    specialize (IH r (if to_show omit entire m then S n else n) (r i)).
    set (b := to_show omit entire m) in *. set (nn := if b then S n else n) in *.
    destruct (show_list opens omit entire ms fuel r nn (r i)) as [(s, k)|], (show_list (fun _ => true) omit entire ms fuel r nn (r i)) as [(s0, k0)|]; try (cbn in IH; contradiction);
      [|destruct b; [destruct (opens (mb_doc m))|]; exact I].
    destruct (lp l) as [(rest, k1)|], (l0 l) as [(rest0, k10)|]; try (cbn in IHl; contradiction); [|destruct b; [destruct (opens (mb_doc m))|]; exact I].
    cbn in IH, IHl. destruct IH as (-> & A & ->), IHl as (-> & B & ->).
    destruct b; [destruct (opens (mb_doc m)) eqn:OM|]; cbn; rewrite ?OM, A, B, ?app_nil_r, ?filter_app, ?forallb_app; cbn; rewrite ?OM; auto. }
  destruct (lp l) as [(i, k)|], (l0 l) as [(i0, k0)|]; exact G.
Qed.
Lemma readable_show_all {A} opens (f f0 : A -> option (item * bool)) l : (forall a, readable_opt opens (f a) (f0 a)) -> readable_list opens (show_all f l) (show_all f0 l).
Proof.
  intros H. induction l as [|a l IH]; cbn [show_all]; [repeat split|]. specialize (H a).
  destruct (f a) as [(i, k)|], (f0 a) as [(i0, k0)|]; try (cbn in H; contradiction); [|exact I].
  destruct (show_all f l) as [(r, k1)|], (show_all f0 l) as [(r0, k10)|]; try (cbn in IH; contradiction); [|exact I].
  cbn in H, IH |- *. destruct H as (-> & A1 & ->), IH as (-> & B1 & ->). rewrite A1, B1, filter_app, forallb_app. auto.
Qed.
Lemma readable_list_of opens o o0 : readable_list opens o o0 -> readable_only opens (list_of o) (list_of o0).
Proof. destruct o as [(l, k)|], o0 as [(l0, k0)|]; auto. Qed.
Theorem C58_unreadable : forall opens qsort db parse tags a,
  readable_only opens (show_command opens qsort db parse tags a) (show_command (fun _ => true) qsort db parse tags a).
Proof.
  intros opens qsort db parse tags a. unfold show_command. cbv zeta. destruct (v_single a).
  { unfold do_show_single. destruct (count_messages _ _) as [[|[|n]]|]; try exact I. destruct (search_messages _ _) as [m|]; [|exact I]. destruct (ms_docs m) as [|d ds]; [exact I|].
    unfold show_message. destruct (opens d) eqn:O; cbn; rewrite O; auto. }
  destruct (add_excludes _ _) as [q|]; [|exact I]. destruct (v_unthreaded a).
  - unfold do_show_unthreaded. destruct (if (v_offset a <? 0)%Z then _ else _) as [o|]; [|exact I]. destruct (search_messages _ _) as [m|]; [|exact I].
    destruct (messages_slice _ _ _ _) as [l| |]; try exact I. apply readable_list_of, readable_show_all. intros d. unfold show_unthreaded_one, show_message.
    destruct (message_flag m d) as [e|]; [|exact I]. destruct (negb e || negb (v_exclude a)); [|cbn; auto]. destruct (opens d) eqn:O; cbn; rewrite O; auto.
  - unfold do_show_threaded. destruct (do_search_threads _ _ _ _) as [l| |]; try exact I. apply readable_list_of, readable_show_all. intros th. unfold show_thread.
    destruct (resolve _ _ _) as [(r, top)|]; [|exact I]. apply readable_show_list.
Qed.

(** --unthreaded: a window of the list of the selected messages. *)
Theorem C58_unthreaded : forall db x tags exclude sort qsort opens entire,
  ids_ok db -> (forall d, In d db -> opens d = true) ->
  exists l, NoDup l /\ Sorted (in_order sort) l /\ (forall d, In d l <-> selected db x tags (mode exclude) d) /\
  forall offset limit, fits db offset limit -> exclude = true \/ (0 <= offset)%Z ->
    show_command opens qsort db (Some x) tags
      {| v_exclude := exclude; v_sort := sort; v_entire := entire; v_unthreaded := true; v_single := false; v_offset := offset; v_limit := limit |} =
    Out (IList (map (fun d => IList [IList [IMsg d 0]]) (window offset limit l)), true).
Proof.
  intros db x tags exclude sort qsort opens entire I O.
  destruct (C25_search db x tags (mode exclude) sort I) as (m & l & ES & EI & N & S & SEL).
  assert (DL : ms_docs m = map fst l).
  { unfold iterate_messages in EI. clear - EI. revert l EI. induction (ms_docs m) as [|d ds IH]; intros l H; cbn [iterate_docs] in H; [now injection H as <-|].
    destruct (message_flag m d); [|discriminate H]. destruct (iterate_docs m ds) as [r|]; [|discriminate H]. injection H as <-. cbn. f_equal. now apply IH. }
  assert (LEN : length l <= length db).
  { rewrite <- (map_length fst). apply NoDup_incl_length; [exact N|]. intros d D. apply in_map_iff in D as ((d', b) & <- & D). apply SEL in D as (D & _). apply D. }
  exists (map fst l). split; [exact N|]. split; [exact S|]. split.
  { intros d. rewrite in_map_iff. split; [intros ((d', b) & <- & D); now apply SEL in D as (D & _)|]. intros D.
    set (ex := xmatch (exclude_tags (configure (Some x) tags (mode exclude) sort)) d).
    assert (X : ex = true <-> excluded x tags d) by apply exclude_spec.
    exists (d, match mode exclude with EXCLUDE_FLAG => ex | _ => false end). split; [reflexivity|]. apply SEL. split; [exact D|].
    rewrite <- X. destruct (mode exclude); intuition discriminate. }
  intros offset limit (Hn & Ho & Hl) NEG.
  destruct (show_query x tags exclude sort) as (q' & EQ & P). specialize (P 0%Z 0%Z). rewrite prepare_eq in P. injection P as P.
  assert (QE : (if exclude then q' else set_omit_excluded q' EXCLUDE_FLAG) = configure (Some x) tags (mode exclude) sort).
  { rewrite <- P. unfold tags_in_force, lib_mode, summary_args, mode. cbn [s_exclude s_output s_sort]. now destruct exclude. }
  unfold show_command. cbn [v_single v_sort v_exclude v_unthreaded v_entire v_offset v_limit]. rewrite EQ, QE. unfold do_show_unthreaded.
  assert (OF : (if (offset <? 0)%Z then match count_messages db (configure (Some x) tags (mode exclude) sort) with Some n => Some (fix_offset offset n) | None => None end else Some offset)
               = Some (start_of offset (length (map fst l)))).
  { unfold start_of. destruct (offset <? 0)%Z eqn:EO; [|reflexivity]. destruct NEG as [-> |NEG]; [|lia].
    destruct (C25_count_agrees_partial db x tags (mode true) sort I (or_introl eq_refl)) as (m2 & l2 & E2 & J2 & C2). cbn [mode] in *.
    rewrite ES in E2. injection E2 as <-. rewrite EI in J2. injection J2 as <-. rewrite C2, map_length. rewrite fix_offset_eq by lia. reflexivity. }
  rewrite OF, ES, DL, window_slice by (right; unfold INT_MAX, start_of; rewrite map_length; destruct (offset <? 0)%Z eqn:EO; lia).
  assert (AL : forall w, (forall d, In d w -> In d (map fst l)) -> show_all (show_unthreaded_one opens exclude m) w = Some (map (fun d => IList [IList [IMsg d 0]]) w, true)).
  { intros w. induction w as [|d w IH]; intros H; [reflexivity|]. cbn [show_all map]. rewrite IH by (intros e E; apply H; now right).
    assert (D := H d (or_introl eq_refl)). apply in_map_iff in D as ((d', b) & Ed & D). cbn in Ed. subst d'.
    assert (FL : message_flag m d = Some b).
    { clear - EI DL D N. unfold iterate_messages in EI. rewrite DL in EI. clear DL. revert EI.
      assert (G : forall k r, iterate_docs m k = Some r -> forall d b, In (d, b) r -> message_flag m d = Some b).
      { induction k as [|e k IHk]; intros r H; cbn [iterate_docs] in H; [injection H as <-; intros ? ? []|].
        destruct (message_flag m e) as [c|] eqn:M; [|discriminate H]. destruct (iterate_docs m k) as [r'|]; [|discriminate H]. injection H as <-.
        intros d0 b0 [X|X]; [injection X as <- <-; exact M|eapply IHk; eauto]. }
      intros EI. exact (G _ _ EI d b D). }
    unfold show_unthreaded_one. rewrite FL. apply SEL in D as (DS & FB).
    assert (SH : negb b || negb exclude = true).
    { destruct exclude; [|apply orb_true_r]. destruct b; [|reflexivity]. destruct (proj1 FB eq_refl) as (Y & _). discriminate Y. }
    rewrite SH. unfold show_message. rewrite O by apply DS. reflexivity. }
  rewrite AL; [reflexivity|]. intros d. unfold window. intros X. rewrite map_length in X.
  assert (Y : In d (skipn (if (0 <=? offset)%Z then Z.to_nat offset else length l - Z.to_nat (- offset)) (map fst l))).
  { destruct (limit <? 0)%Z; [exact X|]. rewrite <- (firstn_skipn (Z.to_nat limit)). apply in_or_app. now left. }
  rewrite <- (firstn_skipn (if (0 <=? offset)%Z then Z.to_nat offset else length l - Z.to_nat (- offset)) (map fst l)). apply in_or_app. now right.
Qed.

(** --part, --duplicate, --format=raw: just if exactly one message matches (excluded tags are
    not looked at), it is shown; otherwise the command fails. *)
Theorem C58_single : forall db x tags a qsort opens, ids_ok db -> v_single a = true ->
  let matching d := In d db /\ is_mail d /\ matches x d in
  (forall d, matching d -> (forall e, matching e -> e = d) ->
     show_command opens qsort db (Some x) tags a = Out (if opens d then (IList [IMsg d 0], true) else (IList [], false))) /\
  ((forall d, matching d -> exists e, matching e /\ e <> d) -> show_command opens qsort db (Some x) tags a = Fail).
Proof.
  intros db x tags a qsort opens I SI matching.
  assert (QE : set_sort (query_create (Some x)) (v_sort a) = configure (Some x) [] EXCLUDE_TRUE (v_sort a)) by reflexivity.
  destruct (C25_count db x [] EXCLUDE_TRUE (v_sort a) I) as (l & CL & NL & HL).
  destruct (C25_search db x [] EXCLUDE_TRUE (v_sort a) I) as (m & k & ES & EI & N & _ & SEL).
  assert (DL : ms_docs m = map fst k).
  { unfold iterate_messages in EI. clear - EI. revert k EI. induction (ms_docs m) as [|d ds IH]; intros l H; cbn [iterate_docs] in H; [now injection H as <-|].
    destruct (message_flag m d); [|discriminate H]. destruct (iterate_docs m ds) as [r|]; [|discriminate H]. injection H as <-. cbn. f_equal. now apply IH. }
  assert (NX : forall d, ~ excluded x [] d) by (intros d (t & [] & _)).
  assert (ML : forall d, In d l <-> matching d) by (intros d; rewrite HL; unfold selected, matching; specialize (NX d); tauto).
  assert (MK : forall d, In d (map fst k) -> matching d).
  { intros d D. apply in_map_iff in D as ((d', b) & <- & D). apply SEL in D as ((D1 & D2 & D3 & _) & _). exact (conj D1 (conj D2 D3)). }
  unfold show_command. rewrite SI, QE. unfold do_show_single. rewrite CL, ES, DL. split.
  - intros d MD U. destruct l as [|d1 [|d2 l]].
    + exfalso. apply ML in MD. destruct MD.
    + cbn [length]. destruct k as [|(e, b) k].
      * exfalso. assert (X : In (d, false) []); [|destruct X]. apply SEL. split; [split; [apply MD|split; [apply MD|split; [apply MD|apply NX]]]|]. split; [intros X; discriminate X|]. intros (X & _). discriminate X.
      * cbn [map fst]. assert (e = d) by (apply U, MK; now left). subst e. unfold show_message. now destruct (opens d).
    + exfalso. assert (d1 = d) by (apply U, ML; now left). assert (d2 = d) by (apply U, ML; right; now left). subst. apply NoDup_cons_iff in NL as (X & _). apply X. now left.
  - intros H. destruct l as [|d1 [|d2 l]]; [reflexivity| |reflexivity]. exfalso.
    destruct (H d1) as (e & E & NE); [apply ML; now left|]. apply ML in E as [E|[]]. congruence.
Qed.

(** The hypotheses of C58_threads and C58_messages are met: what is wanted can always be
    given as a function, a sorting function exists, and the following database is one where
    messages reply to each other. *)
Lemma xdoc_eq_dec : forall a b : xdoc, {a = b} + {a <> b}.
Proof.
  assert (B : forall a b : bytes, {a = b} + {a <> b}) by (apply list_eq_dec, ascii_dec).
  assert (BO : forall a b : option bytes, {a = b} + {a <> b}) by decide equality.
  assert (BL : forall a b : list bytes, {a = b} + {a <> b}) by (apply list_eq_dec, B).
  decide equality; auto using N.eq_dec, Z.eq_dec, Nat.eq_dec.
Qed.
Lemma wanted_exists : forall db x tags exclude entire, exists shown, wanted db x tags exclude entire shown.
Proof.
  intros db x tags exclude entire.
  exists (fun d => entire || (if in_dec xdoc_eq_dec d db then true else false) && tmem (lit "Tmail") (xd_terms d) && xmatch x d &&
    (negb exclude || negb (xmatch (exclude_tags (configure (Some x) tags (mode exclude) SORT_UNSORTED)) d))).
  intros d. rewrite orb_true_iff. assert (X := exclude_spec x tags (mode exclude) SORT_UNSORTED d).
  set (e := xmatch (exclude_tags _) d) in *. unfold selected, is_mail, matches. rewrite !andb_true_iff.
  assert (T : tmem (lit "Tmail") (xd_terms d) = true <-> In (lit "Tmail") (xd_terms d)) by apply tmem_In. rewrite T.
  assert (E : (negb exclude || negb e = true) <-> match mode exclude with EXCLUDE_TRUE | EXCLUDE_ALL => ~ excluded x tags d | _ => True end).
  { clear - X. destruct exclude, e; cbn; intuition congruence. }
  rewrite E. destruct (in_dec xdoc_eq_dec d db); intuition congruence.
Qed.
Lemma isort_ok : sorts isort.
Proof. intros ms. apply isort_sorts. Qed.
Definition msg (id : N) (date : Z) (terms : list bytes) (irt : option bytes) (refs : list bytes) : xdoc :=
  mk_xdoc id (lit "Tmail" :: terms) date (lit "m" ++ [ascii_of_N (48 + id)]) (Some (lit "a@x")) (Some (lit "A")) (Some (lit "s")) 1 irt refs.
(** m1 has the replies m2 and m3, m3 the reply m4 which is the oldest of them; m5 alone. *)
Definition m1 := msg 1 10 [lit "Kinbox"; lit "G1"] None [].
Definition m2 := msg 2 40 [lit "G1"] (Some (lit "m1")) [lit "m1"].
Definition m3 := msg 3 30 [lit "Kinbox"; lit "Kspam"; lit "G1"] (Some (lit "m1")) [lit "m1"].
Definition m4 := msg 4 20 [lit "Kinbox"; lit "G1"] (Some (lit "m3")) [lit "m1"; lit "m3"].
Definition m5 := msg 5 50 [lit "Kinbox"; lit "G2"] None [].
Definition show_db := [m1; m2; m3; m4; m5].
Definition show_args_of exclude entire := {| v_exclude := exclude; v_sort := SORT_NEWEST_FIRST; v_entire := entire; v_unthreaded := false; v_single := false; v_offset := 0; v_limit := -1 |}.
Example C58_example :
  ids_ok show_db /\ single_threaded show_db /\ no_cycle show_db /\ sorts isort /\ fits show_db 0 (-1) /\
  (exists shown, wanted show_db ex_query [lit "spam"] true false shown) /\
  show_command (fun _ => true) isort show_db (Some ex_query) [lit "spam"] (show_args_of true false) =
    Out (IList [IList [IList [IMsg m5 0; IList []]];
                IList [IList [IMsg m1 0; IList [IList [INull; IList [IList [IMsg m4 1; IList []]]]; IList [INull; IList []]]]]], true) /\
  show_command (fun _ => true) isort show_db (Some ex_query) [lit "spam"] (show_args_of true true) =
    Out (IList [IList [IList [IMsg m5 0; IList []]];
                IList [IList [IMsg m1 0; IList [IList [IMsg m3 1; IList [IList [IMsg m4 2; IList []]]]; IList [IMsg m2 1; IList []]]]]], true) /\
  show_command (fun _ => true) isort show_db (Some (XTerm (lit "Kspam"))) [lit "spam"]
    {| v_exclude := true; v_sort := SORT_NEWEST_FIRST; v_entire := false; v_unthreaded := false; v_single := true; v_offset := 0; v_limit := -1 |} = Out (IList [IMsg m3 0], true).
Proof.
  split; [|split; [|split; [|split; [exact isort_ok|split; [|split; [apply wanted_exists|split; [|split]; vm_compute; reflexivity]]]]]].
  - split; [repeat constructor; cbn; intuition discriminate|]. intros d Hd. repeat (destruct Hd as [<-|Hd]; [reflexivity|]). destruct Hd.
  - intros d Hd _.
    assert (H : forall pre g, (forall u, ~ In (lit "G" ++ u) pre) -> forall d, xd_terms d = pre ++ [lit "G" ++ g] -> exists tid, forall u, in_thread d u <-> u = tid).
    { intros pre g N e E. exists g. intros u. unfold in_thread. rewrite E, in_app_iff. cbn [In]. split.
      - intros [X|[X|[]]]; [exfalso; exact (N u X)|]. now apply app_inv_head in X.
      - intros ->. right. now left. }
    repeat (destruct Hd as [<-|Hd]; [first
      [ apply (H [lit "Tmail"; lit "Kinbox"] (lit "1")); [intros u; cbn; intuition discriminate|reflexivity]
      | apply (H [lit "Tmail"; lit "Kinbox"; lit "Kspam"] (lit "1")); [intros u; cbn; intuition discriminate|reflexivity]
      | apply (H [lit "Tmail"] (lit "1")); [intros u; cbn; intuition discriminate|reflexivity]
      | apply (H [lit "Tmail"; lit "Kinbox"] (lit "2")); [intros u; cbn; intuition discriminate|reflexivity] ]|]).
    destruct Hd.
  - exists (fun d => N.to_nat (xd_id d)). intros a b A B H.
    assert (V : forall u v, In u show_db -> In v show_db -> doc_names u v -> (xd_id v < xd_id u)%N).
    { intros u v U V. repeat (destruct U as [<-|U]; [repeat (destruct V as [<-|V]; [unfold doc_names; cbn; intuition (try discriminate; try reflexivity)|]); destruct V|]). destruct U. }
    specialize (V a b A B H). lia.
  - unfold fits. cbn. lia.
Qed.

(** A message whose file is gone is printed as nothing at all: its node has one element
    instead of two, which is not the documented structure. *)
Theorem C58_unreadable_schema_refuted : exists db x tags a opens i ok,
  ids_ok db /\ single_threaded db /\ v_unthreaded a = false /\ v_single a = false /\
  show_command opens isort db (Some x) tags a = Out (i, ok) /\ ~ schema_thread_set i.
Proof.
  exists show_db, ex_query, [], (show_args_of true false), (fun d => negb (xd_id d =? 5)%N). eexists _, _.
  split; [apply C58_example|]. split; [apply C58_example|]. split; [reflexivity|]. split; [reflexivity|].
  split; [vm_compute; reflexivity|]. intros (l & E & F). injection E as <-. inversion F as [|? ? (u & E1 & F1) _]; subst. injection E1 as <-.
  inversion F1 as [|? ? T _]; subst. inversion T.
Qed.
(** --unthreaded leaves out the list of replies of the node. *)
Theorem C58_unthreaded_schema_refuted : exists db x tags a i,
  ids_ok db /\ single_threaded db /\ v_unthreaded a = true /\ v_single a = false /\
  show_command (fun _ => true) isort db (Some x) tags a = Out (i, true) /\ ~ schema_thread_set i.
Proof.
  exists show_db, ex_query, [], {| v_exclude := true; v_sort := SORT_NEWEST_FIRST; v_entire := false; v_unthreaded := true; v_single := false; v_offset := 0; v_limit := -1 |}. eexists.
  split; [apply C58_example|]. split; [apply C58_example|]. split; [reflexivity|]. split; [reflexivity|].
  split; [vm_compute; reflexivity|]. intros (l & E & F). injection E as <-. inversion F as [|? ? (u & E1 & F1) _]; subst. injection E1 as <-.
  inversion F1 as [|? ? T _]; subst. inversion T.
Qed.
(** --unthreaded --exclude=false --offset=-1 should print the last message of the list that is
    printed without --offset, but prints the last two. *)
Theorem C58_unthreaded_offset_refuted : exists db x tags items,
  let args offset := {| v_exclude := false; v_sort := SORT_NEWEST_FIRST; v_entire := false; v_unthreaded := true; v_single := false; v_offset := offset; v_limit := -1 |} in
  ids_ok db /\ single_threaded db /\ fits db (-1) (-1) /\
  show_command (fun _ => true) isort db (Some x) tags (args 0%Z) = Out (IList items, true) /\
  show_command (fun _ => true) isort db (Some x) tags (args (-1)%Z) <> Out (IList (window (-1) (-1) items), true).
Proof.
  exists show_db, ex_query, [lit "spam"]. eexists. cbv zeta.
  split; [apply C58_example|]. split; [apply C58_example|]. split; [unfold fits; cbn; lia|]. split; [vm_compute; reflexivity|].
  vm_compute. discriminate.
Qed.

Print Assumptions C58_threads.
Print Assumptions C58_messages.
Print Assumptions C58_unreadable.
Print Assumptions C58_unthreaded.
Print Assumptions C58_single.
Print Assumptions C58_unreadable_schema_refuted.
Print Assumptions C58_unthreaded_schema_refuted.
Print Assumptions C58_unthreaded_offset_refuted.
