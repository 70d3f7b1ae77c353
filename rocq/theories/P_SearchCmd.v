(** Property C52: notmuch search shows the window --offset/--limit asks for of one fixed
    list of results, and prints it unambiguously. *)
From Verif Require Import Bytes Terms XQuery DocSet Thread Query QuerySpec ThreadSummarySpec QueryProofs StrUtil StrUtilSpec StrUtilProofs SearchCmd SearchCmdSpec SearchCmdProofs P_Query.
From Coq Require Import Sorted Permutation.
Local Open Scope nat_scope.

Definition fits (db : list xdoc) (offset limit : Z) : Prop :=
  (Z.of_nat (length db) < 2 ^ 31 /\ - 2 ^ 31 <= offset /\ limit + Z.max offset (Z.of_nat (length db)) <= 2 ^ 31 - 1)%Z.

Lemma nth_names_all dupe l : (dupe < 0)%Z -> forall j, nth_names j dupe l = l.
Proof. intros H. induction l as [|n l IH]; intros j; [reflexivity|]. cbn [nth_names]. replace (dupe <? 0)%Z with true by lia. cbn. now rewrite IH. Qed.
Lemma nth_names_nth l : forall j dupe, (0 < j)%Z -> (0 <= dupe)%Z -> nth_names j dupe l =
  if (dupe <? j)%Z then [] else match nth_error l (Z.to_nat (dupe - j)) with Some f => [f] | None => [] end.
Proof.
  induction l as [|n l IH]; intros j dupe Hj Hd; cbn [nth_names].
  - destruct (dupe <? j)%Z; [reflexivity|]. now destruct (Z.to_nat (dupe - j)).
  - replace (dupe <? 0)%Z with false by lia. cbn [orb]. rewrite IH by lia. destruct (dupe =? j)%Z eqn:E.
    + replace (dupe <? j + 1)%Z with true by lia. replace (dupe <? j)%Z with false by lia. replace (Z.to_nat (dupe - j)) with 0 by lia. reflexivity.
    + destruct (dupe <? j)%Z eqn:L; [replace (dupe <? j + 1)%Z with true by lia; reflexivity|].
      replace (dupe <? j + 1)%Z with false by lia. replace (Z.to_nat (dupe - j)) with (S (Z.to_nat (dupe - (j + 1)))) by lia. reflexivity.
Qed.
Lemma shows_eq files out dupe d : files d <> [] -> dupe = (-1)%Z \/ (0 < dupe)%Z -> show_message files out dupe d = shows files out dupe d.
Proof.
  intros N D. assert (L : length (files d) <> 0) by (destruct (files d); [congruence|discriminate]).
  assert (M : (if ((dupe <=? 1) || (dupe <=? Z.of_nat (length (files d))))%Z then [xd_mid d] else []) =
              (if (dupe <=? Z.of_nat (length (files d)))%Z then [xd_mid d] else [])).
  { destruct (dupe <=? Z.of_nat (length (files d)))%Z eqn:E; [now rewrite orb_true_r|]. now replace (dupe <=? 1)%Z with false by lia. }
  unfold show_message, shows. destruct out; auto. destruct D as [-> |D].
  - rewrite nth_names_all by lia. reflexivity.
  - replace (dupe =? -1)%Z with false by lia. rewrite nth_names_nth by lia. replace (dupe <? 1)%Z with false by lia.
    replace (Z.to_nat (dupe - 1)) with (Z.to_nat dupe - 1) by lia. reflexivity.
Qed.

(** C52.  There is one list of the selected messages, without repetition and in the order
    asked for, such that `notmuch search --output=messages' (or files) shows for any --offset,
    --limit and --duplicate the ids (files) of the messages in that window. *)
Theorem C52_messages :
  forall db files star x tags excl sort out, ids_ok db -> out = O_MESSAGES \/ out = O_FILES ->
  (forall d, In d db -> is_mail d -> files d <> []) ->
  exists l, NoDup l /\ Sorted (in_order sort) l /\ (forall d, In d l <-> selected db x tags (in_force excl out) d) /\
  forall offset limit dupe, fits db offset limit -> dupe = (-1)%Z \/ (0 < dupe)%Z ->
    search_command db files star (Some x) tags
      {| s_exclude := excl; s_sort := sort; s_output := out; s_offset := offset; s_limit := limit; s_dupe := dupe |} =
    Out (Strings (concat (map (shows files out dupe) (window offset limit l)))).
Proof.
  intros db files star x tags excl sort out I O F.
  set (a := {| s_exclude := excl; s_sort := sort; s_output := out; s_offset := 0; s_limit := 0; s_dupe := -1 |}).
  set (tg := tags_in_force a tags). set (m := lib_mode a).
  assert (ME : m = EXCLUDE_TRUE \/ m = EXCLUDE_ALL).
  { unfold m, lib_mode, in_force, a. cbn. destruct excl, O as [-> | ->]; auto. }
  destruct (search_ok db x tg m sort I) as (ms & l & E & _ & D & N & S & H).
  destruct (C25_count_agrees_partial db x tg m sort I ME) as (ms' & l' & E' & J' & C). rewrite E in E'. injection E' as <-.
  assert (CL : count_messages db (configure (Some x) tg m sort) = Some (length (ms_docs ms))).
  { rewrite C. f_equal. unfold iterate_messages in J'. revert J'. generalize (ms_docs ms). clear. intros k. revert l'.
    induction k as [|d k IH]; intros l' J; cbn [iterate_docs] in J; [injection J as <-; reflexivity|].
    destruct (message_flag ms d); [|discriminate J]. destruct (iterate_docs ms k) as [r|]; [|discriminate J]. injection J as <-. cbn. f_equal. now apply IH. }
  assert (SEL : forall d, In d (ms_docs ms) <-> selected db x tags (in_force excl out) d).
  { intros d. change (in_force excl out) with (in_force (s_exclude a) (s_output a)). rewrite <- selected_in_force. fold tg m.
    rewrite D, in_map_iff. split; [intros ((e & b) & <- & Hb); now apply H in Hb|]. intros Hs.
    exists (d, false). split; [reflexivity|]. apply H. split; [exact Hs|]. split; [discriminate|]. intros (X & _). destruct ME; congruence. }
  assert (ND : NoDup (ms_docs ms)) by (rewrite D; eapply NoDup_map_inv; exact N).
  assert (LEN : length (ms_docs ms) <= length db).
  { apply NoDup_incl_length; [exact ND|]. intros d Hd. apply SEL in Hd. apply Hd. }
  exists (ms_docs ms). split; [exact ND|]. split; [rewrite D; exact S|]. split; [exact SEL|].
  intros offset limit dupe (Hn & Ho & Hl) Hd. unfold search_command. cbn [s_exclude s_sort s_output s_offset s_limit s_dupe].
  replace (negb (output_eqb out O_FILES) && negb (output_eqb out O_MESSAGES) && negb (dupe =? -1)%Z) with false by (destruct O as [-> | ->]; reflexivity).
  rewrite prepare_eq. fold (tags_in_force a tags). 
  change (tags_in_force {| s_exclude := excl; s_sort := sort; s_output := out; s_offset := offset; s_limit := limit; s_dupe := dupe |} tags) with tg.
  change (lib_mode {| s_exclude := excl; s_sort := sort; s_output := out; s_offset := offset; s_limit := limit; s_dupe := dupe |}) with m.
  cbn [s_sort].
  assert (G : do_search_messages db files (configure (Some x) tg m sort)
     {| s_exclude := excl; s_sort := sort; s_output := out; s_offset := offset; s_limit := limit; s_dupe := dupe |} =
     Out (concat (map (shows files out dupe) (window offset limit (ms_docs ms))))).
  { unfold do_search_messages. cbn [s_offset s_limit s_output s_dupe]. rewrite CL, E.
    assert (SO : (if (offset <? 0)%Z then Some (fix_offset offset (length (ms_docs ms))) else Some offset) = Some (start_of offset (length (ms_docs ms)))).
    { unfold start_of. destruct (offset <? 0)%Z eqn:EO; [|reflexivity]. rewrite fix_offset_eq by lia. reflexivity. }
    rewrite SO, window_slice.
    - do 2 f_equal. apply map_ext_in. intros d Hdw. apply shows_eq; [|exact Hd].
      pose proof (window_In _ _ _ _ Hdw) as Hin.
      apply SEL in Hin. apply F; apply Hin.
    - right. unfold INT_MAX, start_of. destruct (offset <? 0)%Z eqn:EO; lia. }
  destruct O as [-> | ->]; rewrite G; reflexivity.
Qed.
Print Assumptions C52_messages.

(** Paging loses and repeats nothing: a page and all that follows it make up the list. *)
Theorem C52_pages :
  forall db files star x tags excl sort out dupe offset n, ids_ok db -> out = O_MESSAGES \/ out = O_FILES ->
  (forall d, In d db -> is_mail d -> files d <> []) -> dupe = (-1)%Z \/ (0 < dupe)%Z ->
  (0 <= offset)%Z -> (0 <= n)%Z -> fits db offset n ->
  let run o lim := search_command db files star (Some x) tags
      {| s_exclude := excl; s_sort := sort; s_output := out; s_offset := o; s_limit := lim; s_dupe := dupe |} in
  exists page rest, run offset n = Out (Strings page) /\ run (offset + n)%Z (-1)%Z = Out (Strings rest) /\
    run offset (-1)%Z = Out (Strings (page ++ rest)).
Proof.
  intros db files star x tags excl sort out dupe offset n I O F D Ho Hn Fi run.
  destruct (C52_messages db files star x tags excl sort out I O F) as (l & _ & _ & _ & H). unfold run.
  destruct Fi as (A & B & C).
  eexists _, _. split; [apply H; [now split|exact D]|]. split; [apply H; [unfold fits; lia|exact D]|].
  rewrite H; [|unfold fits; lia|exact D]. now rewrite <- concat_app, <- map_app, window_split.
Qed.
Print Assumptions C52_pages.

(** The same for threads: one list of the threads holding a selected message (C24), each
    with its mail, and the command shows a window of it. *)
Theorem C52_threads :
  forall db files star x tags excl sort out, ids_ok db -> single_threaded db -> out = O_SUMMARY \/ out = O_THREADS ->
  let m := in_force excl out in
  exists l, NoDup (map th_id l) /\
    (forall tid, In tid (map th_id l) <-> exists d, selected db x tags m d /\ in_thread d tid) /\
    StronglySorted (fun a b => exists d, selected db x tags m d /\ in_thread d (th_id a) /\
      forall e, selected db x tags m e -> in_thread e (th_id b) -> in_order sort d e) l /\
    (forall th, In th l ->
       NoDup (thread_mail th) /\ StronglySorted (fun a b => (xd_date a <= xd_date b)%Z) (thread_mail th) /\
       (forall d, In d (thread_mail th) <-> In d db /\ is_mail d /\ in_thread d (th_id th) /\ (m = EXCLUDE_ALL -> ~ excluded x tags d)) /\
       (forall mb, In mb (th_messages th) ->
          (mb_match mb = true <-> selected db x tags m (mb_doc mb)) /\
          (mb_excluded mb = true <-> m <> EXCLUDE_FALSE /\ excluded x tags (mb_doc mb)))) /\
    forall offset limit, fits db offset limit ->
      search_command db files star (Some x) tags
        {| s_exclude := excl; s_sort := sort; s_output := out; s_offset := offset; s_limit := limit; s_dupe := -1 |} =
      Out (Threads (window offset limit l)).
Proof.
  intros db files star x tags excl sort out I ST O m.
  set (a := {| s_exclude := excl; s_sort := sort; s_output := out; s_offset := 0; s_limit := 0; s_dupe := -1 |}).
  set (tg := tags_in_force a tags). set (lm := lib_mode a).
  assert (SEL : forall d, selected db x tg lm d <-> selected db x tags m d) by (intros d; exact (selected_in_force db x tags a d)).
  assert (EX : forall d, excluded x tg d -> excluded x tags d).
  { intros d. unfold tg, tags_in_force. destruct (in_force _ _); auto. intros (t & [] & _). }
  destruct (C24_thread_search db x tg lm sort I ST) as (ts & E & L).
  destruct (L (S (length db)) ltac:(lia)) as (l & El & N & Hi & _ & S & R & C). clear L.
  assert (LEN : length l <= length db).
  { rewrite <- (map_length th_id). pose proof (fun tid => proj1 (Hi tid)) as Hx. clear - N Hx ST.
    assert (G : forall k : list bytes, NoDup k -> (forall tid, In tid k -> exists d, selected db x tg lm d /\ in_thread d tid) ->
      exists k' : list xdoc, length k' = length k /\ Forall2 (fun d tid => In d db /\ is_mail d /\ in_thread d tid) k' k).
    { clear. induction k as [|t k IH]; intros Nk Hk; [exists []; split; [reflexivity|constructor]|].
      inversion Nk; subst. destruct IH as (k' & Lk & Fk); [assumption|intros tid Ht; apply Hk; now right|].
      destruct (Hk t) as (d & Hd & Ht); [now left|]. exists (d :: k'). split; [cbn; now f_equal|]. constructor; [|exact Fk].
      split; [apply Hd|]. split; [apply Hd|exact Ht]. }
    destruct (G (map th_id l) N Hx) as (k' & <- & F). apply NoDup_incl_length.
    - clear G Hx. revert F N. generalize (map th_id l). intros k F. induction F as [|d t k' k (Hd & Hm & Ht) F IH]; intros Nk; [constructor|].
      inversion Nk as [|? ? Nt Nk']; subst. constructor; [|now apply IH]. intros Hin. apply Nt.
      destruct (ST d Hd Hm) as (u & Hu). apply Hu in Ht. subst t. clear - F Hin Hu.
      induction F as [|e t k' k (_ & _ & He) F IH]; [destruct Hin|]. destruct Hin as [-> |Hin]; [left; now apply Hu|right; now apply IH].
    - intros d Hd. clear - F Hd. induction F as [|e t k' k (He & _) F IH]; [destruct Hd|]. destruct Hd as [<- |Hd]; auto. }
  exists l. split; [exact N|]. split; [intros tid; rewrite Hi; now setoid_rewrite SEL|]. split; [|split].
  - clear - S SEL. induction S as [|u l S IH F]; [constructor|]. constructor; [exact IH|]. eapply Forall_impl; [|exact F]. cbn. intros v (d & Hd & Ht & He). exists d. split; [now apply SEL|]. split; [exact Ht|].
    intros e Hs. apply He. now apply SEL.
  - intros th Hth. destruct (C24_thread_contents db x tg lm sort th I ST (R th Hth)) as (A & B & D & F & _).
    split; [exact A|]. split; [exact B|]. split.
    + intros d. rewrite D. unfold m. unfold lm, lib_mode, tg, tags_in_force. cbn [s_exclude s_output a].
      destruct (in_force excl out); try reflexivity. split; intros (H1 & H2 & H3 & _); repeat split; auto; discriminate.
    + intros mb Hmb. destruct (F mb Hmb) as (G1 & G2). rewrite SEL in G1. split; [exact G1|]. rewrite G2.
      unfold m, lm, lib_mode, tg, tags_in_force. cbn [s_exclude s_output a]. destruct (in_force excl out); try reflexivity.
      split; [intros (_ & t & [] & _)|intros (X & _); now destruct X].
  - intros offset limit (Hn & Ho & Hl). unfold search_command. cbn [s_exclude s_sort s_output s_offset s_limit s_dupe].
    replace (negb (output_eqb out O_FILES) && negb (output_eqb out O_MESSAGES) && negb (-1 =? -1)%Z) with false by (rewrite andb_false_r; reflexivity).
    rewrite prepare_eq.
    change (tags_in_force {| s_exclude := excl; s_sort := sort; s_output := out; s_offset := offset; s_limit := limit; s_dupe := -1 |} tags) with tg.
    change (lib_mode {| s_exclude := excl; s_sort := sort; s_output := out; s_offset := offset; s_limit := limit; s_dupe := -1 |}) with lm.
    cbn [s_sort].
    assert (G : do_search_threads db (configure (Some x) tg lm sort) offset limit = Out (window offset limit l)).
    { unfold do_search_threads. rewrite C, E.
      assert (SO : (if (offset <? 0)%Z then Some (fix_offset offset (length l)) else Some offset) = Some (start_of offset (length l))).
      { unfold start_of. destruct (offset <? 0)%Z eqn:EO; [|reflexivity]. rewrite fix_offset_eq by lia. reflexivity. }
      rewrite SO, (threads_slice_eq db _ _ _ _ _ _ El). apply window_slice. right. unfold INT_MAX, start_of. destruct (offset <? 0)%Z eqn:EO; lia. }
    destruct O as [-> | ->]; rewrite G; reflexivity.
Qed.
Print Assumptions C52_threads.

(** --output=tags: in increasing order, without repetition, exactly the tags of the selected
    messages, whatever --offset and --limit say. *)
Theorem C52_tags :
  forall db files x tags excl sort offset limit, ids_ok db ->
  exists l, search_command db files false (Some x) tags
      {| s_exclude := excl; s_sort := sort; s_output := O_TAGS; s_offset := offset; s_limit := limit; s_dupe := -1 |} = Out (Strings l) /\
    StronglySorted blt l /\
    forall t, In t l <-> exists d, selected db x tags (in_force excl O_TAGS) d /\ has_tag d t.
Proof.
  intros db files x tags excl sort offset limit I.
  set (a := {| s_exclude := excl; s_sort := sort; s_output := O_TAGS; s_offset := offset; s_limit := limit; s_dupe := -1 |}).
  unfold search_command. cbn [s_output s_dupe a]. rewrite prepare_eq.
  destruct (search_ok db x (tags_in_force a tags) (lib_mode a) sort I) as (ms & l & E & _ & D & _ & _ & H).
  cbn [output_eqb negb andb Z.eqb Pos.eqb]. unfold do_search_tags. change (s_sort a) with sort. rewrite E.
  destruct (collect_tags_spec (ms_docs ms)) as (S & T). eexists. split; [reflexivity|]. split; [exact S|].
  intros t. rewrite T. assert (SEL : forall d, In d (ms_docs ms) <-> selected db x tags (in_force excl O_TAGS) d).
  { intros d. change (in_force excl O_TAGS) with (in_force (s_exclude a) (s_output a)). rewrite <- selected_in_force.
    rewrite D, in_map_iff. split; [intros ((e & b) & <- & Hb); now apply H in Hb|]. intros Hs.
    exists (d, false). split; [reflexivity|]. apply H. split; [exact Hs|]. split; [discriminate|].
    intros (X & _). unfold lib_mode, in_force in X. cbn in X. destruct excl; discriminate X. }
  now setoid_rewrite SEL.
Qed.
Print Assumptions C52_tags.

(** For the query * they are the tags in use in the database ... *)
Theorem C52_all_tags :
  forall db files x tags excl sort offset limit,
  exists l, search_command db files true (Some x) tags
      {| s_exclude := excl; s_sort := sort; s_output := O_TAGS; s_offset := offset; s_limit := limit; s_dupe := -1 |} = Out (Strings l) /\
    StronglySorted blt l /\ forall t, In t l <-> exists d, In d db /\ has_tag d t.
Proof.
  intros db files x tags excl sort offset limit. unfold search_command. cbn [s_output s_dupe]. rewrite prepare_eq.
  cbn [output_eqb negb andb Z.eqb Pos.eqb do_search_tags].
  destruct (collect_tags_spec db) as (S & T). eexists. split; [reflexivity|]. split; [exact S|exact T].
Qed.
Print Assumptions C52_all_tags.
(** ... also those of excluded messages only: the exclusion is forgotten. *)
Theorem C52_all_tags_exclude_refuted :
  exists db files x tags l t, ids_ok db /\ (forall d, is_mail d -> matches x d) /\
    search_command db files true (Some x) tags
      {| s_exclude := EXCLUDE_TRUE; s_sort := SORT_NEWEST_FIRST; s_output := O_TAGS; s_offset := 0; s_limit := -1; s_dupe := -1 |} = Out (Strings l) /\
    In t l /\ ~ exists d, selected db x tags EXCLUDE_TRUE d /\ has_tag d t.
Proof.
  exists ex_db, (fun _ => [lit "f"]), XAll, [lit "spam"]. eexists. exists (lit "spam").
  split; [apply ex_db_ok|]. split; [reflexivity|]. split; [vm_compute; reflexivity|]. split; [vm_compute; tauto|].
  intros (d & (_ & _ & _ & N) & T). apply N. exists (lit "spam"). split; [now left|]. split; [intros []|exact T].
Qed.
Print Assumptions C52_all_tags_exclude_refuted.

(** A query that cannot be parsed, or --duplicate with another output, is refused. *)
Theorem C52_refused :
  forall db files tags a,
  search_command db files false None tags a = Fail /\
  (forall star parse, s_dupe a <> (-1)%Z -> s_output a <> O_FILES -> s_output a <> O_MESSAGES -> search_command db files star parse tags a = Fail).
Proof.
  intros db files tags a. split.
  - unfold search_command. destruct (negb _ && negb _ && negb _); [reflexivity|].
    assert (P : search_prepare None tags a = None \/ exists q, search_prepare None tags a = Some q /\ q_parse q = None).
    { unfold search_prepare. cbv zeta. set (e := match s_exclude a with EXCLUDE_FLAG => _ | m => m end).
      destruct e; [right; eexists; split; reflexivity|..]; (destruct tags as [|t tags]; cbn; [right; eexists; split; reflexivity|now left]). }
    destruct P as [-> |(q & -> & Q)]; [reflexivity|].
    assert (S : search_messages db q = None) by (unfold search_messages; now rewrite Q).
    assert (C : count_messages db q = None) by (unfold count_messages; now rewrite Q).
    assert (ST : search_threads db q = None) by (unfold search_threads; now rewrite S).
    assert (CT : count_threads db q = None) by (unfold count_threads, search_messages; cbn [set_sort q_parse]; now rewrite Q).
    unfold do_search_threads, do_search_messages, do_search_tags. rewrite ?S, ?C, ?ST, ?CT.
    destruct (s_output a); try reflexivity; destruct (s_offset a <? 0)%Z; reflexivity.
  - intros star parse D F M. unfold search_command. replace (s_dupe a =? -1)%Z with false by lia.
    destruct (s_output a); try reflexivity; congruence.
Qed.
Print Assumptions C52_refused.

(** --format=text0 (and text, for items without line breaks): the output, cut at the
    separators, is the list of items, with their prefix. *)
Theorem C52_text :
  forall sep items, Forall (fun s => ~ In sep s) items ->
  ended_by sep [] (print_text None sep items) = items /\
  forall p, ~ In sep p -> sep <> ":"%char -> ended_by sep [] (print_text (Some p) sep items) = map (fun s => p ++ ":"%char :: s) items.
Proof.
  intros sep items F. split; [now apply print_text_split_plain|]. intros p Hp Hs. apply print_text_split; auto. intros c Hc ->. contradiction.
Qed.
Print Assumptions C52_text.
(** A file name may hold a line break: two different lists print alike with --format=text. *)
Theorem C52_text_newline_refuted :
  exists l l', l <> l' /\ print_text None "010"%char l = print_text None "010"%char l'.
Proof. exists [lit "a" ++ "010"%char :: lit "b"], [lit "a"; lit "b"]. split; [discriminate|reflexivity]. Qed.
Print Assumptions C52_text_newline_refuted.

(** The "query" entries of a summary: the two strings denote exactly the ids of the matched
    and of the other messages of the thread, in order; an entry is absent if there are none. *)
Theorem C52_thread_query :
  forall (l : list (bytes * bool)),
  let matched := map fst (filter (fun p => snd p) l) in
  let others := map fst (filter (fun p => negb (snd p)) l) in
  match fst (get_thread_query l None None) with
  | None => matched = []
  | Some s => matched <> [] /\ forall ids, ids_query s ids <-> ids = matched
  end /\
  match snd (get_thread_query l None None) with
  | None => others = []
  | Some s => others <> [] /\ forall ids, ids_query s ids <-> ids = others
  end.
Proof.
  intros l matched others. destruct (thread_query_reads l None None [] [] eq_refl eq_refl) as (A & B). cbn [app] in A, B.
  fold matched in A. fold others in B.
  assert (G : forall buf ids, reads buf ids -> match buf with None => ids = [] | Some s => ids <> [] /\ forall i, ids_query s i <-> i = ids end).
  { intros [s|] ids R; cbn [reads] in R; [|exact R]. split; [inversion R; discriminate|]. intros i. split; [intros H; exact (ids_query_functional s i ids H R)|now intros ->]. }
  split; now apply G.
Qed.
Print Assumptions C52_thread_query.

(** --offset=1 --limit=2147483647: the sum overflows, which is undefined (with gcc it wraps
    and nothing is shown). *)
Theorem C52_limit_overflow_refuted :
  exists db files x, ids_ok db /\ single_threaded db /\
  forall out, out <> O_TAGS -> search_command db files false (Some x) []
    {| s_exclude := EXCLUDE_TRUE; s_sort := SORT_NEWEST_FIRST; s_output := out; s_offset := 1; s_limit := 2147483647; s_dupe := -1 |} = Undef.
Proof.
  exists ex_db, (fun _ => [lit "f"]), ex_query. split; [apply ex_db_ok|]. split; [apply ex_db_ok|].
  intros [| | | |] H; try (vm_compute; reflexivity). now destruct H.
Qed.
Print Assumptions C52_limit_overflow_refuted.

Example C52_example :
  let run out offset limit dupe := search_command ex_db (fun d => if N.eqb (xd_id d) 3 then [lit "f"; lit "g"] else [lit "h"]) false (Some ex_query) [lit "spam"]
     {| s_exclude := EXCLUDE_TRUE; s_sort := SORT_NEWEST_FIRST; s_output := out; s_offset := offset; s_limit := limit; s_dupe := dupe |} in
  run O_MESSAGES 0%Z (-1)%Z (-1)%Z = Out (Strings [lit "m9"; lit "m3"; lit "m1"]) /\
  run O_MESSAGES 1%Z 1%Z (-1)%Z = Out (Strings [lit "m3"]) /\
  run O_MESSAGES (-1)%Z (-1)%Z (-1)%Z = Out (Strings [lit "m1"]) /\
  run O_MESSAGES 0%Z (-1)%Z 2%Z = Out (Strings [lit "m3"]) /\
  run O_FILES 0%Z 2%Z (-1)%Z = Out (Strings [lit "h"; lit "f"; lit "g"]) /\
  run O_TAGS 0%Z (-1)%Z (-1)%Z = Out (Strings [lit "inbox"]) /\
  (exists a b, run O_THREADS 0%Z (-1)%Z (-1)%Z = Out (Threads [a; b]) /\ th_id a = lit "3" /\ th_id b = lit "1") /\
  fits ex_db (-1) 5 /\
  fst (get_thread_query [(lit "a", true); (lit "b c", false); (lit "d", true)] None None) = Some (lit "id:a id:d").
Proof.
  cbv zeta. repeat match goal with |- _ /\ _ => split end; try (vm_compute; reflexivity).
  - eexists _, _. split; [vm_compute; reflexivity|]. split; reflexivity.
  - unfold fits. cbn. lia.
Qed.
