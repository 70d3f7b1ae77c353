(** Property C67: notmuch count prints the number of results notmuch search shows. *)
From Verif Require Import Bytes Terms XQuery DocSet Thread Query QuerySpec ThreadSummarySpec QueryProofs QueryProofs5 StrUtil SearchCmd SearchCmdSpec SearchCmdProofs Decimal TagLine Dump DumpProofs CountCmd P_Query P_SearchCmd.
From Coq Require Import Sorted Permutation.
Local Open Scope nat_scope.

Definition search_output (o : count_output) : output :=
  match o with C_THREADS => O_THREADS | C_MESSAGES => O_MESSAGES | C_FILES => O_FILES end.
Definition results (s : shown) : nat := match s with Threads l => length l | Strings l => length l end.
(** What follows the count on its line. *)
Definition tail_of (uuid : bytes) (revision : N) (lastmod : bool) : bytes :=
  if lastmod then chr 9 :: uuid ++ chr 9 :: dec revision ++ [NL] else [NL].

Lemma fold_modes x tags : forall q, q_parse q = Some x -> q_omit q = EXCLUDE_TRUE -> q_sort q = SORT_NEWEST_FIRST ->
  set_sort (set_omit_excluded (fold_left (fun q t => fst (add_tag_exclude q t)) tags q) EXCLUDE_TRUE) SORT_NEWEST_FIRST =
  fold_left (fun q t => fst (add_tag_exclude q t)) tags q.
Proof.
  induction tags as [|t tags IH]; intros [p e o s] P O S; cbn [q_parse q_omit q_sort] in P, O, S; subst; [reflexivity|]. cbn [fold_left].
  apply IH; unfold add_tag_exclude; cbn; destruct (tmem _ _); reflexivity.
Qed.
Lemma add_excludes_configure x tags :
  add_excludes (query_create (Some x)) tags = Some (configure (Some x) tags EXCLUDE_TRUE SORT_NEWEST_FIRST).
Proof. rewrite (add_excludes_eq x) by reflexivity. unfold configure. now rewrite (fold_modes x). Qed.
Lemma fold_S {A} (l : list A) : forall n, fold_left (fun count _ => S count) l n = n + length l.
Proof. induction l as [|a l IH]; intros n; cbn [fold_left length]; [lia|]. rewrite IH. lia. Qed.
Lemma fold_files {A B} (f : A -> list B) (l : list A) : forall n, fold_left (fun count d => fold_left (fun count _ => S count) (f d) count) l n = n + length (concat (map f l)).
Proof. induction l as [|a l IH]; intros n; cbn [fold_left map concat]; [cbn; lia|]. rewrite IH, fold_S, app_length. lia. Qed.
Lemma concat_length_perm {A B} (f : A -> list B) l l' : Permutation l l' -> length (concat (map f l)) = length (concat (map f l')).
Proof. induction 1; cbn; rewrite ?app_length; lia. Qed.
Lemma window_all {A} (l : list A) : window 0 (-1) l = l.
Proof. reflexivity. Qed.

(** The number printed is the number of results of the search with the same query, output
    and exclusion, whatever its order. *)
Theorem C67_agrees : forall db files parse uuid revision star query_str x tags (exclude : bool) out sort (lastmod : bool),
  ids_ok db -> single_threaded db -> (forall d, In d db -> is_mail d -> files d <> []) ->
  (Z.of_nat (length db) < 2 ^ 31)%Z -> parse query_str = Some x ->
  exists res : shown,
    search_command db files star (Some x) tags
      {| s_exclude := if exclude then EXCLUDE_TRUE else EXCLUDE_FALSE; s_sort := sort; s_output := search_output out;
         s_offset := 0; s_limit := -1; s_dupe := -1 |} = Out res /\
    count_command db files parse uuid revision None true query_str exclude tags out lastmod =
      (dec (N.of_nat (results res)) ++ tail_of uuid revision lastmod, Done).
Proof.
  intros db files parse uuid revision star query_str x tags exclude out sort lastmod I ST F L P.
  set (excl := if exclude then EXCLUDE_TRUE else EXCLUDE_FALSE). set (tg := if exclude then tags else []).
  assert (FT : fits db 0 (-1)) by (unfold fits; lia).
  assert (SEL : forall o d, selected db x tags (in_force excl o) d <-> selected db x tg EXCLUDE_TRUE d).
  { intros o d. unfold tg, excl, selected. destruct exclude; cbn [in_force]; [reflexivity|]. split; intros (A & B & C & _); repeat split; auto. intros (t & [] & _). }
  assert (G : exists n, (match out with
             | C_MESSAGES => count_messages db (configure (Some x) tg EXCLUDE_TRUE SORT_NEWEST_FIRST)
             | C_THREADS => count_threads db (configure (Some x) tg EXCLUDE_TRUE SORT_NEWEST_FIRST)
             | C_FILES => count_files db files (configure (Some x) tg EXCLUDE_TRUE SORT_NEWEST_FIRST) end) = Some n /\
    exists res : shown, search_command db files star (Some x) tags
      {| s_exclude := excl; s_sort := sort; s_output := search_output out; s_offset := 0; s_limit := -1; s_dupe := -1 |} = Out res /\ n = results res).
  { destruct out; cbn [search_output].
    - destruct (C52_threads db files star x tags excl sort O_THREADS I ST (or_intror eq_refl)) as (l & N & Hi & _ & _ & R).
      destruct (count_threads_ok db x tg EXCLUDE_TRUE SORT_NEWEST_FIRST I ST) as (h & Eh & Nh & Hh).
      exists (length h). split; [exact Eh|]. eexists. split; [apply (R _ _ FT)|]. rewrite window_all. cbn [results].
      rewrite <- (map_length th_id l). apply Permutation_length, NoDup_Permutation; auto.
      intros t. rewrite Hh, Hi. split; intros (d & A & B); exists d; (split; [now apply (SEL O_THREADS)|exact B]).
    - destruct (C52_messages db files star x tags excl sort O_MESSAGES I (or_introl eq_refl) F) as (l & N & _ & Hi & R).
      destruct (C25_count db x tg EXCLUDE_TRUE SORT_NEWEST_FIRST I) as (c & E & Nc & Hc).
      exists (length c). split; [exact E|]. eexists. split; [apply (R _ _ (-1)%Z FT); now left|]. rewrite window_all. cbn [results].
      assert (X : length (concat (map (shows files O_MESSAGES (-1)) l)) = length l).
      { clear. induction l as [|d l IH]; [reflexivity|]. cbn [map concat]. rewrite app_length, IH. unfold shows. destruct (Z.leb_spec (-1) (Z.of_nat (length (files d)))); [reflexivity|lia]. }
      rewrite X. apply Permutation_length, NoDup_Permutation; auto. intros d. rewrite Hc, Hi. symmetry. apply SEL.
    - destruct (C52_messages db files star x tags excl sort O_FILES I (or_intror eq_refl) F) as (l & N & _ & Hi & R).
      destruct (search_ok db x tg EXCLUDE_TRUE SORT_NEWEST_FIRST I) as (ms & l0 & E & _ & D & N0 & _ & H).
      unfold count_files. rewrite E. rewrite fold_files. eexists. split; [reflexivity|]. eexists. split; [apply (R _ _ (-1)%Z FT); now left|]. rewrite window_all. cbn [results].
      assert (X : concat (map (shows files O_FILES (-1)) l) = concat (map files l)) by reflexivity.
      rewrite X. cbn [Nat.add]. apply concat_length_perm. apply NoDup_Permutation; [rewrite D; eapply NoDup_map_inv; exact N0|exact N|].
      intros d. rewrite Hi, D, (SEL O_FILES), in_map_iff. split.
      + intros ((e & b) & <- & Hb). now apply H in Hb.
      + intros Hs. exists (d, false). split; [reflexivity|]. apply H. split; [exact Hs|]. split; [discriminate|]. intros (Y & _). discriminate Y. }
  destruct G as (n & E & res & S & Hn). exists res. split; [exact S|].
  unfold count_command, print_count. rewrite P. fold tg. rewrite add_excludes_configure, E. subst n. unfold tail_of. destruct lastmod; [|reflexivity].
  reflexivity.
Qed.
Print Assumptions C67_agrees.

(** Batch mode: the queries are answered one per line, in order, each as if it were asked
    alone, up to the first that fails; then the command fails.  Nothing is printed for a
    query that fails. *)
Inductive batch_result (one : bytes -> bytes * outcome) : list bytes -> bytes -> outcome -> Prop :=
| br_end : batch_result one [] [] Done
| br_good q qs o rest st : one q = (o, Done) -> batch_result one qs rest st -> batch_result one (q :: qs) (o ++ rest) st
| br_bad q qs : one q = ([], Failed) -> batch_result one (q :: qs) [] Failed.

Theorem C67_batch : forall db files parse uuid revision (exclude : bool) tags out lastmod queries (last_newline : bool),
  Forall (fun q => ~ In NL q /\ cstr q) queries -> (last queries [] <> [] \/ last_newline = true) ->
  let text := concat (map (fun q => q ++ [NL]) (removelast queries)) ++ last queries [] ++ (if last_newline then [NL] else []) in
  queries <> [] ->
  exists printed st,
    count_command db files parse uuid revision (Some text) false [] exclude tags out lastmod = (printed, st) /\
    batch_result (fun q => count_command db files parse uuid revision None true q exclude tags out lastmod) queries printed st.
Proof.
  intros db files parse uuid revision exclude tags out lastmod queries nl HQ HL text NE.
  set (one := fun q => count_command db files parse uuid revision None true q exclude tags out lastmod).
  unfold count_command at 1. set (tg := if exclude then tags else []).
  assert (ONE : forall q, one q = match print_count db files parse uuid revision q tg out lastmod with None => ([], Failed) | Some o => (o, Done) end) by reflexivity.
  assert (TW : forall q r, cstr q -> takewhile nonul (q ++ r) = q ++ takewhile nonul r).
  { intros q r. unfold cstr. induction q as [|c q IH]; [reflexivity|]. cbn [forallb app takewhile]. rewrite andb_true_iff. intros [A B]. rewrite A. now rewrite IH. }
  assert (CH : forall q, cstr q -> chomp_newline (takewhile nonul (q ++ [NL])) = Some q).
  { intros q C. rewrite TW by exact C. change (takewhile nonul [NL]) with [NL]. unfold chomp_newline.
    destruct (q ++ [NL]) eqn:E; [destruct q; discriminate E|]. rewrite <- E, last_last, removelast_last. reflexivity. }
  assert (CH2 : forall q, q <> [] -> ~ In NL q -> cstr q -> chomp_newline (takewhile nonul q) = Some q).
  { intros q N NI C. pose proof (TW q [] C) as T. rewrite app_nil_r in T. rewrite T. change (takewhile nonul []) with (@nil byte). rewrite app_nil_r. unfold chomp_newline.
    destruct q as [|c q0] eqn:E; [contradiction|]. rewrite <- E in *. destruct (beq (last q NUL) (chr 10)) eqn:B; [|reflexivity].
    exfalso. apply NI. apply Ascii.eqb_eq in B. destruct (@exists_last _ q) as (r & a & R); [now rewrite E|]. rewrite R in B. rewrite last_last in B. subst a. rewrite R.
    apply in_or_app. right. now left. }
  assert (SP : exists lines, split_lines text = lines /\ Forall2 (fun l q => chomp_newline (takewhile nonul l) = Some q) lines queries).
  { eexists. split; [reflexivity|]. clear one ONE. unfold text, split_lines. clear text. revert HQ HL NE. induction queries as [|q qs IH]; intros HQ HL NE; [contradiction|].
    inversion HQ as [|? ? (H1 & H2) HQ']; subst. destruct qs as [|q' qs].
    - cbn [removelast map concat last app] in *. destruct nl.
      + rewrite split_lines_acc_line by exact H1. cbn [app split_lines_acc]. constructor; [now apply CH|constructor].
      + rewrite app_nil_r. destruct HL as [HL|HL]; [|discriminate HL].
        assert (SL : forall acc s, ~ In NL s -> split_lines_acc acc s = match acc ++ s with [] => [] | _ => [acc ++ s] end).
        { intros acc s. revert acc. induction s as [|c s IHs]; intros acc X; cbn [split_lines_acc]; [rewrite app_nil_r; reflexivity|].
          destruct (beq c NL) eqn:B; [apply Ascii.eqb_eq in B; exfalso; apply X; left; exact B|].
          rewrite IHs by (intros Y; apply X; now right). rewrite <- app_assoc. reflexivity. }
        rewrite SL by exact H1. cbn [app]. destruct q as [|c q]; [contradiction|]. constructor; [|constructor]. now apply CH2.
    - change (removelast (q :: q' :: qs)) with (q :: removelast (q' :: qs)). change (last (q :: q' :: qs) []) with (last (q' :: qs) (@nil byte)) in *.
      cbn [map concat]. rewrite <- !app_assoc. change ([NL] ++ ?r) with (NL :: r). cbn [app].
      rewrite split_lines_acc_line by exact H1. cbn [app]. constructor; [now apply CH|]. apply IH; auto. discriminate. }
  destruct SP as (lines & -> & FA). clear text CH CH2 TW NE HL. clear HQ. induction FA as [|line q lines qs H FA IH].
  - exists [], Done. split; [reflexivity|constructor].
  - cbn [count_file]. rewrite H. pose proof (ONE q) as Oq. destruct (print_count db files parse uuid revision q tg out lastmod) as [o|].
    + destruct IH as (pr & st & E & B). rewrite E. exists (o ++ pr), st. split; [reflexivity|]. now constructor.
    + exists [], Failed. split; [reflexivity|]. now constructor.
Qed.
Print Assumptions C67_batch.

(** A batch line that begins with a NUL byte makes chomp_newline read before the start of
    the buffer. *)
Theorem C67_every_line_handled_refuted : exists text, forall db files parse uuid revision exclude tags out lastmod,
  snd (count_command db files parse uuid revision (Some text) false [] exclude tags out lastmod) = Undefined.
Proof. exists [NUL; NL]. reflexivity. Qed.
Print Assumptions C67_every_line_handled_refuted.

Example C67_example :
  let files := fun d => [xd_mid d; lit "copy"] in
  let parse := fun s => if bseq s (lit "bad") then None else Some ex_query in
  ids_ok ex_db /\ single_threaded ex_db /\
  map (fun o => fst (count_command ex_db files parse (lit "U") 7 None true (lit "tag:inbox") true [lit "spam"] o true)) [C_THREADS; C_MESSAGES; C_FILES] =
    [lit "2" ++ [chr 9] ++ lit "U" ++ [chr 9] ++ lit "7" ++ [NL]; lit "3" ++ [chr 9] ++ lit "U" ++ [chr 9] ++ lit "7" ++ [NL]; lit "6" ++ [chr 9] ++ lit "U" ++ [chr 9] ++ lit "7" ++ [NL]] /\
  count_command ex_db files parse [] 0 (Some (lit "a" ++ [NL] ++ lit "bad" ++ [NL] ++ lit "b")) false [] false [lit "spam"] C_MESSAGES false =
    (lit "4" ++ [NL], Failed).
Proof. cbv zeta. split; [apply ex_db_ok|]. split; [apply ex_db_ok|]. split; vm_compute; reflexivity. Qed.
