(** C08: last operation wins.  C09: restricting the tag query loses nothing. *)
From Verif Require Import Bytes Terms Meta MetaProofs DocMap Db DbSpec DbProofs StrUtil TagOps TagOpsSpec TagOpsProofs.
Local Open Scope N_scope.

(** ** C08 *)

(** One message: open it, apply the operations. [tsorted]: Xapian keeps the terms of
    a document sorted and without duplicates. *)
Theorem C08_last_operation_wins :
  forall h k ops ra po s d,
  Forall tagop_valid ops -> writable s = true -> isopen s = true ->
  dget k (st_docs (vis s)) = Some d -> tsorted (d_terms d) ->
  exists s' d',
    tag_message h ops ra po k s = (St_success, s') /\
    dget k (st_docs (vis s')) = Some d' /\
    (forall t, In t (tags_of (d_terms d')) <-> tag_after ra ops (fun t => In t (tags_of (d_terms d))) t) /\
    (forall x, (forall t, x <> tag_term t) -> In x (d_terms d') <-> In x (d_terms d)) /\
    (forall j, j <> k -> dget j (st_docs (vis s')) = dget j (st_docs (vis s))).
Proof.
  intros h k ops ra po s d Hv Hw Ho Hd Hs.
  destruct (tag_message_spec h ops ra po k s (d_terms d) Hv Hw Ho) as (s' & A & B & C & D & E); auto.
  { unfold dterms. now rewrite Hd. }
  unfold dterms in D. destruct (dget k (st_docs (vis s'))) as [d'|] eqn:Hd'; [|discriminate]. injection D as D.
  exists s', d'. split; [exact A|]. split; [exact Hd'|].
  destruct (edits_terms_tags (edits_of ra ops) (d_terms d) Hs) as (S & T & U). rewrite D.
  split; [intros t; now rewrite T, edits_of_effect|]. split; [exact U|exact E].
Qed.
Print Assumptions C08_last_operation_wins.

(** When the tool decides that nothing would change, it is right, and it writes nothing. *)
Theorem C08_no_change_decision :
  forall tags ops ra, makes_changes tags ops ra = false ->
  (forall t, tag_after ra ops (fun t => In t tags) t <-> In t tags) /\
  (forall h s hd, dget h (handles s) = Some hd -> tags_of (h_terms hd) = tags ->
     tag_op_list_apply h ops ra false s = (St_success, s)).
Proof.
  intros tags ops ra H. split; [now apply makes_changes_false|].
  intros h s hd Hh <-. unfold tag_op_list_apply. now rewrite Hh, H.
Qed.
Print Assumptions C08_no_change_decision.

(** An application that reports a failure (a tag too long, a read-only or closed
    database) has written nothing. *)
Theorem C08_failure_writes_nothing :
  forall h ops ra po s st s',
  tag_op_list_apply h ops ra po s = (st, s') -> st <> St_success -> frozen_count h s = O ->
  vis s' = vis s /\ durable s' = durable s /\ revision s' = revision s.
Proof. exact apply_failure_writes_nothing. Qed.
Print Assumptions C08_failure_writes_nothing.

Definition ex_ops : list tagop :=
  [ {| to_tag := lit "x"; to_remove := false |}; {| to_tag := lit "inbox"; to_remove := true |};
    {| to_tag := lit "x"; to_remove := true |}; {| to_tag := lit "y"; to_remove := false |} ].
Definition ex_store : store :=
  {| st_docs := [(7, {| d_terms := map lit ["Kinbox"; "Kkeep"; "Qa@b"]%string; d_lastmod := 3 |})]; st_ub := 3 |}.
Example C08_nontrivial :
  Forall tagop_valid ex_ops /\
  (let r := tag_message 1 ex_ops false false 7 (open_db ex_store 0 true) in
   fst r = St_success /\
   dget 7 (st_docs (vis (snd r))) = Some {| d_terms := map lit ["Kkeep"; "Ky"; "Qa@b"]%string; d_lastmod := 4 |}) /\
  (let r := tag_message 1 ex_ops true false 7 (open_db ex_store 0 true) in
   dget 7 (st_docs (vis (snd r))) = Some {| d_terms := map lit ["Ky"; "Qa@b"]%string; d_lastmod := 4 |}).
Proof. split; [repeat constructor; vm_compute; lia|now vm_compute]. Qed.
Example C08_failure_nontrivial :
  let long := {| to_tag := repeat "A"%char 201; to_remove := false |} in
  fst (tag_message 1 (ex_ops ++ [long]) false false 7 (open_db ex_store 0 true)) = St_tag_too_long.
Proof. now vm_compute. Qed.

(** The decision is one-sided: a list may be reported as changing something although
    its net effect is nothing. *)
Theorem C08_decision_exact_refuted :
  ~ (forall tags ops ra, makes_changes tags ops ra = true ->
       exists t, ~ (tag_after ra ops (fun t => In t tags) t <-> In t tags)).
Proof.
  intros H.
  destruct (H [] [ {| to_tag := lit "x"; to_remove := false |}; {| to_tag := lit "x"; to_remove := true |} ] false eq_refl) as (t & Ht).
  apply Ht. split; [|intros []]. intros [(p & q & E & N)|(_ & _ & [])].
  destruct p as [|a [|b [|c p]]]; try discriminate.
  injection E as <- <-. apply (N _ (or_introl eq_refl)). reflexivity.
Qed.
Print Assumptions C08_decision_exact_refuted.

(** ** C09 *)

(** 'notmuch tag' on an infix query: same tags on every message, whether the query
    was restricted to affected messages or not. *)
Theorem C09_infix_optimisation_loses_nothing :
  forall h (q : query) ops s,
  Forall tagop_valid ops -> writable s = true -> isopen s = true -> NoDup (map fst (st_docs (vis s))) ->
  (forall k d, dget k (st_docs (vis s)) = Some d -> tsorted (d_terms d)) ->
  exists s1 s2,
    tag_query optimize_infix h q ops false s = (St_success, s1) /\
    tag_query (fun q _ => q) h q ops false s = (St_success, s2) /\
    forall k, option_map d_terms (dget k (st_docs (vis s1))) = option_map d_terms (dget k (st_docs (vis s2))).
Proof. exact infix_optimisation_sound. Qed.
Print Assumptions C09_infix_optimisation_loses_nothing.

(** What the unrestricted run does: exactly the matching messages get the operations. *)
Theorem C09_tag_query_effect :
  forall h (q : query) ops ra s,
  Forall tagop_valid ops -> writable s = true -> isopen s = true -> NoDup (map fst (st_docs (vis s))) ->
  (forall k d, dget k (st_docs (vis s)) = Some d -> tsorted (d_terms d)) ->
  exists s', tag_query optimize_infix h q ops ra s = (St_success, s') /\
    forall k d, dget k (st_docs (vis s)) = Some d ->
      exists d', dget k (st_docs (vis s')) = Some d' /\
        forall t, In t (tags_of (d_terms d')) <->
          (if q d then tag_after ra ops (fun t => In t (tags_of (d_terms d))) t else In t (tags_of (d_terms d))).
Proof.
  intros h q ops ra s Hv Hw Ho Hn Hs.
  assert (M : forall k l, existsb (N.eqb k) l = true <-> In k l).
  { intros k l. rewrite existsb_exists. split; [intros (x & Hx & E); apply N.eqb_eq in E; now subst|].
    intros H. exists k. split; [exact H|]. apply N.eqb_refl. }
  assert (G : forall qq b, exists s', tag_messages h ops ra b (search qq s) s = (St_success, s') /\
    forall k d, dget k (st_docs (vis s)) = Some d -> exists d', dget k (st_docs (vis s')) = Some d' /\
        forall t, In t (tags_of (d_terms d')) <->
          (if qq d then tag_after ra ops (fun t => In t (tags_of (d_terms d))) t else In t (tags_of (d_terms d)))).
  { intros qq b. destruct (search_spec qq s Hn) as [N1 S1].
    destruct (tag_messages_spec h ops ra b Hv (search qq s) s N1 Hw Ho) as (s' & A & B).
    { intros k Hk. apply S1 in Hk as (d & Hd & _). exists (d_terms d). unfold dterms. rewrite Hd. split; [reflexivity|eauto]. }
    exists s'. split; [exact A|]. intros k d Hd. specialize (B k). unfold dterms in B. rewrite Hd in B. cbn [option_map] in B.
    destruct (dget k (st_docs (vis s'))) as [d'|]; [|destruct (existsb _ _); discriminate].
    exists d'. split; [reflexivity|]. intros t. cbn [option_map] in B.
    destruct (existsb (N.eqb k) (search qq s)) eqn:E.
    - apply M, S1 in E as (d0 & Hd0 & Hq). rewrite Hd in Hd0. injection Hd0 as <-. rewrite Hq.
      injection B as ->. destruct (edits_terms_tags (edits_of ra ops) (d_terms d) (Hs k d Hd)) as (S & T & U).
      now rewrite T, edits_of_effect.
    - injection B as ->. destruct (qq d) eqn:Hq; [|reflexivity]. exfalso.
      assert (existsb (N.eqb k) (search qq s) = true); [|congruence]. apply M, S1. eauto. }
  destruct ra.
  - unfold tag_query. apply G.
  - destruct (infix_optimisation_sound h q ops s Hv Hw Ho Hn Hs) as (s1 & s2 & A & B & C).
    exists s1. split; [exact A|]. intros k d Hd. destruct (G q true) as (s2' & B' & D).
    unfold tag_query in B. rewrite B in B'. injection B' as <-. destruct (D k d Hd) as (d2 & E & F).
    specialize (C k). unfold dterms in C. rewrite E in C.
    destruct (dget k (st_docs (vis s1))) as [d1|]; [|discriminate].
    injection C as C. exists d1. split; [reflexivity|]. now rewrite C.
Qed.
Print Assumptions C09_tag_query_effect.

(** With an S-expression query the conditions are joined by conjunction, so a
    message lacking only some of the tags is skipped. *)
Theorem C09_sexp_optimisation_refuted :
  ~ (forall h (q : query) ops s,
     Forall tagop_valid ops -> writable s = true -> isopen s = true -> NoDup (map fst (st_docs (vis s))) ->
     (forall k d, dget k (st_docs (vis s)) = Some d -> tsorted (d_terms d)) ->
     exists s1 s2,
       tag_query optimize_sexp h q ops false s = (St_success, s1) /\
       tag_query (fun q _ => q) h q ops false s = (St_success, s2) /\
       forall k, option_map d_terms (dget k (st_docs (vis s1))) = option_map d_terms (dget k (st_docs (vis s2)))).
Proof.
  intros H.
  destruct (H 1 (fun _ => true) [ {| to_tag := lit "a"; to_remove := false |}; {| to_tag := lit "b"; to_remove := true |} ]
              (open_db ex_store 0 true)) as (s1 & s2 & A & B & C).
  - repeat constructor; vm_compute; lia.
  - reflexivity.
  - reflexivity.
  - vm_compute. repeat constructor. intros [].
  - intros k d Hd. apply dget_In in Hd as [E|[]]. injection E as <- <-. vm_compute. repeat constructor.
  - specialize (C 7). revert C.
    assert (L1 : option_map d_terms (dget 7 (st_docs (vis (snd (St_success, s1))))) = Some (map lit ["Kinbox"; "Kkeep"; "Qa@b"]%string))
      by (rewrite <- A; vm_compute; reflexivity).
    assert (L2 : option_map d_terms (dget 7 (st_docs (vis (snd (St_success, s2))))) = Some (map lit ["Ka"; "Kinbox"; "Kkeep"; "Qa@b"]%string))
      by (rewrite <- B; vm_compute; reflexivity).
    cbn [snd] in L1, L2. rewrite L1, L2. discriminate.
Qed.
Print Assumptions C09_sexp_optimisation_refuted.

(** The S-expression text does not escape the tag: two different operation lists give
    the same query text. *)
Theorem C09_sexp_text_injective_refuted :
  ~ (forall q ops ops', optimize_sexp_text q ops = optimize_sexp_text q ops' -> ops = ops').
Proof.
  intros H. specialize (H (lit "q") [ {| to_tag := lit "a"") (tag ""b"; to_remove := true |} ]
    [ {| to_tag := lit "a"; to_remove := true |}; {| to_tag := lit "b"; to_remove := true |} ] eq_refl). discriminate.
Qed.
Print Assumptions C09_sexp_text_injective_refuted.

Example C09_nontrivial :
  let s := open_db {| st_docs := [(1, {| d_terms := map lit ["Ka"; "Kb"]%string; d_lastmod := 1 |});
                                  (2, {| d_terms := map lit ["Ka"]%string; d_lastmod := 1 |})]; st_ub := 1 |} 0 true in
  let ops := [ {| to_tag := lit "a"; to_remove := false |}; {| to_tag := lit "b"; to_remove := true |} ] in
  search (optimize_infix (fun _ => true) ops) s = [1] /\
  map (fun e => d_terms (snd e)) (st_docs (vis (snd (tag_query optimize_infix 9 (fun _ => true) ops false s)))) = [[lit "Ka"]; [lit "Ka"]].
Proof. now vm_compute. Qed.
