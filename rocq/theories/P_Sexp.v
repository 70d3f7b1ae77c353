(** C39, C48: s-expression queries mean what the manual says; saved queries and macros are
    abbreviations.  Specification: SexpSpec.v. *)
From Verif Require Import Bytes Terms XQuery Sexp SexpSpec SexpProofs SexpProofs2.
From Coq Require Import Lia.

(** ** C39: the meaning of plain expressions. *)

(** every well-formed expression is translated, to a query that selects exactly the
    messages the expression means. *)
Theorem C39_meaning : forall S sx,
  user_ok S -> plain S sx -> well_formed S None sx = true ->
  exists q, gives S None sx (SOk q) /\ forall d, xmatch q d = true <-> means S None sx d.
Proof.
  intros S sx HU HP HW. pose proof (sexp_translated S HU sx HP None None I) as H. unfold translated in H. rewrite HW in H.
  destruct H as [q [H1 H2]]. exists q. split; [|exact H2]. split; [discriminate|]. exists (height sx). now apply H1.
Qed.
Print Assumptions C39_meaning.

(** and only one: the result does not depend on anything else. *)
Theorem C39_deterministic : forall S parent sx r r', gives S parent sx r -> gives S parent sx r' -> r = r'.
Proof. intros S parent sx r r' [N [f H]] [N' [f' H']]. eapply to_query_det; eauto. Qed.
Print Assumptions C39_deterministic.

(** an expression that is not a query selects nothing: it is never translated ... *)
Theorem C39_rejects : forall S sx q,
  user_ok S -> plain S sx -> well_formed S None sx = false -> ~ gives S None sx (SOk q).
Proof.
  intros S sx q HU HP HW [_ [f H]]. pose proof (sexp_translated S HU sx HP None None I) as K. unfold translated in K.
  rewrite HW in K. destruct K as [K _]. now apply K in H.
Qed.
Print Assumptions C39_rejects.
(** ... but reported as an error, unless matching/of occurs outside a field. *)
Theorem C39_rejects_with_error : forall S sx,
  user_ok S -> plain S sx -> well_formed S None sx = false -> matching_in_fields S None sx ->
  exists e, gives S None sx (SErr e).
Proof.
  intros S sx HU HP HW HM. pose proof (sexp_translated S HU sx HP None None I) as K. unfold translated in K.
  rewrite HW in K. destruct K as [_ K]. destruct (K HM (height sx) (le_n _)) as [e H]. exists e. split; [discriminate|eauto].
Qed.
Print Assumptions C39_rejects_with_error.

(** and, or, not of arbitrary subqueries (macros and all), in any field. *)
Definition operator (S : sdb) (h : String.string) : Prop := s_saved S (lit h) = NotSaved /\ s_user S (lit h) = None.

Lemma gives_all S parent args qs :
  Forall2 (fun a q => gives S parent a (SOk q)) args qs ->
  exists f, Forall2 (fun a q => to_query f S parent ENil a = SOk q) args qs.
Proof.
  induction 1 as [|a q args qs [_ [f1 H]] _ [f2 F]]; [exists 0; constructor|]. exists (max f1 f2). constructor.
  - destruct (to_query_mono S f1 (max f1 f2) parent ENil a) as [K|K]; [lia|congruence|congruence].
  - eapply Forall2_impl; [|exact F]. cbn. intros x y E.
    destruct (to_query_mono S f2 (max f1 f2) parent ENil x) as [K|K]; [lia|congruence|congruence].
Qed.
Lemma gives_comb S parent q0 h args qs op init :
  s_saved S h = NotSaved ->
  (forall f, eval_list S (to_query f S) parent ENil h args = combine (to_query f S parent ENil) op init args) ->
  Forall2 (fun a q => gives S parent a (SOk q)) args qs ->
  gives S parent (SList (Atom q0 h :: args)) (SOk (fold_left (XOp op) qs init)).
Proof.
  intros ES E F. apply gives_all in F. destruct F as [f F]. split; [discriminate|]. exists (Datatypes.S f).
  rewrite to_query_list, E by exact ES. now apply combine_ok.
Qed.

Theorem C39_and : forall S parent quoted args qs,
  operator S "and" -> Forall2 (fun a q => gives S parent a (SOk q)) args qs ->
  exists q, gives S parent (SList (Atom quoted (lit "and") :: args)) (SOk q)
            /\ forall d, xmatch q d = true <-> Forall (fun q' => xmatch q' d = true) qs.
Proof.
  intros S parent quoted args qs [E1 E2] F. eexists. split.
  - apply (gives_comb S parent quoted (lit "and") args qs OP_AND XAll E1); [|exact F].
    intros f. unfold eval_list, head_of. rewrite E2. reflexivity.
  - intros d. rewrite fold_and. cbn. tauto.
Qed.
Print Assumptions C39_and.
Theorem C39_or : forall S parent quoted args qs,
  operator S "or" -> Forall2 (fun a q => gives S parent a (SOk q)) args qs ->
  exists q, gives S parent (SList (Atom quoted (lit "or") :: args)) (SOk q)
            /\ forall d, xmatch q d = true <-> Exists (fun q' => xmatch q' d = true) qs.
Proof.
  intros S parent quoted args qs [E1 E2] F. eexists. split.
  - apply (gives_comb S parent quoted (lit "or") args qs OP_OR XNone E1); [|exact F].
    intros f. unfold eval_list, head_of. rewrite E2. reflexivity.
  - intros d. rewrite fold_or. cbn. split; [intros [?|?]; [discriminate|assumption]|auto].
Qed.
Print Assumptions C39_or.
Theorem C39_not : forall S parent quoted args qs,
  operator S "not" -> Forall2 (fun a q => gives S parent a (SOk q)) args qs ->
  exists q, gives S parent (SList (Atom quoted (lit "not") :: args)) (SOk q)
            /\ forall d, xmatch q d = true <-> Forall (fun q' => xmatch q' d = false) qs.
Proof.
  intros S parent quoted args qs [E1 E2] F. eexists. split.
  - apply (gives_comb S parent quoted (lit "not") args qs OP_AND_NOT XAll E1); [|exact F].
    intros f. unfold eval_list, head_of. rewrite E2. reflexivity.
  - intros d. rewrite fold_not. cbn. clear. rewrite <- Forall_Exists_neg. split.
    + intros [_ H]. revert H. apply Forall_impl. intros q. destruct (xmatch q d); [tauto|reflexivity].
    + intros H. split; [reflexivity|]. revert H. apply Forall_impl. intros q ->. discriminate.
Qed.
Print Assumptions C39_not.

(** ** C48: saved queries and macros. *)

(** a macro call is the macro's body with the arguments in place of the parameters. *)
Theorem C48_macro_is_substitution : forall S parent quoted name params body args r,
  saved_ok S -> s_saved S name = Saved (macro params body) -> List.length params = List.length args ->
  Forall params_ok args ->
  (gives S parent (SList (Atom quoted name :: args)) r <-> gives S parent (subst (argument params args) body) r).
Proof. exact macro_is_substitution. Qed.
Print Assumptions C48_macro_is_substitution.

(** with too few or too many arguments it is a syntax error. *)
Theorem C48_macro_arity : forall S parent quoted name params body args r,
  s_saved S name = Saved (macro params body) -> List.length params <> List.length args ->
  (gives S parent (SList (Atom quoted name :: args)) r <-> r = SErr BAD_QUERY_SYNTAX).
Proof. exact macro_arity. Qed.
Print Assumptions C48_macro_arity.

(** another saved query is its definition. *)
Theorem C48_saved_query : forall S parent quoted name def args r,
  s_saved S name = Saved def -> compound def = true -> is_macro def = false ->
  (gives S parent (SList (Atom quoted name :: args)) r <-> gives S parent def r).
Proof. exact saved_is_definition. Qed.
Print Assumptions C48_saved_query.

(** so expanding all the abbreviations of an expression preserves its meaning, *)
Theorem C48_expansion : forall S sx sx',
  saved_ok S -> params_ok sx -> expands S sx sx' -> forall parent r, gives S parent sx r <-> gives S parent sx' r.
Proof. intros S sx sx' HS HP HE. exact (expansion_is_alike S sx sx' HS HE HP). Qed.
Print Assumptions C48_expansion.
(** which is that of the expanded expression according to C39. *)
Theorem C48_meaning : forall S sx sx',
  user_ok S -> saved_ok S -> params_ok sx -> expands S sx sx' -> plain S sx' ->
  (well_formed S None sx' = true -> exists q, gives S None sx (SOk q) /\ forall d, xmatch q d = true <-> means S None sx' d)
  /\ (well_formed S None sx' = false -> forall q, ~ gives S None sx (SOk q)).
Proof.
  intros S sx sx' HU HS HP HE HPl. split.
  - intros HW. destruct (C39_meaning S sx' HU HPl HW) as [q [G M]]. exists q. split; [|exact M].
    now apply (C48_expansion S sx sx' HS HP HE).
  - intros HW q G. apply (C48_expansion S sx sx' HS HP HE) in G. now apply C39_rejects in G.
Qed.
Print Assumptions C48_meaning.

(** translation ends when saved queries do not refer to themselves. *)
Theorem C48_terminates : forall S parent sx, acyclic S -> exists r, gives S parent sx r.
Proof. exact acyclic_terminates. Qed.
Print Assumptions C48_terminates.

(** ** A database for examples. *)
Definition b (s : String.string) : sexp := Atom false (lit s).
Definition qt (s : String.string) : sexp := Atom true (lit s).
Definition doc (id : N) (terms : list String.string) : xdoc :=
  mk_xdoc id (map lit terms) 0%Z [] None None None 1 None [].
Definition saved_table (l : list (String.string * sexp)) (name : bytes) : saved :=
  match find (fun p => bseq (lit (fst p)) name) l with Some (_, d) => Saved d | None => NotSaved end.
Definition exS (docs : list xdoc) (defs : list (String.string * sexp)) : sdb :=
  mk_sdb docs (saved_table defs) (fun n => if bseq n (lit "List") then Some (lit "XUList:") else None)
    (map tolower) (forallb isalnum) (fun w => w) (fun v => [v]) (fun ts d => forallb (fun t => tmem t (xd_terms d)) ts)
    (fun _ _ => LErr BAD_QUERY_SYNTAX) (fun _ => LOk XAll) (fun _ => LErr BAD_QUERY_SYNTAX) (fun _ _ _ => LOk XNone).
(** the documents a query selects. *)
Definition selects (S : sdb) (sx : sexp) : option (list N) :=
  match sexp_query 20 S sx with
  | SOk q => Some (map xd_id (filter (xmatch q) (s_docs S)))
  | _ => None
  end.
Lemma selects_gives S sx l : selects S sx = Some l -> exists q, gives S None sx (SOk q) /\ map xd_id (filter (xmatch q) (s_docs S)) = l.
Proof.
  unfold selects, sexp_query. destruct (to_query 20 S None ENil sx) eqn:E; try discriminate. intros [= <-].
  exists q. split; [|reflexivity]. split; [discriminate|eauto].
Qed.
Lemma ex_user_ok docs defs : user_ok (exS docs defs).
Proof.
  intros n tp. cbn [s_user exS]. destruct (bseq n (lit "List")) eqn:E; [|discriminate]. apply bseq_eq in E. now subst.
Qed.

Definition two : list xdoc := [doc 1 ["Kinbox"; "ZXSUBJECThello"; "G0a"]; doc 2 ["Kunread"; "ZXSUBJECThello"; "G0a"]; doc 3 ["Kinbox"; "G0b"]]%N%string.
(** (and (subject Hello) (not (tag unread)) (thread (matching (tag unread)))). *)
Definition ex_query : sexp :=
  SList [b "and"; SList [b "subject"; b "Hello"]; SList [b "not"; SList [b "tag"; b "unread"]];
         SList [b "thread"; SList [b "matching"; SList [b "tag"; b "unread"]]]].
Example C39_applies :
  user_ok (exS two []) /\ plain (exS two []) ex_query /\ well_formed (exS two []) None ex_query = true
  /\ selects (exS two []) ex_query = Some [1%N]
  /\ selects (exS two []) (SList [b "and"]) = Some [1%N; 2%N; 3%N] /\ selects (exS two []) (SList [b "or"]) = Some []
  /\ selects (exS two []) (SList [b "not"]) = Some [1%N; 2%N; 3%N].
Proof. repeat split; try (vm_compute; reflexivity); try apply ex_user_ok; cbn; tauto. Qed.
Example C39_rejects_applies :
  well_formed (exS two []) None (SList [b "tag"; SList [b "subject"; b "x"]]) = false
  /\ matching_in_fields (exS two []) None (SList [b "tag"; SList [b "subject"; b "x"]]).
Proof. split; [vm_compute; reflexivity|cbn; tauto]. Qed.

(** squery.TagSubject and squery.Outer of the manual. *)
Definition ex_defs : list (String.string * sexp) :=
  [("TagSubject"%string, macro [lit "tagname"; lit "subj"] (SList [b "and"; SList [b "tag"; b ",tagname"]; SList [b "subject"; b ",subj"]]));
   ("Outer"%string, macro [lit "x"] (SList [b "or"; SList [b "TagSubject"; b ",x"; b "hello"]; SList [b "Mine"]]));
   ("Mine"%string, SList [b "tag"; b "mine"])].
Example C48_applies :
  let S := exS two ex_defs in
  saved_ok S /\ acyclic S
  /\ selects S (SList [b "Outer"; b "inbox"]) = Some [1%N]
  /\ expands S (SList [b "Outer"; b "inbox"])
       (SList [b "or"; SList [b "and"; SList [b "tag"; b "inbox"]; SList [b "subject"; b "hello"]]; SList [b "tag"; b "mine"]]).
Proof.
  cbv zeta. split; [|split; [|split; [vm_compute; reflexivity|]]].
  - intros name def. cbn [s_saved exS]. unfold saved_table, ex_defs. cbn [find fst].
    destruct (bseq (lit "TagSubject") name); [intros [= <-]; right; do 4 eexists; split; [reflexivity|cbn; repeat split; discriminate]|].
    destruct (bseq (lit "Outer") name); [intros [= <-]; right; do 4 eexists; split; [reflexivity|cbn; repeat split; discriminate]|].
    destruct (bseq (lit "Mine") name); [intros [= <-]; left; cbn; repeat split|discriminate].
  - exists (fun n => if bseq n (lit "Outer") then 2 else if bseq n (lit "TagSubject") then 1 else if bseq n (lit "Mine") then 1 else 0).
    intros name def. cbn [s_saved exS]. unfold saved_table, ex_defs. cbn [find fst].
    destruct (bseq (lit "TagSubject") name) eqn:E1.
    { apply bseq_eq in E1. subst. intros [= <-] n Hn. vm_compute in Hn. destruct Hn as [<-|[<-|[<-|[]]]]; vm_compute; lia. }
    destruct (bseq (lit "Outer") name) eqn:E2.
    { apply bseq_eq in E2. subst. intros [= <-] n Hn. vm_compute in Hn. destruct Hn as [<-|[<-|[<-|[]]]]; vm_compute; lia. }
    destruct (bseq (lit "Mine") name) eqn:E3; [|discriminate].
    apply bseq_eq in E3. subst. intros [= <-] n Hn. vm_compute in Hn. destruct Hn as [<-|[]]; vm_compute; lia.
  - apply (ex_macro _ _ _ [lit "x"] (SList [b "or"; SList [b "TagSubject"; b ",x"; b "hello"]; SList [b "Mine"]]));
      [vm_compute; reflexivity|reflexivity|].
    cbn [subst map]. apply ex_list; [vm_compute; reflexivity|vm_compute; reflexivity|].
    constructor; [|constructor; [|constructor]].
    + apply (ex_macro _ _ _ [lit "tagname"; lit "subj"] (SList [b "and"; SList [b "tag"; b ",tagname"]; SList [b "subject"; b ",subj"]]));
        [vm_compute; reflexivity|reflexivity|].
      apply ex_list; [vm_compute; reflexivity|vm_compute; reflexivity|].
      constructor; [|constructor; [|constructor]];
      (apply ex_list; [vm_compute; reflexivity|vm_compute; reflexivity|]; constructor; [apply ex_atom|constructor]).
    + eapply ex_saved; [vm_compute; reflexivity|reflexivity|reflexivity|].
      apply ex_list; [vm_compute; reflexivity|vm_compute; reflexivity|]. constructor; [apply ex_atom|constructor].
Qed.

(** ** Where the code differs from the manual, or fails. *)

(** (matching ...) and (of ...) outside a field read through a NULL pointer. *)
Theorem C39_every_bad_query_is_reported_refuted :
  forall S args r, operator S "matching" -> gives S None (SList (b "matching" :: args)) r -> r = SCrash.
Proof.
  intros S args r [E1 E2] H. apply gives_step in H. destruct H as [N [f H]]. unfold step in H. cbn [param_of b] in H.
  rewrite E1 in H. unfold eval_list, head_of in H. rewrite E2 in H. now vm_compute in H.
Qed.
(** the manual's table says subqueries of mimetype are combined with or: they are combined with and. *)
Theorem C39_mimetype_is_or_refuted :
  selects (exS [doc 1 ["ZXMIMETYPEtext"]] [])%string (SList [b "mimetype"; b "text"]) = Some [1%N]
  /\ selects (exS [doc 1 ["ZXMIMETYPEtext"]] [])%string (SList [b "mimetype"; b "text"; b "html"]) = Some [].
Proof. split; vm_compute; reflexivity. Qed.
(** the manual says (thread (matching A B)) finds threads with a message matching A and a
    possibly distinct message matching B: one message must match both. *)
Theorem C39_matching_distinct_messages_refuted :
  let S := exS [doc 1 ["ZXFROMbob"; "G1"]; doc 2 ["ZXTObob"; "G1"]]%N%string [] in
  selects S (SList [b "thread"; SList [b "matching"; SList [b "from"; b "bob"]; SList [b "to"; b "bob"]]]) = Some []
  /\ selects S (SList [b "thread"; SList [b "matching"; SList [b "from"; b "bob"]]]) = Some [1%N; 2%N].
Proof. split; vm_compute; reflexivity. Qed.
(** (tag (starts-with X)) cannot find a tag with a capital letter in that prefix. *)
Theorem C39_starts_with_capital_refuted :
  selects (exS [doc 1 ["KFoo"]]%string []) (SList [b "tag"; b "Foo"]) = Some [1%N]
  /\ selects (exS [doc 1 ["KFoo"]]%string []) (SList [b "tag"; SList [b "starts-with"; b "Foo"]]) = Some [].
Proof. split; vm_compute; reflexivity. Qed.
(** a quoted word outside any field also matches tags, message ids, ...: "inbox" finds every
    message tagged inbox, whatever its text; unquoted inbox does not. *)
Theorem C39_quoted_word_only_text_refuted :
  selects (exS [doc 1 ["Kinbox"]]%string []) (qt "inbox") = Some [1%N]
  /\ selects (exS [doc 1 ["Kinbox"]]%string []) (b "inbox") = Some [].
Proof. split; vm_compute; reflexivity. Qed.

(** a saved query that refers to itself is followed for ever (until the stack overflows). *)
Theorem C48_terminates_refuted : forall S parent quoted name args f,
  s_saved S name = Saved (SList [b "and"; SList [Atom quoted name]]) -> operator S "and" ->
  to_query f S parent ENil (SList (Atom quoted name :: args)) = SLoop.
Proof.
  intros S parent quoted name args f ES [E1 E2]. revert args. induction f as [f IH] using lt_wf_ind. intros args.
  destruct f as [|f]; [reflexivity|]. rewrite to_query_step. unfold step. cbn [param_of]. rewrite ES. cbn [b].
  change (bseq (lit "and") (lit "macro")) with false. cbv iota.
  destruct f as [|f]; [reflexivity|]. rewrite to_query_list by exact E1. unfold eval_list, head_of. rewrite E2.
  change (is (lit "and") "and") with true. cbv iota. cbn [combine]. rewrite IH by lia. reflexivity.
Qed.
(** a saved query that is () or an atom, accepted by notmuch config, is not usable: NULL pointer. *)
Theorem C48_saved_query_refuted : forall S parent quoted name args r def,
  s_saved S name = Saved def -> compound def = false ->
  gives S parent (SList (Atom quoted name :: args)) r -> r = SCrash.
Proof.
  intros S parent quoted name args r def ES C H. apply gives_step in H. destruct H as [N [f H]]. unfold step in H.
  cbn [param_of] in H. rewrite ES in H. destruct def as [|[|]]; try discriminate; congruence.
Qed.
(** parameters are not expanded inside (matching ...). *)
Theorem C48_substitution_everywhere_refuted :
  let S := exS two [("InThread"%string, macro [lit "x"] (SList [b "thread"; SList [b "matching"; SList [b "tag"; b ",x"]]]))] in
  gives S None (SList [b "InThread"; b "inbox"]) (SErr BAD_QUERY_SYNTAX)
  /\ selects S (SList [b "thread"; SList [b "matching"; SList [b "tag"; b "inbox"]]]) = Some [1%N; 2%N; 3%N].
Proof.
  split; [|vm_compute; reflexivity]. split; [discriminate|]. exists 20. vm_compute. reflexivity.
Qed.
(** a saved query that is not a macro sees the parameters of the macro that uses it. *)
Theorem C48_lexical_scope_refuted :
  let S := exS two [("Inner"%string, SList [b "tag"; b ",x"]); ("Outer"%string, macro [lit "x"] (SList [b "Inner"]))] in
  selects S (SList [b "Outer"; b "inbox"]) = Some [1%N; 3%N]
  /\ gives S None (SList [b "Inner"]) (SErr BAD_QUERY_SYNTAX).
Proof. split; [vm_compute; reflexivity|]. split; [discriminate|]. exists 20. vm_compute. reflexivity. Qed.
