(** C72: subqueries in infix searches: thread:{...}, thread:ID and query:NAME.
    Specification: FieldProcSpec.v. *)
From Verif Require Import Bytes Terms XQuery DocSet Thread Query Sexp FieldProc FieldProcSpec FieldProcProofs.
From Coq Require Import Lia.

(** a string has one result. *)
Theorem C72_deterministic : forall D s r r', parses D s r -> parses D s r' -> r = r'.
Proof. exact parses_det. Qed.

(** thread:{q} finds exactly the messages whose thread contains a document (message or
    ghost) matching q. *)
Theorem C72_thread_braces : forall D s q x,
  is_field D s Fthread (lit "{" ++ q ++ lit "}") -> parses D q (FOk x) ->
  forall d, finds D s d <->
    In d (f_docs D) /\ is_message d /\ exists e, In e (f_docs D) /\ xmatch x e = true /\ same_thread d e.
Proof.
  intros D s q x F [_ [n Hn]] d. rewrite (finds_iff D s (expand_thread D x)).
  - rewrite expand_match. reflexivity.
  - split; [discriminate|]. exists (S n). rewrite (field_parse D s _ _ _ F). cbn [process]. rewrite thread_braces.
    unfold parse_string in Hn. rewrite Hn. reflexivity.
Qed.

(** if q cannot match a ghost, thread:{q} finds exactly the messages of the threads of
    which q finds a message. *)
Theorem C72_thread_of_found : forall D s q x,
  is_field D s Fthread (lit "{" ++ q ++ lit "}") -> parses D q (FOk x) ->
  (forall e, In e (f_docs D) -> xmatch x e = true -> is_message e) ->
  forall d, finds D s d <->
    In d (f_docs D) /\ is_message d /\ exists e, finds D q e /\ same_thread d e.
Proof.
  intros D s q x F P M d. rewrite (C72_thread_braces D s q x F P). split; intros [I [Hd [e H]]]; (split; [exact I|]); (split; [exact Hd|]); exists e.
  - destruct H as [He [Hx T]]. split; [|exact T]. apply (finds_iff D q x P). repeat split; auto.
  - destruct H as [He T]. apply (finds_iff D q x P) in He as [He [_ Hx]]. auto.
Qed.
(** ... so with q's own results it never misses: every message q finds is among them. *)
Theorem C72_thread_contains_found : forall D s q x,
  is_field D s Fthread (lit "{" ++ q ++ lit "}") -> parses D q (FOk x) ->
  (forall d, In d (f_docs D) -> exists id, In (lit "G" ++ id) (xd_terms d)) ->
  forall d e, finds D q e -> In d (f_docs D) -> is_message d -> same_thread d e -> finds D s d /\ finds D s e.
Proof.
  intros D s q x F P T d e He Hd Md S. apply (finds_iff D q x P) in He as [He [Me Hx]].
  split; apply (C72_thread_braces D s q x F P); (split; [assumption|]); (split; [assumption|]); exists e; repeat split; try assumption.
  destruct (T e He) as [id I]. exists id; auto.
Qed.

(** thread:ID finds exactly the messages of that thread. *)
Theorem C72_thread_id : forall D s id c r,
  is_field D s Fthread id -> id = c :: r -> c <> "{"%char ->
  forall d, finds D s d <-> In d (f_docs D) /\ is_message d /\ In (lit "G" ++ id) (xd_terms d).
Proof.
  intros D s id c r F -> N d. rewrite (finds_iff D s (XTerm (lit "G" ++ c :: r))).
  - cbn [xmatch]. rewrite tmem_in. reflexivity.
  - split; [discriminate|]. exists 1. rewrite (field_parse D s _ _ _ F). cbn [process]. unfold thread_field.
    apply beq_neq in N. rewrite N. reflexivity.
Qed.

(** query:NAME finds what the text saved under query.NAME finds, unless that text is ""
    or "*". *)
Theorem C72_named : forall D s name e,
  is_field D s Fquery name -> f_config D (lit "query." ++ name) = Some e -> ~ everything e ->
  (forall r, parses D s r <-> parses D e r) /\ (forall d, finds D s d <-> finds D e d).
Proof.
  intros D s name e F C NE.
  assert (E : forall n, parse_string (S n) D s = parse_string n D e).
  { intros n. rewrite (field_parse D s _ _ _ F). cbn [process]. unfold query_field. rewrite C.
    unfold parse_string, string_to_query. rewrite !bseq_ne; [reflexivity| |]; intros ->; apply NE; [right|left]; reflexivity. }
  assert (P : forall r, parses D s r <-> parses D e r).
  { intros r. split; intros [H [n Hn]]; (split; [exact H|]).
    - destruct n as [|n]; [rewrite (field_parse D s _ _ _ F) in Hn; cbn in Hn; congruence|]. exists n. rewrite <- E. exact Hn.
    - exists (S n). rewrite E. exact Hn. }
  split; [exact P|]. intros d.
  assert (G : forall s' s'', (forall r, parses D s' r <-> parses D s'' r) -> finds D s' d -> finds D s'' d).
  { intros s' s'' Q Hf. pose proof Hf as [n [l [o [Hs I]]]].
    pose proof (search_with_new n D s') as W. rewrite Hs in W; cbn [fst] in W.
    destruct (parse_string n D s') as [x| | |] eqn:Hn; try discriminate W.
    assert (P1 : parses D s' (FOk x)) by (split; [discriminate|eauto]).
    apply (finds_iff D s'' x); [apply Q, P1|]. apply (finds_iff D s' x P1), Hf. }
  split; apply G; [exact P|]. intros r; symmetry; apply P.
Qed.

(** and, or, and not of parts with fields combine what the parts match. *)
Theorem C72_operators : forall D s op a b sa sb x y,
  s <> [] -> s <> lit "*" -> f_grammar D s = Some (AOp op a b) ->
  text_ast D (Typed sa) = Some a -> text_ast D (Typed sb) = Some b ->
  parses D sa (FOk x) -> parses D sb (FOk y) ->
  forall d, finds D s d <->
    match op with
    | OP_AND => finds D sa d /\ finds D sb d
    | OP_OR => finds D sa d \/ finds D sb d
    | OP_AND_NOT => finds D sa d /\ ~ finds D sb d
    end.
Proof.
  intros D s op a b sa sb x y H1 H2 G A B [Px [n Hn]] [Py [m Hm]] d.
  assert (P : parses D s (FOk (XOp op x y))).
  { split; [discriminate|]. exists (max n m).
    change (parse_string (max n m) D s) with (parse_text (max n m) D (Typed s)). rewrite text_parse.
    cbn [text_ast]. rewrite (bseq_ne _ _ H1), (bseq_ne _ _ H2), G. cbn [orb apply_fields].
    pose proof (parse_mono D n (max n m) (Typed sa) ltac:(lia)) as Ea.
    pose proof (parse_mono D m (max n m) (Typed sb) ltac:(lia)) as Eb.
    rewrite !text_parse, A in Ea. rewrite !text_parse, B in Eb.
    change (parse_string n D sa) with (parse_text n D (Typed sa)) in Hn. rewrite text_parse, A in Hn.
    change (parse_string m D sb) with (parse_text m D (Typed sb)) in Hm. rewrite text_parse, B in Hm.
    rewrite Ea by (rewrite Hn; discriminate). rewrite Hn. rewrite Eb by (rewrite Hm; discriminate). rewrite Hm. reflexivity. }
  pose proof (finds_iff D s _ P d) as E1.
  pose proof (finds_iff D sa x (conj Px (ex_intro _ n Hn)) d) as E2.
  pose proof (finds_iff D sb y (conj Py (ex_intro _ m Hm)) d) as E3.
  rewrite E1. destruct op; rewrite E2, E3; cbn [xmatch]; rewrite ?andb_true_iff, ?orb_true_iff, ?negb_true_iff; try tauto.
  split; [intros [I [M [X Y]]]|intros [[I [M X]] N]].
  - split; [auto|]. intros [_ [_ Y']]. congruence.
  - repeat split; try assumption. destruct (xmatch y d) eqn:Y; [|reflexivity]. exfalso; apply N; auto.
Qed.

(** a query is never run with a part left out: if it parses, so does every text used on
    the way (between braces, or saved under a name). *)
Theorem C72_no_partial_query : forall D s x u,
  parses D s (FOk x) -> uses_star D (Typed s) u -> exists n y, parse_text n D u = FOk y.
Proof.
  intros D s x u [_ [n Hn]] U. induction U as [|u w U IH S].
  - exists n, x. exact Hn.
  - destruct IH as [m [y Hy]]. eapply uses_ok; eassumption.
Qed.
(** ... and thread:{q} with an erroneous q, or without the closing brace, is an error. *)
Theorem C72_bad_subquery : forall D s q,
  is_field D s Fthread (lit "{" ++ q ++ lit "}") -> parses D q FErr -> parses D s FErr.
Proof.
  intros D s q F [_ [n Hn]]. split; [discriminate|]. exists (S n). rewrite (field_parse D s _ _ _ F). cbn [process].
  rewrite thread_braces. unfold parse_string in Hn. rewrite Hn. reflexivity.
Qed.
Theorem C72_missing_brace : forall D s v,
  is_field D s Fthread (lit "{" ++ v) -> (forall q, v <> q ++ lit "}") -> parses D s FErr.
Proof.
  intros D s v F N. split; [discriminate|]. exists 1. rewrite (field_parse D s _ _ _ F). cbn [process].
  unfold thread_field. change (lit "{" ++ v) with ("{"%char :: v). change (beq "{"%char "{"%char) with true. cbv iota.
  destruct v as [|c v]; [reflexivity|].
  assert (NE : (c :: v) <> []) by discriminate.
  destruct (beq (last ("{"%char :: c :: v) NUL) "}"%char) eqn:E; [|rewrite orb_true_r; reflexivity].
  apply beq_eq in E. change (last ("{"%char :: c :: v) NUL) with (last (c :: v) NUL) in E.
  exfalso. apply (N (removelast (c :: v))). rewrite (app_removelast_last NUL NE) at 1. rewrite E. reflexivity.
Qed.

(** if the texts do not use each other in a circle, parsing ends. *)
Theorem C72_terminates : forall D s,
  Acc (fun u w => uses D w u) (Typed s) -> exists r, parses D s r.
Proof.
  intros D s A. destruct (text_terminates D (Typed s) A) as [n Hn]. exists (parse_string n D s). split; [exact Hn|eauto].
Qed.

(** a query object with s-expression syntax always searches the database as it is. *)
Theorem C72_reuse_sexp : forall n D1 D2 s o,
  snd (search_with n D1 (new_query true s)) = o ->
  fst (search_with n D2 o) = fst (search_with n D2 (new_query true s)).
Proof.
  intros n D1 D2 s o <-. unfold search_with, ensure_parsed, new_query; cbn [o_parsed o_sexp o_string].
  destruct (f_sexp D1 s); cbn [snd o_parsed o_sexp o_string]; destruct (f_sexp D2 s); reflexivity.
Qed.

(** ** What does not hold. *)
Section Examples.
Local Open Scope N_scope.
Definition fp_grammar (s : bytes) : option ast :=
  if bseq s [] then Some (AQuery XNone)
  else if bseq s (lit "tag:x") then Some (AQuery (XTerm (lit "Kx")))
  else if bseq s (lit "not tag:x") then Some (AOp OP_AND_NOT (AQuery XAll) (AQuery (XTerm (lit "Kx"))))
  else if bseq s (lit "thread:{not tag:x}") then Some (AField Fthread (lit "{not tag:x}"))
  else if bseq s (lit "thread:{tag:x}") then Some (AField Fthread (lit "{tag:x}"))
  else if bseq s (lit "thread:{query:x}") then Some (AField Fthread (lit "{query:x}"))
  else if bseq s (lit "query:x") then Some (AField Fquery (lit "x"))
  else if bseq s (lit "query:self") then Some (AField Fquery (lit "self"))
  else if bseq s (lit "query:none") then Some (AField Fquery (lit "none"))
  else if bseq s (lit "thread:""""") then Some (AField Fthread [])
  else None.
Definition fp_config (k : bytes) : option bytes :=
  Some (if bseq k (lit "query.x") then lit "tag:x" else if bseq k (lit "query.self") then lit "query:self" else []).
Definition fp_db (docs : list xdoc) : fdb := mk_fdb docs fp_grammar fp_config (fun _ => None).
Definition fp_tagged : xdoc := mk_xdoc 1 (map lit ["Tmail"; "G1"; "Kx"]%string) 0 [] None None None 0 None [].
Definition fp_ghost : xdoc := mk_xdoc 2 (map lit ["Tghost"; "G1"]%string) 0 [] None None None 0 None [].
Definition fp_other : xdoc := mk_xdoc 3 (map lit ["Tmail"; "G1"]%string) 0 [] None None None 0 None [].

(** thread:{q} may find a thread although q finds no message at all: the only message has
    the tag, but its missing parent (a ghost) does not. *)
Theorem C72_thread_of_found_refuted :
  finds (fp_db [fp_tagged; fp_ghost]) (lit "thread:{not tag:x}") fp_tagged
  /\ forall e, ~ finds (fp_db [fp_tagged; fp_ghost]) (lit "not tag:x") e.
Proof.
  split.
  - exists 2%nat, [fp_tagged], (snd (search_with 2 (fp_db [fp_tagged; fp_ghost]) (new_query false (lit "thread:{not tag:x}")))).
    split; [|left; reflexivity].
    assert (L : fst (search_with 2 (fp_db [fp_tagged; fp_ghost]) (new_query false (lit "thread:{not tag:x}"))) = Some [fp_tagged])
      by (vm_compute; reflexivity).
    rewrite <- L. destruct (search_with _ _ _); reflexivity.
  - intros e F. eapply finds_iff in F; [|split; [discriminate|exists 0%nat; reflexivity]].
    destruct F as [[<- |[<- |[]]] [M X]].
    + vm_compute in X; discriminate X.
    + unfold is_message in M. cbn in M. destruct M as [M|[M|[]]]; discriminate M.
Qed.

(** query:NAME of a name that is not set finds nothing, although its text, "", finds
    everything. *)
Theorem C72_named_refuted :
  let D := fp_db [fp_tagged] in
  f_config D (lit "query.none") = Some []
  /\ finds D [] fp_tagged /\ forall d, ~ finds D (lit "query:none") d.
Proof.
  intros D. split; [reflexivity|]. split.
  - apply (finds_iff D [] XAll); [split; [discriminate|exists 0%nat; reflexivity]|].
    split; [left; reflexivity|]. split; [left; reflexivity|reflexivity].
  - intros d F. apply (finds_iff D (lit "query:none") XNone) in F; [|split; [discriminate|exists 1%nat; reflexivity]].
    destruct F as [_ [_ F]]; discriminate F.
Qed.

(** a named query that uses itself is never parsed, and never reported. *)
Theorem C72_terminates_refuted : forall D s name e,
  is_field D s Fquery name -> f_config D (lit "query." ++ name) = Some e -> f_grammar D e = Some (AField Fquery name) ->
  forall r, ~ parses D s r.
Proof.
  intros D s name e F C G r [H [n Hn]]. apply H. rewrite <- Hn. rewrite (field_parse D s _ _ _ F). clear -C G.
  induction n as [|n IH]; [reflexivity|].
  cbn [process]. unfold query_field. rewrite C. unfold parse_query. rewrite G. exact IH.
Qed.

(** an empty thread: value is not an error status: an exception leaves the library. *)
Theorem C72_errors_reported_refuted : forall D s, is_field D s Fthread [] -> parses D s FThrow.
Proof. intros D s F. split; [discriminate|]. exists 1%nat. rewrite (field_parse D s _ _ _ F). reflexivity. Qed.

(** a query object with infix syntax keeps the threads of its first search. *)
Theorem C72_reuse_infix_refuted :
  let s := lit "thread:{tag:x}" in
  let before := fp_db [fp_other] in
  let after := fp_db [mk_xdoc 1 (map lit ["Tmail"; "G1"; "Kx"]%string) 0 [] None None None 0 None []; fp_other] in
  let o := snd (search_with 3 before (new_query false s)) in
  fst (search_with 3 after o) = Some [] /\ fst (search_with 3 after (new_query false s)) = Some [fp_tagged; fp_other].
Proof. split; vm_compute; reflexivity. Qed.

(** instances of the hypotheses. *)
Example C72_example :
  let D := fp_db [fp_tagged; fp_ghost; fp_other] in
  is_field D (lit "thread:{query:x}") Fthread (lit "{" ++ lit "query:x" ++ lit "}")
  /\ is_field D (lit "query:x") Fquery (lit "x") /\ ~ everything (lit "tag:x")
  /\ parses D (lit "query:x") (FOk (XTerm (lit "Kx")))
  /\ (forall e, In e (f_docs D) -> xmatch (XTerm (lit "Kx")) e = true -> is_message e)
  /\ finds D (lit "query:x") fp_tagged /\ ~ finds D (lit "query:x") fp_other
  /\ finds D (lit "thread:{query:x}") fp_other
  /\ Acc (fun u w => uses D w u) (Typed (lit "thread:{query:x}"))
  /\ is_field D (lit "query:self") Fquery (lit "self")
  /\ f_grammar D (lit "query:self") = Some (AField Fquery (lit "self"))
  /\ is_field D (lit "thread:""""") Fthread []
  /\ uses_star D (Typed (lit "thread:{query:x}")) (Named (lit "tag:x")).
Proof.
  intros D.
  assert (F1 : is_field D (lit "thread:{query:x}") Fthread (lit "{" ++ lit "query:x" ++ lit "}"))
    by (split; [discriminate|split; [discriminate|reflexivity]]).
  assert (F2 : is_field D (lit "query:x") Fquery (lit "x")) by (split; [discriminate|split; [discriminate|reflexivity]]).
  assert (P : parses D (lit "query:x") (FOk (XTerm (lit "Kx")))) by (split; [discriminate|exists 1%nat; reflexivity]).
  assert (M : forall e, In e (f_docs D) -> xmatch (XTerm (lit "Kx")) e = true -> is_message e).
  { intros e [<- |[<- |[<- |[]]]] H; try (left; reflexivity). vm_compute in H; discriminate H. }
  assert (W : finds D (lit "query:x") fp_tagged).
  { apply (finds_iff D _ _ P). split; [left; reflexivity|]. split; [left; reflexivity|reflexivity]. }
  split; [exact F1|]. split; [exact F2|]. split; [intros [H|H]; discriminate H|]. split; [exact P|]. split; [exact M|].
  split; [exact W|]. split.
  { intros H. apply (finds_iff D _ _ P) in H as [_ [_ H]]. vm_compute in H; discriminate H. }
  split.
  { apply (C72_thread_of_found D _ _ _ F1 P M). split; [right; right; left; reflexivity|]. split; [left; reflexivity|].
    exists fp_tagged. split; [exact W|]. exists (lit "1"). split; right; left; reflexivity. }
  split.
  { assert (A1 : Acc (fun u w => uses D w u) (Named (lit "tag:x"))).
    { constructor. intros u U. inversion U as [a q A O|a nm e A O C]; subst; cbn in A; injection A as <-; inversion O. }
    assert (A2 : Acc (fun u w => uses D w u) (Typed (lit "query:x"))).
    { constructor. intros u U. inversion U as [a q A O|a nm e A O C]; subst.
      - assert (L : text_ast D (Typed (lit "query:x")) = Some (AField Fquery (lit "x"))) by reflexivity.
        rewrite L in A; injection A as <-; inversion O.
      - assert (L : text_ast D (Typed (lit "query:x")) = Some (AField Fquery (lit "x"))) by reflexivity.
        rewrite L in A; injection A as <-; inversion O; subst.
        assert (L2 : Some (lit "tag:x") = Some e) by exact C.
        injection L2 as <-. exact A1. }
    constructor. intros u U.
    assert (L : text_ast D (Typed (lit "thread:{query:x}")) = Some (AField Fthread (lit "{query:x}"))) by reflexivity.
    inversion U as [a q A O|a nm e A O C]; subst; rewrite L in A; injection A as <-; inversion O as [E| |].
    assert (q = lit "query:x").
    { apply (app_inv_tail (lit "}")). exact E. }
    subst q. exact A2. }
  split; [split; [discriminate|split; [discriminate|reflexivity]]|]. split; [reflexivity|].
  split; [split; [discriminate|split; [discriminate|reflexivity]]|].
  eapply us_step; [eapply us_step; [apply us_refl|]|].
  - eapply (uses_thread D _ _ (lit "query:x")); [reflexivity|]. apply occ_here.
  - eapply (uses_query D _ _ (lit "x")); [reflexivity|apply occ_here|reflexivity].
Qed.
End Examples.
Print Assumptions C72_thread_braces.
Print Assumptions C72_named.
Print Assumptions C72_terminates.
