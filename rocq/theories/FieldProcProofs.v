From Verif Require Import Bytes Terms XQuery DocSet Thread Query Sexp FieldProc FieldProcSpec.
From Coq Require Import Lia Arith List.
Import ListNotations.

Definition extends (p p' : pfield -> bytes -> fres) : Prop := forall f v, p f v <> FLoop -> p' f v = p f v.

Lemma apply_ext p p' a : extends p p' -> apply_fields p a <> FLoop -> apply_fields p' a = apply_fields p a.
Proof.
  intros E; induction a as [q|f v|op a IHa b IHb]; cbn [apply_fields]; intros H.
  - reflexivity.
  - apply E, H.
  - destruct (apply_fields p a) as [x| | |] eqn:Ha; try (rewrite IHa by discriminate; reflexivity).
    + rewrite IHa by discriminate.
      destruct (apply_fields p b) as [y| | |] eqn:Hb; try (rewrite IHb by discriminate; reflexivity). congruence.
    + congruence.
Qed.
Lemma pq_ext D p p' s : extends p p' -> parse_query D p s <> FLoop -> parse_query D p' s = parse_query D p s.
Proof. unfold parse_query. intros E. destruct (f_grammar D s); [apply apply_ext, E|reflexivity]. Qed.
Lemma sq_ext D p p' s : extends p p' -> string_to_query D p s <> FLoop -> string_to_query D p' s = string_to_query D p s.
Proof. unfold string_to_query. intros E. destruct (_ || _); [reflexivity|apply pq_ext, E]. Qed.
Lemma process_step n D : extends (process n D) (process (S n) D).
Proof.
  induction n as [|n IH]; intros f v H; [cbn in H; congruence|].
  cbn [process] in H. change (process (S (S n)) D f v) with
    (match f with Fthread => thread_field D (process (S n) D) v | Fquery => query_field D (process (S n) D) v | Fsexp => sexp_field D v end).
  change (process (S n) D f v) with
    (match f with Fthread => thread_field D (process n D) v | Fquery => query_field D (process n D) v | Fsexp => sexp_field D v end).
  destruct f.
  - unfold thread_field in *. destruct v as [|c r]; [reflexivity|].
    destruct (beq c "{"%char); [|reflexivity].
    destruct (_ || _); [reflexivity|].
    destruct (string_to_query D (process n D) (removelast r)) eqn:Q.
    all: try (rewrite (sq_ext D _ _ (removelast r) IH) by (rewrite Q; discriminate); rewrite Q; reflexivity).
    congruence.
  - unfold query_field in *. destruct (f_config D _); [|reflexivity]. apply pq_ext; assumption.
  - reflexivity.
Qed.
Lemma process_mono D n m : n <= m -> extends (process n D) (process m D).
Proof.
  intros L; induction L as [|m L IH]; [intros f v _; reflexivity|].
  intros f v H. rewrite (process_step m D f v); rewrite IH by exact H; [reflexivity|exact H].
Qed.
Lemma parse_mono D n m t : n <= m -> parse_text n D t <> FLoop -> parse_text m D t = parse_text n D t.
Proof. intros L; destruct t; cbn [parse_text]; [apply sq_ext|apply pq_ext]; apply process_mono, L. Qed.
Lemma parse_det D t n m : parse_text n D t <> FLoop -> parse_text m D t <> FLoop -> parse_text n D t = parse_text m D t.
Proof.
  intros Hn Hm. destruct (Nat.le_ge_cases n m) as [L|L].
  - symmetry; apply parse_mono; assumption.
  - apply parse_mono; assumption.
Qed.
Lemma parses_det D s r r' : parses D s r -> parses D s r' -> r = r'.
Proof.
  intros [H [n Hn]] [H' [m Hm]]. rewrite <- Hn, <- Hm in *. apply (parse_det D (Typed s)); assumption.
Qed.
Lemma text_parse n D t : parse_text n D t = match text_ast D t with None => FErr | Some a => apply_fields (process n D) a end.
Proof. destruct t; cbn [parse_text text_ast]; unfold parse_string, string_to_query, parse_query; [destruct (_ || _)|]; reflexivity. Qed.

(** searching *)
Lemma tmem_in t l : tmem t l = true <-> In t l.
Proof.
  unfold tmem. rewrite existsb_exists. split.
  - intros [x [Hx E]]. apply bseq_eq in E. subst; exact Hx.
  - intros H; exists t; split; [exact H|]. apply bseq_eq; reflexivity.
Qed.
Lemma sort_ins_in le d x l : In x (sort_ins le d l) <-> x = d \/ In x l.
Proof.
  induction l as [|e l IH]; cbn [sort_ins].
  - cbn; intuition.
  - destruct (le d e); cbn [In] in *; [intuition|]. rewrite IH. intuition.
Qed.
Lemma sort_docs_in le x l : In x (sort_docs le l) <-> In x l.
Proof. induction l as [|e l IH]; cbn [sort_docs]; [reflexivity|]. rewrite sort_ins_in, IH. cbn; intuition. Qed.
Lemma configure_nil p m s : configure p [] m s = mk_query p [] m s.
Proof. reflexivity. Qed.
Lemma search_with_new n D s :
  fst (search_with n D (new_query false s)) =
  match parse_string n D s with
  | FOk x => Some (get_mset (f_docs D) (mail_query x) (sort_le SORT_OLDEST_FIRST))
  | _ => None
  end.
Proof. unfold search_with, ensure_parsed, new_query; cbn [o_parsed o_sexp o_string]. destruct (parse_string n D s); reflexivity. Qed.
Lemma mset_in db q le d : In d (get_mset db q le) <-> In d db /\ xmatch q d = true.
Proof. unfold get_mset. rewrite sort_docs_in. apply filter_In. Qed.
Lemma mail_match x d : xmatch (mail_query x) d = true <-> is_message d /\ xmatch x d = true.
Proof. unfold mail_query, is_message. cbn [xmatch]. rewrite andb_true_iff, tmem_in. reflexivity. Qed.
Lemma finds_iff D s x : parses D s (FOk x) ->
  forall d, finds D s d <-> In d (f_docs D) /\ is_message d /\ xmatch x d = true.
Proof.
  intros [_ [n Hn]] d. unfold finds. split.
  - intros [m [l [o [E I]]]]. pose proof (search_with_new m D s) as F. rewrite E in F; cbn [fst] in F.
    destruct (parse_string m D s) as [y| | |] eqn:Hm; try discriminate F. injection F as F.
    assert (FOk y = FOk x) as Y.
    { rewrite <- Hn, <- Hm. apply (parse_det D (Typed s)); cbn [parse_text]; [rewrite Hm|rewrite Hn]; discriminate. }
    injection Y as Y. subst y l. apply mset_in in I. rewrite mail_match in I. exact I.
  - intros [I M]. destruct (search_with n D (new_query false s)) as [l o] eqn:E.
    pose proof (search_with_new n D s) as F. rewrite E, Hn in F; cbn [fst] in F. subst l.
    exists n, (get_mset (f_docs D) (mail_query x) (sort_le SORT_OLDEST_FIRST)), o. split; [exact E|].
    apply mset_in. rewrite mail_match. auto.
Qed.
Lemma finds_nothing D s r : parses D s r -> (forall x, r <> FOk x) -> forall d, ~ finds D s d.
Proof.
  intros [HL [n Hn]] H d [m [l [o [E I]]]]. pose proof (search_with_new m D s) as F. rewrite E in F; cbn [fst] in F.
  destruct (parse_string m D s) as [y| | |] eqn:Hm; try discriminate F.
  apply (H y). rewrite <- Hn, <- Hm. apply (parse_det D (Typed s)); cbn [parse_text]; [rewrite Hn; exact HL|rewrite Hm; discriminate].
Qed.

(** thread:{...} *)
Lemma or_terms_acc ts : forall q d, xmatch (fold_left (fun q t => XOp OP_OR q (XTerm t)) ts q) d = true <->
  xmatch q d = true \/ exists t, In t ts /\ In t (xd_terms d).
Proof.
  induction ts as [|t ts IH]; intros q d; cbn [fold_left].
  - split; [auto|]. intros [H|[t [[] _]]]. exact H.
  - rewrite IH. cbn [xmatch]. rewrite orb_true_iff, tmem_in. split.
    + intros [[H|H]|[u [Hu Hd]]]; [auto| |]; right; [exists t|exists u]; cbn; auto.
    + intros [H|[u [[->|Hu] Hd]]]; [auto|auto|]. right; exists u; auto.
Qed.
Lemma starts_g t : starts_with (lit "G") t = true <-> exists id, t = lit "G" ++ id.
Proof. apply starts_with_app. Qed.
Lemma expand_match D q d : xmatch (expand_thread D q) d = true <->
  exists e, In e (f_docs D) /\ xmatch q e = true /\ same_thread d e.
Proof.
  unfold expand_thread, or_terms. rewrite or_terms_acc. cbn [xmatch]. split.
  - intros [H|[t [Ht Hd]]]; [discriminate|]. apply in_flat_map in Ht as [e [He Ht]].
    apply filter_In in He as [He Hq]. apply filter_In in Ht as [Ht Hs]. apply starts_g in Hs as [id ->].
    exists e. repeat split; try assumption. exists id; auto.
  - intros [e [He [Hq [id [Hd Ht]]]]]. right. exists (lit "G" ++ id). split; [|exact Hd].
    apply in_flat_map. exists e. split; apply filter_In; split; try assumption. apply starts_g; eauto.
Qed.
Lemma bseq_ne a b : a <> b -> bseq a b = false.
Proof. intros H. destruct (bseq a b) eqn:E; [|reflexivity]. apply bseq_eq in E. contradiction. Qed.
Lemma field_parse D s f v n : is_field D s f v -> parse_string n D s = process n D f v.
Proof.
  intros [H1 [H2 H3]]. unfold parse_string, string_to_query, parse_query.
  rewrite (bseq_ne _ _ H1), (bseq_ne _ _ H2), H3. reflexivity.
Qed.
Lemma last_snoc (q : bytes) c d : last (q ++ [c]) d = c.
Proof. induction q as [|x q IH]; [reflexivity|]. cbn [app]. destruct q; [reflexivity|]. exact IH. Qed.
Lemma thread_braces D p q :
  thread_field D p (lit "{" ++ q ++ lit "}") =
  match string_to_query D p q with FOk x => FOk (expand_thread D x) | r => r end.
Proof.
  unfold thread_field. change (lit "{" ++ q ++ lit "}") with ("{"%char :: (q ++ ["}"%char])).
  change (beq "{"%char "{"%char) with true. cbv iota.
  assert (L : Nat.leb (length ("{"%char :: q ++ ["}"%char])) 1 = false).
  { apply Nat.leb_gt. cbn [length]. rewrite app_length. cbn; lia. }
  rewrite L. change ("{"%char :: q ++ ["}"%char]) with (("{"%char :: q) ++ ["}"%char]). rewrite last_snoc.
  change (beq "}"%char "}"%char) with true. cbn [negb orb]. rewrite removelast_last. reflexivity.
Qed.

(** termination *)
Lemma apply_terminates D a :
  (forall f v, occurs f v a -> exists n, process n D f v <> FLoop) -> exists n, apply_fields (process n D) a <> FLoop.
Proof.
  induction a as [q|f v|op a IHa b IHb]; intros H.
  - exists 0. discriminate.
  - apply H; constructor.
  - destruct IHa as [n Hn]; [intros f v O; apply H; constructor; exact O|].
    destruct IHb as [m Hm]; [intros f v O; apply H; apply occ_right; exact O|].
    exists (max n m). cbn [apply_fields].
    rewrite (apply_ext (process n D) (process (max n m) D) a (process_mono D n (max n m) ltac:(lia)) Hn).
    rewrite (apply_ext (process m D) (process (max n m) D) b (process_mono D m (max n m) ltac:(lia)) Hm).
    destruct (apply_fields (process n D) a); try discriminate; try congruence.
    destruct (apply_fields (process m D) b); try discriminate; congruence.
Qed.
Lemma text_terminates D t : Acc (fun u w => uses D w u) t -> exists n, parse_text n D t <> FLoop.
Proof.
  induction 1 as [t _ IH].
  destruct (text_ast D t) as [a|] eqn:A.
  2: { exists 0. rewrite text_parse, A. discriminate. }
  destruct (apply_terminates D a) as [n Hn].
  - intros f v O. destruct f.
    + (* thread *)
      destruct v as [|c r]; [exists 1; discriminate|].
      destruct (beq c "{"%char) eqn:B.
      2: { exists 1. cbn [process thread_field]. rewrite B. discriminate. }
      destruct ((Nat.leb (length (c :: r)) 1) || negb (beq (last (c :: r) NUL) "}"%char)) eqn:C.
      { exists 1. cbn [process thread_field]. rewrite B, C. discriminate. }
      apply orb_false_iff in C as [C1 C2]. apply negb_false_iff in C2.
      assert (Ec : c = "{"%char) by (apply beq_eq; exact B).
      assert (Er : r <> []) by (intros ->; cbn in C1; discriminate C1).
      assert (El : last r NUL = "}"%char).
      { apply beq_eq in C2. destruct r; [contradiction|]. exact C2. }
      pose proof (app_removelast_last NUL Er) as R. rewrite El in R.
      assert (U : uses D t (Typed (removelast r))).
      { apply (uses_thread D t a); [exact A|]. cbn. rewrite <- R, <- Ec. exact O. }
      destruct (IH _ U) as [m Hm]. exists (S m). cbn [process]. rewrite Ec, R.
      change ("{"%char :: removelast r ++ ["}"%char]) with (lit "{" ++ removelast r ++ lit "}").
      rewrite thread_braces. cbn [parse_text] in Hm. unfold parse_string in Hm.
      destruct (string_to_query _ _ _); try discriminate; congruence.
    + destruct (f_config D (lit "query." ++ v)) as [e|] eqn:C.
      2: { exists 1. cbn [process]. unfold query_field. rewrite C. discriminate. }
      assert (U : uses D t (Named e)) by (eapply uses_query; eassumption).
      destruct (IH _ U) as [m Hm]. exists (S m). cbn [process]. unfold query_field. rewrite C. exact Hm.
    + exists 1. cbn [process]. unfold sexp_field. destruct (f_sexp _ _); discriminate.
  - exists n. rewrite text_parse, A. exact Hn.
Qed.

(** errors *)
Lemma apply_ok p a x : apply_fields p a = FOk x -> forall f v, occurs f v a -> exists y, p f v = FOk y.
Proof.
  revert x; induction a as [q|g w|op a IHa b IHb]; intros x E f v O; inversion O; subst.
  - eauto.
  - cbn [apply_fields] in E. destruct (apply_fields p a) eqn:Ea; try discriminate E. eapply IHa; eauto.
  - cbn [apply_fields] in E. destruct (apply_fields p a) eqn:Ea; try discriminate E.
    destruct (apply_fields p b) eqn:Eb; try discriminate E. eapply IHb; eauto.
Qed.
Lemma uses_ok D t u n x : parse_text n D t = FOk x -> uses D t u -> exists m y, parse_text m D u = FOk y.
Proof.
  intros E U. rewrite text_parse in E. destruct U as [a q A O|a name e A O C]; rewrite A in E;
    destruct (apply_ok _ _ _ E _ _ O) as [y Y]; destruct n as [|n]; try discriminate Y; cbn [process] in Y.
  - rewrite thread_braces in Y. exists n. cbn [parse_text]. unfold parse_string.
    destruct (string_to_query D (process n D) q); try discriminate Y. eauto.
  - unfold query_field in Y. rewrite C in Y. exists n, y. exact Y.
Qed.
