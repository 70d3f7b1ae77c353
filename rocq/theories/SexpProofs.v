(** Proofs about the model of s-expression queries: plain expressions. *)
From Verif Require Import Bytes Terms XQuery Sexp SexpSpec.
From Coq Require Import Lia.

(** induction on s-expressions. *)
Fixpoint sexp_ind' (P : sexp -> Prop) (HA : forall q v, P (Atom q v)) (HL : forall l, Forall P l -> P (SList l))
  (s : sexp) : P s :=
  match s with
  | Atom q v => HA q v
  | SList l => HL l ((fix go (l : list sexp) : Forall P l :=
                        match l with [] => Forall_nil P | x :: l' => Forall_cons x (sexp_ind' P HA HL x) (go l') end) l)
  end.

Fixpoint height (s : sexp) : nat :=
  match s with Atom _ _ => 1 | SList l => S ((fix m (l : list sexp) := match l with [] => 0 | x :: l' => max (height x) (m l') end) l) end.
Lemma height_list l n : height (SList l) <= S n -> Forall (fun x => height x <= n) l.
Proof.
  cbn. intros H. apply le_S_n in H. induction l as [|x l IH]; constructor; [lia|apply IH; lia].
Qed.
Lemma height_pos s : exists n, height s = S n.
Proof. destruct s; cbn; eauto. Qed.

(** ** Unfolding the specification on lists. *)
Lemma means_list S c q h args d :
  means S c (SList (Atom q h :: args)) d <->
  match head_of S h with
  | None => False
  | Some HAnd => Forall (fun x => means S c x d) args
  | Some HOr => Exists (fun x => means S c x d) args
  | Some HNot => ~ Exists (fun x => means S c x d) args
  | Some (HField f) => if fd_and f then Forall (fun x => means S (Some f) x d) args else Exists (fun x => means S (Some f) x d) args
  | Some HStarts => match args with [Atom _ v] => starts_means S c v d | _ => False end
  | Some HRegex => match c, args with Some f, [Atom _ v] => matches (s_regex S (fd_name f) v) d | _, _ => False end
  | Some HMatching => match c with
                      | Some f => exists e, In e (s_docs S) /\ Forall (fun x => means S None x e) args /\ same_value f d e
                      | None => False
                      end
  | Some HInfix => match args with [Atom _ v] => matches (s_infix S v) d | _ => False end
  | Some HQuery => match args with [Atom _ v] => matches (s_named S v) d | _ => False end
  | Some HRange => range_means S h args d
  end.
Proof.
  cbn [means].
  set (all := fix all (c : option field) (l : list sexp) (d : xdoc) : Prop :=
                   match l with [] => True | x :: l' => means S c x d /\ all c l' d end).
  set (any := fix any (c : option field) (l : list sexp) (d : xdoc) : Prop :=
                   match l with [] => False | x :: l' => means S c x d \/ any c l' d end).
  assert (A : forall c l d, all c l d <-> Forall (fun x => means S c x d) l).
  { intros c0 l d0. induction l as [|x l IH]; cbn [all]; [split; auto|].
    fold all. rewrite IH. split; [intros [? ?]; now constructor|intros H; now inversion H]. }
  assert (B : forall c l d, any c l d <-> Exists (fun x => means S c x d) l).
  { intros c0 l d0. induction l as [|x l IH]; cbn [any]; [split; [tauto|intros H; inversion H]|].
    fold any. rewrite IH. split; [intros [?|?]; [now left|now right]|intros H; inversion H; auto]. }
  clearbody all any.
  destruct (head_of S h) as [[]|]; try reflexivity; try apply A; try apply B.
  - now rewrite B.
  - destruct (fd_and f); [apply A|apply B].
  - destruct c as [f|]; [|reflexivity]. split; intros [e H]; exists e; rewrite A in *; exact H.
Qed.

Lemma plain_list S q h args :
  plain S (SList (Atom q h :: args)) <-> s_saved S h = NotSaved /\ Forall (plain S) args.
Proof.
  cbn [plain]. set (all := fix all (l : list sexp) := match l with [] => True | x :: l' => plain S x /\ all l' end).
  assert (A : forall l, all l <-> Forall (plain S) l).
  { intros l. induction l as [|x l IH]; cbn [all]; [split; auto|]. fold all. rewrite IH.
    split; [intros [? ?]; now constructor|intros H; now inversion H]. }
  now rewrite A.
Qed.

Lemma mif_list S c q h args :
  matching_in_fields S c (SList (Atom q h :: args)) <->
  match head_of S h with
  | Some (HField f) => Forall (matching_in_fields S (Some f)) args
  | Some HMatching => c <> None /\ Forall (matching_in_fields S None) args
  | _ => Forall (matching_in_fields S c) args
  end.
Proof.
  cbn [matching_in_fields].
  set (all := fix all (c : option field) (l : list sexp) :=
                   match l with [] => True | x :: l' => matching_in_fields S c x /\ all c l' end).
  assert (A : forall c l, all c l <-> Forall (matching_in_fields S c) l).
  { intros c0 l. induction l as [|x l IH]; cbn [all]; [split; auto|]. fold all. rewrite IH.
    split; [intros [? ?]; now constructor|intros H; now inversion H]. }
  clearbody all. destruct (head_of S h) as [[]|]; rewrite A; reflexivity.
Qed.

(** ** The table of the code and the documented one. *)
Definition prefix_for (S : sdb) (h : bytes) : prefix :=
  match s_user S h with
  | Some _ => user_field h
  | None => match find_prefix h with Some p => p | None => user_field h end
  end.
Definition corr1 (S : sdb) (p : prefix) (f : field) : Prop :=
  p_name p = fd_name f /\ has p F_BOOLEAN = fd_exact f /\ has p F_WILDCARD = fd_wild f /\ has p F_REGEX = fd_rx f
  /\ has p F_EXPAND = fd_expand f /\ (fd_exact f = true -> has p F_PATHNAME = fd_dir f)
  /\ (fd_exact f = false -> has p F_PATHNAME = false)
  /\ db_prefix S (p_name p) = fd_tp f.
Definition corr (S : sdb) (parent : option prefix) (c : option field) : Prop :=
  match parent, c with
  | None, None => True
  | Some p, Some f => corr1 S p f
  | _, _ => False
  end.
Lemma corr_tp S parent c : corr S parent c -> parent_prefix S parent = ctx_tp c.
Proof. destruct parent, c; cbn; try tauto. intros H. apply H. Qed.

Ltac heads_cases h :=
  repeat match goal with
         | |- context [is h ?s] => let E := fresh "E" in destruct (is h s) eqn:E;
             [unfold is in E; apply bseq_eq in E; subst h | ]
         end.

Lemma field_named_cases h f : field_named h = Some f -> In f documented /\ fd_name f = h.
Proof.
  unfold field_named. intros H. split; [apply (find_some _ _ H)|]. apply find_some in H.
  destruct H as [_ H]. now apply bseq_eq in H.
Qed.

Lemma head_field S h f : user_ok S -> head_of S h = Some (HField f) -> corr1 S (prefix_for S h) f.
Proof.
  intros HU. unfold head_of, prefix_for. destruct (s_user S h) as [tp|] eqn:EU.
  - intros [= <-]. pose proof (HU _ _ EU) as L.
    unfold corr1. cbn [user_field user_fd p_name fd_name fd_exact fd_wild fd_rx fd_expand fd_dir fd_tp has p_flags existsb flag_eqb orb].
    repeat split; try discriminate.
    unfold db_prefix. assert (EA : assoc term_prefixes h = None).
    { unfold term_prefixes, assoc.
      repeat match goal with
      | |- context [bseq h ?s] => let E := fresh "E" in destruct (bseq h s) eqn:E; [apply bseq_eq in E; subst h; vm_compute in L; discriminate|] end.
      reflexivity. }
    rewrite EA, EU. reflexivity.
  - heads_cases h; cbn [orb]; intros HH; try discriminate HH.
    destruct (field_named h) as [g|] eqn:EF; [|discriminate]. injection HH as ->.
    apply field_named_cases in EF. destruct EF as [Hin Hn]. unfold corr1. rewrite <- Hn in *. clear - Hin.
    cbn [documented In] in Hin.
    repeat (destruct Hin as [<-|Hin]; [cbn [fd_name]; repeat split; try discriminate; vm_compute; reflexivity|]).
    destruct Hin.
Qed.

Lemma find_prefix_none S h : s_user S h = None -> head_of S h = None -> find_prefix h = None.
Proof.
  intros EU. unfold head_of. rewrite EU. heads_cases h; cbn [orb]; try discriminate.
  destruct (field_named h) eqn:EF; [discriminate|]. intros _.
  unfold find_prefix, prefixes. unfold field_named, documented in EF. cbn [find p_name fd_name] in *.
  unfold is in *.
  repeat match goal with
  | H : context [if bseq (lit ?s) h then _ else _] |- _ => destruct (bseq (lit s) h) eqn:?; [discriminate H|]
  end.
  repeat match goal with
  | |- context [bseq (lit ?s) h] => rewrite (bseq_sym (lit s) h)
  end.
  repeat match goal with
  | H : bseq (lit ?s) h = false |- _ => rewrite (bseq_sym (lit s) h) in H
  end.
  repeat match goal with
  | H : bseq h ?s = false |- _ => rewrite H; clear H
  end.
  reflexivity.
Qed.

(** ** The translation of a compound query, by its head. *)
Definition eval_list (S : sdb) (rec : option prefix -> env -> sexp -> sres) (parent : option prefix) (e : env)
                     (h : bytes) (args : list sexp) : sres :=
  match head_of S h with
  | None => SErr BAD_QUERY_SYNTAX
  | Some HAnd => combine (rec parent e) OP_AND XAll args
  | Some HOr => combine (rec parent e) OP_OR XNone args
  | Some HNot => combine (rec parent e) OP_AND_NOT XAll args
  | Some (HField f) =>
      match parent with
      | Some _ => SErr BAD_QUERY_SYNTAX
      | None => combine (rec (Some (prefix_for S h)) e) (if fd_and f then OP_AND else OP_OR)
                        (if fd_and f then XAll else XNone) args
      end
  | Some HStarts =>
      match args with
      | [Atom q v] => match expand_term e (Atom q v) with
                      | None => SErr BAD_QUERY_SYNTAX
                      | Some w => parse_wildcard S parent w
                      end
      | _ => SErr BAD_QUERY_SYNTAX
      end
  | Some HRegex => match args with [Atom q v] => parse_regex S parent e (Atom q v) | _ => SErr BAD_QUERY_SYNTAX end
  | Some HMatching =>
      match parent with
      | None => SCrash
      | Some p => if has p F_EXPAND then
                    match combine (rec None ENil) OP_AND XAll args with
                    | SOk q => SOk (query_expand S (p_name p) q)
                    | r => r
                    end
                  else SErr BAD_QUERY_SYNTAX
      end
  | Some HInfix => match parent, args with None, [Atom _ v] => of_lres (s_infix S v) | _, _ => SErr BAD_QUERY_SYNTAX end
  | Some HQuery => match parent, args with None, [Atom _ v] => of_lres (s_named S v) | _, _ => SErr BAD_QUERY_SYNTAX end
  | Some HRange => match parent with None => parse_range S h args | Some _ => SErr BAD_QUERY_SYNTAX end
  end.

Ltac close_row :=
  match goal with |- context [find_prefix ?x] => let r := eval vm_compute in (find_prefix x) in change (find_prefix x) with r end;
  cbv beta iota; unfold apply_prefix;
  cbn [has p_flags existsb flag_eqb orb andb negb p_name p_op p_initial];
  repeat match goal with |- context [bseq ?a ?b] => let r := eval vm_compute in (bseq a b) in change (bseq a b) with r end;
  cbv beta iota;
  repeat match goal with
         | |- ?a = ?a => reflexivity
         | |- context [match ?x with _ => _ end] => destruct x; cbn [has p_flags existsb flag_eqb orb andb negb p_name p_op p_initial]
         end; try reflexivity.

Lemma eval_list_eq S rec parent e h args :
  match s_user S h with
  | Some _ =>
      match parent with
      | Some _ => SErr BAD_QUERY_SYNTAX
      | None => combine (rec (Some (user_field h)) e) OP_AND XAll args
      end
  | None =>
      if bseq h (lit "macro") then SErr BAD_QUERY_SYNTAX
      else match find_prefix h with
           | None => SErr BAD_QUERY_SYNTAX
           | Some p => apply_prefix S rec parent e p args
           end
  end = eval_list S rec parent e h args.
Proof.
  unfold eval_list. destruct (s_user S h) as [tp|] eqn:EU.
  - unfold head_of, prefix_for. rewrite EU. cbn [user_fd fd_and]. reflexivity.
  - destruct (bseq h (lit "macro")) eqn:EM.
    { apply bseq_eq in EM. subst h.
      assert (head_of S (lit "macro") = None) as ->; [|reflexivity].
      unfold head_of. rewrite EU. vm_compute. reflexivity. }
    destruct (head_of S h) as [hd|] eqn:EH.
    2: { now rewrite (find_prefix_none S h EU EH). }
    unfold prefix_for. rewrite EU.
    unfold head_of in EH. rewrite EU in EH. revert EH. clear EM EU.
    heads_cases h; cbn [orb]; intros EH; try (injection EH as <-); try (close_row; fail);
    try (destruct parent; destruct args as [|[q v|l] [|b r]]; reflexivity).
  destruct (field_named h) as [g|] eqn:EF; [|discriminate]. injection EH as <-.
  apply field_named_cases in EF. destruct EF as [Hin Hn]. rewrite <- Hn in *. clear - Hin.
  cbn [documented In] in Hin.
  repeat (destruct Hin as [<-|Hin]; [cbn [fd_name fd_and]; try (destruct parent; reflexivity)|]).
  destruct Hin.
Qed.

Lemma to_query_list f S parent e q h args :
  s_saved S h = NotSaved ->
  to_query (Datatypes.S f) S parent e (SList (Atom q h :: args)) = eval_list S (to_query f S) parent e h args.
Proof. intros H. cbn [to_query param_of]. rewrite H. apply eval_list_eq. Qed.
Lemma to_query_atom f S parent e q v :
  param_of (Atom q v) = None -> to_query (Datatypes.S f) S parent e (Atom q v) = parse_atom S parent q v.
Proof. intros H. cbn [to_query]. now rewrite H. Qed.

(** ** Leaves. *)
Lemma wildcard_match pat d :
  xmatch (wildcard_leaf pat) d = true <-> exists t rest, In t (xd_terms d) /\ t = pat ++ rest.
Proof.
  cbn [wildcard_leaf xmatch]. rewrite existsb_exists. split.
  - intros [t [H1 H2]]. apply starts_with_app in H2. destruct H2 as [r ->]. eauto.
  - intros [t [r [H1 ->]]]. exists (pat ++ r). split; [exact H1|]. apply starts_with_app. eauto.
Qed.

Lemma one_term_match S tp q v d : xmatch (parse_one_term S tp q v) d = true <-> word_means S tp q v d.
Proof.
  unfold parse_one_term, word_means. destruct (negb q && s_is_word S v); cbn [xmatch]; [apply tmem_In|reflexivity].
Qed.

Lemma strip_slashes_spec v b : without_slashes v b <-> b = strip_slashes v.
Proof.
  assert (E : without_slashes v (strip_slashes v)).
  { induction v as [|c v [n [IH1 IH2]]]; cbn [strip_slashes].
    - exists 0. split; [reflexivity|]. intros w H. destruct w; discriminate.
    - destruct (strip_slashes v) as [|c' r] eqn:ES.
      + cbn in IH1. destruct (beq c "/"%char) eqn:EC.
        * apply beq_eq in EC. subst c. exists (S n). split; [now rewrite IH1 at 1|]. intros w H. destruct w; discriminate.
        * exists n. split; [now rewrite IH1 at 1|]. intros w H. destruct w as [|x w]; [|destruct w; discriminate].
          injection H as ->. rewrite beq_refl in EC. discriminate.
      + exists n. split; [now rewrite IH1 at 1|]. intros w H. destruct w as [|x w]; [discriminate|].
        injection H as _ H. now apply (IH2 w). }
  split; [|intros ->; exact E].
  intros [m [H1 H2]]. destruct E as [n [E1 E2]].
  rewrite E1 in H1. clear E1. generalize dependent (strip_slashes v). clear v. intros c E2 H1.
  assert (K : forall a b n m, (forall w, a <> w ++ ["/"%char]) -> a ++ repeat "/"%char n = b ++ repeat "/"%char m ->
                              (forall w, b <> w ++ ["/"%char]) -> (n <= m)%nat -> a = b).
  { clear. intros a b n m Ha H Hb L. replace m with ((m - n) + n) in H by lia.
    rewrite repeat_app, app_assoc in H. apply app_inv_tail in H.
    destruct (m - n) as [|k] eqn:EK; [cbn in H; now rewrite app_nil_r in H|].
    exfalso. cbn [repeat] in H. rewrite repeat_cons, app_assoc in H. exact (Ha _ H). }
  destruct (Nat.le_ge_cases n m).
  - symmetry. eapply K; eauto.
  - eapply K; eauto.
Qed.

Lemma exact_match S p f v d :
  corr1 S p f -> fd_exact f = true ->
  xmatch (XTerm (db_prefix S (p_name p) ++ (if has p F_PATHNAME then strip_slashes v else v))) d = true <-> exact_means f v d.
Proof.
  intros C X. destruct C as (_ & _ & _ & _ & _ & CP & _ & CT). rewrite (CP X), CT.
  cbn [xmatch]. unfold exact_means. rewrite tmem_In. destruct (fd_dir f).
  - split; [intros H; exists (strip_slashes v); split; [now apply strip_slashes_spec|exact H]|].
    intros [b [H1 H2]]. apply strip_slashes_spec in H1. now subst.
  - split; [eauto|intros [b [-> H]]; exact H].
Qed.

Lemma default_match S q v d :
  xmatch (fold_left (fun acc p => if has p F_FIELD
                                  then XOp OP_OR acc (parse_one_term S (db_prefix S (p_name p)) q v)
                                  else acc) prefixes XNone) d = true
  <-> exists f, In f documented /\ word_means S (fd_tp f) q v d.
Proof.
  cbn [fold_left prefixes has p_flags existsb flag_eqb orb p_name xmatch].
  repeat match goal with |- context [db_prefix S ?x] => let r := eval vm_compute in (assoc term_prefixes x) in
     match r with Some ?y => change (db_prefix S x) with y end end.
  rewrite !Bool.orb_true_iff, !one_term_match.
  split.
  - intros H. repeat match type of H with _ \/ _ => destruct H as [H|H] end; try discriminate;
    match type of H with word_means _ ?tp _ _ _ =>
      let rec go l := match l with ?g :: ?l' => first [exists g; split; [cbn [documented In]; tauto|exact H] | go l'] end in
      let l := eval cbv [documented] in documented in go l end.
  - intros [f [Hin H]]. cbn [documented In] in Hin.
    repeat (destruct Hin as [<-|Hin]; [cbn [fd_tp] in H; 
       match type of H with word_means ?s ?tp ?a ?b ?c => let r := eval vm_compute in tp in change (word_means s r a b c) in H end; tauto|]).
    destruct Hin.
Qed.

(** ** Combinations. *)
Lemma combine_ok f op args : forall init qs,
  Forall2 (fun x q => f x = SOk q) args qs -> combine f op init args = SOk (fold_left (XOp op) qs init).
Proof.
  induction args as [|x args IH]; intros init qs H; inversion H; subst; cbn [combine fold_left]; [reflexivity|].
  rewrite H2. now apply IH.
Qed.
Lemma combine_not_ok f op args : forall init q,
  Exists (fun x => forall q, f x <> SOk q) args -> combine f op init args <> SOk q.
Proof.
  induction args as [|x args IH]; intros init q H; inversion H; subst; cbn [combine].
  - destruct (f x) eqn:E; try discriminate. exfalso. now apply (H1 q0).
  - destruct (f x) eqn:E; try discriminate. now apply IH.
Qed.
Lemma combine_err f op args : forall init,
  Exists (fun x => forall q, f x <> SOk q) args ->
  Forall (fun x => (exists q, f x = SOk q) \/ (exists e, f x = SErr e)) args -> exists e, combine f op init args = SErr e.
Proof.
  induction args as [|x args IH]; intros init H F; inversion H; inversion F; subst; cbn [combine].
  - destruct H5 as [[q E]|[e E]]; [now apply H1 in E|]. rewrite E. eauto.
  - destruct H5 as [[q E]|[e E]]; rewrite E; eauto.
Qed.

Lemma fold_and qs d : forall init,
  xmatch (fold_left (XOp OP_AND) qs init) d = true <-> xmatch init d = true /\ Forall (fun q => xmatch q d = true) qs.
Proof.
  induction qs as [|q qs IH]; intros init; cbn [fold_left]; [intuition|].
  rewrite IH. cbn [xmatch]. rewrite Bool.andb_true_iff. split; [intros [[? ?] ?]; auto|].
  intros [? H]. inversion H; auto.
Qed.
Lemma fold_or qs d : forall init,
  xmatch (fold_left (XOp OP_OR) qs init) d = true <-> xmatch init d = true \/ Exists (fun q => xmatch q d = true) qs.
Proof.
  induction qs as [|q qs IH]; intros init; cbn [fold_left].
  - split; [auto|intros [H|H]; [exact H|inversion H]].
  - rewrite IH. cbn [xmatch]. rewrite Bool.orb_true_iff. split; [intros [[?|?]|?]; auto|].
    intros [?|H]; [auto|inversion H; auto].
Qed.
Lemma fold_not qs d : forall init,
  xmatch (fold_left (XOp OP_AND_NOT) qs init) d = true <-> xmatch init d = true /\ ~ Exists (fun q => xmatch q d = true) qs.
Proof.
  induction qs as [|q qs IH]; intros init; cbn [fold_left].
  - split; [intros H; split; [exact H|intros K; inversion K]|tauto].
  - rewrite IH. cbn [xmatch]. rewrite Bool.andb_true_iff, Bool.negb_true_iff. split.
    + intros [[? H] ?]. split; [auto|]. intros K. inversion K; subst; [congruence|tauto].
    + intros [? H]. split; [split; [auto|]|].
      * destruct (xmatch q d) eqn:E; [|reflexivity]. exfalso. apply H. now left.
      * intros K. apply H. now right.
Qed.

Lemma or_terms_match ts d : xmatch (or_terms ts) d = true <-> exists t, In t ts /\ In t (xd_terms d).
Proof.
  unfold or_terms.
  assert (K : forall init, xmatch (fold_left (fun q t => XOp OP_OR q (XTerm t)) ts init) d = true
                           <-> xmatch init d = true \/ exists t, In t ts /\ In t (xd_terms d)).
  { induction ts as [|t ts IH]; intros init; cbn [fold_left In].
    - split; [auto|intros [H|[t [[] _]]]; exact H].
    - rewrite IH. cbn [xmatch]. rewrite Bool.orb_true_iff, tmem_In. split.
      + intros [[?|?]|[t' [? ?]]]; eauto 6.
      + intros [?|[t' [[->|?] ?]]]; eauto. }
  rewrite K. cbn [xmatch]. split; [intros [H|H]; [discriminate|exact H]|auto].
Qed.
Lemma expand_match S p f q d :
  corr1 S p f ->
  (xmatch (query_expand S (p_name p) q) d = true
   <-> exists e, In e (s_docs S) /\ xmatch q e = true /\ same_value f d e).
Proof.
  intros C. destruct C as (_ & _ & _ & _ & _ & _ & _ & CT).
  unfold query_expand. rewrite or_terms_match, CT. unfold expand_terms, same_value. split.
  - intros [t [H1 H2]]. apply in_flat_map in H1. destruct H1 as [e [H3 H4]].
    apply filter_In in H3, H4. destruct H3, H4 as [H5 H6]. apply starts_with_app in H6. destruct H6 as [r ->]. eauto 10.
  - intros [e [H1 [H2 [t [r [-> [H3 H4]]]]]]]. exists (fd_tp f ++ r). split; [|exact H3].
    apply in_flat_map. exists e. split; apply filter_In; [auto|]. split; [exact H4|]. apply starts_with_app. eauto.
Qed.

(** ** The main theorem, for an expression in field [c]. *)
Definition good (S : sdb) (parent : option prefix) (c : option field) (sx : sexp) : Prop :=
  exists q, (forall f, height sx <= f -> to_query f S parent ENil sx = SOk q)
            /\ forall d, xmatch q d = true <-> means S c sx d.
Definition bad (S : sdb) (parent : option prefix) (c : option field) (sx : sexp) : Prop :=
  (forall f q, to_query f S parent ENil sx <> SOk q)
  /\ (matching_in_fields S c sx -> forall f, height sx <= f -> exists e, to_query f S parent ENil sx = SErr e).
Definition translated (S : sdb) (parent : option prefix) (c : option field) (sx : sexp) : Prop :=
  if well_formed S c sx then good S parent c sx else bad S parent c sx.

Lemma all_good S parent c args n :
  Forall (translated S parent c) args -> forallb (well_formed S c) args = true ->
  Forall (fun x => height x <= n) args ->
  exists qs, (forall f, n <= f -> Forall2 (fun x q => to_query f S parent ENil x = SOk q) args qs)
             /\ forall d, (Forall (fun q => xmatch q d = true) qs <-> Forall (fun x => means S c x d) args)
                          /\ (Exists (fun q => xmatch q d = true) qs <-> Exists (fun x => means S c x d) args).
Proof.
  induction args as [|x args IH]; intros HT HW HH.
  - exists []. split; [constructor|]. intros d. split; split; intros H; auto; inversion H.
  - inversion HT; inversion HH; subst. cbn [forallb] in HW. apply andb_prop in HW. destruct HW as [W1 W2].
    destruct (IH H2 W2 H6) as [qs [Q1 Q2]]. unfold translated in H1. rewrite W1 in H1.
    destruct H1 as [q [G1 G2]]. exists (q :: qs). split.
    + intros f L. constructor; [apply G1; lia|now apply Q1].
    + intros d. destruct (Q2 d) as [A B]. specialize (G2 d). split; split; intros H; inversion H; subst.
      * constructor; tauto.
      * constructor; tauto.
      * left. tauto.
      * right. tauto.
      * left. tauto.
      * right. tauto.
Qed.
Lemma all_bad S parent c args :
  Forall (translated S parent c) args -> forallb (well_formed S c) args = false ->
  (forall f, Exists (fun x => forall q, to_query f S parent ENil x <> SOk q) args)
  /\ forall n, Forall (fun x => height x <= n) args -> Forall (matching_in_fields S c) args ->
     forall f, n <= f -> Forall (fun x => (exists q, to_query f S parent ENil x = SOk q)
                                          \/ (exists e, to_query f S parent ENil x = SErr e)) args.
Proof.
  intros HT HW. split.
  - intros f. induction args as [|x args IH]; [discriminate|]. cbn [forallb] in HW. inversion HT; subst.
    destruct (well_formed S c x) eqn:W.
    + right. now apply IH.
    + left. unfold translated in H1. rewrite W in H1. apply H1.
  - clear HW. intros n HH HM f L. induction args as [|x args IH]; [constructor|].
    inversion HT; inversion HH; inversion HM; subst. constructor; [|now apply IH].
    unfold translated in H1. destruct (well_formed S c x) eqn:W.
    + left. destruct H1 as [q [G _]]. exists q. apply G. lia.
    + right. apply H1; [assumption|lia].
Qed.

Lemma fuel_list f l : height (SList l) <= f -> exists f', f = S f' /\ Forall (fun x => height x <= f') l.
Proof.
  intros H. destruct f as [|f']; [cbn in H; lia|]. exists f'. split; [reflexivity|]. now apply height_list.
Qed.
Lemma fuel0 S parent e sx q : to_query 0 S parent e sx <> SOk q.
Proof. discriminate. Qed.

Definition tail_height (l : list sexp) : nat := fold_right (fun x n => max (height x) n) 0 l.
Lemma tail_height_spec l : Forall (fun x => height x <= tail_height l) l.
Proof.
  induction l as [|x l IH]; constructor; cbn [tail_height fold_right]; [lia|].
  revert IH. apply Forall_impl. intros a. unfold tail_height. lia.
Qed.
Lemma tail_height_le a l f : height (SList (a :: l)) <= S f -> tail_height l <= f.
Proof.
  intros H. apply height_list in H. inversion H; subst. clear - H3.
  induction H3; cbn [tail_height fold_right]; [lia|]. unfold tail_height in IHForall. lia.
Qed.

(** combinations of translated arguments. *)
Lemma comb_translated S parent c pa ca sx q h args op init :
  s_saved S h = NotSaved -> sx = SList (Atom q h :: args) ->
  Forall (translated S pa ca) args ->
  (forall f, eval_list S (to_query f S) parent ENil h args = combine (to_query f S pa ENil) op init args) ->
  well_formed S c sx = forallb (well_formed S ca) args ->
  (matching_in_fields S c sx -> Forall (matching_in_fields S ca) args) ->
  (forall qs d, (Forall (fun q => xmatch q d = true) qs <-> Forall (fun x => means S ca x d) args) ->
                (Exists (fun q => xmatch q d = true) qs <-> Exists (fun x => means S ca x d) args) ->
                (xmatch (fold_left (XOp op) qs init) d = true <-> means S c sx d)) ->
  translated S parent c sx.
Proof.
  intros HS -> HT HE HW HM HX. unfold translated. rewrite HW. destruct (forallb (well_formed S ca) args) eqn:W.
  - destruct (all_good S pa ca args _ HT W (tail_height_spec args)) as [qs [Q1 Q2]].
    exists (fold_left (XOp op) qs init). split.
    + intros f L. destruct f as [|f]; [cbn in L; lia|]. rewrite to_query_list, HE by exact HS.
      apply combine_ok, Q1. now apply tail_height_le in L.
    + intros d. destruct (Q2 d). now apply HX.
  - destruct (all_bad S pa ca args HT W) as [B1 B2]. split.
    + intros f q0. destruct f as [|f]; [discriminate|]. rewrite to_query_list, HE by exact HS. now apply combine_not_ok.
    + intros HMM f L. destruct f as [|f]; [cbn in L; lia|]. rewrite to_query_list, HE by exact HS.
      apply combine_err; [apply B1|]. apply (B2 _ (tail_height_spec args) (HM HMM)). now apply tail_height_le in L.
Qed.

(** a compound query that is one leaf. *)
Lemma leaf_good S parent c q h args r :
  s_saved S h = NotSaved -> well_formed S c (SList (Atom q h :: args)) = true ->
  (forall f, eval_list S (to_query f S) parent ENil h args = SOk r) ->
  (forall d, xmatch r d = true <-> means S c (SList (Atom q h :: args)) d) ->
  translated S parent c (SList (Atom q h :: args)).
Proof.
  intros HS HW HE HX. unfold translated. rewrite HW. exists r. split; [|exact HX].
  intros f L. destruct f as [|f]; [cbn in L; lia|]. rewrite to_query_list by exact HS. apply HE.
Qed.
Lemma leaf_bad S parent c q h args :
  s_saved S h = NotSaved -> well_formed S c (SList (Atom q h :: args)) = false ->
  (forall f, exists e, eval_list S (to_query f S) parent ENil h args = SErr e) ->
  translated S parent c (SList (Atom q h :: args)).
Proof.
  intros HS HW HE. unfold translated. rewrite HW. split.
  - intros f r. destruct f as [|f]; [discriminate|]. rewrite to_query_list by exact HS. destruct (HE f) as [e ->]. discriminate.
  - intros _ f L. destruct f as [|f]; [cbn in L; lia|]. rewrite to_query_list by exact HS. apply HE.
Qed.

Lemma atom_translated S parent c q v : corr S parent c -> translated S parent c (Atom q v).
Proof.
  intros C. unfold translated. cbn [well_formed]. destruct (param_of (Atom q v)) as [n|] eqn:EP.
  { split.
    - intros f r. destruct f as [|f]; [discriminate|]. cbn [to_query]. rewrite EP. cbn [resolve]. discriminate.
    - intros _ f L. destruct f as [|f]; [cbn in L; lia|]. cbn [to_query]. rewrite EP. cbn [resolve]. eauto. }
  assert (HT : forall f, 1 <= f -> to_query f S parent ENil (Atom q v) = parse_atom S parent q v).
  { intros f L. destruct f as [|f]; [lia|]. now apply to_query_atom. }
  change (height (Atom q v)) with 1. unfold good, bad. change (height (Atom q v)) with 1.
  unfold means, atom_means, parse_atom in *. change (bseq v (lit "*")) with (is v "*") in *.
  destruct (negb q && is v "*") eqn:ES.
  - unfold parse_wildcard in HT. pose proof (corr_tp _ _ _ C) as TP.
    assert (HW : match parent with Some p => has p F_WILDCARD | None => true end
                 = match c with Some f => fd_wild f | None => true end).
    { destruct parent, c; cbn in C; try tauto. apply C. }
    destruct (match c with Some f => fd_wild f | None => true end) eqn:EW.
    + exists (wildcard_leaf (parent_prefix S parent ++ s_lower S [])). split.
      * intros f L. rewrite HT by exact L. destruct parent as [p|]; [now rewrite HW|reflexivity].
      * intros d. rewrite wildcard_match, TP. unfold starts_means. split; intros [t [r [A B]]]; exists t, r; rewrite B in *; now rewrite <- !app_assoc in *.
    + destruct parent as [p|]; [|discriminate]. rewrite HW in HT. split.
      * intros f r. destruct f as [|f]; [discriminate|]. rewrite HT by lia. discriminate.
      * intros _ f L. rewrite HT by exact L. eauto.
  - destruct parent as [p|], c as [f|]; cbn in C; try tauto.
    + cbn [parent_prefix] in HT. destruct (fd_exact f) eqn:EX.
      * assert (EB : has p F_BOOLEAN = true) by (rewrite <- EX; apply C). rewrite EB in HT.
        eexists. split; [exact HT|]. intros d. now apply exact_match.
      * assert (EB : has p F_BOOLEAN = false) by (rewrite <- EX; apply C). rewrite EB in HT.
        assert (EPN : has p F_PATHNAME = false) by (apply C; exact EX). rewrite EPN in HT.
        eexists. split; [exact HT|]. intros d. rewrite one_term_match.
        assert (CT : db_prefix S (p_name p) = fd_tp f) by apply C. now rewrite CT.
    + eexists. split; [exact HT|]. intros d. apply default_match.
Qed.

Lemma expand_term_nil q v :
  expand_term ENil (Atom q v) = match param_of (Atom q v) with Some _ => None | None => Some v end.
Proof. unfold expand_term. cbn [env_size expand_loop]. destruct (param_of (Atom q v)); reflexivity. Qed.

Theorem sexp_translated S : user_ok S ->
  forall sx, plain S sx -> forall parent c, corr S parent c -> translated S parent c sx.
Proof.
  intros HU. induction sx as [q v|l IH] using sexp_ind'; intros HP parent c C; [now apply atom_translated|].
  destruct l as [|[q h|l0] args].
  - exists XAll. split; [|intros d; cbn; tauto]. intros f L. destruct f; [cbn in L; lia|]. reflexivity.
  - apply plain_list in HP. destruct HP as [HS HP]. inversion IH as [|? ? _ IHa]; subst.
    assert (HT : forall pa ca, corr S pa ca -> Forall (translated S pa ca) args).
    { intros pa ca CC. clear - IHa HP CC. induction IHa; inversion HP; subst; constructor; auto. }
    clear IH IHa HP. destruct (head_of S h) as [hd|] eqn:EH.
    2: { apply leaf_bad; [exact HS|cbn [well_formed]; now rewrite EH|]. intros f. unfold eval_list. rewrite EH. eauto. }
    destruct hd as [| | |fd| | | | | |].
    + eapply (comb_translated S parent c parent c _ q h args OP_AND XAll);
        [exact HS|reflexivity|now apply HT|intros f; unfold eval_list; now rewrite EH|cbn [well_formed]; now rewrite EH| |].
      * intros M. apply mif_list in M. now rewrite EH in M.
      * intros qs d A B. rewrite fold_and, means_list, EH. cbn [xmatch]. tauto.
    + eapply (comb_translated S parent c parent c _ q h args OP_OR XNone);
        [exact HS|reflexivity|now apply HT|intros f; unfold eval_list; now rewrite EH|cbn [well_formed]; now rewrite EH| |].
      * intros M. apply mif_list in M. now rewrite EH in M.
      * intros qs d A B. rewrite fold_or, means_list, EH. cbn [xmatch]. split; [intros [?|?]; [discriminate|tauto]|tauto].
    + eapply (comb_translated S parent c parent c _ q h args OP_AND_NOT XAll);
        [exact HS|reflexivity|now apply HT|intros f; unfold eval_list; now rewrite EH|cbn [well_formed]; now rewrite EH| |].
      * intros M. apply mif_list in M. now rewrite EH in M.
      * intros qs d A B. rewrite fold_not, means_list, EH. cbn [xmatch]. tauto.
    + destruct parent as [p|], c as [c0|]; cbn in C; try tauto.
      * apply leaf_bad; [exact HS|cbn [well_formed]; now rewrite EH|]. intros f. unfold eval_list. rewrite EH. eauto.
      * pose proof (head_field S h fd HU EH) as CF.
        eapply (comb_translated S None None (Some (prefix_for S h)) (Some fd) _ q h args
                  (if fd_and fd then OP_AND else OP_OR) (if fd_and fd then XAll else XNone));
        [exact HS|reflexivity|now apply HT|intros f; unfold eval_list; now rewrite EH|cbn [well_formed]; now rewrite EH| |].
        -- intros M. apply mif_list in M. now rewrite EH in M.
        -- intros qs d A B. rewrite means_list, EH. destruct (fd_and fd).
           ++ rewrite fold_and. cbn [xmatch]. tauto.
           ++ rewrite fold_or. cbn [xmatch]. split; [intros [?|?]; [discriminate|tauto]|tauto].
    + (* starts-with *)
      assert (TP := corr_tp _ _ _ C).
      assert (HW : match parent with Some p => has p F_WILDCARD | None => true end
                   = match c with Some f => fd_wild f | None => true end).
      { destruct parent, c; cbn in C; try tauto. apply C. }
      destruct args as [|[qa v|la] [|b r]];
        try (apply leaf_bad; [exact HS|cbn [well_formed]; now rewrite EH|intros f; unfold eval_list; rewrite EH; eauto; fail]).
      destruct (param_of (Atom qa v)) as [n|] eqn:EP.
      { apply leaf_bad; [exact HS|cbn [well_formed]; rewrite EH, EP; reflexivity|].
        intros f. unfold eval_list. rewrite EH, expand_term_nil, EP. eauto. }
      destruct (match c with Some f => fd_wild f | None => true end) eqn:EW.
      * apply (leaf_good S parent c q h _ (wildcard_leaf (parent_prefix S parent ++ s_lower S v)));
          [exact HS|cbn [well_formed]; rewrite EH, EP; cbn [andb]; exact EW| |].
        -- intros f. unfold eval_list. rewrite EH, expand_term_nil, EP. unfold parse_wildcard.
           destruct parent as [p|]; [now rewrite HW|reflexivity].
        -- intros d. rewrite means_list, EH, wildcard_match, TP. unfold starts_means.
           split; intros [t [r [A B]]]; exists t, r; rewrite B in *; now rewrite <- !app_assoc in *.
      * apply leaf_bad; [exact HS|cbn [well_formed]; rewrite EH, EP; cbn [andb]; exact EW|].
        intros f. unfold eval_list. rewrite EH, expand_term_nil, EP. unfold parse_wildcard.
        destruct parent as [p|]; [rewrite HW|discriminate]. eauto.
    + (* regex *)
      destruct args as [|[qa v|la] [|b r]];
        try (apply leaf_bad; [exact HS|cbn [well_formed]; rewrite EH; destruct c; reflexivity|intros f; unfold eval_list; rewrite EH; eauto; fail]).
      destruct parent as [p|], c as [c0|]; cbn in C; try tauto.
      2: { apply leaf_bad; [exact HS|cbn [well_formed]; now rewrite EH|]. intros f. unfold eval_list. rewrite EH. cbn. eauto. }
      destruct (param_of (Atom qa v)) as [n|] eqn:EP.
      { apply leaf_bad; [exact HS|cbn [well_formed]; rewrite EH, EP; reflexivity|].
        intros f. unfold eval_list. rewrite EH. unfold parse_regex. rewrite expand_term_nil, EP. destruct (has p F_REGEX); eauto. }
      assert (EX : has p F_REGEX = fd_rx c0) by apply C. assert (EN : p_name p = fd_name c0) by apply C.
      destruct (fd_rx c0) eqn:ER.
      2: { apply leaf_bad; [exact HS|cbn [well_formed]; rewrite EH, EP, ER; reflexivity|].
           intros f. unfold eval_list. rewrite EH. unfold parse_regex. rewrite EX. eauto. }
      destruct (s_regex S (fd_name c0) v) as [r|er] eqn:EV.
      * apply (leaf_good S (Some p) (Some c0) q h _ r); [exact HS|cbn [well_formed]; rewrite EH, EP, ER, EV; reflexivity| |].
        -- intros f. unfold eval_list. rewrite EH. unfold parse_regex. now rewrite EX, expand_term_nil, EP, EN, EV.
        -- intros d. rewrite means_list, EH, EV. reflexivity.
      * apply leaf_bad; [exact HS|cbn [well_formed]; rewrite EH, EP, ER, EV; reflexivity|].
        intros f. unfold eval_list. rewrite EH. unfold parse_regex. rewrite EX, expand_term_nil, EP, EN, EV. cbn. eauto.
    + (* matching *)
      destruct parent as [p|], c as [c0|]; cbn in C; try tauto.
      * assert (EX : has p F_EXPAND = fd_expand c0) by apply C. destruct (fd_expand c0) eqn:EE.
        2: { apply leaf_bad; [exact HS|cbn [well_formed]; rewrite EH, EE; reflexivity|].
             intros f. unfold eval_list. rewrite EH, EX. eauto. }
        unfold translated. cbn [well_formed]. rewrite EH, EE. cbn [andb].
        specialize (HT None None I). destruct (forallb (well_formed S None) args) eqn:W.
        -- destruct (all_good S None None args _ HT W (tail_height_spec args)) as [qs [Q1 Q2]].
           exists (query_expand S (p_name p) (fold_left (XOp OP_AND) qs XAll)). split.
           ++ intros f L. destruct f as [|f]; [cbn in L; lia|]. rewrite to_query_list by exact HS. unfold eval_list.
              rewrite EH, EX. rewrite (combine_ok _ OP_AND args XAll qs); [reflexivity|]. apply Q1. now apply tail_height_le in L.
           ++ intros d. rewrite means_list, EH, (expand_match S p c0) by exact C.
              split; intros [e [H1 [H2 H3]]]; exists e; repeat split; auto.
              ** apply fold_and in H2. apply (Q2 e), H2.
              ** apply fold_and. split; [reflexivity|]. apply (Q2 e), H2.
        -- destruct (all_bad S None None args HT W) as [B1 B2]. split.
           ++ intros f q0. destruct f as [|f]; [discriminate|]. rewrite to_query_list by exact HS. unfold eval_list. rewrite EH, EX.
              destruct (combine (to_query f S None ENil) OP_AND XAll args) eqn:EC; try discriminate.
              exfalso. revert EC. now apply combine_not_ok.
           ++ intros M f L. apply mif_list in M. rewrite EH in M. destruct f as [|f]; [cbn in L; lia|].
              rewrite to_query_list by exact HS. unfold eval_list. rewrite EH, EX.
              destruct (combine_err (to_query f S None ENil) OP_AND args XAll) as [e He]; [apply B1| |rewrite He; eauto].
              apply (B2 _ (tail_height_spec args) (proj2 M)). now apply tail_height_le in L.
      * unfold translated. cbn [well_formed]. rewrite EH. split.
        -- intros f q0. destruct f as [|f]; [discriminate|]. rewrite to_query_list by exact HS. unfold eval_list. rewrite EH. discriminate.
        -- intros M. apply mif_list in M. rewrite EH in M. destruct M as [M _]. now destruct M.
    + (* infix *)
      destruct parent as [p|], c as [c0|]; cbn in C; try tauto.
      { apply leaf_bad; [exact HS|cbn [well_formed]; now rewrite EH|]. intros f. unfold eval_list. rewrite EH. eauto. }
      destruct args as [|[qa v|la] [|b r]];
        try (apply leaf_bad; [exact HS|cbn [well_formed]; rewrite EH; reflexivity|intros f; unfold eval_list; rewrite EH; eauto; fail]).
      destruct (s_infix S v) as [r|er] eqn:EV.
      * apply (leaf_good S None None q h _ r); [exact HS|cbn [well_formed]; now rewrite EH, EV| |].
        -- intros f. unfold eval_list. now rewrite EH, EV.
        -- intros d. rewrite means_list, EH, EV. reflexivity.
      * apply leaf_bad; [exact HS|cbn [well_formed]; now rewrite EH, EV|].
        intros f. unfold eval_list. rewrite EH, EV. cbn. eauto.
    + (* query *)
      destruct parent as [p|], c as [c0|]; cbn in C; try tauto.
      { apply leaf_bad; [exact HS|cbn [well_formed]; now rewrite EH|]. intros f. unfold eval_list. rewrite EH. eauto. }
      destruct args as [|[qa v|la] [|b r]];
        try (apply leaf_bad; [exact HS|cbn [well_formed]; rewrite EH; reflexivity|intros f; unfold eval_list; rewrite EH; eauto; fail]).
      destruct (s_named S v) as [r|er] eqn:EV.
      * apply (leaf_good S None None q h _ r); [exact HS|cbn [well_formed]; now rewrite EH, EV| |].
        -- intros f. unfold eval_list. now rewrite EH, EV.
        -- intros d. rewrite means_list, EH, EV. reflexivity.
      * apply leaf_bad; [exact HS|cbn [well_formed]; now rewrite EH, EV|].
        intros f. unfold eval_list. rewrite EH, EV. cbn. eauto.
    + (* range *)
      destruct parent as [p|], c as [c0|]; cbn in C; try tauto.
      { apply leaf_bad; [exact HS|cbn [well_formed]; now rewrite EH|]. intros f. unfold eval_list. rewrite EH. eauto. }
      destruct args as [|[qa va|la] [|[qb vb|lb] [|b r]]];
        try (apply leaf_bad; [exact HS|cbn [well_formed]; rewrite EH; reflexivity|intros f; unfold eval_list; rewrite EH; cbn [parse_range]; eauto; fail]).
      * apply (leaf_good S None None q h _ XAll); [exact HS|cbn [well_formed]; now rewrite EH| |].
        -- intros f. unfold eval_list. now rewrite EH.
        -- intros d. rewrite means_list, EH. cbn. tauto.
      * destruct (s_range S h (bound va) (bound va)) as [r|er] eqn:EV.
        -- apply (leaf_good S None None q h _ r); [exact HS|cbn [well_formed]; now rewrite EH, EV| |].
           ++ intros f. unfold eval_list. rewrite EH. cbn [parse_range]. unfold star_empty. unfold bound, is in EV. now rewrite EV.
           ++ intros d. rewrite means_list, EH. cbn [range_means]. rewrite EV. reflexivity.
        -- apply leaf_bad; [exact HS|cbn [well_formed]; now rewrite EH, EV|].
           intros f. unfold eval_list. rewrite EH. cbn [parse_range]. unfold star_empty. unfold bound, is in EV. rewrite EV. cbn. eauto.
      * destruct (s_range S h (bound va) (bound vb)) as [r|er] eqn:EV.
        -- apply (leaf_good S None None q h _ r); [exact HS|cbn [well_formed]; now rewrite EH, EV| |].
           ++ intros f. unfold eval_list. rewrite EH. cbn [parse_range]. unfold star_empty. unfold bound, is in EV. now rewrite EV.
           ++ intros d. rewrite means_list, EH. cbn [range_means]. rewrite EV. reflexivity.
        -- apply leaf_bad; [exact HS|cbn [well_formed]; now rewrite EH, EV|].
           intros f. unfold eval_list. rewrite EH. cbn [parse_range]. unfold star_empty. unfold bound, is in EV. rewrite EV. cbn. eauto.
  - unfold translated. cbn [well_formed]. split.
    + intros f q. destruct f; discriminate.
    + intros _ f L. destruct f; [cbn in L; lia|]. cbn. eauto.
Qed.
