(** Proofs about the model of s-expression queries: saved queries and macros. *)
From Verif Require Import Bytes Terms XQuery Sexp SexpSpec SexpProofs.
From Coq Require Import Lia.

(** ** One step of the translation. *)
Definition step (S : sdb) (rec : option prefix -> env -> sexp -> sres) (parent : option prefix) (e : env) (sx : sexp) : sres :=
  match param_of sx with
  | Some name => match resolve e name with
                 | None => SErr BAD_QUERY_SYNTAX
                 | Some (sx', ctx) => rec parent ctx sx'
                 end
  | None =>
      match sx with
      | Atom quoted v => parse_atom S parent quoted v
      | SList [] => SOk XAll
      | SList (SList _ :: _) => SErr BAD_QUERY_SYNTAX
      | SList (Atom _ name :: args) =>
          match s_saved S name with
          | SavedInvalid => SErr BAD_QUERY_SYNTAX
          | Saved (Atom _ _) => SCrash
          | Saved (SList []) => SCrash
          | Saved (SList (Atom q0 h :: rest)) =>
              if bseq h (lit "macro") then
                match rest with
                | SList params :: body :: _ =>
                    match bind_params params args e ENil with
                    | None => SErr BAD_QUERY_SYNTAX
                    | Some e' => rec parent e' body
                    end
                | _ => SErr BAD_QUERY_SYNTAX
                end
              else rec parent e (SList (Atom q0 h :: rest))
          | Saved s => rec parent e s
          | NotSaved => eval_list S rec parent e name args
          end
      end
  end.
Lemma to_query_step f S parent e sx : to_query (Datatypes.S f) S parent e sx = step S (to_query f S) parent e sx.
Proof.
  cbn [to_query]. unfold step. destruct (param_of sx); [reflexivity|].
  destruct sx as [q v|[|[q h|l] args]]; try reflexivity.
  destruct (s_saved S h) as [| |s]; try reflexivity. apply eval_list_eq.
Qed.

(** ** More fuel does not change a result. *)
Definition ole (a b : sres) : Prop := a = SLoop \/ a = b.
Lemma ole_refl a : ole a a. Proof. now right. Qed.
Lemma ole_trans a b c : ole a b -> ole b c -> ole a c.
Proof. unfold ole. intros [->| ->]; auto. Qed.

Lemma combine_ole f g op args args' : forall init,
  Forall2 (fun x y => ole (f x) (g y)) args args' -> ole (combine f op init args) (combine g op init args').
Proof.
  revert args'. induction args as [|x args IH]; intros args' init H; inversion H; subst; cbn [combine]; [apply ole_refl|].
  destruct H2 as [->|E]; [now left|]. rewrite E. destruct (g y); try apply ole_refl. now apply IH.
Qed.
Lemma Forall2_impl {A B} (R R' : A -> B -> Prop) l l' : (forall a b, R a b -> R' a b) -> Forall2 R l l' -> Forall2 R' l l'.
Proof. intros H. induction 1; constructor; auto. Qed.
Lemma Forall2_same {A} (R : A -> A -> Prop) l : (forall x, R x x) -> Forall2 R l l.
Proof. intros H. induction l; constructor; auto. Qed.
Lemma eval_list_ole S r1 r2 parent e h args :
  (forall p e sx, ole (r1 p e sx) (r2 p e sx)) -> ole (eval_list S r1 parent e h args) (eval_list S r2 parent e h args).
Proof.
  intros H.
  assert (K : forall p e op init, ole (combine (r1 p e) op init args) (combine (r2 p e) op init args)).
  { intros. apply combine_ole, Forall2_same. auto. }
  unfold eval_list. destruct (head_of S h) as [[]|]; try apply ole_refl; try apply K.
  - destruct parent; [apply ole_refl|apply K].
  - destruct parent as [p|]; [|apply ole_refl]. destruct (has p F_EXPAND); [|apply ole_refl].
    destruct (K None ENil OP_AND XAll) as [->| ->]; [now left|apply ole_refl].
Qed.
Lemma step_ole S r1 r2 parent e sx :
  (forall p e sx, ole (r1 p e sx) (r2 p e sx)) -> ole (step S r1 parent e sx) (step S r2 parent e sx).
Proof.
  intros H. unfold step. destruct (param_of sx) as [n|].
  - destruct (resolve e n) as [[? ?]|]; [apply H|apply ole_refl].
  - destruct sx as [q v|[|[q h|l] args]]; try apply ole_refl.
    destruct (s_saved S h) as [| |[|[|[q0 h0|l0] rest]]]; try apply ole_refl; try apply H.
    + now apply eval_list_ole.
    + destruct (bseq h0 (lit "macro")); [|apply H]. destruct rest as [|[|] [|]]; try apply ole_refl.
      destruct (bind_params _ _ _ _); [apply H|apply ole_refl].
Qed.
Lemma to_query_mono1 S f : forall parent e sx, ole (to_query f S parent e sx) (to_query (Datatypes.S f) S parent e sx).
Proof.
  induction f as [|f IH]; intros parent e sx; [now left|].
  rewrite (to_query_step f), (to_query_step (Datatypes.S f)). now apply step_ole.
Qed.
Lemma to_query_mono S f g parent e sx : f <= g -> ole (to_query f S parent e sx) (to_query g S parent e sx).
Proof.
  intros L. induction L; [apply ole_refl|]. eapply ole_trans; [exact IHL|apply to_query_mono1].
Qed.
Lemma to_query_det S f g parent e sx r1 r2 :
  to_query f S parent e sx = r1 -> to_query g S parent e sx = r2 -> r1 <> SLoop -> r2 <> SLoop -> r1 = r2.
Proof.
  intros H1 H2 N1 N2. destruct (Nat.le_ge_cases f g) as [L|L]; apply (to_query_mono S _ _ parent e sx) in L;
  rewrite H1, H2 in L; destruct L as [L|L]; congruence.
Qed.

(** ** Environments as substitutions. *)
Fixpoint lookup_inst (e : env) (name : bytes) : option sexp :=
  match e with
  | ENil => None
  | EBind n sx ctx next => if bseq name n then Some (subst (lookup_inst ctx) sx) else lookup_inst next name
  end.
Definition inst (e : env) : sexp -> sexp := subst (lookup_inst e).
Lemma lookup_resolve e name :
  lookup_inst e name = match resolve e name with Some (sx, ctx) => Some (inst ctx sx) | None => None end.
Proof. induction e as [|n sx ctx IHc next IHn]; cbn; [reflexivity|]. destruct (bseq name n); [reflexivity|exact IHn]. Qed.

Lemma param_of_Some sx n : param_of sx = Some n <-> sx = Atom false (","%char :: n).
Proof.
  split; [|intros ->; reflexivity]. destruct sx as [[|] [|c v]|l]; cbn; try discriminate.
  destruct (beq c ","%char) eqn:E; [|discriminate]. apply beq_eq in E. now intros [= <-]; subst.
Qed.
Lemma subst_param s n : subst s (Atom false (","%char :: n)) = match s n with Some a => a | None => Atom false (","%char :: n) end.
Proof. reflexivity. Qed.
Lemma subst_atom s q v : param_of (Atom q v) = None -> subst s (Atom q v) = Atom q v.
Proof.
  destruct q, v as [|c v]; cbn; try reflexivity. destruct (beq c ","%char); [discriminate|reflexivity].
Qed.
Lemma subst_ext s t sx : (forall n, s n = t n) -> subst s sx = subst t sx.
Proof.
  intros H. induction sx as [q v|l IH] using sexp_ind'.
  - destruct (param_of (Atom q v)) as [n|] eqn:E.
    + apply param_of_Some in E. rewrite E, !subst_param. now rewrite H.
    + now rewrite !subst_atom.
  - destruct l as [|h args]; [reflexivity|]. cbn [subst]. inversion IH; subst. f_equal. f_equal.
    apply map_ext_Forall. assumption.
Qed.
Lemma inst_nil sx : inst ENil sx = sx.
Proof.
  unfold inst. induction sx as [q v|l IH] using sexp_ind'.
  - destruct (param_of (Atom q v)) as [n|] eqn:E.
    + apply param_of_Some in E. rewrite E. reflexivity.
    + now rewrite subst_atom.
  - destruct l as [|h args]; [reflexivity|]. cbn [subst]. inversion IH as [|? ? _ IHa]; subst. f_equal. f_equal. clear IH.
    induction IHa as [|x l Hx _ IHl]; cbn [map]; [reflexivity|]. now rewrite Hx, IHl.
Qed.

Lemma no_params_list h args : no_params (SList (h :: args)) <-> Forall no_params args.
Proof.
  cbn [no_params]. induction args as [|x args IH]; [split; auto|].
  split; [intros [? H]; constructor; [assumption|now apply IH]|intros H; inversion H; subst; split; [assumption|now apply IH]].
Qed.
Lemma params_ok_list h args :
  params_ok (SList (h :: args)) <->
  Forall params_ok args /\ (match h with Atom _ n => rigid n = true -> Forall no_params args | _ => True end).
Proof.
  cbn [params_ok]. induction args as [|x args IH].
  - split; [intros _; split; [constructor|destruct h; auto]|auto].
  - split.
    + intros [A [B C]]. apply IH in C. destruct C as [C D]. split; [now constructor|].
      destruct h; [|exact I]. intros R. constructor; auto.
    + intros [A B]. inversion A; subst. split; [assumption|]. split.
      * destruct h; [|exact I]. intros R. specialize (B R). now inversion B.
      * apply IH. split; [assumption|]. destruct h; [|exact I]. intros R. specialize (B R). now inversion B.
Qed.
Lemma no_params_ok sx : no_params sx -> params_ok sx.
Proof.
  induction sx as [q v|l IH] using sexp_ind'; intros H; [exact I|].
  destruct l as [|h args]; [exact I|]. apply no_params_list in H. apply params_ok_list.
  inversion IH as [|? ? _ IHa]; subst. split.
  - clear IH. induction IHa; inversion H; subst; constructor; auto.
  - destruct h; auto.
Qed.
Lemma no_params_subst s sx : no_params sx -> subst s sx = sx.
Proof.
  induction sx as [q v|l IH] using sexp_ind'; intros H.
  - now apply subst_atom.
  - destruct l as [|h args]; [reflexivity|]. apply no_params_list in H. cbn [subst].
    inversion IH as [|? ? _ IHa]; subst. f_equal. f_equal. clear IH.
    induction IHa; inversion H; subst; cbn [map]; [reflexivity|]. rewrite H0 by assumption. now rewrite IHIHa.
Qed.
Lemma map_no_params s args : Forall no_params args -> map (subst s) args = args.
Proof. induction 1; cbn [map]; [reflexivity|]. now rewrite no_params_subst, IHForall. Qed.

Fixpoint env_ok (e : env) : Prop :=
  match e with ENil => True | EBind _ sx ctx next => params_ok sx /\ env_ok ctx /\ env_ok next end.
Lemma env_ok_resolve e n sx ctx : env_ok e -> resolve e n = Some (sx, ctx) -> params_ok sx /\ env_ok ctx.
Proof.
  induction e as [|m s c IHc next IHn]; cbn; [discriminate|]. intros [A [B C]].
  destruct (bseq n m); [intros [= <- <-]; auto|auto].
Qed.

Lemma resolve_size e n sx ctx : resolve e n = Some (sx, ctx) -> env_size ctx < env_size e.
Proof.
  induction e as [|m s c IHc next IHn]; cbn; [discriminate|].
  destruct (bseq n m); [intros [= <- <-]; lia|]. intros H. apply IHn in H. lia.
Qed.

(** ** Following parameters to the end. *)
Definition stuck (e : env) (sx : sexp) : Prop :=
  match param_of sx with Some n => resolve e n = None | None => True end.
Lemma normalise S k : forall e sx, env_size e < k -> params_ok sx -> env_ok e ->
  exists e' sx' j, inst e sx = inst e' sx' /\ stuck e' sx' /\ params_ok sx' /\ env_ok e'
    /\ forall f parent, to_query (j + f) S parent e sx = to_query f S parent e' sx'.
Proof.
  induction k as [|k IH]; intros e sx L P E; [lia|].
  destruct (param_of sx) as [n|] eqn:EP.
  - destruct (resolve e n) as [[sx1 ctx]|] eqn:ER.
    + destruct (env_ok_resolve _ _ _ _ E ER) as [P1 E1].
      destruct (IH ctx sx1) as (e' & sx' & j & H1 & H2 & H3 & H4 & H5);
        [apply resolve_size in ER; lia|assumption|assumption|].
      exists e', sx', (Datatypes.S j). repeat split; auto.
      * rewrite <- H1. apply param_of_Some in EP. subst sx. unfold inst at 1.
        rewrite subst_param, lookup_resolve, ER. reflexivity.
      * intros f parent. cbn [plus]. rewrite to_query_step. unfold step. rewrite EP, ER. apply H5.
    + exists e, sx, 0. repeat split; auto. unfold stuck. now rewrite EP.
  - exists e, sx, 0. repeat split; auto. unfold stuck. now rewrite EP.
Qed.

Lemma expand_term_inst e sx :
  expand_term e sx = match inst e sx with
                     | Atom q v => match param_of (Atom q v) with Some _ => None | None => Some v end
                     | SList _ => None
                     end.
Proof.
  unfold expand_term.
  assert (K : forall k e sx, env_size e <= k ->
     expand_loop k e sx = match param_of (inst e sx) with Some _ => None | None => Some (match inst e sx with Atom q v => Atom q v | SList _ => match expand_loop k e sx with Some s => s | None => sx end end) end
     /\ (forall l, inst e sx = SList l -> exists l', expand_loop k e sx = Some (SList l'))).
  { induction k as [|k IH]; intros e0 sx0 L.
    - destruct (param_of sx0) as [n|] eqn:EP.
      + destruct e0; [|cbn in L; lia]. apply param_of_Some in EP. subst sx0. cbn. split; [reflexivity|discriminate].
      + cbn [expand_loop]. rewrite EP. destruct sx0 as [q v|l].
        * unfold inst. rewrite subst_atom by exact EP. rewrite EP. split; [reflexivity|discriminate].
        * unfold inst. destruct l; cbn; split; eauto.
    - destruct (param_of sx0) as [n|] eqn:EP.
      + cbn [expand_loop]. rewrite EP. apply param_of_Some in EP. subst sx0. unfold inst. rewrite subst_param, lookup_resolve.
        destruct (resolve e0 n) as [[sx1 ctx]|] eqn:ER; [|cbn; split; [reflexivity|discriminate]].
        assert (L1 : env_size ctx <= k) by (apply resolve_size in ER; lia).
        destruct (IH ctx sx1 L1) as [A B]. split.
        * destruct (param_of (inst ctx sx1)) eqn:E2; [exact A|].
          destruct (inst ctx sx1) as [q v|l] eqn:E3; [exact A|]. destruct (B l eq_refl) as [l' ->]. reflexivity.
        * exact B.
      + cbn [expand_loop]. rewrite EP. destruct sx0 as [q v|l].
        * unfold inst. rewrite subst_atom by exact EP. rewrite EP. split; [reflexivity|discriminate].
        * unfold inst. destruct l; cbn; split; eauto. }
  destruct (K (env_size e) e sx (le_n _)) as [A B].
  destruct (inst e sx) as [q v|l].
  - rewrite A. destruct (param_of (Atom q v)); reflexivity.
  - destruct (B l eq_refl) as [l' ->]. reflexivity.
Qed.

(** ** Macro calls. *)
Lemma bind_params_inst params : forall args args' c c' acc acc',
  map (inst c) args = map (inst c') args' -> (forall n, lookup_inst acc n = lookup_inst acc' n) ->
  env_ok c -> env_ok c' -> env_ok acc -> env_ok acc' -> Forall params_ok args -> Forall params_ok args' ->
  match bind_params params args c acc, bind_params params args' c' acc' with
  | Some e, Some e' => (forall n, lookup_inst e n = lookup_inst e' n) /\ env_ok e /\ env_ok e'
  | None, None => True
  | _, _ => False
  end.
Proof.
  induction params as [|p params IH]; intros args args' c c' acc acc' HM HA C C' A A' P P';
    destruct args as [|a args], args' as [|a' args']; try discriminate; cbn [bind_params]; auto.
  injection HM as H1 HM. inversion P; inversion P'; subst.
  destruct p as [[|] n|l]; auto. apply IH; auto; cbn [env_ok lookup_inst]; auto.
  intros m. destruct (bseq m n); [|apply HA]. unfold inst in H1. now rewrite H1.
Qed.

Lemma rigid_head S h hd : head_of S h = Some hd ->
  match hd with HMatching | HInfix | HQuery | HRange => True | _ => False end -> rigid h = true.
Proof.
  unfold head_of, rigid. destruct (s_user S h); [intros E K; injection E as <-; destruct K|].
  repeat match goal with |- context [is h ?s] => destruct (is h s) eqn:? end; cbn [orb]; intros E K; try reflexivity;
  try (injection E as <-; destruct K; fail);
  destruct (field_named h); try discriminate; injection E as <-; destruct K.
Qed.

(** ** Expressions that instantiate to the same expression behave alike. *)
Lemma Forall2_max S p e e' args args' f :
  (forall x y, In x args -> In y args' -> inst e x = inst e' y -> exists g, ole (to_query f S p e x) (to_query g S p e' y)) ->
  map (inst e) args = map (inst e') args' ->
  exists g, Forall2 (fun x y => ole (to_query f S p e x) (to_query g S p e' y)) args args'.
Proof.
  revert args'. induction args as [|x args IH]; intros [|y args'] H HM; try discriminate.
  - exists 0. constructor.
  - injection HM as H1 HM. destruct (IH args') as [g1 G1]; [intros; apply H; cbn; auto|exact HM|].
    destruct (H x y) as [g2 G2]; [now left|now left|exact H1|].
    exists (max g1 g2). constructor.
    + eapply ole_trans; [exact G2|]. apply to_query_mono. lia.
    + eapply Forall2_impl; [|exact G1]. cbn. intros a b HH. eapply ole_trans; [exact HH|]. apply to_query_mono. lia.
Qed.

Theorem simulation S : saved_ok S -> forall f parent e1 s1 e2 s2,
  inst e1 s1 = inst e2 s2 -> params_ok s1 -> params_ok s2 -> env_ok e1 -> env_ok e2 ->
  exists g, ole (to_query f S parent e1 s1) (to_query g S parent e2 s2).
Proof.
  intros HS. induction f as [|f IH]; intros parent e1 s1 e2 s2 HI P1 P2 E1 E2; [exists 0; now left|].
  rewrite to_query_step. unfold step. destruct (param_of s1) as [n|] eqn:EP.
  { destruct (resolve e1 n) as [[sx ctx]|] eqn:ER.
    - destruct (env_ok_resolve _ _ _ _ E1 ER). apply (IH parent ctx sx e2 s2); auto. rewrite <- HI.
      apply param_of_Some in EP. subst s1. unfold inst at 2. now rewrite subst_param, lookup_resolve, ER.
    - destruct (normalise S _ e2 s2 (le_n _) P2 E2) as (e' & s' & j & N1 & N2 & N3 & N4 & N5).
      exists (j + 1). rewrite N5, to_query_step. unfold step.
      apply param_of_Some in EP. subst s1. unfold inst at 1 in HI. rewrite subst_param, lookup_resolve, ER in HI.
      rewrite N1 in HI. destruct (param_of s') as [m|] eqn:EP'.
      + unfold stuck in N2. rewrite EP' in N2. rewrite N2. apply ole_refl.
      + exfalso. destruct s' as [q v|l].
        * unfold inst in HI. rewrite subst_atom in HI by exact EP'. rewrite <- HI in EP'. discriminate.
        * destruct l; discriminate. }
  destruct (normalise S _ e2 s2 (le_n _) P2 E2) as (e' & s' & j & N1 & N2 & N3 & N4 & N5).
  rewrite N1 in HI. clear N1.
  assert (G : exists g, ole (match s1 with
      | Atom quoted v => parse_atom S parent quoted v
      | SList [] => SOk XAll
      | SList (SList _ :: _) => SErr BAD_QUERY_SYNTAX
      | SList (Atom _ name :: args) =>
          match s_saved S name with
          | SavedInvalid => SErr BAD_QUERY_SYNTAX
          | Saved (Atom _ _) => SCrash
          | Saved (SList []) => SCrash
          | Saved (SList (Atom q0 h :: rest)) =>
              if bseq h (lit "macro") then
                match rest with
                | SList params :: body :: _ =>
                    match bind_params params args e1 ENil with
                    | None => SErr BAD_QUERY_SYNTAX
                    | Some e' => to_query f S parent e' body
                    end
                | _ => SErr BAD_QUERY_SYNTAX
                end
              else to_query f S parent e1 (SList (Atom q0 h :: rest))
          | Saved s => to_query f S parent e1 s
          | NotSaved => eval_list S (to_query f S) parent e1 name args
          end
      end) (to_query (Datatypes.S g) S parent e' s')).
  2: { destruct G as [g G]. exists (j + Datatypes.S g). rewrite N5. exact G. }
  clear N5 j s2 P2 E2 e2.
  destruct s1 as [q v|l1].
  { unfold inst in HI at 1. rewrite subst_atom in HI by exact EP. exists 0. rewrite to_query_step. unfold step.
    destruct (param_of s') as [m|] eqn:EP'.
    - apply param_of_Some in EP'. subst s'. unfold stuck in N2. cbn in N2. unfold inst in HI.
      rewrite subst_param, lookup_resolve, N2 in HI. rewrite HI in EP. discriminate.
    - destruct s' as [q' v'|l'].
      + unfold inst in HI. rewrite subst_atom in HI by exact EP'. injection HI as -> ->. apply ole_refl.
      + destruct l'; discriminate. }
  assert (SH : exists l2, s' = SList l2).
  { destruct s' as [q' v'|l2]; [|eauto]. exfalso. destruct (param_of (Atom q' v')) as [m|] eqn:EP'.
    - unfold stuck in N2. rewrite EP' in N2. apply param_of_Some in EP'. rewrite EP' in HI.
      unfold inst in HI. rewrite subst_param, lookup_resolve, N2 in HI. destruct l1; discriminate.
    - unfold inst in HI. rewrite (subst_atom _ q' v') in HI by exact EP'. destruct l1; discriminate. }
  destruct SH as [l2 ->]. clear N2 EP.
  destruct l1 as [|h1 a1], l2 as [|h2 a2]; try discriminate; [exists 0; apply ole_refl|].
  unfold inst in HI. cbn [subst] in HI. injection HI as <- HM. fold (inst e1) in HM. fold (inst e') in HM.
  destruct h1 as [q h|lh]; [|exists 0; apply ole_refl].
  apply params_ok_list in P1, N3. destruct P1 as [P1 R1], N3 as [P2 R2].
  assert (GG : exists g, ole (match s_saved S h with
          | SavedInvalid => SErr BAD_QUERY_SYNTAX
          | Saved (Atom _ _) => SCrash
          | Saved (SList []) => SCrash
          | Saved (SList (Atom q0 h :: rest)) =>
              if bseq h (lit "macro") then
                match rest with
                | SList params :: body :: _ =>
                    match bind_params params a1 e1 ENil with
                    | None => SErr BAD_QUERY_SYNTAX
                    | Some e' => to_query f S parent e' body
                    end
                | _ => SErr BAD_QUERY_SYNTAX
                end
              else to_query f S parent e1 (SList (Atom q0 h :: rest))
          | Saved s => to_query f S parent e1 s
          | NotSaved => eval_list S (to_query f S) parent e1 h a1
          end) (step S (to_query g S) parent e' (SList (Atom q h :: a2)))).
  2: { destruct GG as [g GG]. exists g. rewrite to_query_step. exact GG. }
  unfold step. cbn [param_of]. destruct (s_saved S h) as [| |def] eqn:ES; [|exists 0; apply ole_refl|].
  - (* not a saved query *)
    assert (KC : forall p op init, exists g, ole (combine (to_query f S p e1) op init a1) (combine (to_query g S p e') op init a2)).
    { intros p op init. destruct (Forall2_max S p e1 e' a1 a2 f) as [g G].
      - intros x y Hx Hy Hxy. apply IH; auto; [rewrite Forall_forall in P1|rewrite Forall_forall in P2]; auto.
      - exact HM.
      - exists g. now apply combine_ole. }
    unfold eval_list. destruct (head_of S h) as [hd|] eqn:EH; [|exists 0; apply ole_refl].
    pose proof (rigid_head S h hd EH) as RH.
    assert (RI : rigid h = true -> a1 = a2).
    { intros R. specialize (R1 R). specialize (R2 R). unfold inst in HM. now rewrite !map_no_params in HM. }
    destruct hd.
    + apply KC.
    + apply KC.
    + apply KC.
    + destruct parent; [exists 0; apply ole_refl|apply KC].
    + (* starts-with *)
      exists 0. destruct a1 as [|x1 [|? ?]], a2 as [|x2 [|? ?]]; try discriminate; try apply ole_refl.
      * injection HM as HM.
        assert (ET : expand_term e1 x1 = expand_term e' x2) by (rewrite !expand_term_inst; now rewrite HM).
        destruct x1 as [q1 v1|l1], x2 as [q2 v2|l2]; try rewrite ET; try apply ole_refl.
        -- rewrite expand_term_inst in ET |- *. unfold inst at 1. destruct l2; cbn; apply ole_refl.
        -- rewrite <- ET, expand_term_inst. unfold inst. destruct l1; cbn; apply ole_refl.
      * destruct x1, x2; apply ole_refl.
    + exists 0. destruct a1 as [|x1 [|? ?]], a2 as [|x2 [|? ?]]; try discriminate; try apply ole_refl.
      * injection HM as HM. unfold parse_regex.
        assert (ET : expand_term e1 x1 = expand_term e' x2) by (rewrite !expand_term_inst; now rewrite HM).
        destruct x1 as [q1 v1|l1], x2 as [q2 v2|l2]; try rewrite ET; try apply ole_refl.
        -- rewrite expand_term_inst. unfold inst. destruct l2; cbn; destruct parent as [p|]; try apply ole_refl; destruct (has p F_REGEX); apply ole_refl.
        -- rewrite <- ET, expand_term_inst. unfold inst. destruct l1; cbn; destruct parent as [p|]; try apply ole_refl; destruct (has p F_REGEX); apply ole_refl.
      * destruct x1, x2; apply ole_refl.
    + exists f. rewrite (RI (RH I)). apply ole_refl.
    + exists f. rewrite (RI (RH I)). apply ole_refl.
    + exists f. rewrite (RI (RH I)). apply ole_refl.
    + exists f. rewrite (RI (RH I)). apply ole_refl.
  - (* a saved query *)
    destruct def as [|[|[q0 h0|l0] rest]]; try (exists 0; apply ole_refl).
    + destruct (bseq h0 (lit "macro")) eqn:EM.
      * destruct rest as [|[|params] [|body rest]]; try (exists 0; apply ole_refl).
        pose proof (bind_params_inst params a1 a2 e1 e' ENil ENil HM (fun _ => eq_refl) E1 N4 I I P1 P2) as B.
        destruct (bind_params params a1 e1 ENil) as [b1|], (bind_params params a2 e' ENil) as [b2|]; try tauto; [|exists 0; apply ole_refl].
        destruct B as [B1 [B2 B3]].
        assert (PB : params_ok body).
        { destruct (HS _ _ ES) as [NP|(q1 & ps & b & r & ED & PB)].
          - apply no_params_list in NP. inversion NP; subst. inversion H2; subst. now apply no_params_ok.
          - injection ED as _ _ _ -> _. exact PB. }
        apply (IH parent b1 body b2 body); auto. apply subst_ext. exact B1.
      * assert (NP : no_params (SList (Atom q0 h0 :: rest))).
        { destruct (HS _ _ ES) as [NP|(q1 & ps & b & r & ED & PB)]; [exact NP|].
          injection ED as _ -> _. rewrite (proj2 (bseq_eq _ _) eq_refl) in EM. discriminate. }
        apply (IH parent e1 _ e' _); auto; try now apply no_params_ok. unfold inst. now rewrite !no_params_subst.
    + assert (NP : no_params (SList (SList l0 :: rest))).
      { destruct (HS _ _ ES) as [NP|(q1 & ps & b & r & ED & PB)]; [exact NP|discriminate]. }
      apply (IH parent e1 _ e' _); auto; try now apply no_params_ok. unfold inst. now rewrite !no_params_subst.
Qed.

Lemma same_inst_gives S e s1 s2 parent r :
  saved_ok S -> inst e s1 = s2 -> params_ok s1 -> params_ok s2 -> env_ok e -> r <> SLoop ->
  ((exists f, to_query f S parent e s1 = r) <-> (exists f, to_query f S parent ENil s2 = r)).
Proof.
  intros HS HI P1 P2 E N. split; intros [f H].
  - destruct (simulation S HS f parent e s1 ENil s2) as [g G]; auto; [now rewrite inst_nil|exact I|].
    rewrite H in G. destruct G as [G|G]; [tauto|]. exists g. now symmetry.
  - destruct (simulation S HS f parent ENil s2 e s1) as [g G]; auto; [now rewrite inst_nil|exact I|].
    rewrite H in G. destruct G as [G|G]; [tauto|]. exists g. now symmetry.
Qed.

Lemma subst_params_ok s sx :
  params_ok sx -> (forall n a, s n = Some a -> params_ok a) -> params_ok (subst s sx).
Proof.
  intros P H. induction sx as [q v|l IH] using sexp_ind'.
  - destruct (param_of (Atom q v)) as [n|] eqn:E.
    + apply param_of_Some in E. rewrite E, subst_param. destruct (s n) eqn:ES; [now apply (H n)|exact I].
    + now rewrite subst_atom.
  - destruct l as [|h args]; [exact I|]. cbn [subst]. apply params_ok_list in P. destruct P as [P R].
    apply params_ok_list. inversion IH as [|? ? _ IHa]; subst. split.
    + clear - IHa P. induction IHa; inversion P; subst; constructor; auto.
    + destruct h as [q n|]; [|exact I]. intros RR. specialize (R RR). now rewrite map_no_params.
Qed.

Lemma argument_In params args n a : argument params args n = Some a -> In a args.
Proof.
  revert args. induction params as [|p ps IH]; intros [|b args]; cbn; try discriminate.
  destruct (argument ps args n) eqn:E.
  - intros [= ->]. right. now apply IH.
  - destruct (bseq n p); [intros [= ->]; now left|discriminate].
Qed.

Lemma bind_params_some params : forall args c acc, List.length params = List.length args -> 
  exists e, bind_params (map (Atom false) params) args c acc = Some e
    /\ (forall n, lookup_inst e n = match argument params args n with Some a => Some (inst c a) | None => lookup_inst acc n end)
    /\ (env_ok c -> env_ok acc -> Forall params_ok args -> env_ok e).
Proof.
  induction params as [|p ps IH]; intros [|a args] c acc L; try discriminate.
  - exists acc. repeat split; auto.
  - injection L as L. cbn [map bind_params argument]. destruct (IH args c (EBind p a c acc) L) as [e [H1 [H2 H3]]].
    exists e. split; [exact H1|]. split.
    + intros n. rewrite H2. destruct (argument ps args n); [reflexivity|]. cbn [lookup_inst]. destruct (bseq n p); reflexivity.
    + intros C A P. inversion P; subst. apply H3; auto. now cbn.
Qed.
Lemma bind_params_none params : forall args c acc, List.length params <> List.length args ->
  bind_params (map (Atom false) params) args c acc = None.
Proof.
  induction params as [|p ps IH]; intros [|a args] c acc L; cbn [map bind_params]; try reflexivity; [now destruct L|].
  apply IH. cbn in L. lia.
Qed.

Lemma gives_step S parent sx r :
  gives S parent sx r <-> r <> SLoop /\ exists f, step S (to_query f S) parent ENil sx = r.
Proof.
  split; intros [N [f H]]; split; auto.
  - destruct f as [|f]; [now subst|]. rewrite to_query_step in H. eauto.
  - exists (Datatypes.S f). now rewrite to_query_step.
Qed.

Lemma step_macro S f parent e q name params body args :
  s_saved S name = Saved (macro params body) ->
  step S (to_query f S) parent e (SList (Atom q name :: args))
  = match bind_params (map (Atom false) params) args e ENil with
    | None => SErr BAD_QUERY_SYNTAX
    | Some e' => to_query f S parent e' body
    end.
Proof. intros H. unfold step. cbn [param_of]. rewrite H. reflexivity. Qed.

Theorem macro_is_substitution S parent q name params body args r :
  saved_ok S -> s_saved S name = Saved (macro params body) -> List.length params = List.length args ->
  Forall params_ok args ->
  (gives S parent (SList (Atom q name :: args)) r <-> gives S parent (subst (argument params args) body) r).
Proof.
  intros HS ES L P. rewrite gives_step. unfold gives.
  destruct (bind_params_some params args ENil ENil L) as [e [H1 [H2 H3]]].
  assert (PB : params_ok body).
  { destruct (HS _ _ ES) as [NP|(q1 & ps & b & rr & ED & PB)].
    - apply no_params_list in NP. inversion NP; subst. inversion H5; subst. now apply no_params_ok.
    - injection ED as _ _ -> _. exact PB. }
  assert (K : r <> SLoop -> (exists f, to_query f S parent e body = r) <-> exists f, to_query f S parent ENil (subst (argument params args) body) = r).
  { intros N. apply same_inst_gives; auto.
    - apply subst_ext. intros n. rewrite H2. destruct (argument params args n); [now rewrite inst_nil|reflexivity].
    - apply subst_params_ok; [exact PB|]. intros n a HA. rewrite Forall_forall in P. apply P. now apply argument_In in HA.
    - apply H3; cbn; auto. }
  split; intros [N [f H]]; (split; [exact N|]).
  - apply K; [exact N|]. rewrite step_macro with (params := params) (body := body) in H by exact ES. rewrite H1 in H. eauto.
  - destruct (proj2 (K N)) as [g G]; [eauto|]. exists g. rewrite step_macro with (params := params) (body := body) by exact ES. now rewrite H1.
Qed.

Theorem macro_arity S parent q name params body args r :
  s_saved S name = Saved (macro params body) -> List.length params <> List.length args ->
  (gives S parent (SList (Atom q name :: args)) r <-> r = SErr BAD_QUERY_SYNTAX).
Proof.
  intros ES L. rewrite gives_step. split.
  - intros [N [f H]]. rewrite step_macro with (params := params) (body := body) in H by exact ES.
    now rewrite bind_params_none in H.
  - intros ->. split; [discriminate|]. exists 0. rewrite step_macro with (params := params) (body := body) by exact ES.
    now rewrite bind_params_none.
Qed.

Theorem saved_is_definition S parent q name def args r :
  s_saved S name = Saved def -> compound def = true -> is_macro def = false ->
  (gives S parent (SList (Atom q name :: args)) r <-> gives S parent def r).
Proof.
  intros ES C M. rewrite gives_step. unfold gives.
  assert (K : forall f, step S (to_query f S) parent ENil (SList (Atom q name :: args)) = to_query f S parent ENil def).
  { intros f. unfold step. cbn [param_of]. rewrite ES. destruct def as [|[|[q0 h|l] rest]]; try discriminate; [|reflexivity].
    cbn [is_macro] in M. unfold is in M. now rewrite M. }
  split; intros [N [f H]]; (split; [exact N|]); exists f; [now rewrite <- K|now rewrite K].
Qed.

(** ** Expansion. *)
Fixpoint expands_ind' (S : sdb) (P : sexp -> sexp -> Prop)
  (H1 : forall q v, P (Atom q v) (Atom q v)) (H2 : P (SList []) (SList []))
  (H3 : forall q h args, s_saved S h = NotSaved -> literal S h = true -> P (SList (Atom q h :: args)) (SList (Atom q h :: args)))
  (H4 : forall q h args args', s_saved S h = NotSaved -> literal S h = false -> Forall2 P args args' ->
        P (SList (Atom q h :: args)) (SList (Atom q h :: args')))
  (H5 : forall q h params body args sx', s_saved S h = Saved (macro params body) -> List.length params = List.length args ->
        P (subst (argument params args) body) sx' -> P (SList (Atom q h :: args)) sx')
  (H6 : forall q h def args sx', s_saved S h = Saved def -> compound def = true -> is_macro def = false -> P def sx' ->
        P (SList (Atom q h :: args)) sx')
  (a b : sexp) (H : expands S a b) {struct H} : P a b :=
  match H in expands _ a b return P a b with
  | ex_atom _ q v => H1 q v
  | ex_nil _ => H2
  | ex_literal _ q h args A B => H3 q h args A B
  | ex_list _ q h args args' A B F =>
      H4 q h args args' A B
         ((fix go l l' (F : Forall2 (expands S) l l') {struct F} : Forall2 P l l' :=
             match F in Forall2 _ l l' return Forall2 P l l' with
             | Forall2_nil _ => Forall2_nil P
             | Forall2_cons x y R F' => Forall2_cons x y (expands_ind' S P H1 H2 H3 H4 H5 H6 x y R) (go _ _ F')
             end) args args' F)
  | ex_macro _ q h params body args sx' A B E => H5 q h params body args sx' A B (expands_ind' S P H1 H2 H3 H4 H5 H6 _ _ E)
  | ex_saved _ q h def args sx' A B C E => H6 q h def args sx' A B C (expands_ind' S P H1 H2 H3 H4 H5 H6 _ _ E)
  end.

(** two expressions that translate alike, whatever the field. *)
Definition alike (S : sdb) (a b : sexp) : Prop := forall parent r, gives S parent a r <-> gives S parent b r.

Lemma alike_fuel S a b f : alike S a b -> forall parent, exists g, ole (to_query f S parent ENil a) (to_query g S parent ENil b).
Proof.
  intros H parent. remember (to_query f S parent ENil a) as r eqn:E.
  assert (D : r = SLoop \/ r <> SLoop) by (destruct r; auto; right; discriminate).
  destruct D as [D|D]; [exists 0; now left|].
  destruct (proj1 (H parent r)) as [_ [g G]]; [split; eauto|]. exists g. right. now symmetry.
Qed.
Lemma alike_args S p args args' f :
  Forall2 (alike S) args args' -> exists g, Forall2 (fun x y => ole (to_query f S p ENil x) (to_query g S p ENil y)) args args'.
Proof.
  induction 1 as [|x y args args' H _ [g1 G1]]; [exists 0; constructor|].
  destruct (alike_fuel S x y f H p) as [g2 G2]. exists (max g1 g2). constructor.
  - eapply ole_trans; [exact G2|]. apply to_query_mono. lia.
  - eapply Forall2_impl; [|exact G1]. cbn. intros a b HH. eapply ole_trans; [exact HH|]. apply to_query_mono. lia.
Qed.
Lemma alike_list1 S q h args args' parent r :
  s_saved S h = NotSaved -> literal S h = false -> Forall2 (alike S) args args' ->
  gives S parent (SList (Atom q h :: args)) r -> gives S parent (SList (Atom q h :: args')) r.
Proof.
  intros ES EL F. rewrite !gives_step. unfold step. cbn [param_of]. rewrite ES. intros [N [f H]]. split; [exact N|].
  assert (KC : forall p op init, exists g, ole (combine (to_query f S p ENil) op init args) (combine (to_query g S p ENil) op init args')).
  { intros p op init. destruct (alike_args S p args args' f F) as [g G]. exists g. now apply combine_ole. }
  assert (KO : forall a b, a = r -> ole a b -> b = r).
  { intros a b -> [?|?]; [tauto|now symmetry]. }
  unfold literal in EL. unfold eval_list in H |- *. destruct (head_of S h) as [[]|]; try discriminate; try (now exists 0).
  - destruct (KC parent OP_AND XAll) as [g G]. exists g. now apply (KO _ _ H).
  - destruct (KC parent OP_OR XNone) as [g G]. exists g. now apply (KO _ _ H).
  - destruct (KC parent OP_AND_NOT XAll) as [g G]. exists g. now apply (KO _ _ H).
  - destruct parent; [now exists 0|].
    destruct (KC (Some (prefix_for S h)) (if fd_and f0 then OP_AND else OP_OR) (if fd_and f0 then XAll else XNone)) as [g G].
    exists g. now apply (KO _ _ H).
  - destruct parent as [p|]; [|now exists 0]. destruct (has p F_EXPAND); [|now exists 0].
    destruct (KC None OP_AND XAll) as [g [G|G]].
    + rewrite G in H. now subst.
    + exists g. now rewrite <- G.
Qed.
Lemma alike_sym S args args' : Forall2 (alike S) args args' -> Forall2 (alike S) args' args.
Proof. induction 1; constructor; auto. intros p r. symmetry. apply H. Qed.

Theorem expansion_is_alike S a b : saved_ok S -> expands S a b -> params_ok a -> alike S a b.
Proof.
  intros HS. revert a b. apply (expands_ind' S (fun a b => params_ok a -> alike S a b)).
  - intros q v _ p r. reflexivity.
  - intros _ p r. reflexivity.
  - intros q h args _ _ _ p r. reflexivity.
  - intros q h args args' ES EL F P. apply params_ok_list in P. destruct P as [P _].
    assert (FA : Forall2 (alike S) args args').
    { clear - F P. induction F; inversion P; subst; constructor; auto. }
    intros p r. split; apply alike_list1; auto. now apply alike_sym.
  - intros q h params body args sx' ES L IH P. apply params_ok_list in P. destruct P as [P _].
    intros p r. rewrite (macro_is_substitution S p q h params body args r HS ES L P). apply IH.
    apply subst_params_ok.
    + destruct (HS _ _ ES) as [NP|(q1 & ps & b & rr & ED & PB)].
      * apply no_params_list in NP. inversion NP; subst. inversion H2; subst. now apply no_params_ok.
      * injection ED as _ _ -> _. exact PB.
    + intros n a HA. rewrite Forall_forall in P. apply P. now apply argument_In in HA.
  - intros q h def args sx' ES C M IH P p r. rewrite (saved_is_definition S p q h def args r ES C M). apply IH.
    destruct (HS _ _ ES) as [NP|(q1 & ps & b & rr & ED & PB)]; [now apply no_params_ok|].
    subst def. cbn [is_macro] in M. discriminate.
Qed.

(** ** Termination. *)
Definition T (S : sdb) (e : env) (sx : sexp) : Prop := forall parent, exists f, to_query f S parent e sx <> SLoop.
Fixpoint good_env (S : sdb) (e : env) : Prop :=
  match e with ENil => True | EBind _ sx ctx next => T S ctx sx /\ good_env S next end.
Lemma good_resolve S e n sx ctx : good_env S e -> resolve e n = Some (sx, ctx) -> T S ctx sx.
Proof.
  induction e as [|m s c _ next IHn]; cbn; [discriminate|]. intros [A B]. destruct (bseq n m); [intros [= <- <-]; auto|auto].
Qed.
Lemma bind_good S params : forall args c acc e, Forall (T S c) args -> good_env S acc ->
  bind_params params args c acc = Some e -> good_env S e.
Proof.
  induction params as [|p ps IH]; intros [|a args] c acc e F A H; cbn in H; try discriminate.
  - now injection H as <-.
  - destruct p as [[|] n|]; try discriminate. inversion F; subst. eapply IH; [| |exact H]; auto. now cbn.
Qed.
Lemma combine_T S p e args op : Forall (T S e) args -> exists f, forall init, combine (to_query f S p e) op init args <> SLoop.
Proof.
  induction 1 as [|x args Hx _ [f1 F1]]; [exists 0; intros init; discriminate|].
  destruct (Hx p) as [f2 F2]. exists (max f1 f2). intros init. cbn [combine].
  assert (E : to_query (max f1 f2) S p e x <> SLoop).
  { intros E. destruct (to_query_mono S f2 (max f1 f2) p e x) as [K|K]; [lia|tauto|congruence]. }
  destruct (to_query (max f1 f2) S p e x) eqn:EQ; try discriminate; [|now destruct E].
  assert (G : ole (combine (to_query f1 S p e) op (XOp op init q) args) (combine (to_query (max f1 f2) S p e) op (XOp op init q) args)).
  { apply combine_ole, Forall2_same. intros y. apply to_query_mono. lia. }
  destruct G as [G|G]; [now apply F1 in G|]. rewrite <- G. apply F1.
Qed.
Lemma of_lres_T r : of_lres r <> SLoop. Proof. destruct r; discriminate. Qed.
Lemma parse_range_T S h args : parse_range S h args <> SLoop.
Proof.
  destruct args as [|[qa va|la] [|[qb vb|lb] [|b r]]]; cbn [parse_range]; try discriminate; apply of_lres_T.
Qed.
Lemma parse_wildcard_T S p v : parse_wildcard S p v <> SLoop.
Proof. unfold parse_wildcard. destruct p as [p|]; [destruct (has p F_WILDCARD)|]; discriminate. Qed.
Lemma parse_atom_T S p q v : parse_atom S p q v <> SLoop.
Proof.
  unfold parse_atom. destruct (negb q && bseq v (lit "*")); [apply parse_wildcard_T|].
  destruct p as [p|]; [destruct (has p F_BOOLEAN)|]; discriminate.
Qed.
Lemma parse_regex_T S p e a : parse_regex S p e a <> SLoop.
Proof.
  unfold parse_regex. destruct p as [p|]; [|discriminate]. destruct (has p F_REGEX); [|discriminate].
  destruct (expand_term e a); [apply of_lres_T|discriminate].
Qed.

Lemma eval_list_T S parent e h args :
  (forall e0, good_env S e0 -> Forall (T S e0) args) -> good_env S e ->
  exists f, eval_list S (to_query f S) parent e h args <> SLoop.
Proof.
  intros HA HE.
  assert (K : forall p e0 op, good_env S e0 -> exists f, forall init, combine (to_query f S p e0) op init args <> SLoop).
  { intros p e0 op G. apply combine_T. auto. }
  unfold eval_list. destruct (head_of S h) as [[]|]; try (exists 0; discriminate).
  - destruct (K parent e OP_AND HE) as [f F]; eauto.
  - destruct (K parent e OP_OR HE) as [f F]; eauto.
  - destruct (K parent e OP_AND_NOT HE) as [f F]; eauto.
  - destruct parent; [exists 0; discriminate|].
    destruct (K (Some (prefix_for S h)) e (if fd_and f then OP_AND else OP_OR) HE) as [g F]; eauto.
  - exists 0. destruct args as [|[q v|] [|? ?]]; try discriminate. destruct (expand_term e (Atom q v)); [apply parse_wildcard_T|discriminate].
  - exists 0. destruct args as [|[q v|] [|? ?]]; try discriminate. apply parse_regex_T.
  - destruct parent as [p|]; [|exists 0; discriminate]. destruct (has p F_EXPAND); [|exists 0; discriminate].
    destruct (K None ENil OP_AND I) as [f F]. exists f. specialize (F XAll). destruct (combine _ _ _ _); congruence.
  - exists 0. destruct parent; [discriminate|]. destruct args as [|[q v|] [|? ?]]; try discriminate. apply of_lres_T.
  - exists 0. destruct parent; [discriminate|]. destruct args as [|[q v|] [|? ?]]; try discriminate. apply of_lres_T.
  - exists 0. destruct parent; [discriminate|]. apply parse_range_T.
Qed.

Theorem ranked_T S rank :
  (forall name def, s_saved S name = Saved def -> forall n, In n (calls def) -> rank n < rank name) ->
  forall k sx, (forall n, In n (heads sx) -> rank n < k) -> forall e, good_env S e -> T S e sx.
Proof.
  intros HR. induction k as [k IHk] using lt_wf_ind. induction sx as [q v|l IH] using sexp_ind'; intros HH e GE parent.
  - destruct (param_of (Atom q v)) as [n|] eqn:EP.
    + destruct (resolve e n) as [[sx' ctx]|] eqn:ER.
      * destruct (good_resolve _ _ _ _ _ GE ER parent) as [f F]. exists (Datatypes.S f). rewrite to_query_step. unfold step.
        now rewrite EP, ER.
      * exists 1. rewrite to_query_step. unfold step. rewrite EP, ER. discriminate.
    + exists 1. rewrite to_query_step. unfold step. rewrite EP. apply parse_atom_T.
  - destruct l as [|h args]; [exists 1; discriminate|]. inversion IH as [|? ? _ IHa]; subst.
    destruct h as [q h|lh]; [|exists 1; discriminate].
    assert (HA : forall e0, good_env S e0 -> Forall (T S e0) args).
    { intros e0 G0. apply Forall_forall. intros x Hx. rewrite Forall_forall in IHa. apply IHa; auto.
      intros n Hn. apply HH. cbn [heads]. apply in_or_app. right. apply in_flat_map. eauto. }
    assert (RK : rank h < k) by (apply HH; cbn; auto).
    assert (K : exists f, step S (to_query f S) parent e (SList (Atom q h :: args)) <> SLoop).
    2: { destruct K as [f F]. exists (Datatypes.S f). now rewrite to_query_step. }
    unfold step. cbn [param_of]. destruct (s_saved S h) as [| |def] eqn:ES; [now apply eval_list_T|exists 0; discriminate|].
    pose proof (HR _ _ ES) as HC.
    assert (HD : is_macro def = false -> exists f, to_query f S parent e def <> SLoop).
    { intros M. apply (IHk (rank h) RK def); auto. intros n Hn. apply HC.
      destruct def as [|[|[q0 h0|] [|[|] [|]]]]; cbn [calls]; auto. cbn [is_macro] in M. now rewrite M. }
    destruct def as [|[|[q0 h0|l0] rest]]; try (exists 0; discriminate).
    + destruct (bseq h0 (lit "macro")) eqn:EM.
      * destruct rest as [|[|params] [|body rest]]; try (exists 0; discriminate).
        destruct (bind_params params args e ENil) as [e'|] eqn:EB; [|exists 0; discriminate].
        apply (IHk (rank h) RK body).
        -- intros n Hn. apply HC. cbn [calls]. unfold is. now rewrite EM.
        -- eapply bind_good; [apply HA; exact GE| |exact EB]. exact I.
      * apply HD. exact EM.
    + apply HD. reflexivity.
Qed.
Theorem acyclic_terminates S parent sx : acyclic S -> exists r, gives S parent sx r.
Proof.
  intros [rank HR].
  assert (B : exists k, forall n, In n (heads sx) -> rank n < k).
  { generalize (heads sx). intros l. induction l as [|x l [k Hk]]; [exists 0; cbn; tauto|].
    exists (Datatypes.S (max k (rank x))). cbn [In]. intros n [<-|Hn]; [lia|]. apply Hk in Hn. lia. }
  destruct B as [k Hk]. destruct (ranked_T S rank HR k sx Hk ENil I parent) as [f F].
  exists (to_query f S parent ENil sx). split; eauto.
Qed.
