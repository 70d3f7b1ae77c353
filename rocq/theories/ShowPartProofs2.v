(** Proofs about the structured output of a message: the tree of parts. *)
From Verif Require Import Bytes StrUtil Reply Sprinter SprinterSpec Mime ShowPart ShowPartSpec ShowPartProofs.
Local Open Scope nat_scope.

(** The tree of nodes, numbers as in the code. *)
Inductive otree := OT (num : option nat) (n : node) (kids : list otree).
Fixpoint otree_ind' (P : otree -> Prop) (H : forall num n kids, Forall P kids -> P (OT num n kids)) (t : otree) : P t :=
  match t with OT num n kids => H num n kids ((fix go l : Forall P l := match l with [] => Forall_nil _ | t :: l => Forall_cons _ (otree_ind' P H t) (go l) end) kids) end.
Fixpoint oflat (t : otree) : list (option nat * node) := match t with OT num n kids => (num, n) :: concat (map oflat kids) end.
Section bc.
  Variable go : option nat -> node -> wstate -> option (otree * wstate).
  Fixpoint build_children (c : cctx) (p : node) (i todo : nat) (st : wstate) : option (list otree * wstate) :=
    match todo with
    | O => Some ([], st)
    | S todo' =>
        match mime_node_child c p i st with
        | None => None
        | Some (num, n, st1) =>
            match go num n st1 with
            | None => None
            | Some (t, (m, fs)) =>
                match build_children c p (S i) todo' (m, tl fs) with
                | None => None
                | Some (l', st2) => Some (t :: l', st2)
                end
            end
        end
    end.
End bc.
Fixpoint build (fuel : nat) (c : cctx) (num : option nat) (n : node) (st : wstate) : option (otree * wstate) :=
  match fuel with
  | O => None
  | S f => match build_children (build f c) c n 0 (length (n_children n)) st with Some (kids, st') => Some (OT num n kids, st') | None => None end
  end.

(** The walk visits the nodes of the tree. *)
Lemma visit_build f c : forall num n st, visit f c n st = match build f c num n st with Some (OT _ _ kids, st') => Some (concat (map oflat kids), st') | None => None end.
Proof.
  induction f as [|f IH]; intros num n st; [reflexivity|]. cbn [visit build].
  assert (G : forall todo i st, visit_children (visit f c) c n i todo st =
    match build_children (build f c) c n i todo st with Some (kids, st') => Some (concat (map oflat kids), st') | None => None end).
  { induction todo as [|todo IHt]; intros i s; [reflexivity|]. cbn [visit_children build_children]. destruct (mime_node_child c n i s) as [((nu, n'), s1)|]; [|reflexivity].
    rewrite (IH nu n' s1). destruct (build f c nu n' s1) as [([nu2 n2 kids], (m, fs))|] eqn:B; [|reflexivity]. rewrite IHt.
    assert (nu2 = nu /\ n2 = n') as (-> & ->).
    { destruct f; [discriminate B|]. cbn [build] in B. destruct (build_children _ _ _ _ _ _) as [(k, s')|]; [|discriminate B]. now injection B as -> ->. }
    destruct (build_children (build f c) c n (S i) todo (m, tl fs)) as [(kids', s2)|]; [|reflexivity]. reflexivity. }
  rewrite G. now destruct (build_children _ _ _ _ _ _) as [(kids, s')|].
Qed.
Lemma build_top f c num n st t st' : build f c num n st = Some (t, st') -> exists kids, t = OT num n kids /\ length kids = length (n_children n).
Proof.
  destruct f; [discriminate|]. cbn [build]. destruct (build_children _ _ _ _ _ _) as [(k, s')|] eqn:B; [|discriminate]. intros H. injection H as <- <-. exists k. split; [reflexivity|].
  revert B. generalize (length (n_children n)) 0 st k s'. clear. induction n0 as [|t IH]; intros i st k s' B; [now injection B as <- <-|].
  cbn [build_children] in B. destruct (mime_node_child c n i st) as [((nu, n'), s1)|]; [|discriminate]. destruct (build f c nu n' s1) as [(x, (m, fs))|]; [|discriminate].
  destruct (build_children (build f c) c n (S i) t (m, tl fs)) as [(r, s2)|] eqn:E; [|discriminate]. injection B as <- <-. cbn. f_equal. eauto.
Qed.

(** ** Well-formed nodes *)
Definition okay (body : obj) (n : node) : Prop :=
  (forall x, In x (n_children n) -> within x body) /\
  match n_part n with
  | Some (OPart _ _) => n_children n = []
  | Some (OPkcs7 i _ _ _) => strcaseeq (firstn 5 (o_mime i)) (lit "text/") = false
  | Some (OMessage _ _ _) => length (n_children n) = 1
  | Some _ => True
  | None => False
  end.
Lemma within_trans a b c : within a b -> within b c -> within a c.
Proof. intros A B. induction B; eauto using w_child, w_decrypted, w_message, w_opened, w_pkcs7_decrypted. Qed.
Lemma okay_trans x body n : okay x n -> within x body -> pkcs7_is_not_text body -> okay body n.
Proof. intros (A & B) W P. split; [|exact B]. intros y I. eapply within_trans; eauto. Qed.
Lemma skip_within o q : skip_legacy_display o = Some q -> within q o.
Proof.
  unfold skip_legacy_display. destruct o as [| i k ch s d | |]; try discriminate. destruct k; try discriminate. destruct ch as [|a [|b [|? ?]]]; try discriminate.
  destruct (_ && _); [|discriminate]. intros H. injection H as <-. apply w_child with (x := b); [right; now left|constructor].
Qed.
Lemma set_up_okay1 c o par i m : pkcs7_is_not_text o ->
  match set_up_part1 c o par i m with SetUp n _ => okay o n | Again q _ => within q o end.
Proof.
  intros P.
  assert (AP : forall o0 ch m, (forall x, In x ch -> within x o) -> (forall q, skip_legacy_display o0 = Some q -> within q o) ->
     match o0 with OPart _ _ => ch = [] | OPkcs7 i _ _ _ => strcaseeq (firstn 5 (o_mime i)) (lit "text/") = false | OMessage _ _ _ => length ch = 1 | _ => True end ->
     match as_payload o0 ch par i m with SetUp n _ => okay o n | Again q _ => within q o end).
  { intros o0 ch m0 A W B. unfold as_payload. destruct (potential_payload m0 o0 par i) as (y, m'). destruct (y && _).
    - destruct (skip_legacy_display o0) as [q|] eqn:S; [now apply W|]. split; [exact A|]. cbn. now destruct o0.
    - split; [exact A|]. cbn. now destruct o0. }
  assert (W0 := skip_within o).
  destruct o as [inf t | inf k ch s d | inf s b | inf t v d]; cbn [set_up_part1].
  - apply AP; [now intros ?|exact W0|reflexivity].
  - set (o := OMulti inf k ch s d) in *.
    assert (CH : forall x, In x ch -> within x o) by (intros x I; eapply w_child; [exact I|constructor]).
    destruct (repair_mixed_up o) as [r|] eqn:R.
    + unfold repair_mixed_up, o in R. destruct ch as [|p0 [|p1 [|p2 [|? ?]]]]; try discriminate. destruct (_ && _); [|discriminate]. injection R as <-.
      assert (A : forall x, In x [p1; p2] -> within x o) by (intros x [<-|[<-|[]]]; apply CH; cbn; auto).
      destruct (c_decrypt c).
      * unfold node_decrypt_and_verify. destruct d as [(u, sg)|].
        -- destruct sg; (split; [|exact I]); intros x [<-|[<-|[]]]; try (apply A; now left); apply w_decrypted; constructor.
        -- split; [exact A|exact I].
      * apply AP; [exact A| |exact I]. intros q W. discriminate W.
    + destruct k.
      * unfold o. apply AP; [exact CH|exact W0|exact I].
      * unfold o. destruct (c_verify c); [|apply AP; [exact CH|exact W0|exact I]].
        destruct ch as [|p0 [|p1 [|p2 r]]]; cbn; (split; [exact CH|exact I]).
      * unfold o. destruct (c_decrypt c); [|apply AP; [exact CH|exact W0|exact I]].
        destruct ch as [|p0 [|p1 [|p2 r]]]; try (cbn; (split; [exact CH|exact I])).
        unfold node_decrypt_and_verify. destruct d as [(u, sg)|].
        -- destruct sg; (split; [|exact I]); intros x [<-|[<-|[]]]; try (apply CH; now left); apply w_decrypted; constructor.
        -- split; [exact CH|exact I].
  - apply AP; [|exact W0|reflexivity]. intros x [<-|[]]. apply w_message. constructor.
  - assert (T : strcaseeq (firstn 5 (o_mime inf)) (lit "text/") = false) by (eapply P; constructor).
    destruct t, v as (sg, u).
    + unfold node_verify. split; [|exact T]. cbn. destruct u as [u|]; [|now intros ?]. intros x [<-|[]]. apply w_opened. constructor.
    + destruct (c_decrypt c); [|apply AP; [now intros ?|exact W0|exact T]].
      unfold node_decrypt_and_verify. destruct d as [(w, sg')|].
      * destruct sg'; (split; [|exact T]); intros x [<-|[]]; apply w_pkcs7_decrypted; constructor.
      * split; [now intros ?|exact T].
    + apply AP; [now intros ?|exact W0|exact T].
Qed.
Lemma pkcs7_within o body : within o body -> pkcs7_is_not_text body -> pkcs7_is_not_text o.
Proof. intros W P i t v d H. eapply P. eapply within_trans; eauto. Qed.
Lemma set_up_okay c o body par i m n m1 : pkcs7_is_not_text body -> within o body -> set_up_part c o par i m = Some (n, m1) -> okay body n.
Proof.
  intros P W. unfold set_up_part. assert (H := set_up_okay1 c o par i m (pkcs7_within _ _ W P)). destruct (set_up_part1 c o par i m) as [n0 m0|q m0].
  - intros E. injection E as <- <-. eapply okay_trans; eauto.
  - assert (W' : within q body) by (eapply within_trans; eauto). assert (H' := set_up_okay1 c q par i m0 (pkcs7_within _ _ W' P)). destruct (set_up_part1 c q par i m0); [|discriminate].
    intros E. injection E as <- <-. eapply okay_trans; eauto.
Qed.
Lemma child_okay c body p i st num n st1 : pkcs7_is_not_text body -> (forall x, In x (n_children p) -> within x body) ->
  mime_node_child c p i st = Some (num, n, st1) -> okay body n.
Proof.
  intros P W. unfold mime_node_child. destruct (nth_error (n_children p) i) as [sub|] eqn:E; [|discriminate]. apply nth_error_In in E.
  destruct (set_up_part c sub (n_part p) i (fst st)) as [(n0, m0)|] eqn:S; [|discriminate]. destruct (number_child _ _ _) as ((nu, fs), fr). intros H. injection H as <- <- <-.
  eapply set_up_okay; eauto.
Qed.

Lemma emit_one x : emit (VList [x]) = BeginList :: emit x ++ [End].
Proof. cbn [emit flat_map]. now rewrite app_nil_r. Qed.
Lemma emit_list l : emit (VList l) = BeginList :: flat_map emit l ++ [End].
Proof. reflexivity. Qed.

(** ** The value of a part *)
Section value.
  Variables (e : gmime) (c : cctx) (try : bool) (o : sopts).
  Definition meta_fields (num : option nat) (n : node) (p : obj) : list (string * option value) :=
    [("id", Some (VInt (match num with Some k => Z.of_nat k | None => -1 end)));
     ("encstatus", if decrypt_attempted c try n then Some (VList [VMap (omap [("status", Some (VStr (if n_decrypted n then lit "good" else lit "bad")))])]) else None);
     ("sigstatus", if n_verify n then Some (sigstatus_value e o (n_sigs n)) else None);
     ("content-type", Some (VStr (o_mime (info_of p))));
     ("content-disposition", text_of (g_disposition e p)); ("content-id", text_of (g_cid e p));
     ("filename", match p with OPart _ _ | OPkcs7 _ _ _ _ => text_of (g_filename e p) | _ => None end)]%string.
  Definition content_fields (n : node) (p : obj) (kids : list value) : list (string * option value) :=
    match p with
    | OPart _ _ | OPkcs7 _ _ _ _ =>
        if text_shown o p then [("content", Some (VStr (o_text (info_of p))))]%string
        else if Nat.eqb (length (n_children n)) 0 then
          [("content-charset", text_of (g_charset e p)); ("content-transfer-encoding", text_of (g_cte e p));
           ("content-length", if Z.leb 0 (g_length e p) then Some (VInt (g_length e p)) else None)]%string
        else [("content", Some (VList kids))]%string
    | OMulti _ _ _ _ _ => [("content", Some (VList kids))]%string
    | OMessage _ _ _ =>
        [("content", Some (VList [VMap (omap [("headers", Some (headers_value o (g_headers e p) false None)); ("body", Some (VList kids))])]))]%string
    end.
  Fixpoint part_value (t : otree) : value :=
    match t with
    | OT num n kids =>
        match n_part n with
        | Some p => VMap (omap (meta_fields num n p ++ content_fields n p (map part_value kids)))
        | None => VNull
        end
    end.
  Lemma meta_emit num n p : part_meta e c try o num n p = ocalls (meta_fields num n p).
  Proof.
    unfold part_meta, meta_fields. rewrite sigstatus_emit. unfold opt_key, text_of.
    destruct (decrypt_attempted c try n), (n_verify n), (g_disposition e p), (g_cid e p); cbn [ocalls option_map app];
      destruct p; try (destruct (g_filename e _)); cbn [ocalls option_map emit flat_map omap fst snd app]; rewrite <- ?app_assoc; reflexivity.
  Qed.
  Lemma part_emit num n p kids vs body : okay body n -> n_part n = Some p -> length vs = length (n_children n) -> kids = flat_map emit vs ->
    (let '(start, nclose) := part_open e o n p in BeginMap :: part_meta e c try o num n p ++ start ++ kids ++ repeat End nclose ++ [End]) =
    emit (VMap (omap (meta_fields num n p ++ content_fields n p vs))).
  Proof.
    intros (_ & K) Hp L ->. rewrite Hp in K. rewrite emit_omap, ocalls_app, meta_emit.
    assert (leaf : forall (H : n_children n <> [] -> text_shown o p = false),
      (let '(start, nclose) := (if text_shown o p then ([Key (lit "content"); Str (o_text (info_of p))], 0)
      else if length (n_children n) =? 0 then (format_omitted_part_meta e p, 0)
      else ([Key (lit "content"); BeginList], 1)) in BeginMap :: ocalls (meta_fields num n p) ++ start ++ flat_map emit vs ++ repeat End nclose ++ [End]) =
      BeginMap :: (ocalls (meta_fields num n p) ++ ocalls (if text_shown o p then [("content", Some (VStr (o_text (info_of p))))]%string
        else if Nat.eqb (length (n_children n)) 0 then
          [("content-charset", text_of (g_charset e p)); ("content-transfer-encoding", text_of (g_cte e p));
           ("content-length", if Z.leb 0 (g_length e p) then Some (VInt (g_length e p)) else None)]%string
        else [("content", Some (VList vs))]%string)) ++ [End]).
    { intros H. destruct (text_shown o p).
      - destruct (n_children n); [|now discriminate H]. destruct vs; [|discriminate]. cbn. now rewrite <- app_assoc.
      - destruct (Nat.eqb_spec (length (n_children n)) 0) as [Z|Z].
        + rewrite Z in L. destruct vs; [|discriminate]. cbn [repeat flat_map app]. unfold format_omitted_part_meta, opt_key, text_of.
          destruct (g_charset e p), (g_cte e p), (Z.leb 0 (g_length e p)); cbn [ocalls option_map emit app]; rewrite <- ?app_assoc; reflexivity.
        + cbn [ocalls emit repeat app]. rewrite <- ?app_assoc. cbn [app]. now rewrite <- ?app_assoc. }
    destruct p as [inf t | inf k ch s d | inf s b | inf t v d]; cbn [part_open content_fields].
    - apply leaf. rewrite K. now intros [].
    - cbn [ocalls emit repeat app]. rewrite <- ?app_assoc. cbn [app]. now rewrite <- ?app_assoc.
    - cbn [ocalls repeat]. rewrite headers_emit. rewrite emit_one, emit_omap. cbn [ocalls]. rewrite emit_list. set (hv := emit (headers_value _ _ _ _)). cbn [app]. rewrite <- ?app_assoc. cbn [app]. rewrite ?app_nil_r, <- ?app_assoc. cbn [app]. rewrite <- ?app_assoc. reflexivity.
    - apply leaf. intros _. unfold text_shown, is_text. cbn [info_of]. now rewrite K.
  Qed.
  (** What is printed of a part is the value of its tree. *)
  Lemma format_build body (P : pkcs7_is_not_text body) : forall f num n st, okay body n ->
    format_part f e c try o num n st = match build f c num n st with Some (t, st') => Some (emit (part_value t), st') | None => None end.
  Proof.
    induction f as [|f IH]; intros num n st K; [reflexivity|]. cbn [format_part build].
    destruct (n_part n) as [p|] eqn:Hp; [|exfalso; destruct K as (_ & K); now rewrite Hp in K].
    assert (G : forall todo i st, format_children (format_part f e c try o) c n i todo st =
      match build_children (build f c) c n i todo st with Some (kids, st') => Some (flat_map emit (map part_value kids), st') | None => None end).
    { induction todo as [|todo IHt]; intros i s; [reflexivity|]. cbn [format_children build_children]. destruct (mime_node_child c n i s) as [((nu, n'), s1)|] eqn:M; [|reflexivity].
      rewrite IH by (eapply child_okay; [exact P|exact (proj1 K)|exact M]). destruct (build f c nu n' s1) as [(t, (m, fs))|]; [|reflexivity]. rewrite IHt.
      destruct (build_children (build f c) c n (S i) todo (m, tl fs)) as [(kids', s2)|]; reflexivity. }
    rewrite G. destruct (build_children _ _ _ _ _ _) as [(kids, s')|] eqn:B; [|reflexivity].
    assert (L : length kids = length (n_children n)).
    { assert (T := build_top (S f) c num n st (OT num n kids) s'). cbn [build] in T. rewrite B in T. destruct (T eq_refl) as (k & E & L). injection E as <-. exact L. }
    destruct (part_open e o n p) as (start, nclose) eqn:O. f_equal. f_equal. cbn [part_value]. rewrite Hp.
    assert (E := part_emit num n p _ (map part_value kids) body K Hp ltac:(now rewrite map_length) eq_refl). rewrite O in E. exact E.
  Qed.
End value.
