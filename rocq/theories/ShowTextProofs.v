(** Lemmas about the text output of notmuch show. *)
From Verif Require Import Bytes StrUtil Decimal Reply Sprinter Mime MimeSpec MimeProofs ShowPart ShowPartSpec ShowPartProofs ShowPartProofs2 ShowPartProofs4 ShowText ShowTextSpec.
Local Open Scope nat_scope.

Fixpoint item_ind' (P : item -> Prop) (HL : forall s, P (Line s)) (HB : forall k h l, Forall P l -> P (Block k h l)) (i : item) : P i :=
  match i with
  | Line s => HL s
  | Block k h l => HB k h l ((fix go l : Forall P l := match l with [] => Forall_nil _ | i :: l => Forall_cons _ (item_ind' P HL HB i) (go l) end) l)
  end.

Fixpoint render (i : item) : bytes :=
  match i with
  | Line s => s ++ [LF]
  | Block k h l => (FF :: k ++ lit "{" ++ h ++ [LF]) ++ flat_map render l ++ FF :: k ++ lit "}" ++ [LF]
  end.
Fixpoint rlines (i : item) : list bytes :=
  match i with
  | Line s => [s]
  | Block k h l => (FF :: k ++ lit "{" ++ h) :: flat_map rlines l ++ [FF :: k ++ lit "}"]
  end.
Fixpoint goodi (i : item) : Prop :=
  match i with
  | Line s => one_line s /\ mark_of s = Text
  | Block k h l => forallb letter k = true /\ one_line h /\ fold_right (fun x Q => goodi x /\ Q) True l
  end.
Definition endl (l : bytes) : bytes := l ++ [LF].
Lemma render_lines i : render i = concat (map endl (rlines i)).
Proof.
  induction i as [s|k h l IH] using item_ind'; cbn [render rlines map concat]; [now rewrite app_nil_r|].
  unfold endl at 1. rewrite <- !app_assoc. cbn [app]. rewrite <- !app_assoc. do 3 f_equal. do 2 f_equal. cbn [app]. f_equal.
  rewrite map_app, concat_app. cbn [map concat]. rewrite app_nil_r. unfold endl at 2. cbn [app]. rewrite <- !app_assoc. f_equal.
  induction IH as [|x r Hx _ IHr]; [reflexivity|]. cbn [flat_map]. now rewrite map_app, concat_app, Hx, IHr.
Qed.
Lemma lines_from_line s : forall cur rest, one_line s -> lines_from cur (s ++ LF :: rest) = option_map (cons (rev cur ++ s)) (lines_from [] rest).
Proof.
  induction s as [|c s IH]; intros cur rest H; cbn [app lines_from].
  - change (beq LF (chr 10)) with true. cbn. now rewrite app_nil_r.
  - destruct (beq c (chr 10)) eqn:E.
    + apply beq_eq in E. subst. elim H. now left.
    + rewrite IH by (intros I; apply H; now right). cbn [rev]. now rewrite <- app_assoc.
Qed.
Lemma lines_of_lines ls : Forall one_line ls -> lines_of (concat (map endl ls)) = Some ls.
Proof.
  unfold lines_of. induction 1 as [|l ls H _ IH]; [reflexivity|]. cbn [map concat]. unfold endl at 1. rewrite <- app_assoc. cbn [app].
  rewrite lines_from_line by exact H. now rewrite IH.
Qed.
Lemma span_letters_app k : forallb letter k = true -> forall c r, letter c = false -> span_letters (k ++ c :: r) = (k, c :: r).
Proof.
  induction k as [|x k IH]; intros H c r Hc; cbn [app span_letters].
  - now rewrite Hc.
  - cbn in H. apply andb_true_iff in H as [H1 H2]. rewrite H1, IH; auto.
Qed.
Lemma mark_open k h : forallb letter k = true -> mark_of (FF :: k ++ lit "{" ++ h) = Opens k h.
Proof.
  intros H. unfold mark_of. change (beq FF (chr 12)) with true. cbn iota. change (lit "{" ++ h) with (chr 123 :: h).
  rewrite span_letters_app by (exact H || reflexivity). reflexivity.
Qed.
Lemma mark_close k : forallb letter k = true -> mark_of (FF :: k ++ lit "}") = Closes k.
Proof.
  intros H. unfold mark_of. change (beq FF (chr 12)) with true. cbn iota. change (lit "}") with [chr 125].
  rewrite span_letters_app by (exact H || reflexivity). reflexivity.
Qed.
Lemma mark_text s : hd_error s <> Some FF -> mark_of s = Text.
Proof. destruct s as [|c s]; [reflexivity|]. unfold mark_of. destruct (beq c (chr 12)) eqn:E; [|reflexivity]. apply beq_eq in E. subst. intros H. now elim H. Qed.
Lemma letter_not_lf k : forallb letter k = true -> ~ In LF k.
Proof. intros H I. rewrite forallb_forall in H. apply H in I. discriminate I. Qed.
Lemma goodi_lines i : goodi i -> Forall one_line (rlines i).
Proof.
  induction i as [s|k h l IH] using item_ind'; cbn [goodi rlines]; intros G; [constructor; [tauto|constructor]|].
  destruct G as (K & Hh & G). apply letter_not_lf in K. constructor.
  - intros [I|I]; [discriminate I|]. rewrite !in_app_iff in I. destruct I as [I|[I|I]]; [auto| |auto]. destruct I as [I|[]]. discriminate I.
  - apply Forall_app. split.
    + clear Hh K. induction IH as [|x r Hx _ IHr]; [constructor|]. cbn in G. destruct G as [G1 G2]. cbn [flat_map]. apply Forall_app. auto.
    + constructor; [|constructor]. intros [I|I]; [discriminate I|]. rewrite in_app_iff in I. destruct I as [I|[I|[]]]; [auto|discriminate I].
Qed.
Lemma read_one i : goodi i -> forall ls open acc, read_items (rlines i ++ ls) open acc = read_items ls open (i :: acc).
Proof.
  induction i as [s|k h l IH] using item_ind'; cbn [goodi rlines]; intros G ls open acc.
  - destruct G as [_ G]. cbn [app read_items]. now rewrite G.
  - destruct G as (K & Hh & G). cbn [app]. cbn [read_items]. rewrite mark_open by exact K.
    assert (X : forall acc rest, read_items (flat_map rlines l ++ rest) ((k, h, acc) :: open) [] = read_items rest ((k, h, acc) :: open) (rev l)).
    { clear acc ls. intros acc rest. assert (Y : forall a, read_items (flat_map rlines l ++ rest) ((k, h, acc) :: open) a = read_items rest ((k, h, acc) :: open) (rev l ++ a)).
      { clear Hh K. induction IH as [|x r Hx _ IHr]; intros a; [reflexivity|]. cbn in G. destruct G as [G1 G2]. cbn [flat_map]. rewrite <- app_assoc.
        rewrite Hx by exact G1. rewrite IHr by exact G2. cbn [rev]. now rewrite <- app_assoc. }
      rewrite Y. now rewrite app_nil_r. }
    rewrite <- app_assoc. rewrite X. cbn [app read_items]. rewrite mark_close by exact K. rewrite (proj2 (bseq_eq k k) eq_refl). now rewrite rev_involutive.
Qed.
Lemma read_render i : goodi i -> read_text (render i) = Some [i].
Proof.
  intros G. unfold read_text. rewrite render_lines, lines_of_lines by now apply goodi_lines.
  rewrite <- (app_nil_r (rlines i)). rewrite read_one by exact G. reflexivity.
Qed.

(** ** The pieces *)
Lemma decz_nat k : decz (Z.of_nat k) = dec (N.of_nat k).
Proof. now destruct k. Qed.
Lemma text_shown_has o p : text_shown o p = has_text o p.
Proof. unfold text_shown, has_text, is_text, is_type. destruct (so_html o); reflexivity. Qed.
Lemma harmless_lines s : harmless s -> s = flat_map render (text_lines s) /\ Forall goodi (text_lines s).
Proof.
  intros (ls & -> & H). unfold text_lines. change (fun l => l ++ [chr 10]) with endl.
  assert (O : Forall one_line ls) by (apply Forall_forall; intros l I; now apply H).
  rewrite lines_of_lines by exact O. split.
  - clear H O. induction ls as [|l ls IH]; [reflexivity|]. cbn [map concat flat_map render]. unfold endl at 1. now rewrite <- IH.
  - apply Forall_forall. intros x I. apply in_map_iff in I as (l & <- & I). destruct (H l I) as [H1 H2]. split; [exact H1|]. now apply mark_text.
Qed.
Lemma join_space_tags l : join_space l = get_tags_as_string l.
Proof.
  destruct l as [|x l]; [reflexivity|]. cbn [get_tags_as_string]. revert x. induction l as [|y l IH]; intros x; [cbn; now rewrite app_nil_r|].
  change (join_space (x :: y :: l)) with (x ++ lit " " ++ join_space (y :: l)). rewrite IH. cbn [flat_map]. now rewrite <- !app_assoc.
Qed.
Lemma header_render summary h : render (header_block (match summary with Some s => [Line s] | None => [] end) h) = header_text summary h.
Proof.
  unfold header_block, header_text. cbn [render]. rewrite !flat_map_app.
  destruct summary, (h_to h), (h_cc h); cbn [flat_map app opt_line render]; rewrite <- ?app_assoc; cbn [app]; rewrite <- ?app_assoc; cbn [app]; rewrite <- ?app_assoc; reflexivity.
Qed.
Definition tagged_line (n : string) (s : bytes) : Prop := one_line (lit n ++ s).
Lemma one_app a b : one_line a -> one_line b -> one_line (a ++ b).
Proof. unfold one_line. rewrite in_app_iff. tauto. Qed.
Ltac one_lit := unfold one_line; let H := fresh in intros H; cbn in H; repeat (destruct H as [H|H]; [discriminate H|]); exact H.
Lemma or_null_one o : one_line_opt o -> one_line (or_null o).
Proof. destruct o; [auto|]. intros _. one_lit. Qed.
Lemma goodi_block k h l : forallb letter k = true -> one_line h -> Forall goodi l -> goodi (Block k h l).
Proof. intros K H G. cbn. split; [exact K|]. split; [exact H|]. now apply fold_forall. Qed.
Lemma goodi_line (c : ascii) (s r : bytes) : one_line (c :: s) -> one_line r -> c <> FF -> goodi (Line ((c :: s) ++ r)).
Proof. intros A B C. split; [now apply one_app|]. apply mark_text. cbn. intros X. injection X as X. exact (C X). Qed.
Lemma header_good summary h : one_line_headers h -> Forall goodi summary -> goodi (header_block summary h).
Proof.
  intros (A & B & C & D & E) G. apply goodi_block; [reflexivity|one_lit|]. apply Forall_app. split; [exact G|].
  assert (X : forall (n : string) c s r, lit n = c :: s -> one_line (c :: s) -> c <> FF -> one_line r -> goodi (Line (lit n ++ r))).
  { intros n c s r -> ? ? ?. now apply goodi_line. }
  apply Forall_app. split; [apply Forall_cons; [|apply Forall_cons; [|constructor]]|].
  - eapply X; [reflexivity|one_lit|discriminate|now apply or_null_one].
  - eapply X; [reflexivity|one_lit|discriminate|now apply or_null_one].
  - apply Forall_app. split; [|apply Forall_app; split].
    + destruct (h_to h); [|constructor]. constructor; [|constructor]. eapply X; [reflexivity|one_lit|discriminate|exact C].
    + destruct (h_cc h); [|constructor]. constructor; [|constructor]. eapply X; [reflexivity|one_lit|discriminate|exact D].
    + constructor; [|constructor]. eapply X; [reflexivity|one_lit|discriminate|exact E].
Qed.

(** ** The tree *)
Section tree.
  Variables (e : gmime) (c : cctx) (o : sopts).
  Hypothesis B : so_body o = true.
  Definition plain_tree (t : otree) : Prop := Forall (fun x => fst x <> None /\ harmless_part e o (snd x)) (oflat t).
  Lemma plain_kids num n kids : plain_tree (OT num n kids) -> num <> None /\ harmless_part e o n /\ Forall plain_tree kids.
  Proof.
    unfold plain_tree. cbn [oflat]. intros H. inversion_clear H as [|? ? [X1 X2] Y]. split; [exact X1|]. split; [exact X2|].
    apply Forall_forall. intros t I. apply Forall_forall. intros y J. rewrite Forall_forall in Y. apply Y. apply in_concat. exists (oflat t). split; [now apply in_map|exact J].
  Qed.
  Definition leafp (p : obj) := match p with OPart _ _ | OPkcs7 _ _ _ _ => true | _ => false end.
  Lemma type_eq p : (if match g_disposition e p with Some d => strcaseeq d (lit "attachment") | None => false end then lit "attachment" else lit "part") = part_type e p.
  Proof. unfold part_type. destruct (g_disposition e p) as [d|]; [|reflexivity]. now destruct (strcaseeq d (lit "attachment")). Qed.
  Lemma type_letters p : forallb letter (part_type e p) = true.
  Proof. unfold part_type. destruct (g_disposition e p) as [d|]; [destruct (strcaseeq d (lit "attachment"))|]; reflexivity. Qed.

  Lemma text_build body (P : pkcs7_is_not_text body) : forall f num n st, okay body n ->
    match build f c num n st with
    | Some (t, st') => plain_tree t -> text_part f e c o num n st = Some (render (part_item e o (denum t)), st') 
    | None => True
    end.
  Proof.
    induction f as [|f IH]; intros num n st K; [exact I|]. cbn [text_part build].
    destruct (n_part n) as [p|] eqn:Hp; [|exfalso; destruct K as (_ & K); now rewrite Hp in K].
    assert (G : forall todo i st, match build_children (build f c) c n i todo st with
      | Some (kids, st') => Forall plain_tree kids -> text_children (text_part f e c o) c n i todo st = Some (flat_map render (map (part_item e o) (map denum kids)), st')
      | None => True end).
    { induction todo as [|todo IHt]; intros i s; [intros _; reflexivity|]. cbn [text_children build_children]. destruct (mime_node_child c n i s) as [((nu, n'), s1)|] eqn:M; [|exact I].
      specialize (IH nu n' s1 ltac:(eapply child_okay; [exact P|exact (proj1 K)|exact M])). revert IH. destruct (build f c nu n' s1) as [(t, (m, fs))|]; [|exact (fun _ => I)]. intros IH.
      specialize (IHt (S i) (m, tl fs)). revert IHt. destruct (build_children (build f c) c n (S i) todo (m, tl fs)) as [(kids', s2)|]; [|exact (fun _ => I)]. intros IHt.
      intros F. inversion_clear F as [|? ? F1 F2]. rewrite (IH F1), (IHt F2). reflexivity. }
    specialize (G (length (n_children n)) 0 st). revert G. destruct (build_children _ _ _ _ _ _) as [(kids, s')|]; [|exact (fun _ => I)]. intros G.
    intros F. apply plain_kids in F as (N & H & F). specialize (G F). rewrite G. rewrite B. destruct num as [k|]; [|congruence].
    unfold harmless_part in H. rewrite Hp in H. destruct H as (_ & _ & _ & H).
    cbn [denum part_item]. rewrite Hp. cbn [render]. rewrite type_eq. unfold part_line, close_line. rewrite <- decz_nat. cbn [negb].
    assert (L : leafp p = true -> leaf_text o p = flat_map render (if has_text o p then text_lines (o_text (info_of p)) else [Line (lit "Non-text part: " ++ o_mime (info_of p))])).
    { intros Lp. unfold leaf_text. rewrite text_shown_has. destruct (has_text o p) eqn:T.
      - apply harmless_lines. destruct p; try discriminate Lp; exact (H eq_refl).
      - cbn [flat_map render]. rewrite app_nil_r, <- !app_assoc. reflexivity. }
    destruct p as [i0 tx|i0 k0 ch sg d|i0 sj b|i0 sm v d]; cbn [is_leaf].
    - rewrite L by reflexivity. rewrite flat_map_app. do 2 f_equal. rewrite ?app_nil_r. cbn [app]. rewrite <- ?app_assoc. cbn [app]. rewrite <- ?app_assoc. reflexivity.
    - do 2 f_equal. rewrite ?app_nil_r. cbn [app]. rewrite <- ?app_assoc. cbn [app]. rewrite <- ?app_assoc. reflexivity.
    - cbn [flat_map]. rewrite <- (header_render None). cbn [render]. do 2 f_equal. rewrite ?app_nil_r. cbn [app]. rewrite <- ?app_assoc. cbn [app]. rewrite <- ?app_assoc. cbn [app]. rewrite <- ?app_assoc. reflexivity.
    - rewrite L by reflexivity. rewrite flat_map_app. do 2 f_equal. rewrite ?app_nil_r. cbn [app]. rewrite <- ?app_assoc. cbn [app]. rewrite <- ?app_assoc. reflexivity.
  Qed.
  Lemma dec_one k : one_line (dec k).
  Proof. intros I. pose proof (dec_digits k) as D. rewrite forallb_forall in D. apply D in I. discriminate I. Qed.
  Lemma part_good body t : allt (well body) t -> plain_tree t -> goodi (part_item e o (denum t)).
  Proof.
    induction t as [num n kids IH] using otree_ind'. cbn [allt denum part_item]. intros ((K & L) & W) F. apply fold_forall in W. apply plain_kids in F as (N & H & F).
    destruct K as (KW & K). unfold harmless_part in H. destruct (n_part n) as [p|] eqn:Hp; [|contradiction]. destruct H as (H1 & H2 & H3 & H).
    assert (KS : Forall goodi (map (part_item e o) (map denum kids))).
    { rewrite map_map. apply Forall_forall. intros x I. apply in_map_iff in I as (t & <- & I). rewrite Forall_forall in IH, W, F. apply IH; auto. }
    rewrite type_eq. apply goodi_block.
    - apply type_letters.
    - apply one_app; [one_lit|]. apply one_app; [apply dec_one|]. apply one_app.
      { assert (Z : forall q, one_line_opt q -> one_line (match q with Some f => lit ", Filename: " ++ f | None => [] end)).
        { intros [q|] Hq; [apply one_app; [one_lit|exact Hq]|intros []]. }
        apply Z. destruct p; exact H1 || exact Logic.I. }
      apply one_app; [destruct (g_cid e p); [apply one_app; [one_lit|exact H2]|intros []]|]. apply one_app; [one_lit|exact H3].
    - assert (LF' : (has_text o p = true -> harmless (o_text (info_of p))) -> Forall goodi ((if has_text o p then text_lines (o_text (info_of p)) else [Line (lit "Non-text part: " ++ o_mime (info_of p))]) ++ map (part_item e o) (map denum kids))).
      { intros X. apply Forall_app. split; [|exact KS]. destruct (has_text o p); [now apply harmless_lines, X|]. constructor; [|constructor].
        apply (goodi_line "N"%char (lit "on-text part: ")); [one_lit|exact H3|discriminate]. }
      destruct p; auto. constructor; [now apply header_good|]. constructor; [|constructor]. apply goodi_block; [reflexivity|intros []|exact KS].
  Qed.
End tree.
