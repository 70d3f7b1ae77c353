From Verif Require Import Bytes Hex StrUtil StrUtilSpec.
Local Open Scope N_scope.

Lemma isspace_spec c : isspace c = true <-> is_space_byte c.
Proof.
  assert (H : forall c, Bool.eqb (isspace c) (existsb (N.eqb (code c)) [9; 10; 11; 12; 13; 32]) = true)
    by (apply byte_sweep; vm_compute; reflexivity).
  specialize (H c). apply Bool.eqb_prop in H. rewrite H. unfold is_space_byte.
  rewrite existsb_exists. split.
  - intros (x & Hx & E). apply N.eqb_eq in E. unfold code in E. now rewrite E.
  - intros Hx. exists (code c). split; [exact Hx|]. apply N.eqb_refl.
Qed.
Lemma forall_space ws : Forall is_space_byte ws <-> forallb isspace ws = true.
Proof.
  rewrite forallb_forall, Forall_forall. split; intros H x Hx; apply isspace_spec; auto.
Qed.
Lemma isspace_terminator c : isspace c = true -> is_unquoted_terminator c = true.
Proof.
  assert (H : forall c, implb (isspace c) (is_unquoted_terminator c) = true)
    by (apply byte_sweep; vm_compute; reflexivity).
  intros E. specialize (H c). now rewrite E in H.
Qed.
Lemma isspace_not_quote c : isspace c = true -> beq c """"%char = false.
Proof.
  assert (H : forall c, implb (isspace c) (negb (beq c """"%char)) = true)
    by (apply byte_sweep; vm_compute; reflexivity).
  intros E. specialize (H c). rewrite E in H. now apply negb_true_iff in H.
Qed.
Lemma terminator_spec c : is_unquoted_terminator c = false <-> 32 < N_of_ascii c /\ c <> ")"%char.
Proof.
  unfold is_unquoted_terminator, code. rewrite !orb_false_iff, beq_neq, N.eqb_neq, N.leb_gt.
  intuition lia.
Qed.

Lemma doubled_fun t : doubled t (double_quotes t).
Proof.
  induction t as [|c t IH]; cbn; [constructor|]. destruct (beq_spec c """"%char); subst; constructor; auto.
Qed.

Lemma skip_space_all ws : Forall is_space_byte ws -> skip_space ws = [].
Proof. intros H. apply dropwhile_forall. now apply forall_space. Qed.
Lemma skip_space_nil s : skip_space s = [] -> Forall is_space_byte s.
Proof.
  intros H. apply forall_space. rewrite <- (take_drop isspace s).
  unfold skip_space in H. rewrite H, app_nil_r. apply takewhile_all.
Qed.

Lemma unquote_ok t d rest out :
  doubled t d -> peek rest <> """"%char ->
  unquote_loop (d ++ """"%char :: rest) out = Some (out ++ t, skip_space rest).
Proof.
  intros Hd Hr. revert out. induction Hd as [|t d Hd IH|c t d Hc Hd IH]; intros out.
  - cbn [app unquote_loop]. rewrite beq_refl, app_nil_r.
    destruct rest as [|x r]; [reflexivity|]. cbn in Hr.
    now rewrite (proj2 (beq_neq x _) Hr).
  - cbn [app unquote_loop]. rewrite !beq_refl, IH. now rewrite <- app_assoc.
  - cbn [app unquote_loop]. rewrite (proj2 (beq_neq c _) Hc), IH. now rewrite <- app_assoc.
Qed.

Lemma unquote_inv pos : forall out o r, unquote_loop pos out = Some (o, r) ->
  exists t d rest, doubled t d /\ pos = d ++ """"%char :: rest /\ o = out ++ t /\ r = skip_space rest.
Proof.
  induction pos as [pos IH] using length_ind. intros out o r H.
  destruct pos as [|c pos]; cbn [unquote_loop] in H; [congruence|].
  destruct (beq_spec c """"%char) as [->|Hc].
  - destruct pos as [|x pos].
    + injection H as <- <-. exists [], [], []. repeat split; [constructor|now rewrite app_nil_r].
    + destruct (beq_spec x """"%char) as [->|Hx].
      * apply IH in H as (t & d & rest & Hd & -> & -> & ->); [|cbn; lia].
        exists (""""%char :: t), (""""%char :: """"%char :: d), rest.
        repeat split; [constructor; auto|now rewrite <- app_assoc].
      * injection H as <- <-. exists [], [], (x :: pos). repeat split; [constructor|now rewrite app_nil_r].
  - apply IH in H as (t & d & rest & Hd & -> & -> & ->); [|cbn; lia].
    exists (c :: t), (c :: d), rest. repeat split; [constructor; auto|now rewrite <- app_assoc].
Qed.

Lemma mem_split_first c s : mem c s = true ->
  exists a b, span (fun x => negb (beq x c)) s = (a, c :: b) /\ s = a ++ c :: b /\ ~ In c a.
Proof.
  induction s as [|x s IH]; cbn; [congruence|].
  rewrite beq_sym. destruct (beq_spec x c) as [->|Hx]; cbn [negb orb].
  - intros _. exists [], s. auto.
  - intros H. destruct (IH H) as (a & b & E & -> & Hn). rewrite E.
    exists (x :: a), b. cbn. intuition congruence.
Qed.
Lemma span_first c a b : ~ In c a -> span (fun x => negb (beq x c)) (a ++ c :: b) = (a, c :: b).
Proof.
  induction a as [|x a IH]; cbn; intros H.
  - now rewrite beq_refl.
  - rewrite (proj2 (beq_neq x c)) by (intros E; apply H; left; exact E).
    cbn. now rewrite IH by tauto.
Qed.

Lemma parse_boolean_term_complete s p t :
  boolean_term_text s p t -> parse_boolean_term s = Some (p, t).
Proof.
  intros (ws1 & ws2 & body & -> & H1 & H2 & Hp & Hc & Hs & Hb).
  assert (E0 : skip_space (ws1 ++ p ++ ":"%char :: body ++ ws2) = p ++ ":"%char :: body ++ ws2).
  { unfold skip_space. apply dropwhile_app_stop; [now apply forall_space|].
    left. destruct p as [|c p]; [congruence|]. cbn [app peek].
    specialize (Hs c p eq_refl). rewrite <- isspace_spec in Hs. now destruct (isspace c). }
  unfold parse_boolean_term. cbv zeta. rewrite E0. clear E0.
  rewrite (proj2 (mem_In ":"%char (p ++ ":"%char :: body ++ ws2))) by (apply in_app_iff; right; left; reflexivity).
  rewrite span_first by exact Hc. destruct p as [|c p]; [congruence|]. cbn [tl].
  destruct Hb as [t d Hd|t Ht Hq].
  - cbn [app peek]. rewrite beq_refl. cbn [tl].
    rewrite <- app_assoc. cbn [app]. rewrite (unquote_ok t d ws2 [] Hd).
    + rewrite (skip_space_all ws2 H2). reflexivity.
    + destruct ws2 as [|x ws2]; cbn; [discriminate|]. apply beq_neq, isspace_not_quote.
      inversion H2; subst. now apply isspace_spec.
  - assert (Hnt : forallb (fun x => negb (is_unquoted_terminator x)) t = true).
    { apply forallb_forall. intros x Hx. apply negb_true_iff, terminator_spec. auto. }
    assert (Hstop : negb (is_unquoted_terminator (peek ws2)) = false \/ ws2 = []).
    { destruct ws2 as [|x ws2]; [auto|]. left. cbn. inversion H2; subst.
      apply isspace_spec in H3. now rewrite (isspace_terminator _ H3). }
    assert (Hq' : beq (peek (t ++ ws2)) """"%char = false).
    { destruct t as [|x t]; cbn [app peek].
      - destruct ws2 as [|x ws2]; [reflexivity|]. cbn. inversion H2; subst.
        apply isspace_not_quote. now apply isspace_spec.
      - apply beq_neq. intros ->. now apply (Hq t). }
    rewrite Hq', span_eq, (takewhile_app_stop _ _ _ Hnt Hstop), (dropwhile_app_stop _ _ _ Hnt Hstop).
    now rewrite (skip_space_all ws2 H2).
Qed.

Lemma parse_boolean_term_sound s p t :
  parse_boolean_term s = Some (p, t) -> boolean_term_text s p t.
Proof.
  unfold parse_boolean_term. cbv zeta. intros H. unfold skip_space in H at 1 2.
  destruct (mem ":"%char (dropwhile isspace s)) eqn:Em; [|congruence].
  apply mem_split_first in Em as (a & b & E & Hs & Hn). rewrite E in H.
  destruct a as [|c a]; [congruence|]. cbn [tl] in H.
  assert (Hhead : isspace c = false).
  { pose proof (dropwhile_head isspace s) as Hh. rewrite Hs in Hh. exact Hh. }
  assert (Hcommon : forall body ws2, b = body ++ ws2 -> Forall is_space_byte ws2 ->
            term_text body t -> c :: a = p -> boolean_term_text s p t).
  { intros body ws2 -> Hw Ht <-. exists (takewhile isspace s), ws2, body.
    split; [rewrite <- (take_drop isspace s) at 1; rewrite Hs; reflexivity|].
    split; [apply forall_space, takewhile_all|]. split; [exact Hw|].
    split; [congruence|]. split; [exact Hn|]. split; [|exact Ht].
    intros x r [= -> ->] Hx. apply isspace_spec in Hx. congruence. }
  destruct (beq (peek b) """"%char) eqn:Eq.
  - destruct b as [|q b]; [cbn in Eq; congruence|]. cbn [peek tl] in *. apply beq_eq in Eq. subst q.
    destruct (unquote_loop b []) as [[o r]|] eqn:Eu; [|congruence].
    destruct r; [|congruence]. injection H as <- <-.
    apply unquote_inv in Eu as (t' & d & rest & Hd & -> & -> & Hr). cbn [app] in *.
    apply (Hcommon (""""%char :: d ++ [""""%char]) rest).
    + cbn. now rewrite <- app_assoc.
    + now apply skip_space_nil.
    + now constructor.
    + reflexivity.
  - rewrite span_eq in H.
    set (f := fun x => negb (is_unquoted_terminator x)) in *.
    destruct (skip_space (dropwhile f b)) eqn:Er; [|congruence].
    assert (Ht : takewhile f b = t) by congruence. assert (Hp : c :: a = p) by congruence. clear H.
    apply (Hcommon t (dropwhile f b)); auto.
    + now rewrite <- Ht, take_drop.
    + now apply skip_space_nil.
    + apply tt_bare.
      * intros x Hx. apply terminator_spec. rewrite <- Ht in Hx.
        apply (forallb_In _ _ _ (takewhile_all f b)) in Hx. now apply negb_true_iff in Hx.
      * intros r ->. destruct b as [|y b]; cbn in Ht; [congruence|].
        destruct (f y); [|congruence]. injection Ht as -> _. cbn in Eq. congruence.
Qed.

Lemma parse_boolean_term_iff s p t :
  parse_boolean_term s = Some (p, t) <-> boolean_term_text s p t.
Proof. split; [apply parse_boolean_term_sound|apply parse_boolean_term_complete]. Qed.

Lemma existsb_false_forall {A} (f : A -> bool) l : existsb f l = false -> forall x, In x l -> f x = false.
Proof.
  intros H x Hx. destruct (f x) eqn:E; [|reflexivity].
  assert (existsb f l = true) by (apply existsb_exists; eauto). congruence.
Qed.

Lemma make_term_text term :
  term_text (if need_quoting term then """"%char :: double_quotes term ++ [""""%char] else term) term.
Proof.
  destruct (need_quoting term) eqn:E.
  - constructor. apply doubled_fun.
  - destruct term as [|c term]; [cbn in E; congruence|]. cbn [need_quoting] in E.
    apply tt_bare.
    + intros x Hx. apply (existsb_false_forall _ _ E) in Hx.
      unfold term_char_needs_quoting in Hx. rewrite !orb_false_iff in Hx.
      apply terminator_spec. tauto.
    + intros r [= -> ->]. cbn in E. congruence.
Qed.

Lemma make_parse_roundtrip p t :
  p <> [] -> ~ In ":"%char p -> isspace (hd NUL p) = false ->
  parse_boolean_term (make_boolean_term (Some p) t) = Some (p, t).
Proof.
  intros Hp Hc Hs. apply parse_boolean_term_complete. unfold make_boolean_term.
  exists [], [], (if need_quoting t then """"%char :: double_quotes t ++ [""""%char] else t).
  split; [cbn [app]; now rewrite app_nil_r, <- app_assoc|].
  repeat (split; [auto; fail|]). split; [|apply make_term_text].
  intros c r -> Hx. apply isspace_spec in Hx. cbn in Hs. congruence.
Qed.

(** Same with blanks around (as when the term is the whole query of a batch line). *)
Lemma make_parse_roundtrip_ws p t ws1 ws2 :
  p <> [] -> ~ In ":"%char p -> isspace (hd NUL p) = false ->
  Forall is_space_byte ws1 -> Forall is_space_byte ws2 ->
  parse_boolean_term (ws1 ++ make_boolean_term (Some p) t ++ ws2) = Some (p, t).
Proof.
  intros Hp Hc Hs H1 H2. apply parse_boolean_term_complete. unfold make_boolean_term.
  exists ws1, ws2, (if need_quoting t then """"%char :: double_quotes t ++ [""""%char] else t).
  split; [now rewrite <- !app_assoc|].
  repeat (split; [auto; fail|]). split; [|apply make_term_text].
  intros c r -> Hx. apply isspace_spec in Hx. cbn in Hs. congruence.
Qed.

(** Buffer. *)
Lemma needed_fold t n :
  fold_left (fun n c => n + (if beq c """"%char then 2 else 1))%nat t n
  = (n + length (double_quotes t))%nat.
Proof.
  revert n; induction t as [|c t IH]; intros n; cbn [fold_left double_quotes length]; [lia|].
  rewrite IH. destruct (beq c """"%char); cbn [length]; lia.
Qed.
Lemma make_needed_exact p t :
  make_boolean_term_needed p t = S (length (make_boolean_term p t)).
Proof.
  unfold make_boolean_term_needed, make_boolean_term.
  destruct (need_quoting t); [rewrite needed_fold|]; destruct p; len.
Qed.
Lemma make_fits p t buf :
  (length (make_boolean_term p t) < make_boolean_term_bufsize p t buf)%nat.
Proof.
  unfold make_boolean_term_bufsize. rewrite make_needed_exact.
  destruct buf as [n|]; [|lia].
  destruct (Nat.ltb_spec n (S (length (make_boolean_term p t)))); lia.
Qed.

(** The de-quoting buffer ([talloc_array (ctx, char, strlen (pos))]). *)
Lemma doubled_length t d : doubled t d -> (length t <= length d)%nat.
Proof. induction 1; cbn; lia. Qed.
Lemma unquote_fits pos o r :
  unquote_loop pos [] = Some (o, r) -> (length o < length (""""%char :: pos))%nat.
Proof.
  intros H. apply unquote_inv in H as (t & d & rest & Hd & -> & -> & ->).
  apply doubled_length in Hd. len.
Qed.

(** sanitize_string *)
Lemma sanitize_byte_spec c :
  32 <= code (sanitize_byte c) /\ (32 <= code c -> sanitize_byte c = c).
Proof.
  assert (H : forall c, (32 <=? code (sanitize_byte c)) && implb (32 <=? code c) (beq (sanitize_byte c) c) = true)
    by (apply byte_sweep; vm_compute; reflexivity).
  specialize (H c). apply andb_true_iff in H as [H1 H2]. apply N.leb_le in H1. split; [exact H1|].
  intros H. apply N.leb_le in H. rewrite H in H2. now apply beq_eq.
Qed.
Lemma sanitize_spec s :
  length (sanitize_string s) = length s /\
  Forall (fun c => 32 <= code c) (sanitize_string s) /\
  (forall i c, nth_error s i = Some c -> 32 <= code c -> nth_error (sanitize_string s) i = Some c) /\
  (forall i c, nth_error s i = Some c -> c = chr 9 \/ c = chr 10 -> nth_error (sanitize_string s) i = Some " "%char).
Proof.
  unfold sanitize_string. split; [apply map_length|]. split.
  - apply Forall_forall. intros c Hc. apply in_map_iff in Hc as (x & <- & _). apply sanitize_byte_spec.
  - split; intros i c Hi Hc; rewrite nth_error_map, Hi; cbn; f_equal.
    + now apply sanitize_byte_spec.
    + destruct Hc as [->| ->]; reflexivity.
Qed.

(** strip_trailing *)
Lemma strip_trailing_spec s ch : exists n,
  s = strip_trailing s ch ++ repeat ch n /\ (forall r, strip_trailing s ch <> r ++ [ch]).
Proof.
  induction s as [|c s (n & E & Hn)].
  - exists O. split; [reflexivity|]. intros r H. now destruct r.
  - cbn [strip_trailing]. destruct (strip_trailing s ch) as [|x r] eqn:Es.
    + destruct (beq_spec c ch) as [->|Hc].
      * exists (S n). cbn in *. split; [congruence|]. intros r H. now destruct r.
      * exists n. cbn in *. split; [congruence|]. intros r H. destruct r as [|y [|z r]]; cbn in H; congruence.
    + exists n. cbn in *. split; [congruence|]. intros r' H. destruct r' as [|y r']; cbn in H.
      * congruence.
      * injection H as _ H. now apply (Hn r').
Qed.

(** Config values *)
Fixpoint take_item (prev : bool) (s : bytes) : bytes * bytes :=
  match s with
  | [] => ([], [])
  | c :: s' => if Ascii.eqb c ";"%char && negb prev then ([], s)
               else let '(a, b) := take_item (Ascii.eqb c "\"%char) s' in (c :: a, b)
  end.

Definition after_item (rest : bytes) : list bytes :=
  match rest with [] => [] | _ :: r => split_items false [] r end.

Lemma split_items_take prev cur s :
  split_items prev cur s = (cur ++ fst (take_item prev s)) :: after_item (snd (take_item prev s)).
Proof.
  revert prev cur; induction s as [|c s IH]; intros prev cur; cbn [split_items take_item].
  - cbn. now rewrite app_nil_r.
  - destruct (Ascii.eqb c ";"%char && negb prev) eqn:E.
    + cbn. now rewrite app_nil_r.
    + rewrite IH. destruct (take_item (Ascii.eqb c "\"%char) s) as [a b]; cbn. now rewrite <- app_assoc.
Qed.

Lemma take_item_rest prev s : snd (take_item prev s) = [] \/ exists r, snd (take_item prev s) = ";"%char :: r.
Proof.
  revert prev; induction s as [|c s IH]; intros prev; cbn; auto.
  destruct (Ascii.eqb c ";"%char && negb prev) eqn:E.
  - right. exists s. cbn. apply andb_true_iff in E as [E _]. apply Ascii.eqb_eq in E. now subst.
  - specialize (IH (Ascii.eqb c "\"%char)). destruct (take_item (Ascii.eqb c "\"%char) s). exact IH.
Qed.
Lemma take_item_app prev s : fst (take_item prev s) ++ snd (take_item prev s) = s.
Proof.
  revert prev; induction s as [|c s IH]; intros prev; cbn; auto.
  destruct (Ascii.eqb c ";"%char && negb prev) eqn:E; auto.
  specialize (IH (Ascii.eqb c "\"%char)). destruct (take_item (Ascii.eqb c "\"%char) s). cbn in *. now f_equal.
Qed.

Lemma config_list_take s :
  config_list s = filter nonempty (trim (fst (take_item false s)) :: map trim (after_item (snd (take_item false s)))).
Proof. unfold config_list. now rewrite split_items_take. Qed.

Lemma isspace_not_backslash c : isspace c = true -> Ascii.eqb c "\"%char = false.
Proof.
  assert (H : forall c, implb (isspace c) (negb (Ascii.eqb c "\"%char)) = true)
    by (apply byte_sweep; vm_compute; reflexivity).
  intros E. specialize (H c). rewrite E in H. now apply negb_true_iff in H.
Qed.
Lemma isspace_not_semi c : isspace c = true -> Ascii.eqb c ";"%char = false.
Proof.
  assert (H : forall c, implb (isspace c) (negb (Ascii.eqb c ";"%char)) = true)
    by (apply byte_sweep; vm_compute; reflexivity).
  intros E. specialize (H c). rewrite E in H. now apply negb_true_iff in H.
Qed.

Lemma config_list_space c s : isspace c = true -> config_list (c :: s) = config_list s.
Proof.
  intros H. rewrite !config_list_take. cbn [take_item].
  rewrite (isspace_not_semi c H). cbn [andb]. rewrite (isspace_not_backslash c H).
  destruct (take_item false s) as [a b]. cbn [fst snd].
  unfold trim at 1 3, trim_left at 2 4. cbn [dropwhile]. now rewrite H.
Qed.
Lemma config_list_semi s : config_list (";"%char :: s) = config_list s.
Proof. reflexivity. Qed.
Lemma config_list_skip s :
  config_list (dropwhile (fun c => beq c ";"%char || isspace c) s) = config_list s.
Proof.
  induction s as [|c s IH]; [reflexivity|]. cbn [dropwhile].
  destruct (beq_spec c ";"%char) as [->|Hc]; cbn [orb].
  - now rewrite config_list_semi.
  - destruct (isspace c) eqn:E; [|reflexivity]. now rewrite IH, config_list_space.
Qed.
Lemma config_list_spaces ws s : forallb isspace ws = true -> config_list (ws ++ s) = config_list s.
Proof.
  induction ws as [|c ws IH]; cbn [app forallb]; [auto|]. rewrite andb_true_iff. intros [Hc H].
  rewrite config_list_space by exact Hc. auto.
Qed.
Lemma config_list_rest prev s :
  config_list (snd (take_item prev s)) = filter nonempty (map trim (after_item (snd (take_item prev s)))).
Proof.
  destruct (take_item_rest prev s) as [->|[r ->]]; [reflexivity|]. rewrite config_list_semi. reflexivity.
Qed.

Lemma scan_spec s : forall esc pre a x ws,
  pre = a ++ x :: ws -> isspace x = false -> forallb isspace ws = true ->
  exists a' x' ws',
    strsplit_scan ";"%char s esc (length pre) (length a) =
      (length (pre ++ fst (take_item esc s)), length a') /\
    pre ++ fst (take_item esc s) = a' ++ x' :: ws' /\ isspace x' = false /\ forallb isspace ws' = true.
Proof.
  induction s as [|c s IH]; intros esc pre a x ws Hpre Hx Hws; cbn [strsplit_scan take_item].
  - exists a, x, ws. cbn [fst]. rewrite app_nil_r. auto.
  - unfold beq. destruct (Ascii.eqb c ";"%char) eqn:Ec; destruct esc; cbn [negb orb andb].
    3,4: idtac.
    2:{ exists a, x, ws. cbn [fst]. rewrite app_nil_r. auto. }
    all: destruct (take_item (Ascii.eqb c "\"%char) s) as [i r] eqn:Et; cbn [fst];
      replace (pre ++ c :: i) with ((pre ++ [c]) ++ i) by (now rewrite <- app_assoc);
      destruct (isspace c) eqn:Es;
      [ destruct (IH (Ascii.eqb c "\"%char) (pre ++ [c]) a x (ws ++ [c])) as (a' & x' & ws' & E1 & E2 & E3 & E4);
        [ rewrite Hpre, <- app_assoc; reflexivity | exact Hx
        | rewrite forallb_app, Hws; cbn; now rewrite Es
        | exists a', x', ws'; rewrite Et in *; cbn [fst] in *;
          replace (S (length pre)) with (length (pre ++ [c])) by len; auto ]
      | destruct (IH (Ascii.eqb c "\"%char) (pre ++ [c]) pre c []) as (a' & x' & ws' & E1 & E2 & E3 & E4);
        [ reflexivity | exact Es | reflexivity
        | exists a', x', ws'; rewrite Et in *; cbn [fst] in *;
          replace (S (length pre)) with (length (pre ++ [c])) by len; auto ] ].
Qed.

Lemma trim_right_app a x ws : isspace (hd NUL (a ++ [x])) = false -> isspace x = false ->
  forallb isspace ws = true -> trim (a ++ x :: ws) = a ++ [x].
Proof.
  intros Hh Hx Hws. unfold trim.
  assert (E : trim_left (a ++ x :: ws) = a ++ x :: ws).
  { unfold trim_left. apply dropwhile_stop. left. destruct a; cbn in *; auto. }
  rewrite E. change (a ++ x :: ws) with (a ++ [x] ++ ws). rewrite app_assoc, rev_app_distr.
  unfold trim_left. rewrite dropwhile_app_stop.
  - now rewrite rev_involutive.
  - apply forallb_forall. intros y Hy. apply in_rev in Hy. now apply (forallb_In _ _ _ Hws).
  - left. rewrite rev_app_distr. cbn. exact Hx.
Qed.

Lemma strsplit_spec s :
  match strsplit_len ";"%char s with
  | None => config_list s = []
  | Some (t, r) => config_list s = t :: config_list r /\ (length r < length s)%nat
  end.
Proof.
  unfold strsplit_len. rewrite <- (config_list_skip s).
  set (s0 := dropwhile (fun c => beq c ";"%char || isspace c) s).
  pose proof (dropwhile_head (fun c => beq c ";"%char || isspace c) s) as Hh. fold s0 in Hh.
  pose proof (dropwhile_length (fun c => beq c ";"%char || isspace c) s) as Hl. fold s0 in Hl.
  destruct s0 as [|c s1] eqn:E0; [reflexivity|].
  apply orb_false_iff in Hh as [Hc Hsp]. cbn [strsplit_scan]. rewrite Hc, Hsp. cbn [orb negb].
  destruct (scan_spec s1 (beq c "\"%char) [c] [] c []) as (a & x & ws & E1 & E2 & E3 & E4); auto.
  cbn [length] in E1. rewrite E1.
  set (it := fst (take_item (beq c "\"%char) s1)) in *.
  set (rest := snd (take_item (beq c "\"%char) s1)).
  assert (Hs : c :: s1 = (a ++ [x]) ++ (ws ++ rest)).
  { rewrite app_assoc, <- (app_assoc a). cbn [app]. rewrite <- E2. cbn [app].
    unfold it, rest. now rewrite take_item_app. }
  replace (length ([c] ++ it)) with (S (length it)) by reflexivity. rewrite Hs at 2 3 4.
  replace (S (length a)) with (length (a ++ [x])) by len.
  rewrite firstn_app, firstn_all, Nat.sub_diag, skipn_app, skipn_all, Nat.sub_diag.
  cbn [firstn skipn app]. rewrite app_nil_r. split.
  - rewrite config_list_take. cbn [take_item]. unfold beq in *. rewrite Hc. cbn [andb].
    rewrite (surjective_pairing (take_item (Ascii.eqb c "\"%char) s1)). fold it rest.
    cbn [fst snd]. change (c :: it) with ([c] ++ it). rewrite E2.
    rewrite trim_right_app; auto.
    2:{ destruct a; cbn in E2 |- *; congruence. }
    cbn [filter]. assert (Hne : nonempty (a ++ [x]) = true) by (now destruct a). rewrite Hne.
    f_equal. rewrite config_list_spaces by exact E4. symmetry. apply config_list_rest.
  - assert (Hl2 : length (c :: s1) = length ((a ++ [x]) ++ ws ++ rest)) by (now rewrite Hs).
    rewrite !app_length in Hl2. cbn [length] in Hl2, Hl. rewrite !app_length. lia.
Qed.

Lemma config_values_loop_spec fuel s : (length s < fuel)%nat -> config_values_loop fuel s = config_list s.
Proof.
  revert s; induction fuel as [|fuel IH]; intros s H; [lia|]. cbn [config_values_loop].
  pose proof (strsplit_spec s) as Hs. destruct (strsplit_len ";"%char s) as [[t r]|].
  - destruct Hs as [-> Hr]. f_equal. apply IH. lia.
  - now symmetry.
Qed.
Lemma config_values_spec s : config_values s = config_list s.
Proof. apply config_values_loop_spec. lia. Qed.

(** Round trip of storable values. *)
Lemma take_item_value v r : ~ In ";"%char v -> last v NUL <> "\"%char -> forall prev,
  (v = [] -> prev = false) ->
  take_item prev (v ++ ";"%char :: r) = (v, ";"%char :: r).
Proof.
  induction v as [|c v IH]; intros Hn Hl prev Hp.
  - cbn. now rewrite Hp.
  - cbn [app take_item]. rewrite (proj2 (Ascii.eqb_neq c ";"%char)) by (intros E; apply Hn; left; exact E).
    cbn [andb]. rewrite IH; auto.
    + intros Hin. apply Hn. now right.
    + destruct v; [discriminate|exact Hl].
    + intros ->. cbn in Hl. now apply Ascii.eqb_neq.
Qed.
Lemma take_item_last v prev : ~ In ";"%char v -> take_item prev v = (v, []).
Proof.
  revert prev; induction v as [|c v IH]; intros prev Hn; [reflexivity|].
  cbn [take_item]. rewrite (proj2 (Ascii.eqb_neq c ";"%char)) by (intros E; apply Hn; left; exact E).
  cbn [andb]. rewrite IH; [reflexivity|]. intros Hin. apply Hn. now right.
Qed.
Lemma trim_storable v : storable_value v -> trim v = v.
Proof.
  intros (Hne & _ & Hh & Hl & _). destruct (exists_last Hne) as (a & x & ->).
  rewrite last_last in Hl. apply trim_right_app; auto.
Qed.
Lemma join_roundtrip vs : Forall storable_value vs -> config_values (join_semicolon vs) = vs.
Proof.
  rewrite config_values_spec. induction vs as [|v vs IH]; intros H; [reflexivity|].
  inversion H as [|? ? Hv Hvs]; subst. specialize (IH Hvs).
  pose proof (trim_storable v Hv) as Ht. destruct Hv as (Hne & Hn & _ & _ & Hb).
  destruct vs as [|w vs].
  - cbn [join_semicolon]. rewrite config_list_take, take_item_last by exact Hn.
    cbn [fst snd after_item map filter]. rewrite Ht. now destruct v.
  - set (rest := join_semicolon (w :: vs)) in *.
    change (join_semicolon (v :: w :: vs)) with (v ++ ";"%char :: rest).
    rewrite config_list_take, take_item_value; auto.
    cbn [fst snd after_item map filter]. rewrite Ht.
    destruct v as [|c v]; [congruence|]. cbn [nonempty]. f_equal. exact IH.
Qed.

(** Every ';' inside a value follows a backslash. *)
Definition semis_escaped (v : bytes) : Prop :=
  forall a b, v = a ++ ";"%char :: b -> exists a', a = a' ++ ["\"%char].
Lemma semis_snoc cur c : semis_escaped cur ->
  (c = ";"%char -> exists a', cur = a' ++ ["\"%char]) -> semis_escaped (cur ++ [c]).
Proof.
  intros H Hc a b E. destruct (rev b) as [|x rb] eqn:Eb.
  - assert (b = []) by (rewrite <- (rev_involutive b), Eb; reflexivity). subst b.
    apply app_inj_tail in E as [-> ->]. auto.
  - assert (Hb : b = rev rb ++ [x]) by (rewrite <- (rev_involutive b), Eb; reflexivity). subst b.
    rewrite app_comm_cons, app_assoc in E. apply app_inj_tail in E as [E _]. eauto.
Qed.
Lemma split_items_semis s : forall prev cur v,
  semis_escaped cur -> (prev = true -> exists a', cur = a' ++ ["\"%char]) ->
  In v (split_items prev cur s) -> semis_escaped v.
Proof.
  induction s as [|c s IH]; intros prev cur v Hc Hp Hin; cbn [split_items] in Hin.
  - destruct Hin as [<-|[]]. exact Hc.
  - destruct (Ascii.eqb c ";"%char && negb prev) eqn:E.
    + destruct Hin as [<-|Hin]; [exact Hc|]. apply (IH false [] v); auto; [|discriminate].
      intros a b Hab. now destruct a.
    + apply (IH _ _ v) in Hin; auto.
      * apply semis_snoc; [exact Hc|]. intros ->. apply Hp. cbn in E. now destruct prev.
      * intros Hb. apply Ascii.eqb_eq in Hb. subst c. now exists cur.
Qed.
Lemma dropwhile_split (f : byte -> bool) s : exists w, s = w ++ dropwhile f s /\ forallb f w = true.
Proof.
  induction s as [|c s (w & E & H)]; [now exists []|]. cbn [dropwhile].
  destruct (f c) eqn:Ec; [exists (c :: w); cbn; rewrite Ec; split; [congruence|exact H]|exists []; cbn; auto].
Qed.
Lemma trim_split s : exists w1 w2, s = w1 ++ trim s ++ w2 /\ forallb isspace w1 = true.
Proof.
  unfold trim, trim_left. destruct (dropwhile_split isspace s) as (w1 & E1 & H1).
  destruct (dropwhile_split isspace (rev (dropwhile isspace s))) as (w2 & E2 & H2).
  exists w1, (rev w2). split; [|exact H1].
  rewrite <- rev_app_distr, <- E2, rev_involutive. exact E1.
Qed.
Lemma config_values_semicolon s v : In v (config_values s) -> semis_escaped v.
Proof.
  rewrite config_values_spec. unfold config_list. intros H. apply filter_In in H as [H _].
  apply in_map_iff in H as (i & <- & H). apply split_items_semis in H; [| |discriminate].
  2:{ intros a b E. now destruct a. }
  destruct (trim_split i) as (w1 & w2 & E & Hw). intros a b Hab.
  rewrite Hab in E. rewrite <- app_assoc in E. cbn [app] in E. rewrite app_assoc in E.
  apply H in E as [a' E]. destruct (rev a) as [|x ra] eqn:Ea.
  - assert (a = []) by (rewrite <- (rev_involutive a), Ea; reflexivity). subst a.
    rewrite app_nil_r in E. subst w1. rewrite forallb_app in Hw. cbn in Hw.
    rewrite andb_false_r in Hw. discriminate.
  - assert (Ha : a = rev ra ++ [x]) by (rewrite <- (rev_involutive a), Ea; reflexivity). subst a.
    rewrite app_assoc in E. apply app_inj_tail in E as [_ ->]. eauto.
Qed.

Lemma make_bare_or_quoted p t :
  let head := match p with Some p => p ++ [":"%char] | None => [] end in
  (make_boolean_term p t = head ++ t /\ t <> [] /\
   (forall c, In c t -> 32 < N_of_ascii c <= 127 /\ c <> """"%char /\ c <> "("%char /\ c <> ")"%char)) \/
  (exists d, doubled t d /\ make_boolean_term p t = head ++ """"%char :: d ++ [""""%char]).
Proof.
  intros head. unfold make_boolean_term. fold head. destruct (need_quoting t) eqn:E.
  - right. exists (double_quotes t). split; [apply doubled_fun; reflexivity|reflexivity].
  - left. split; [reflexivity|]. destruct t as [|a t]; [discriminate|]. split; [discriminate|].
    intros c Hc. unfold need_quoting in E.
    assert (K : term_char_needs_quoting c = false).
    { destruct (term_char_needs_quoting c) eqn:K; [|reflexivity].
      rewrite <- E. symmetry. apply existsb_exists. eauto. }
    unfold term_char_needs_quoting, is_unquoted_terminator in K.
    rewrite !orb_false_iff in K. destruct K as [[[[[K0 K1] K2] K3] K4] K5].
    rewrite beq_neq in K2, K3, K4. apply N.leb_gt in K1. apply N.ltb_ge in K5. unfold code in *. auto.
Qed.
