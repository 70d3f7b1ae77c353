(** Lemmas for C91: the text of the stable queries and how it is read. *)
From Verif Require Import Bytes Terms DocMap Db StrUtil StrUtilProofs TagOps SearchCmd EmacsTag EmacsTagSpec EmacsSearch EmacsSearchSpec EmacsSearchProofs.
Local Open Scope nat_scope.

(** ** The texts *)
Definition idq (id : bytes) : bytes := make_boolean_term (Some (lit "id")) id.
Definition gtext (ids : list bytes) : bytes := mapconcat (lit " ") (map idq ids).
Definition joinq (ids : list bytes) : option bytes := match ids with [] => None | _ => Some (gtext ids) end.
Lemma mapconcat_cons sep x l : mapconcat sep (x :: l) = x ++ flat_map (fun y => sep ++ y) l.
Proof. revert x. induction l as [|y l IH]; intros x; [symmetry; apply app_nil_r|]. change (mapconcat sep (x :: y :: l)) with (x ++ sep ++ mapconcat sep (y :: l)). rewrite IH. cbn [flat_map]. now rewrite <- !app_assoc. Qed.
Lemma append_joinq ids id : append_query (joinq ids) id = joinq (ids ++ [id]).
Proof.
  unfold append_query. fold (idq id). destruct ids as [|a ids]; [reflexivity|]. cbn [joinq app]. f_equal. unfold gtext. cbn [map]. rewrite !mapconcat_cons, map_app, flat_map_app.
  cbn [map flat_map]. rewrite app_nil_r, <- app_assoc. reflexivity.
Qed.
Definition matched (t : thread) : list bytes := map fst (filter (fun p => snd p) t).
Definition others (t : thread) : list bytes := map fst (filter (fun p => negb (snd p)) t).
Lemma thread_query_text t : forall a b, get_thread_query t (joinq a) (joinq b) = (joinq (a ++ matched t), joinq (b ++ others t)).
Proof.
  induction t as [|[id [|]] t IH]; intros a b; cbn [get_thread_query].
  - unfold matched, others. cbn. now rewrite !app_nil_r.
  - rewrite append_joinq, IH. unfold matched at 2, others at 2. cbn [filter snd negb map fst]. now rewrite <- app_assoc.
  - rewrite append_joinq, IH. unfold matched at 2, others at 2. cbn [filter snd negb map fst]. now rewrite <- app_assoc.
Qed.
Definition nonempty (l : list bytes) : list (list bytes) := match l with [] => [] | _ => [l] end.
Definition gl (only : bool) (t : thread) : list (list bytes) := (if only then [] else nonempty (others t)) ++ nonempty (matched t).
Lemma push_text only l ts : shows l ts -> push_queries (negb only) (rev (map r_query l)) = map gtext (flat_map (gl only) ts).
Proof.
  intros H. unfold push_queries. rewrite <- fold_left_rev_right, rev_involutive. induction H as [|r t l ts E H IH]; [reflexivity|]. cbn [map fold_right flat_map]. rewrite IH, map_app.
  rewrite E. change (get_thread_query t None None) with (get_thread_query t (joinq []) (joinq [])). rewrite thread_query_text. cbn [fst snd app]. unfold gl. rewrite map_app. unfold joinq.
  destruct (matched t) as [|a m] eqn:Em, (others t) as [|b o] eqn:Eo, only; cbn [nonempty app map negb]; reflexivity.
Qed.
Lemma gl_ids only t id : In id (concat (gl only t)) <-> exists m, In (id, m) t /\ (only = true -> m = true).
Proof.
  assert (Nn : forall l, concat (nonempty l) = l) by (intros [|? l]; cbn; [reflexivity|now rewrite app_nil_r]).
  unfold gl. rewrite concat_app, Nn, in_app_iff.
  assert (M : In id (matched t) <-> In (id, true) t).
  { unfold matched. rewrite in_map_iff. split; [intros ((i & b) & <- & I); apply filter_In in I; destruct I as [I B]; cbn in *; now subst|intros I; exists (id, true); split; [reflexivity|]; now apply filter_In]. }
  assert (O : In id (others t) <-> In (id, false) t).
  { unfold others. rewrite in_map_iff. split; [intros ((i & b) & <- & I); apply filter_In in I; destruct I as [I B]; cbn in *; destruct b; [discriminate|exact I]|intros I; exists (id, false); split; [reflexivity|]; now apply filter_In]. }
  rewrite M. destruct only.
  - cbn [concat]. split; [intros [[]|H]; exists true; auto|]. intros ([|] & I & H); [now right|]. now specialize (H eq_refl).
  - rewrite Nn, O. split; [intros [H|H]; eexists; (split; [exact H|discriminate])|]. intros ([|] & I & _); auto.
Qed.

(** ** Reading them *)
Definition body (id : bytes) : bytes := if need_quoting id then QUOTE :: double_quotes id ++ [QUOTE] else id.
Lemma idq_body id : idq id = lit "id:" ++ body id. Proof. reflexivity. Qed.
Definition stop (r : bytes) : Prop := exists c r', r = c :: r' /\ (c = " "%char \/ c = ")"%char).
Lemma quoted_back id : forall r, stop r -> quoted (double_quotes id ++ QUOTE :: r) = Some (id, r).
Proof.
  induction id as [|c id IH]; intros r (x & r' & -> & Hx).
  - cbn [double_quotes app quoted]. replace (beq QUOTE QUOTE) with true by reflexivity. destruct Hx as [-> | ->]; reflexivity.
  - cbn [double_quotes]. fold QUOTE. destruct (beq c QUOTE) eqn:E.
    + apply beq_eq in E. subst c. cbn [app quoted]. replace (beq QUOTE QUOTE) with true by reflexivity. rewrite IH by (eexists _, _; eauto). reflexivity.
    + cbn [app quoted]. rewrite E, IH by (eexists _, _; eauto). reflexivity.
Qed.
Lemma plain_term id r : need_quoting id = false -> stop r -> exists c t, id = c :: t /\ beq c QUOTE = false /\
  span (fun c => (32 <? N_of_ascii c)%N && negb (beq c ")"%char)) (id ++ r) = (id, r).
Proof.
  destruct id as [|c t]; [discriminate|]. unfold need_quoting. intros H St. exists c, t. split; [reflexivity|].
  assert (P : forall x, In x (c :: t) -> (32 <? N_of_ascii x)%N && negb (beq x ")"%char) = true /\ beq x QUOTE = false).
  { intros x I. assert (N : term_char_needs_quoting x = false).
    { destruct (term_char_needs_quoting x) eqn:E; [|reflexivity]. rewrite <- H. symmetry. apply existsb_exists. eauto. }
    unfold term_char_needs_quoting, is_unquoted_terminator in N. fold QUOTE in N. rewrite !orb_false_iff in N. destruct N as ((((( _ & N1) & N2) & N3) & _) & _).
    rewrite N2, N3. unfold code in N1. apply N.leb_gt in N1. split; [|reflexivity]. rewrite andb_true_r. now apply N.ltb_lt. }
  split; [apply P; now left|]. clear H. induction (c :: t) as [|x l IH].
  - destruct St as (y & r' & -> & [-> | ->]); reflexivity.
  - cbn [app span]. destruct (P x (or_introl eq_refl)) as [-> _]. rewrite IH; [reflexivity|]. intros y I. apply P. now right.
Qed.
Lemma term_back id r : stop r -> term (body id ++ r) = Some (id, r).
Proof.
  intros St. unfold body. destruct (need_quoting id) eqn:Q.
  - cbn [app term]. replace (beq QUOTE QUOTE) with true by reflexivity. rewrite <- app_assoc. cbn [app]. now apply quoted_back.
  - destruct (plain_term id r Q St) as (c & t & -> & E & Sp). cbn [app] in *. unfold term. rewrite E, Sp. reflexivity.
Qed.
Lemma blanks_id s : blanks (lit "id:" ++ s) = lit "id:" ++ s. Proof. reflexivity. Qed.
Lemma group_back ids : forall fuel b r, length ids < fuel ->
  (b = [] \/ b = lit " ") -> group fuel ((match ids with [] => [] | _ => b ++ gtext ids end) ++ lit ")" ++ r) = Some (ids, r).
Proof.
  induction ids as [|id ids IH]; intros [|fuel] b r L Hb; try (cbn in L; lia); [reflexivity|]. cbn [group].
  assert (T : gtext (id :: ids) = idq id ++ match ids with [] => [] | _ => lit " " ++ gtext ids end).
  { unfold gtext. cbn [map]. rewrite mapconcat_cons. destruct ids as [|a ids]; [reflexivity|]. cbn [map]. rewrite mapconcat_cons. cbn [flat_map]. now rewrite <- app_assoc. }
  rewrite T, idq_body.
  assert (B : blanks ((b ++ (lit "id:" ++ body id) ++ match ids with [] => [] | _ => lit " " ++ gtext ids end) ++ lit ")" ++ r) =
              lit "id:" ++ body id ++ (match ids with [] => [] | _ => lit " " ++ gtext ids end) ++ lit ")" ++ r).
  { rewrite <- !app_assoc. destruct Hb as [-> | ->]; reflexivity. }
  rewrite B. rewrite strip_prefix_app.
  replace (strip_prefix (lit ")") (lit "id:" ++ body id ++ (match ids with [] => [] | _ => lit " " ++ gtext ids end) ++ lit ")" ++ r)) with (@None bytes) by reflexivity.
  rewrite term_back.
  - rewrite (IH fuel (lit " ") r); [reflexivity|cbn in L; lia|now right].
  - destruct ids; [exists ")"%char, r; auto|]. eexists " "%char, _. split; [reflexivity|now left].
Qed.
Lemma group_back0 ids fuel r : length ids < fuel -> group fuel (gtext ids ++ lit ")" ++ r) = Some (ids, r).
Proof. intros L. rewrite <- (group_back ids fuel [] r L (or_introl eq_refl)). destruct ids; reflexivity. Qed.

Definition whole (gs : list (list bytes)) : bytes := lit "(" ++ mapconcat (lit ") or (") (map gtext gs) ++ lit ")".
Lemma whole_cons g gs : whole (g :: gs) = lit "(" ++ gtext g ++ lit ")" ++ match gs with [] => [] | _ => lit " or " ++ whole gs end.
Proof.
  unfold whole. cbn [map]. rewrite mapconcat_cons. destruct gs as [|h gs]; [cbn [map flat_map]; now rewrite !app_nil_r|].
  cbn [map]. rewrite mapconcat_cons. cbn [flat_map]. rewrite <- !app_assoc. reflexivity.
Qed.
Lemma groups_back gs : forall fuel, gs <> [] -> length (concat gs) + length gs < fuel -> groups fuel (whole gs) = Some (concat gs).
Proof.
  induction gs as [|g gs IH]; intros [|fuel] N L; try (cbn in L; lia); [now elim N|]. cbn [groups].
  rewrite whole_cons. set (rest := match gs with [] => [] | _ => lit " or " ++ whole gs end).
  change (blanks (lit "(" ++ gtext g ++ lit ")" ++ rest)) with (lit "(" ++ gtext g ++ lit ")" ++ rest). rewrite strip_prefix_app.
  cbn [concat length] in L. rewrite app_length in L. rewrite group_back0 by lia. destruct gs as [|h gs].
  - cbn [rest blanks dropwhile concat]. now rewrite app_nil_r.
  - unfold rest. replace (blanks (lit " or " ++ whole (h :: gs))) with (lit "or " ++ whole (h :: gs)) by reflexivity.
    change (match lit "or " ++ whole (h :: gs) with [] => Some g | _ :: _ => match strip_prefix (lit "or ") (lit "or " ++ whole (h :: gs)) with Some r => option_map (fun l' => g ++ l') (groups fuel r) | None => None end end = Some (concat (g :: h :: gs))).
    rewrite strip_prefix_app. rewrite IH; [reflexivity|discriminate|lia].
Qed.
Lemma gtext_length ids : length ids <= length (gtext ids).
Proof.
  unfold gtext. destruct ids as [|i ids]; [cbn; lia|]. cbn [map]. rewrite mapconcat_cons, app_length. assert (X : 1 <= length (idq i)) by (rewrite idq_body, app_length; cbn; lia).
  assert (Y : length ids <= length (flat_map (fun y => lit " " ++ y) (map idq ids))); [|cbn [length]; lia].
  clear. induction ids as [|a ids IH]; cbn [map flat_map length]; [lia|]. rewrite !app_length. assert (Z : length (lit " ") = 1) by reflexivity. lia.
Qed.
Lemma whole_length gs : length (concat gs) + length gs <= length (whole gs).
Proof.
  induction gs as [|g gs IH]; [cbn; lia|]. rewrite whole_cons, !app_length. cbn [concat length]. rewrite app_length. pose proof (gtext_length g).
  assert (X : length (match gs with [] => [] | _ => lit " or " ++ whole gs end) >= length (concat gs) + length gs).
  { destruct gs; [cbn; lia|]. rewrite app_length. lia. }
  cbn [length lit] in *. assert (Y : length (lit "(") = 1) by reflexivity. assert (Z : length (lit ")") = 1) by reflexivity. lia.
Qed.
Lemma disjunction_whole gs : gs <> [] -> disjunction (whole gs) = Some (concat gs).
Proof. intros N. apply groups_back; [exact N|]. pose proof (whole_length gs). lia. Qed.

Definition fine (c : byte) : Prop := c <> ascii_of_N 10 /\ c <> ascii_of_N 0.
Lemma lit_fine s : forallb (fun c => negb (beq c (ascii_of_N 10)) && negb (beq c (ascii_of_N 0))) (lit s) = true -> forall c, In c (lit s) -> fine c.
Proof. intros F c I. rewrite forallb_forall in F. apply F, andb_true_iff in I. destruct I as [A B]. split; intros ->; discriminate. Qed.
Lemma idq_fine id c : (forall x, In x id -> fine x) -> In c (idq id) -> fine c.
Proof.
  intros H. rewrite idq_body. rewrite in_app_iff. intros [I|I]; [revert I; apply lit_fine; reflexivity|]. unfold body in I. destruct (need_quoting id); [|now apply H].
  assert (Fq : fine QUOTE) by (split; discriminate). destruct I as [<- |I]; [exact Fq|]. apply in_app_or in I. destruct I as [I|[<- |[]]]; [|exact Fq].
  assert (X : In c id \/ c = QUOTE); [|destruct X as [X| ->]; [now apply H|exact Fq]]. clear H. induction id as [|x id IH]; [destruct I|]. cbn [double_quotes] in I. fold QUOTE in I.
  destruct (beq x QUOTE); cbn [In] in I; [destruct I as [<- |[<- |I]]|destruct I as [<- |I]]; try (now right); try (left; now left); destruct (IH I); auto; left; now right.
Qed.
Lemma mapconcat_in sep l c : In c (mapconcat sep l) -> In c sep \/ exists x, In x l /\ In c x.
Proof.
  destruct l as [|x l]; [intros []|]. rewrite mapconcat_cons, in_app_iff, in_flat_map. intros [I|(y & I & J)]; [right; exists x; split; [now left|exact I]|].
  apply in_app_or in J. destruct J as [J|J]; [now left|]. right. exists y. split; [now right|exact J].
Qed.
Lemma whole_fine gs : (forall id, In id (concat gs) -> forall c, In c id -> fine c) -> forall c, In c (whole gs) -> fine c.
Proof.
  intros H c. unfold whole. rewrite !in_app_iff. intros [I|[I|I]]; [revert I; now apply lit_fine| |revert I; now apply lit_fine].
  apply mapconcat_in in I. destruct I as [I|(x & I & J)]; [revert I; now apply lit_fine|]. apply in_map_iff in I. destruct I as (g & <- & I).
  apply mapconcat_in in J. destruct J as [J|(y & J & K)]; [revert J; now apply lit_fine|]. apply in_map_iff in J. destruct J as (id & <- & J).
  apply (idq_fine id c); [|exact K]. apply H. apply in_concat. eauto.
Qed.
Lemma whole_line gs : (forall id, In id (concat gs) -> forall c, In c id -> fine c) -> line_query (whole gs) (whole gs).
Proof.
  intros H. split; [exact (whole_fine gs H)|]. exists [], "("%char, (mapconcat (lit ") or (") (map gtext gs) ++ lit ")"). split; [reflexivity|]. split; [intros x []|]. split; [reflexivity|discriminate].
Qed.

(** ** The query of a region *)
Lemma forall2_len {A B} {R : A -> B -> Prop} {l l'} : Forall2 R l l' -> length l = length l'.
Proof. induction 1; cbn; congruence. Qed.
Lemma stable_query_text draw l rest ts beg end_ only : 1 <= beg -> shows l ts ->
  exists tpre tmid tpost, ts = tpre ++ tmid ++ tpost /\
    (forall i, meets draw l beg end_ i <-> length tpre <= i < length tpre + length tmid) /\
    stable_query draw {| v_lines := l; v_rest := rest |} beg end_ only =
      match flat_map (gl only) tmid with [] => None | gs => Some (whole gs) end.
Proof.
  intros Hb Sh. destruct (visited draw l beg end_ Hb) as (pre & mid & post & El & M & V).
  subst l. apply Forall2_app_inv_l in Sh. destruct Sh as (tpre & ts' & S1 & Sh & ->). apply Forall2_app_inv_l in Sh. destruct Sh as (tmid & tpost & S2 & S3 & ->).
  exists tpre, tmid, tpost. split; [reflexivity|]. 
  assert (A1 : @length thread tpre = length pre) by (symmetry; exact (forall2_len S1)). assert (A2 : @length thread tmid = length mid) by (symmetry; exact (forall2_len S2)).
  split; [intros i; rewrite (M i); rewrite A1, A2; reflexivity|].
  unfold stable_query. assert (Q : queries_in_region draw {| v_lines := pre ++ mid ++ post; v_rest := rest |} beg end_ = rev (map r_query mid)).
  { unfold queries_in_region, foreach_result, result_beginning. cbn [v_lines]. fold (collector draw). destruct (option_map _ _) as [p|].
    - destruct V as (-> & E & _). rewrite (collect_loop draw (mid ++ post)) by (rewrite !app_length; lia). cbn [snd next_taken]. rewrite <- E. apply app_nil_r.
    - rewrite V. reflexivity. }
  rewrite Q, (push_text only mid tmid S2). destruct (flat_map (gl only) tmid) as [|g gs]; reflexivity.
Qed.
Lemma retag_text draw changes l rest beg end_ : 1 <= beg ->
  exists pre mid post, l = pre ++ mid ++ post /\ (forall i, meets draw l beg end_ i <-> length pre <= i < length pre + length mid) /\
    retag draw changes {| v_lines := l; v_rest := rest |} beg end_ = {| v_lines := pre ++ map (new_tags changes) mid ++ post; v_rest := rest |}.
Proof.
  intros Hb. destruct (visited draw l beg end_ Hb) as (pre & mid & post & El & M & V). exists pre, mid, post. split; [exact El|]. split; [exact M|]. subst l.
  unfold retag, foreach_result, result_beginning. cbn [v_lines]. fold (retagger draw changes). destruct (option_map _ _) as [p|].
  - destruct V as (-> & E & _). destruct (retag_loop draw changes (mid ++ post) (S (S (length (pre ++ mid ++ post)))) pre rest end_ true) as (m' & R); [rewrite !app_length; lia|].
    rewrite R. cbn [fst next_taken]. rewrite <- E. rewrite skipn_app, skipn_all, Nat.sub_diag. reflexivity.
  - rewrite V. reflexivity.
Qed.
