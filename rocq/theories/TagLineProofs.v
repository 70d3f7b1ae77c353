From Verif Require Import Bytes Hex HexSpec HexProofs StrUtil DocMap Db TagOps TagLine TagLineSpec.
Local Open Scope nat_scope.

Lemma until_nul_c s : until_nul s = c_string_of s.
Proof.
  induction s as [|c s IH]; [reflexivity|]. cbn. unfold nonul, beq, NUL. rewrite IH.
  change (ascii_of_N 0) with Ascii.zero. destruct (Ascii.eqb c Ascii.zero); reflexivity.
Qed.
Lemma until_nul_cstr s : cstr s -> until_nul s = s.
Proof. intros H. rewrite until_nul_c. apply takewhile_forall. exact H. Qed.

Lemma decode_c_Some e t : decode_c e = Some t <-> exists t', denotes e t' /\ t = until_nul t'.
Proof.
  unfold decode_c. destruct (hex_decode_internal e) as [o ok] eqn:E. split.
  - destruct ok; [|discriminate]. intros [= <-]. exists o. split; [now apply decode_denotes|]. now rewrite until_nul_c.
  - intros (t' & H & ->). apply decode_denotes in H. rewrite H in E. injection E as <- <-. now rewrite until_nul_c.
Qed.

(** [decode_c] is what the in-place decoder leaves in the caller's buffer. *)
Lemma decode_c_inplace s slack : cstr s ->
  exists m ok, hex_decode_inplace (s ++ NUL :: slack) = IPDone m ok /\
    decode_c s = if ok then Some (c_string_of m) else None.
Proof.
  intros H. destruct (decode_inplace_ok s slack H) as (m & ok & A & B & _ & _ & C). exists m, ok.
  split; [exact A|]. unfold decode_c. destruct (hex_decode_internal s) as [o k]. cbn [fst snd] in *. subst k.
  destruct ok; [|reflexivity]. destruct (C eq_refl) as (tail & ->). f_equal. unfold c_string_of.
  clear. induction o as [|c o IH]; [reflexivity|]. cbn. destruct (nonul c); [now f_equal|reflexivity].
Qed.

Definition is_sp (c : byte) : bool := mem c (lit " ").
Lemma is_sp_eq c : is_sp c = true <-> c = " "%char.
Proof. unfold is_sp. rewrite mem_In. cbn. intuition. Qed.
Lemma spaces_forallb s : spaces s <-> forallb is_sp s = true.
Proof.
  unfold spaces. rewrite forallb_forall. split; intros H c Hc; [apply is_sp_eq; auto|apply is_sp_eq; auto].
Qed.
Lemma word_forallb s : word s <-> forallb (fun c => negb (is_sp c)) s = true.
Proof.
  unfold word. rewrite forallb_forall. split.
  - intros H c Hc. destruct (is_sp c) eqn:E; [|reflexivity]. apply is_sp_eq in E. subst. contradiction.
  - intros H Hc. apply H in Hc. discriminate.
Qed.

Lemma strtok_Some s tok rest : strtok_len (lit " ") s = Some (tok, rest) <->
  exists sp, s = sp ++ tok ++ rest /\ spaces sp /\ tok <> [] /\ word tok /\ (rest = [] \/ exists r, rest = " "%char :: r).
Proof.
  unfold strtok_len. change (fun c => mem c (lit " ")) with is_sp. rewrite span_eq. split.
  - set (u := dropwhile is_sp s). intros H.
    assert (E : takewhile (fun c => negb (is_sp c)) u = tok /\ dropwhile (fun c => negb (is_sp c)) u = rest /\ tok <> []).
    { change (fun c => negb (mem c (lit " "))) with (fun c => negb (is_sp c)) in H.
      destruct (takewhile _ u) eqn:E; [discriminate|]. injection H as <- <-. repeat split. discriminate. }
    destruct E as (E1 & E2 & E3). exists (takewhile is_sp s). split.
    + rewrite <- E1, <- E2, take_drop. unfold u. now rewrite take_drop.
    + split; [apply spaces_forallb, takewhile_all|]. split; [exact E3|]. split; [rewrite <- E1; apply word_forallb, takewhile_all|].
      pose proof (dropwhile_head (fun c => negb (is_sp c)) u) as Hh. rewrite E2 in Hh. destruct rest as [|c r]; [now left|].
      right. apply negb_false_iff, is_sp_eq in Hh. subst. now exists r.
  - intros (sp & -> & Hsp & Ht & Hw & Hr). apply spaces_forallb in Hsp. apply word_forallb in Hw.
    rewrite dropwhile_app_stop; [|exact Hsp|].
    + change (fun c => negb (mem c (lit " "))) with (fun c => negb (is_sp c)).
      assert (Hst : negb (is_sp (peek rest)) = false \/ rest = []) by (destruct Hr as [->|(r & ->)]; [now right|now left]).
      rewrite takewhile_app_stop, dropwhile_app_stop by assumption. destruct tok; [contradiction|reflexivity].
    + left. destruct tok as [|c tok]; [contradiction|]. cbn in Hw |- *. apply andb_true_iff in Hw as [Hw _]. now apply negb_true_iff.
Qed.
Lemma strtok_None s : strtok_len (lit " ") s = None <-> spaces s.
Proof.
  split.
  - unfold strtok_len. change (fun c => mem c (lit " ")) with is_sp. rewrite span_eq. intros H.
    rewrite spaces_forallb. rewrite <- (take_drop is_sp s). pose proof (dropwhile_head is_sp s) as Hh.
    destruct (dropwhile is_sp s) as [|c r] eqn:E.
    + rewrite app_nil_r. apply takewhile_all.
    + change (fun c => negb (mem c (lit " "))) with (fun c => negb (is_sp c)) in H. cbn [takewhile] in H.
      rewrite Hh in H. cbn in H. discriminate.
  - intros H. destruct (strtok_len (lit " ") s) as [[tok rest]|] eqn:E; [|reflexivity].
    apply strtok_Some in E as (sp & -> & _ & Ht & Hw & _). destruct tok as [|c tok]; [contradiction|].
    exfalso. apply Hw. left. apply H. apply in_or_app. right. now left.
Qed.

Lemma illegal_tag_false e r : illegal_tag e r = false <-> (r = false -> e <> [] /\ forall x, e <> "-"%char :: x).
Proof.
  unfold illegal_tag. destruct r; cbn.
  - rewrite !andb_false_r. split; [discriminate|reflexivity].
  - rewrite !andb_true_r. destruct e as [|c e]; cbn.
    + split; [discriminate|]. intros H. now destruct (H eq_refl).
    + rewrite beq_neq. split.
      * intros H _. split; [discriminate|]. intros x [= -> _]. congruence.
      * intros H. destruct (H eq_refl) as [_ H2]. intros ->. now apply (H2 e).
Qed.

Lemma parse_tags_sound fuel gen : forall s ops ops' q, parse_tags fuel gen s ops = P_ok ops' q ->
  exists l, ops' = ops ++ l /\ items gen s l q.
Proof.
  induction fuel as [|f IH]; intros s ops ops' q; cbn [parse_tags]; [discriminate|].
  destruct (strtok_len (lit " ") s) as [[tok rest]|] eqn:E; [|discriminate].
  apply strtok_Some in E as (sp & -> & Hsp & Ht & Hw & Hr).
  destruct (bseq_spec tok (lit "--")) as [->|Hnd].
  - destruct (strtok_len (lit " ") rest) as [[t r]|] eqn:E2; [|discriminate]. intros [= <- <-].
    exists []. split; [now rewrite app_nil_r|]. apply strtok_Some in E2 as (sp2 & -> & Hsp2 & Ht2 & Hw2 & _).
    destruct sp2 as [|x sp2].
    + exfalso. destruct Hr as [Hr|(r' & Hr)]; destruct t as [|c t]; try contradiction; try discriminate.
      cbn in Hr. injection Hr as -> _. apply Hw2. now left.
    + assert (x = " "%char) by (apply Hsp2; now left). subst x.
      change (lit "--" ++ (" "%char :: sp2) ++ t ++ r) with (lit "-- " ++ sp2 ++ t ++ r).
      destruct t as [|c t]; [contradiction|]. apply (it_dashes gen sp sp2 _ c (t ++ r)); auto.
      * intros y Hy. apply Hsp2. now right.
      * intros ->. apply Hw2. now left.
  - destruct tok as [|c tok]; [contradiction|]. cbn [peek tl].
    destruct (beq_spec c "-"%char) as [->|Hc1]; cbn [negb andb].
    + destruct rest as [|x rest]; [discriminate|]. destruct (negb gen && illegal_tag tok true) eqn:El; [discriminate|].
      destruct (decode_c tok) as [t|] eqn:Ed; [|discriminate]. intros H. apply IH in H as (l & -> & Hi).
      apply decode_c_Some in Ed as (t' & Hd & ->). destruct Hr as [Hr|(r' & Hr)]; [discriminate|]. injection Hr as -> ->.
      eexists. split; [rewrite <- app_assoc; reflexivity|]. cbn [app].
      apply (it_op gen sp true tok t' r' l q); auto.
      * intros Hin. apply Hw. now right.
      * intros _ ->. now apply Hnd.
      * discriminate.
    + destruct (beq_spec c "+"%char) as [->|Hc2]; cbn [negb].
      * destruct rest as [|x rest]; [discriminate|]. destruct (negb gen && illegal_tag tok false) eqn:El; [discriminate|].
        destruct (decode_c tok) as [t|] eqn:Ed; [|discriminate]. intros H. apply IH in H as (l & -> & Hi).
        apply decode_c_Some in Ed as (t' & Hd & ->). destruct Hr as [Hr|(r' & Hr)]; [discriminate|]. injection Hr as -> ->.
        eexists. split; [rewrite <- app_assoc; reflexivity|]. cbn [app].
        apply (it_op gen sp false tok t' r' l q); auto.
        -- intros Hin. apply Hw. now right.
        -- discriminate.
        -- intros Hg. rewrite Hg in El. cbn [negb andb] in El. now apply illegal_tag_false.
      * intros [= <- <-]. exists []. split; [now rewrite app_nil_r|].
        apply (it_query gen sp _ c (tok ++ rest)); auto. intros ->. apply Hw. now left.
Qed.

Lemma parse_tags_complete gen s l q : items gen s l q -> forall fuel ops, length s < fuel ->
  parse_tags fuel gen s ops = P_ok (ops ++ l) q.
Proof.
  induction 1 as [sp q c r Hsp -> Hc1 Hc2 Hc3|sp sp2 q c r Hsp Hsp2 -> Hc|sp rm e t rest l q Hsp Hw Hne Hlg Hd Hi IH];
    intros fuel ops Hf; (destruct fuel as [|f]; [lia|]); cbn [parse_tags].
  - (* the first word of the query *)
    destruct (strtok_len (lit " ") (sp ++ c :: r)) as [[tok rest]|] eqn:E.
    + apply strtok_Some in E as (sp' & E & Hsp' & Ht & Hw & Hr).
      assert (A : dropwhile is_sp (sp ++ c :: r) = c :: r).
      { apply dropwhile_app_stop; [now apply spaces_forallb|]. left. cbn [peek app]. destruct (is_sp c) eqn:X; [apply is_sp_eq in X; congruence|reflexivity]. }
      assert (B : dropwhile is_sp (sp' ++ tok ++ rest) = tok ++ rest).
      { apply dropwhile_app_stop; [now apply spaces_forallb|]. left. destruct tok as [|y tok]; [contradiction|]. cbn [peek app].
        destruct (is_sp y) eqn:X; [apply is_sp_eq in X; subst; exfalso; apply Hw; now left|reflexivity]. }
      rewrite E, B in A. destruct tok as [|y tok]; [contradiction|]. cbn in A. injection A as -> A.
      assert (N : bseq (c :: tok) (lit "--") = false) by (apply bseq_neq; intros [= -> _]; congruence).
      rewrite N. cbn [peek]. rewrite (proj2 (beq_neq c "-"%char)), (proj2 (beq_neq c "+"%char)) by assumption. cbn.
      now rewrite A, app_nil_r.
    + apply strtok_None in E. exfalso. apply Hc1. apply E. apply in_or_app. right. now left.
  - rewrite (proj2 (strtok_Some _ (lit "--") (" "%char :: sp2 ++ c :: r))).
    2:{ exists sp. cbn. repeat split; auto; try discriminate. intros [X|[X|[]]]; discriminate. right. eauto. }
    rewrite bseq_refl.
    destruct (strtok_len (lit " ") (" "%char :: sp2 ++ c :: r)) as [[tok rest]|] eqn:E.
    + apply strtok_Some in E as (sp' & E & Hsp' & Ht & Hw & Hr).
      assert (A : dropwhile is_sp ((" "%char :: sp2) ++ c :: r) = c :: r).
      { apply dropwhile_app_stop; [apply spaces_forallb; intros x [<-|Hx]; auto|]. left. cbn [peek app]. destruct (is_sp c) eqn:X; [apply is_sp_eq in X; congruence|reflexivity]. }
      assert (B : dropwhile is_sp (sp' ++ tok ++ rest) = tok ++ rest).
      { apply dropwhile_app_stop; [now apply spaces_forallb|]. left. destruct tok as [|y tok]; [contradiction|]. cbn [peek app].
        destruct (is_sp y) eqn:X; [apply is_sp_eq in X; subst; exfalso; apply Hw; now left|reflexivity]. }
      cbn [app] in A. rewrite E, B in A. now rewrite A, app_nil_r.
    + apply strtok_None in E. exfalso. apply Hc. apply E. right. apply in_or_app. right. now left.
  - set (sign := if rm then "-"%char else "+"%char) in *.
    rewrite (proj2 (strtok_Some _ (sign :: e) (" "%char :: rest))).
    2:{ exists sp. cbn. repeat split; auto; try discriminate.
        - intros [X|X]; [destruct rm; discriminate|]. now apply Hw.
        - right. eauto. }
    assert (N : bseq (sign :: e) (lit "--") = false).
    { apply bseq_neq. intros [= X ->]. destruct rm; [|discriminate]. now apply Hne. }
    rewrite N. cbn [peek tl].
    assert (S1 : negb (beq sign "-"%char) && negb (beq sign "+"%char) = false) by (destruct rm; reflexivity).
    assert (S2 : beq sign "-"%char = rm) by (destruct rm; reflexivity).
    rewrite S1, S2.
    assert (L : negb gen && illegal_tag e rm = false).
    { destruct gen; [reflexivity|]. cbn [negb andb]. apply illegal_tag_false. now apply Hlg. }
    rewrite L, (proj2 (decode_c_Some e (until_nul t))) by eauto.
    rewrite IH; [now rewrite <- app_assoc|]. revert Hf. len.
Qed.

Lemma parse_tags_no_ub fuel gen : forall s ops, length s < fuel -> parse_tags fuel gen s ops <> P_ub.
Proof.
  induction fuel as [|f IH]; intros s ops Hf; [lia|]. cbn [parse_tags].
  destruct (strtok_len (lit " ") s) as [[tok rest]|] eqn:E; [|discriminate].
  apply strtok_Some in E as (sp & -> & _). destruct (bseq tok (lit "--")).
  { destruct (strtok_len (lit " ") rest) as [[t r]|]; discriminate. }
  destruct (negb _ && negb _); [discriminate|]. destruct rest as [|x rest]; [discriminate|].
  destruct (negb gen && _); [discriminate|]. destruct (decode_c (tl tok)); [|discriminate].
  apply IH. revert Hf. len.
Qed.
Lemma parse_tags_not_skipped fuel gen : forall s ops, parse_tags fuel gen s ops <> P_skipped.
Proof.
  induction fuel as [|f IH]; intros s ops; cbn [parse_tags]; [discriminate|].
  destruct (strtok_len (lit " ") s) as [[tok rest]|]; [|discriminate]. destruct (bseq tok (lit "--")).
  { destruct (strtok_len (lit " ") rest) as [[t r]|]; discriminate. }
  destruct (negb _ && negb _); [discriminate|]. destruct rest as [|x rest]; [discriminate|].
  destruct (negb gen && _); [discriminate|]. destruct (decode_c (tl tok)); [|discriminate]. apply IH.
Qed.

Lemma chomp_spec line : line <> [] -> exists body, chomp_newline line = Some body /\ unterminated line body.
Proof.
  intros H. unfold chomp_newline, unterminated. destruct line as [|c l]; [contradiction|].
  change (chr 10) with (ascii_of_N 10). change NUL with (ascii_of_N 0).
  destruct (beq_spec (last (c :: l) (ascii_of_N 0)) (ascii_of_N 10)) as [E|E].
  - eexists. split; [reflexivity|]. left. rewrite <- E. now apply app_removelast_last.
  - eexists. split; [reflexivity|]. right. auto.
Qed.
Lemma unterminated_fun line b1 b2 : unterminated line b1 -> unterminated line b2 -> b1 = b2.
Proof.
  intros [->|[-> H1]] [H|[H H2]].
  - now apply app_inj_tail in H.
  - rewrite last_last in H2. contradiction.
  - subst. rewrite last_last in H1. contradiction.
  - exact H.
Qed.

Definition is_blank (c : byte) : bool := beq c " "%char || beq c (chr 9).
Lemma is_blank_eq c : is_blank c = true <-> c = " "%char \/ c = ascii_of_N 9.
Proof. unfold is_blank. rewrite orb_true_iff, !beq_eq. reflexivity. Qed.
Lemma blanks_forallb s : blanks s <-> forallb is_blank s = true.
Proof. unfold blanks. rewrite forallb_forall. split; intros H c Hc; apply is_blank_eq; auto. Qed.

(** What parse_tag_line does, completely. *)
Lemma parse_tag_line_spec gen line body : unterminated line body -> line <> [] ->
  parse_tag_line gen line <> P_ub /\
  (parse_tag_line gen line = P_skipped <-> blanks body \/ exists b r, body = b ++ "#"%char :: r /\ blanks b) /\
  (forall ops q, parse_tag_line gen line = P_ok ops q <-> batch_line gen body ops q).
Proof.
  intros Hu Hne. destruct (chomp_spec line Hne) as (b' & E & Hu'). assert (b' = body) by (eapply unterminated_fun; eauto). subst b'.
  unfold parse_tag_line. rewrite E. change (fun c => beq c " "%char || beq c (chr 9)) with is_blank.
  pose proof (take_drop is_blank body) as T. pose proof (takewhile_all is_blank body) as F. pose proof (dropwhile_head is_blank body) as Hh.
  assert (NB : forall c, c <> " "%char -> c <> ascii_of_N 9 -> is_blank c = false).
  { intros c H1 H2. destruct (is_blank c) eqn:X; [apply is_blank_eq in X; tauto|reflexivity]. }
  assert (U : forall b c r, body = b ++ c :: r -> blanks b -> is_blank c = false -> dropwhile is_blank body = c :: r).
  { intros b c r -> Hb Hc. apply dropwhile_app_stop; [now apply blanks_forallb|]. now left. }
  destruct (dropwhile is_blank body) as [|c r] eqn:D.
  - split; [discriminate|]. rewrite app_nil_r in T. rewrite T in F. split.
    + split; [|reflexivity]. intros _. left. now apply blanks_forallb.
    + intros ops q. split; [discriminate|]. intros (b & c & r & H1 & H2 & H3 & H4 & _).
      discriminate (U b c r H1 H2 (NB c H3 H4)).
  - assert (Bc : ~ blanks body).
    { rewrite <- T. intros H. assert (X : is_blank c = true) by (apply is_blank_eq, H, in_or_app; right; now left). congruence. }
    destruct (beq_spec c "#"%char) as [->|Hc].
    + split; [discriminate|]. split.
      * split; [|reflexivity]. intros _. right. exists (takewhile is_blank body), r. split; [now rewrite T|now apply blanks_forallb].
      * intros ops q. split; [discriminate|]. intros (b & c & r' & H1 & H2 & H3 & H4 & H5 & _).
        specialize (U b c r' H1 H2 (NB c H3 H4)). congruence.
    + split; [apply parse_tags_no_ub; lia|]. split.
      * split; [intros H; now apply parse_tags_not_skipped in H|]. intros [H|(b & r' & H1 & H2)]; [contradiction|].
        specialize (U b "#"%char r' H1 H2 eq_refl). congruence.
      * intros ops q. split.
        -- intros H. apply parse_tags_sound in H as (l & -> & Hi). exists (takewhile is_blank body), c, r.
           split; [now rewrite T|]. split; [now apply blanks_forallb|].
           split; [intros ->; discriminate|]. split; [intros ->; discriminate|]. auto.
        -- intros (b & c' & r' & H1 & H2 & H3 & H4 & H5 & Hi).
           specialize (U b c' r' H1 H2 (NB c' H3 H4)). injection U as -> ->.
           rewrite (parse_tags_complete gen _ _ _ Hi); [reflexivity|lia].
Qed.

Lemma items_fun gen s l q l' q' : items gen s l q -> items gen s l' q' -> l = l' /\ q = q'.
Proof.
  intros H H'. apply parse_tags_complete with (fuel := S (length s)) (ops := []) in H; [|lia].
  apply parse_tags_complete with (fuel := S (length s)) (ops := []) in H'; [|lia]. cbn [app] in *. rewrite H in H'. now injection H'.
Qed.
