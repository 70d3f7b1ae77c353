(** Proofs about Dates.v: words and documented forms. *)
From Verif Require Import Bytes Decimal Calendar CalendarSpec CalendarProofs Dates DatesSpec DatesProofs DatesProofs2 DatesProofs3 DatesProofs4.
From Coq Require Import ZArith Lia.
Open Scope Z_scope.

(** ** Words. *)
Fixpoint kw_words (pm : bool) (acc kw : bytes) : list bytes :=
  match kw with
  | [] => [acc]
  | k :: kw' => if beq k "|"%char then kw_words true acc kw'
                else (if pm then [acc] else []) ++ kw_words pm (acc ++ [k]) kw'
  end.
Definition low (mcase : bool) (w : bytes) : bytes := if mcase then w else map tolower w.
Lemma match_keyword_spec mcase kw : forall pm s n r acc, (mcase = false -> forallb (fun c => beq (tolower c) c) kw = true) ->
  match_keyword mcase pm s kw n = r -> r <> O ->
  exists w s', s = w ++ s' /\ r = (n + List.length w)%nat /\ forallb letter w = true /\ letter (peek s') = false /\ In (acc ++ low mcase w) (kw_words pm acc kw).
Proof.
  induction kw as [|k kw IH]; intros pm s n r acc LC H R; cbn [match_keyword kw_words] in *.
  - destruct (isalpha (peek s)) eqn:A; [congruence|]. exists [], s. split; [reflexivity|]. split; [cbn; lia|]. split; [reflexivity|]. split; [exact A|]. destruct mcase; cbn [low map]; rewrite app_nil_r; left; reflexivity.
  - assert (LC' : mcase = false -> forallb (fun c => beq (tolower c) c) kw = true) by (intro M; specialize (LC M); cbn in LC; apply Bool.andb_true_iff in LC; apply LC).
    destruct (beq k "|"%char); [apply (IH true s n r acc LC' H R)|].
    destruct (isalpha (peek s)) eqn:A; cbn [negb] in H.
    + destruct s as [|c s]; [discriminate A|]. cbn [peek tl] in *.
      destruct (if mcase then beq c k else beq (tolower c) (tolower k)) eqn:M; [|congruence].
      destruct (IH pm s (S n) r (acc ++ [k]) LC' H R) as (w & s' & E1 & E2 & E3 & E4 & E5).
      exists (c :: w), s'. subst s. split; [reflexivity|]. split; [cbn [List.length]; lia|]. split; [cbn [forallb]; rewrite E3; change (letter c) with (isalpha c); rewrite A; reflexivity|].
      split; [exact E4|]. apply in_app_iff. right. rewrite <- app_assoc in E5. 
      assert (low mcase (c :: w) = [k] ++ low mcase w) as ->; [|exact E5].
      destruct mcase; cbn [low map app].
      * apply beq_eq in M. congruence.
      * specialize (LC eq_refl). cbn [forallb] in LC. apply Bool.andb_true_iff in LC as [LC _]. apply beq_eq in LC. apply beq_eq in M. congruence.
    + destruct pm; [|congruence]. exists [], s. split; [reflexivity|]. split; [cbn; lia|]. split; [reflexivity|]. split; [exact A|]. apply in_app_iff. left. left. destruct mcase; cbn [low map]; rewrite app_nil_r; reflexivity.
Qed.
Fixpoint prefixes (b : bytes) : list bytes := [] :: match b with [] => [] | c :: b' => map (cons c) (prefixes b') end.
Lemma prefixes_spec b x : In x (prefixes b) -> exists y, b = x ++ y.
Proof.
  revert x. induction b as [|c b IH]; intros x H; cbn [prefixes] in H.
  - destruct H as [<-|[]]. exists []. reflexivity.
  - destruct H as [<-|H]; [exists (c :: b); reflexivity|]. apply in_map_iff in H. destruct H as (z & <- & Hz). destruct (IH z Hz) as [y ->]. exists y. reflexivity.
Qed.
Definition in_vocabulary (w : bytes) : bool := existsb (fun e => existsb (fun p => bseq w (fst e ++ p)) (prefixes (snd e))) vocabulary.
Lemma in_vocabulary_spec w : in_vocabulary (map tolower w) = true -> known_word w.
Proof.
  unfold in_vocabulary. rewrite existsb_exists. intros ([a b] & I1 & H). rewrite existsb_exists in H. destruct H as (p & I2 & H).
  apply bseq_eq in H. cbn [fst snd] in *. apply prefixes_spec in I2. destruct I2 as [y Hy]. right. right. exists a, b, p, y. auto.
Qed.
Lemma keywords_vocabulary : forallb (fun kw =>
  if kw_case kw then bseq (kw_name kw) (lit "M") || bseq (kw_name kw) (lit "m")
  else forallb (fun c => beq (tolower c) c) (kw_name kw) &&
       forallb (fun w => in_vocabulary w || negb (forallb letter w)) (kw_words false [] (kw_name kw))) keywords = true.
Proof. vm_compute. reflexivity. Qed.
Lemma letter_lower w : forallb letter w = true -> forallb letter (map tolower w) = true.
Proof.
  induction w as [|c w IH]; [reflexivity|]. cbn [map forallb]. rewrite !Bool.andb_true_iff. intros [A B]. split; [|apply IH, B].
  revert A. clear. destruct c as [[] [] [] [] [] [] [] []]; vm_compute; intro; congruence.
Qed.
Lemma keyword_word s kw n : find_keyword keywords s = Some (kw, n) ->
  exists w s', s = w ++ s' /\ n = List.length w /\ w <> [] /\ forallb letter w = true /\ letter (peek s') = false /\ known_word w.
Proof.
  intro H. apply find_keyword_in in H. destruct H as (I1 & E1 & N1).
  pose proof (proj1 (forallb_forall _ _) keywords_vocabulary kw I1) as V. cbn beta in V. unfold kw_match in E1.
  destruct (match_keyword_spec (kw_case kw) (kw_name kw) false s 0%nat n []) as (w & s' & F1 & F2 & F3 & F4 & F5); auto.
  { intro M. rewrite M in V. apply Bool.andb_true_iff in V. apply V. }
  exists w, s'. split; [exact F1|]. split; [exact F2|]. split; [intros ->; apply N1; exact F2|]. split; [exact F3|]. split; [exact F4|].
  cbn [app] in F5. destruct (kw_case kw) eqn:KC; cbn [low] in F5.
  - apply Bool.orb_true_iff in V. destruct V as [V|V]; apply bseq_eq in V; rewrite V in F5; cbn in F5; destruct F5 as [<-|[]]; [left|right; left]; reflexivity.
  - apply Bool.andb_true_iff in V as [_ V]. rewrite forallb_forall in V. specialize (V _ F5). apply Bool.orb_true_iff in V. destruct V as [V|V]; [apply in_vocabulary_spec, V|].
    rewrite letter_lower in V by exact F3. discriminate V.
Qed.
Lemma words_from_app w : forall acc s, forallb letter w = true -> words_from acc (w ++ s) = words_from (acc ++ w) s.
Proof.
  induction w as [|c w IH]; intros acc s H; [rewrite app_nil_r; reflexivity|]. cbn [forallb] in H. apply Bool.andb_true_iff in H as [H1 H2].
  cbn [app words_from]. rewrite H1, IH by exact H2. rewrite <- app_assoc. reflexivity.
Qed.
Lemma words_from_stop acc s : letter (peek s) = false -> words_from acc s = flush acc ++ words s.
Proof. destruct s as [|c s]; intro H; [cbn; rewrite app_nil_r; reflexivity|]. cbn [peek] in H. unfold words. cbn [words_from]. rewrite H. reflexivity. Qed.
Lemma words_skip w s : forallb (fun c => negb (letter c)) w = true -> words (w ++ s) = words s.
Proof.
  induction w as [|c w IH]; intro H; [reflexivity|]. cbn [forallb] in H. apply Bool.andb_true_iff in H as [H1 H2]. apply Bool.negb_true_iff in H1.
  unfold words in *. cbn [app words_from]. rewrite H1. exact (IH H2).
Qed.
Lemma digit_not_letter c : isdigit c = true -> letter c = false.
Proof. destruct c as [[] [] [] [] [] [] [] []]; vm_compute; intro; congruence. Qed.
Lemma sep_not_letter c : is_sep c = true -> letter c = false.
Proof. destruct c as [[] [] [] [] [] [] [] []]; vm_compute; intro; congruence. Qed.
Lemma notalnum_not_letter c : isalnum c = false -> letter c = false.
Proof. destruct c as [[] [] [] [] [] [] [] []]; vm_compute; intro; congruence. Qed.
Lemma strtoul_words s : let '(_, _, p) := strtoul_len s in words s = words p.
Proof.
  unfold strtoul_len. rewrite <- (take_drop isdigit s) at 1. apply words_skip. pose proof (takewhile_all isdigit s) as T.
  apply forallb_forall. intros c C. rewrite forallb_forall in T. rewrite (digit_not_letter c (T c C)). reflexivity.
Qed.
Lemma words_tl s : letter (peek s) = false -> words (tl s) = words s.
Proof. destruct s as [|c s]; intro H; [reflexivity|]. cbn [peek tl] in *. symmetry. apply (words_skip [c] s). cbn. rewrite H. reflexivity. Qed.
Lemma parse_number_words st s st' s' : parse_number st s = Ok (st', s') -> words s = words s'.
Proof.
  unfold parse_number. pose proof (strtoul_words s) as W1. destruct (strtoul_len s) as [[v1 n1] p]. rewrite W1. clear W1.
  destruct (negb (is_sep (peek p)) || negb (isdigit (peek (tl p)))) eqn:C.
  - intro H. apply bind_ok in H. destruct H as (a & _ & H). apply Ok_inj in H. congruence.
  - apply Bool.orb_false_iff in C as [C _]. apply Bool.negb_false_iff in C. pose proof (sep_not_letter _ C) as NL.
    rewrite <- (words_tl p NL). pose proof (strtoul_words (tl p)) as W2. destruct (strtoul_len (tl p)) as [[v2 n2] p2]. rewrite W2. clear W2.
    assert (W3 : let '(_, _, p3) := if beq (peek p2) (peek p) && isdigit (peek (tl p2)) then strtoul_len (tl p2) else (0, 0, p2) in words p2 = words p3).
    { destruct (beq (peek p2) (peek p) && isdigit (peek (tl p2))) eqn:C3; [|reflexivity]. apply Bool.andb_true_iff in C3 as [C3 _]. apply beq_eq in C3.
      rewrite <- (words_tl p2) by (rewrite C3; exact NL). apply strtoul_words. }
    destruct (if beq (peek p2) (peek p) && isdigit (peek (tl p2)) then strtoul_len (tl p2) else (0, 0, p2)) as [[v3 n3] p3]. rewrite W3.
    intro H. apply bind_ok in H. destruct H as (a & _ & H). apply Ok_inj in H. congruence.
Qed.
Lemma parse_delim_words s : forall st, words s = words (snd (parse_delim st s)).
Proof.
  induction s as [|c s IH]; intro st; [reflexivity|]. cbn [parse_delim]. destruct (isalnum c) eqn:A; [reflexivity|].
  rewrite <- (IH (set_delim st c)). apply (words_skip [c] s). cbn. rewrite (notalnum_not_letter c A). reflexivity.
Qed.
Lemma skipn_app_exact {A} (a b : list A) : skipn (List.length a) (a ++ b) = b.
Proof. induction a; [reflexivity|exact IHa]. Qed.
Theorem parse_loop_words fuel : forall st s st', parse_loop fuel st s = Ok st' -> forall w, In w (words s) -> known_word w.
Proof.
  induction fuel as [|fuel IH]; intros st s st' H w I1.
  - destruct s; [contradiction I1|discriminate H].
  - destruct s as [|c s]; [contradiction I1|]. cbn [parse_loop] in H. apply bind_ok in H. destruct H as ([st1 s1] & H1 & H2). cbn [fst snd] in H2.
    destruct (isalpha c) eqn:A.
    + unfold parse_keyword in H1. destruct (find_keyword keywords (c :: s)) as [[kw n]|] eqn:F; [|discriminate].
      apply bind_ok in H1. destruct H1 as (st2 & _ & H1). apply Ok_inj in H1. assert (S1 : s1 = skipn n (c :: s)) by congruence. subst s1.
      apply keyword_word in F. destruct F as (v & s' & E1 & -> & NE & L1 & L2 & KW). rewrite E1 in *. rewrite skipn_app_exact in H2.
      unfold words in I1. rewrite words_from_app in I1 by exact L1. cbn [app] in I1. rewrite words_from_stop in I1 by exact L2.
      apply in_app_iff in I1. destruct I1 as [I1|I1]; [|eapply IH; eassumption]. destruct v as [|v0 v]; [congruence|]. cbn in I1. destruct I1 as [<-|[]]. exact KW.
    + destruct (isdigit c).
      * apply parse_number_words in H1. rewrite H1 in I1. eapply IH; eassumption.
      * apply Ok_inj in H1. rewrite (parse_delim_words (c :: s) st), H1 in I1. eapply IH; eassumption.
Qed.
