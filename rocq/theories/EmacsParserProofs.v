(** Proofs about the incremental parser (C78). *)
From Verif Require Import Bytes Decimal Sprinter SprinterSpec SprinterProofs SprinterProofs2 EmacsParser.
Local Open Scope nat_scope.

(** ** The reader *)

Definition is_atom (d : datum) : bool := match d with DStr _ | DList _ => false | _ => true end.
Definition delimited (d : datum) (s : bytes) : Prop := is_atom d = false \/ s = [] \/ exists c t, s = c :: t /\ symbol_char c = false.
Lemma rd_atom tok : forall stack acc s, forallb symbol_char tok = true -> rd (Atom stack acc) (tok ++ s) = rd (Atom stack (rev tok ++ acc)) s.
Proof.
  induction tok as [|c tok IH]; intros stack acc s H; [reflexivity|]. cbn in H. apply andb_true_iff in H as (H1 & H2). cbn [app rd step]. rewrite H1, IH by exact H2. cbn [rev]. now rewrite <- app_assoc.
Qed.
Lemma rd_escape c : forall stack acc s, rd (Strg stack acc) (sexp_escape c ++ s) = rd (Strg stack (c :: acc)) s.
Proof. intros stack acc s. destruct c as [[] [] [] [] [] [] [] []]; reflexivity. Qed.
Lemma rd_string x : forall stack acc s, rd (Strg stack acc) (flat_map sexp_escape x ++ s) = rd (Strg stack (rev x ++ acc)) s.
Proof. induction x as [|c x IH]; intros stack acc s; [reflexivity|]. cbn [flat_map]. rewrite <- app_assoc, rd_escape, IH. cbn [rev]. now rewrite <- app_assoc. Qed.
(** The text of an atom. *)
Lemma dprints_atom d b : dprints d b -> is_atom d = true -> exists c tok, b = c :: tok /\ forallb symbol_char b = true /\ atom_of b = d.
Proof.
  intros H A. destruct H; try discriminate A.
  - destruct (decz_head z) as (c & t & E & C). exists c, t. split; [exact E|]. split; [apply decz_symbol|]. unfold atom_of. rewrite E, <- E.
    assert (N : beq c ":" = false) by (destruct C as [C| ->]; [|reflexivity]; destruct c as [[] [] [] [] [] [] [] []]; try discriminate C; reflexivity). rewrite N.
    assert (R := read_decz z [] eq_refl). rewrite app_nil_r in R. now rewrite R.
  - exists "t"%char, []. repeat split; reflexivity.
  - exists "n"%char, (lit "il"). repeat split; reflexivity.
  - exists ":"%char, k. split; [reflexivity|]. split; [cbn; now apply keyword_symbol|reflexivity].
Qed.
Lemma symbol_start c : symbol_char c = true -> forall stack, between_step stack c = Next (Atom stack [c]).
Proof. intros H stack. destruct (symbol_not_ws c H) as (A & B & C & D). unfold between_step. now rewrite A, B, C, D, H. Qed.
Definition after (stack : list (list datum)) (d : datum) (s : bytes) : rres := match stack with [] => Value d s | top :: st => rd (Between ((d :: top) :: st)) s end.
Lemma rd_after stack d s : match complete stack d with Next st => rd st s | Finish d true => Value d s | _ => Invalid end = after stack d s.
Proof. destruct stack; reflexivity. Qed.
Lemma reads_text : (forall d b, dprints d b -> forall stack s, delimited d s -> rd (Between stack) (b ++ s) = after stack d s) /\
  (forall l b, dprints_items l b -> forall top st s, (s = [] \/ exists c t, s = c :: t /\ symbol_char c = false) -> rd (Between (top :: st)) (b ++ s) = rd (Between ((rev l ++ top) :: st)) s).
Proof.
  assert (A : forall d b, dprints d b -> is_atom d = true -> forall stack s, delimited d s -> rd (Between stack) (b ++ s) = after stack d s).
  { intros d b D Da stack s Ds. destruct (dprints_atom d b D Da) as (c & tok & -> & S & At). cbn [forallb] in S. apply andb_true_iff in S as (S1 & S2).
    cbn [app rd step]. rewrite (symbol_start c S1), rd_atom by exact S2. destruct Ds as [Ds|[-> |(x & t & -> & Hx)]]; [congruence| |].
    - cbn [rd]. destruct stack; cbn [after]; rewrite ?rev_app_distr, ?rev_involutive; [|reflexivity]. cbn [rev app]. now rewrite At.
    - cbn [rd step]. rewrite Hx, rev_app_distr, rev_involutive. cbn [rev app]. rewrite At. destruct stack as [|top st]; [reflexivity|]. cbn [after rd step]. reflexivity. }
  apply dprints_mut; intros; try (eapply A; [constructor; eassumption|reflexivity|assumption]); try (eapply A; [constructor|reflexivity|assumption]).
  - cbn [app rd step]. change (between_step stack (chr 34)) with (Next (Strg stack [])). rewrite <- app_assoc, rd_string. cbn [app rd step]. rewrite app_nil_r.
    change (beq (chr 34) (chr 34)) with true. cbn iota. rewrite rev_involutive. destruct stack; reflexivity.
  - change (lit "()") with ["("%char; ")"%char]; cbn [app rd step]. change (between_step stack "(") with (Next (Between ([] :: stack))). cbn [rd step]. change (between_step ([] :: stack) ")") with (complete stack (DList [])). destruct stack; reflexivity.
  - cbn [app rd step]. change (between_step stack "(") with (Next (Between ([] :: stack))). cbn iota. rewrite <- app_assoc, H.
    + cbn [app rd step]. change (between_step ((rev l ++ []) :: stack) ")") with (complete stack (DList (rev (rev l ++ [])))). rewrite app_nil_r, rev_involutive. destruct stack; reflexivity.
    + right. eexists _, _. split; reflexivity.
  - rewrite H; [reflexivity|]. unfold delimited. tauto.
  - rewrite <- app_assoc, H.
    + cbn [after]. rewrite <- app_assoc. inversion s as [Es|Es]; subst sp; cbn [app rd step].
      * change (between_step ((d :: top) :: st) " ") with (Next (Between ((d :: top) :: st))). cbn iota. rewrite H0 by assumption. cbn [rev]. now rewrite <- app_assoc.
      * change (between_step ((d :: top) :: st) (chr 10)) with (Next (Between ((d :: top) :: st))). cbn iota. rewrite H0 by assumption. cbn [rev]. now rewrite <- app_assoc.
    + right. right. inversion s; eexists _, _; split; reflexivity.
Qed.

(** States in which the end of the text is an error. *)
Definition closed (st : rstate) : Prop := match st with Between [] | Atom [] _ => False | _ => True end.
Lemma complete_closed stack d st : complete stack d = Next st -> closed st.
Proof. destruct stack; cbn; [discriminate|]. now intros [= <-]. Qed.
Lemma between_closed top stk c st : between_step (top :: stk) c = Next st -> closed st.
Proof.
  unfold between_step. destruct (ws c); [now intros [= <-]|]. destruct (beq c ")"); [apply complete_closed|]. destruct (beq c "("); [now intros [= <-]|].
  destruct (beq c (chr 34)); [now intros [= <-]|]. destruct (symbol_char c); [now intros [= <-]|discriminate].
Qed.
Lemma step_closed st c st' : closed st -> step st c = Next st' -> closed st'.
Proof.
  destruct st as [[|top stk]|[|top stk] tok|stk acc|stk acc ds]; intros C; try now destruct C.
  - apply between_closed.
  - cbn [step]. destruct (symbol_char c); [now intros [= <-]|]. apply between_closed.
  - cbn [step]. destruct (beq c (chr 34)); [apply complete_closed|]. destruct (beq c BSL); now intros [= <-].
  - cbn [step]. destruct ds as [|a [|b [|d ds]]]; destruct (octval c); try discriminate; try (now intros [= <-]).
    + destruct (beq c (chr 34)); [now intros [= <-]|]. destruct (beq c BSL); [now intros [= <-]|]. destruct (beq c "n"); [now intros [= <-]|discriminate].
    + cbn. destruct (N.ltb _ 256); [now intros [= <-]|discriminate].
Qed.
Lemma rd_prefix x : forall st y d r, closed st -> rd st (x ++ y) = Value d r -> length r < length y -> rd st x = Eof.
Proof.
  induction x as [|c x IH]; intros st y d r C E L.
  - cbn. destruct st as [[|]|[|]|?|?]; (reflexivity || now destruct C).
  - cbn [app rd] in *. destruct (step st c) as [st'|d' []|] eqn:S.
    + eapply IH; eauto. eapply step_closed; eauto.
    + injection E as _ <-. rewrite app_length in L. lia.
    + injection E as _ <-. cbn [length] in L. rewrite app_length in L. lia.
    + discriminate.
Qed.

(** ** The scanner follows the reader *)
Definition follows (st : rstate) (sc : scan_state) : Prop :=
  match st with
  | Between k | Atom k _ => sc = {| sc_depth := Z.of_nat (length k); sc_string := false; sc_quoted := false |}
  | Strg k _ => sc = {| sc_depth := Z.of_nat (length k); sc_string := true; sc_quoted := false |}
  | Esc k _ ds => sc = {| sc_depth := Z.of_nat (length k); sc_string := true; sc_quoted := match ds with [] => true | _ => false end |}
  end.
Definition nested (st : rstate) : Prop := match st with Between k | Atom k _ | Strg k _ | Esc k _ _ => k <> [] end.
Definition plain (c : byte) : Prop := beq c BSL = false /\ beq c (chr 34) = false /\ opening c = false /\ closing c = false.
Lemma plain_symbol c : symbol_char c = true -> plain c.
Proof. destruct c as [[] [] [] [] [] [] [] []]; intros H; try discriminate H; repeat split; reflexivity. Qed.
Lemma plain_ws c : ws c = true -> plain c.
Proof. destruct c as [[] [] [] [] [] [] [] []]; intros H; try discriminate H; repeat split; reflexivity. Qed.
Lemma scan_plain c n : plain c -> scan1 {| sc_depth := n; sc_string := false; sc_quoted := false |} c = ({| sc_depth := n; sc_string := false; sc_quoted := false |}, false).
Proof. intros (A & B & C & D). unfold scan1. now rewrite A, B, C, D. Qed.
Lemma between_follows k c : k <> [] -> let sc := {| sc_depth := Z.of_nat (length k); sc_string := false; sc_quoted := false |} in
  match between_step k c with
  | Next st' => snd (scan1 sc c) = false /\ follows st' (fst (scan1 sc c)) /\ nested st'
  | Finish _ _ => snd (scan1 sc c) = true /\ sc_depth (fst (scan1 sc c)) = 0%Z
  | Bad => True
  end.
Proof.
  intros N sc. unfold between_step. destruct (ws c) eqn:W.
  { unfold sc. rewrite scan_plain by now apply plain_ws. cbn. auto. }
  destruct (beq c ")") eqn:E1.
  { apply beq_eq in E1. subst c. destruct k as [|top k]; [now destruct N|]. unfold sc, scan1. change (beq ")" BSL) with false. change (beq ")" (chr 34)) with false. change (opening ")") with false. change (closing ")") with true. cbn iota.
    cbn [length]. replace (Z.of_nat (S (length k)) - 1)%Z with (Z.of_nat (length k)) by lia. cbn [fst snd]. destruct k as [|top' k]; cbn [complete].
    - cbn. auto.
    - split; [apply Z.eqb_neq; cbn [length]; lia|]. split; [reflexivity|discriminate]. }
  destruct (beq c "(") eqn:E2.
  { apply beq_eq in E2. subst c. unfold sc, scan1. change (beq "(" BSL) with false. change (beq "(" (chr 34)) with false. change (opening "(") with true. cbn iota. cbn [fst snd].
    split; [apply Z.eqb_neq; lia|]. split; [|discriminate]. cbn [follows length]. f_equal. lia. }
  destruct (beq c (chr 34)) eqn:E3.
  { apply beq_eq in E3. subst c. unfold sc, scan1. change (beq (chr 34) BSL) with false. change (beq (chr 34) (chr 34)) with true. cbn iota. cbn [fst snd negb follows nested]. auto. }
  destruct (symbol_char c) eqn:E4; [|exact I]. unfold sc. rewrite scan_plain by now apply plain_symbol. cbn. auto.
Qed.
Lemma oct_plain c n : octval c = Some n -> beq c BSL = false /\ beq c (chr 34) = false.
Proof. destruct c as [[] [] [] [] [] [] [] []]; intros H; try discriminate H; split; reflexivity. Qed.
Lemma step_follows st c sc : nested st -> follows st sc ->
  match step st c with
  | Next st' => snd (scan1 sc c) = false /\ follows st' (fst (scan1 sc c)) /\ nested st'
  | Finish _ _ => snd (scan1 sc c) = true /\ sc_depth (fst (scan1 sc c)) = 0%Z
  | Bad => True
  end.
Proof.
  destruct st as [k|k tok|k acc|k acc ds]; cbn [nested follows step]; intros N ->.
  - now apply between_follows.
  - destruct (symbol_char c) eqn:S. { rewrite scan_plain by now apply plain_symbol. cbn. auto. }
    destruct k as [|top k]; [now destruct N|]. apply (between_follows ((atom_of (rev tok) :: top) :: k) c). discriminate.
  - destruct (beq c (chr 34)) eqn:E.
    + apply beq_eq in E. subst c. destruct k as [|top k]; [now destruct N|]. cbn [complete]. unfold scan1. change (beq (chr 34) BSL) with false. change (beq (chr 34) (chr 34)) with true. cbn. split; [reflexivity|]. split; [reflexivity|discriminate].
    + unfold scan1. rewrite E. destruct (beq c BSL); cbn; auto.
  - destruct ds as [|a [|b [|d ds]]]; destruct (octval c) as [n|] eqn:O; try exact I.
    + cbn. auto.
    + destruct (beq c (chr 34)); [cbn; auto|]. destruct (beq c BSL); [cbn; auto|]. destruct (beq c "n"); [cbn; auto|exact I].
    + destruct (oct_plain c n O) as (P1 & P2). unfold scan1. rewrite P1, P2. cbn. auto.
    + destruct (N.ltb _ 256); [|exact I]. destruct (oct_plain c n O) as (P1 & P2). unfold scan1. rewrite P1, P2. cbn. auto.
Qed.
Lemma scan_follows s : forall st sc, nested st -> follows st sc ->
  match rd st s with Value _ _ => sc_depth (scan sc s) = 0%Z | Eof => (0 < sc_depth (scan sc s))%Z | Invalid => True end.
Proof.
  induction s as [|c s IH]; intros st sc N F.
  - cbn. destruct st as [k|[|top k] tok|k acc|k acc ds]; cbn [follows nested] in *; subst sc; cbn [sc_depth]; try (now destruct N); destruct k; try (now destruct N); cbn [length]; lia.
  - cbn [rd scan]. assert (H := step_follows st c sc N F). destruct (scan1 sc c) as (sc', stop). cbn [fst snd] in H. destruct (step st c) as [st'|d []|].
    + destruct H as (-> & H1 & H2). now apply IH.
    + destruct H as (-> & H). exact H.
    + destruct H as (-> & H). exact H.
    + exact I.
Qed.
Lemma scan_list s : match el_read ("("%char :: s) with Value _ _ => sc_depth (scan scan_init ("("%char :: s)) = 0%Z | Eof => (0 < sc_depth (scan scan_init ("("%char :: s)))%Z | Invalid => True end.
Proof.
  unfold el_read. cbn [rd step]. change (between_step [] "(") with (Next (Between [[]])). cbn iota. cbn [scan].
  change (scan1 scan_init "(") with ({| sc_depth := 1; sc_string := false; sc_quoted := false |}, false). cbn iota. apply scan_follows; [discriminate|reflexivity].
Qed.
(** Scanning may be resumed. *)
Lemma scan_app x : forall sc y, sc_depth (scan sc x) <> 0%Z -> scan (scan sc x) y = scan sc (x ++ y).
Proof.
  induction x as [|c x IH]; intros sc y H; [reflexivity|]. cbn [app scan] in *. destruct (scan1 sc c) as (sc', stop) eqn:E. destruct stop; [|now apply IH].
  exfalso. apply H. destruct sc as [n str q]. unfold scan1 in E. destruct q; [discriminate E|]. destruct (beq c BSL); [discriminate E|]. destruct (beq c (chr 34)); [discriminate E|]. destruct str; [discriminate E|].
  destruct (opening c); [injection E as <- E; now apply Z.eqb_eq in E|]. destruct (closing c); [injection E as <- E; now apply Z.eqb_eq in E|discriminate E].
Qed.
