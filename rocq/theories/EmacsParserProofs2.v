(** Proofs about the incremental parser, continued: one piece of output after another. *)
From Verif Require Import Bytes Decimal Sprinter SprinterSpec SprinterProofs SprinterProofs2 EmacsParser EmacsParserProofs.
Local Open Scope nat_scope.

(** An element of the outermost list, with the white space before it and its text. *)
Record item := { i_ws : bytes; i_d : datum; i_text : bytes }.
Definition item_bytes (i : item) : bytes := i_ws i ++ i_text i.
Definition ok (i : item) : Prop := forallb ws (i_ws i) = true /\ dprints (i_d i) (i_text i).
Definition spaced (i : item) : Prop := i_ws i <> [].
Definition texts (its : list item) : bytes := concat (map item_bytes its).
Definition body (its : list item) : bytes := texts its ++ [")"%char; chr 10].

Lemma items_exist l b : dprints_items l b -> exists i its, map i_d (i :: its) = l /\ texts (i :: its) = b /\ Forall ok (i :: its) /\ i_ws i = [] /\ Forall spaced its.
Proof.
  induction 1 as [d b D|d b sp l b' D Sp H IH].
  - exists {| i_ws := []; i_d := d; i_text := b |}, []. repeat split; auto; cbn; [now rewrite app_nil_r|]. constructor; [split; [reflexivity|exact D]|constructor].
  - destruct IH as (i & its & E1 & E2 & O & W & Sd). exists {| i_ws := []; i_d := d; i_text := b |}, ({| i_ws := sp; i_d := i_d i; i_text := i_text i |} :: its).
    inversion O as [|? ? (O1 & O2) O']; subst. repeat split; cbn; auto.
    + f_equal. unfold texts. cbn. unfold item_bytes at 2. rewrite W. cbn. now rewrite <- !app_assoc.
    + constructor; [split; [reflexivity|exact D]|]. constructor; [|exact O']. split; [inversion Sp; reflexivity|exact O2].
    + constructor; [|exact Sd]. unfold spaced. cbn. inversion Sp; discriminate.
Qed.
Lemma texts_cons i its : texts (i :: its) = i_ws i ++ i_text i ++ texts its.
Proof. unfold texts. cbn. unfold item_bytes at 1. now rewrite <- app_assoc. Qed.
Lemma texts_app a b : texts (a ++ b) = texts a ++ texts b.
Proof. unfold texts. now rewrite map_app, concat_app. Qed.
Lemma body_delimited its : Forall ok its -> Forall spaced its -> exists c t, body its = c :: t /\ symbol_char c = false.
Proof.
  intros O Sd. unfold body. destruct its as [|i its]; [eexists _, _; split; reflexivity|]. rewrite texts_cons. inversion O as [|? ? (O1 & _) _]; subst. inversion Sd as [|? ? S1 _]; subst.
  unfold spaced in S1. destruct (i_ws i) as [|c w]; [now destruct S1|]. cbn in O1. apply andb_true_iff in O1 as (W & _). eexists _, _. split; [reflexivity|].
  destruct (symbol_char c) eqn:S; [|reflexivity]. destruct (symbol_not_ws c S). congruence.
Qed.
Lemma text_head d b : dprints d b -> exists c t, b = c :: t /\ ws c = false /\ beq c ")" = false.
Proof.
  intros D. destruct (is_atom d) eqn:A.
  - destruct (dprints_atom d b D A) as (c & t & -> & S & _). cbn in S. apply andb_true_iff in S as (S & _). destruct (symbol_not_ws c S) as (H1 & H2 & H3 & H4). eauto.
  - destruct D; try discriminate A; eexists _, _; (split; [reflexivity|split; reflexivity]).
Qed.
Lemma list_text l b : dprints (DList l) b -> exists t, b = "("%char :: t.
Proof. inversion 1; subst; eexists; reflexivity. Qed.
Lemma string_text s b : dprints (DStr s) b -> exists t, b = chr 34 :: t.
Proof. inversion 1; subst; eexists; reflexivity. Qed.
Lemma not_control d b s : dprints d b -> (s = "retry" \/ s = "end")%string -> is_sym d s = false.
Proof. intros D H. destruct D; try reflexivity; destruct H; subst; reflexivity. Qed.

(** The partial scan, if any, is that of the beginning of the text after point. *)
Definition scanned (sp : parser) (buf : bytes) : Prop :=
  (p_pos sp = None /\ p_partial sp = None) \/
  exists x y, buf = ("("%char :: x) ++ y /\ p_pos sp = Some (length ("("%char :: x)) /\ p_partial sp = Some (scan scan_init ("("%char :: x)) /\ (0 < sc_depth (scan scan_init ("("%char :: x)))%Z.
Lemma scanned_more sp buf chunk : scanned sp buf -> scanned sp (buf ++ chunk).
Proof. intros [H|(x & y & -> & H)]; [now left|]. right. exists x, (y ++ chunk). split; [now rewrite app_assoc|exact H]. Qed.
Lemma scanned_drop sp buf : scanned sp buf -> scanned sp (dropwhile ws buf).
Proof. intros [H|(x & y & -> & H)]; [now left|]. right. exists x, y. split; [reflexivity|exact H]. Qed.
Lemma drop_split f (s : bytes) : exists w, s = w ++ dropwhile f s /\ forallb f w = true.
Proof. induction s as [|c s (w & E & W)]; [now exists []|]. cbn. destruct (f c) eqn:F; [|now exists []]. exists (c :: w). cbn. rewrite F, W, <- E. auto. Qed.
Lemma drop_head f (s : bytes) : match dropwhile f s with [] => True | c :: _ => f c = false end.
Proof. induction s as [|c s IH]; [exact I|]. cbn. destruct (f c) eqn:F; [exact IH|exact F]. Qed.
Lemma ws_align w1 w2 c s1 b : forallb ws w1 = true -> forallb ws w2 = true -> ws c = false -> (match b with x :: _ => ws x = false | [] => False end) ->
  w1 ++ c :: s1 = w2 ++ b -> w1 = w2 /\ c :: s1 = b.
Proof.
  revert w2. induction w1 as [|a w1 IH]; intros [|a' w2] W1 W2 C B E; cbn in *.
  - auto.
  - injection E as -> _. apply andb_true_iff in W2 as (W2 & _). congruence.
  - subst b. apply andb_true_iff in W1 as (W1 & _). congruence.
  - injection E as -> E. apply andb_true_iff in W1 as (_ & W1), W2 as (_ & W2). destruct (IH _ W1 W2 C B E) as (-> & ->). auto.
Qed.

(** Reading with [buf] received and [future] still to come: [sk] is the white space skipped
    before. *)
Inductive outcome (todo : list item) (sk buf future : bytes) : datum -> parser -> bytes -> Prop :=
| o_retry sp w buf' : scanned sp buf' -> p_depth sp = 1 -> buf = w ++ buf' -> forallb ws w = true ->
    (buf' = [] \/ exists i rest, todo = i :: rest /\ sk ++ w = i_ws i /\ buf' ++ future = i_text i ++ body rest /\ length buf' <= length (i_text i) /\ (length buf' = length (i_text i) -> is_atom (i_d i) = true)) ->
    outcome todo sk buf future RETRY sp buf'
| o_end sp u : todo = [] -> u ++ future = [chr 10] -> outcome todo sk buf future END_ sp u
| o_value i rest sp u : todo = i :: rest -> scanned sp u -> p_depth sp = 1 -> sk ++ buf = item_bytes i ++ u -> u ++ future = body rest -> length u < length buf ->
    outcome todo sk buf future (i_d i) sp u.
Lemma sexp_read_spec todo sk buf future sp : Forall ok todo -> Forall spaced (tl todo) -> forallb ws sk = true -> sk ++ buf ++ future = body todo -> scanned sp buf -> p_depth sp = 1 ->
  exists d sp' buf', sexp_read sp buf = Some (d, sp', buf') /\ outcome todo sk buf future d sp' buf'.
Proof.
  intros O Sd Wk E Sc Dp. unfold sexp_read. apply scanned_drop in Sc. destruct (drop_split ws buf) as (w & Eb & Ww). assert (Hd := drop_head ws buf).
  set (buf1 := dropwhile ws buf) in *. clearbody buf1. subst buf. rewrite <- app_assoc in E.
  destruct buf1 as [|c buf1].
  { eexists _, _, _. split; [reflexivity|]. rewrite app_nil_r. eapply o_retry with (w := w); eauto. now rewrite app_nil_r. }
  assert (Wkw : forallb ws (sk ++ w) = true) by now rewrite forallb_app, Wk, Ww.
  rewrite (app_assoc sk) in E. cbn [app] in E.
  destruct todo as [|i rest].
  { change (body []) with ([] ++ [")"%char; chr 10]) in E. apply ws_align in E as (E1 & E); [|exact Wkw|reflexivity|exact Hd|reflexivity]. injection E as -> E.
    change (beq ")" ")") with true. cbn iota. rewrite Dp. eexists _, _, _. split; [reflexivity|]. now apply o_end. }
  unfold body in E. rewrite texts_cons in E. rewrite <- !app_assoc in E. fold (body rest) in E. rewrite (app_assoc sk) in E.
  inversion O as [|? ? (Oi & Ot) O']; subst. destruct (text_head _ _ Ot) as (h & tl_ & Et & Hw & Hp).
  apply ws_align in E as (E1 & E); [|exact Wkw|exact Oi|exact Hd|rewrite Et; exact Hw].
  assert (c = h) by (rewrite Et in E; now injection E). subst h. rewrite Hp.
  destruct (body_delimited rest O' Sd) as (dc & dt & Eb & Dc).
  (* how much of the text is there *)
  assert (Cases : (exists u, c :: buf1 = i_text i ++ u /\ u ++ future = body rest) \/ (exists y, i_text i = (c :: buf1) ++ y /\ y <> [] /\ future = y ++ body rest)).
  { change (c :: buf1 ++ future) with ((c :: buf1) ++ future) in E. apply app_eq_app in E as (l & [(X1 & X2)|(X1 & X2)]).
    - left. exists l. auto.
    - destruct l as [|a l]; [left; exists []; rewrite app_nil_r in *; cbn in X2; auto|]. right. exists (a :: l). repeat split; auto. discriminate. }
  assert (R1 : forall u, c :: buf1 = i_text i ++ u -> u ++ future = body rest -> el_read (c :: buf1) = Value (i_d i) u).
  { intros u X1 X2. rewrite X1. unfold el_read. rewrite (proj1 reads_text _ _ Ot [] u); [reflexivity|]. destruct u as [|a u]; [right; now left|]. right. right. exists a, u. split; [reflexivity|].
    cbn in X2. rewrite Eb in X2. injection X2 as -> _. exact Dc. }
  assert (R2 : forall y, i_text i = (c :: buf1) ++ y -> y <> [] -> is_atom (i_d i) = false -> el_read (c :: buf1) = Eof).
  { intros y X1 X2 A. assert (F : el_read ((c :: buf1) ++ y) = Value (i_d i) []). { rewrite <- X1. rewrite <- (app_nil_r (i_text i)). unfold el_read. rewrite (proj1 reads_text _ _ Ot [] []); [reflexivity|now left]. }
    assert (Ly : 0 < length y) by (destruct y; [now destruct X2|cbn; lia]).
    assert (C : c = "("%char \/ c = chr 34). { destruct (i_d i) eqn:D; try discriminate A; [apply string_text in Ot|apply list_text in Ot]; destruct Ot as (t & Ot); rewrite Ot in Et; injection Et; auto. }
    unfold el_read in *. cbn [app rd step] in *. destruct C; subst c.
    - change (between_step [] "(") with (Next (Between [[]])) in *. cbn iota in *. eapply rd_prefix; [|exact F|]; [exact I|exact Ly].
    - change (between_step [] (chr 34)) with (Next (Strg [] [])) in *. cbn iota in *. eapply rd_prefix; [|exact F|]; [exact I|exact Ly]. }
  assert (Full : forall u sp', c :: buf1 = i_text i ++ u -> u ++ future = body rest -> scanned sp' u -> p_depth sp' = 1 -> outcome (i :: rest) sk (w ++ c :: buf1) future (i_d i) sp' u).
  { intros u sp' X1 X2 S' D'. eapply o_value; eauto. { rewrite app_assoc, E1, X1. unfold item_bytes. now rewrite <- app_assoc. } rewrite X1, Et. cbn. rewrite !app_length. cbn. rewrite app_length. lia. }
  assert (Part : forall sp', scanned sp' (c :: buf1) -> p_depth sp' = 1 -> length (c :: buf1) <= length (i_text i) -> (length (c :: buf1) = length (i_text i) -> is_atom (i_d i) = true) -> outcome (i :: rest) sk (w ++ c :: buf1) future RETRY sp' (c :: buf1)).
  { intros sp' S' D' L1 L2. eapply o_retry with (w := w); eauto. right. exists i, rest. repeat split; auto. }
  destruct (beq c "(") eqn:Ep.
  - apply beq_eq in Ep. subst c. assert (A : is_atom (i_d i) = false).
    { destruct (is_atom (i_d i)) eqn:A; [|reflexivity]. destruct (dprints_atom _ _ Ot A) as (? & ? & X & S & _). rewrite Et in X. injection X as <- <-. rewrite Et in S. discriminate S. }
    assert (New : scan (match p_partial sp with Some st => st | None => scan_init end) (skipn (match p_pos sp with Some n => n | None => 0 end) ("("%char :: buf1)) = scan scan_init ("("%char :: buf1)).
    { destruct Sc as [(-> & ->)|(x & y & X & -> & -> & P)]; [reflexivity|]. rewrite X, skipn_app, skipn_all, Nat.sub_diag. cbn [skipn app]. apply (scan_app ("("%char :: x)). lia. }
    rewrite New. clear New. assert (SL := scan_list buf1). destruct Cases as [(u & X1 & X2)|(y & X1 & X2 & X3)].
    + rewrite (R1 u X1 X2) in *. rewrite SL. change (Z.ltb 0 0) with false. change (Z.eqb 0 0) with true. cbn iota.
      destruct (p_partial sp) eqn:P.
      * eexists _, _, _. split; [reflexivity|]. apply Full; auto. now left.
      * eexists _, _, _. split; [reflexivity|]. apply Full; auto. destruct Sc as [Sc|(x & y & _ & _ & Q & _)]; [now left|congruence].
    + rewrite (R2 y X1 X2 A) in *. assert (Z1 : Z.ltb (sc_depth (scan scan_init ("("%char :: buf1))) 0 = false) by (apply Z.ltb_ge; lia). assert (Z2 : Z.eqb (sc_depth (scan scan_init ("("%char :: buf1))) 0 = false) by (apply Z.eqb_neq; lia).
      rewrite Z1, Z2. eexists _, _, _. split; [destruct (p_partial sp); reflexivity|]. assert (Ly : 0 < length y) by (destruct y; [now destruct X2|cbn; lia]). apply Part; cbn [p_depth]; auto.
      * right. exists buf1, []. cbn [p_pos p_partial]. rewrite app_nil_r. repeat split; auto.
      * rewrite X1, app_length. lia.
      * rewrite X1, app_length. lia.
  - assert (Scn : p_pos sp = None /\ p_partial sp = None) by (destruct Sc as [Sc|(x & y & X & _)]; [exact Sc|]; injection X as -> _; discriminate Ep).
    assert (Sn : forall b, scanned sp b) by (intros; left; exact Scn).
    destruct Cases as [(u & X1 & X2)|(y & X1 & X2 & X3)].
    + rewrite (R1 u X1 X2). destruct (is_atom (i_d i)) eqn:A.
      * destruct u as [|a u].
        -- exists RETRY, sp, (c :: buf1). split; [destruct (i_d i); try discriminate A; reflexivity|]. rewrite app_nil_r in X1. apply Part; auto; rewrite X1; auto.
        -- exists (i_d i), sp, (a :: u). split; [destruct (i_d i); reflexivity|]. now apply Full.
      * exists (i_d i), sp, u. split; [|now apply Full]. destruct (i_d i) eqn:D; try discriminate A; [reflexivity|]. apply list_text in Ot as (t & Ot). rewrite Ot in Et. injection Et as <- _. discriminate Ep.
    + assert (Ly : 0 < length y) by (destruct y; [now destruct X2|cbn; lia]). destruct (is_atom (i_d i)) eqn:A.
      * destruct (dprints_atom _ _ Ot A) as (c0 & tok & X & S & At). rewrite X1, forallb_app in S. apply andb_true_iff in S as (S & _). cbn in S. apply andb_true_iff in S as (S1 & S2).
        assert (R : el_read (c :: buf1) = Value (atom_of (c :: buf1)) []).
        { unfold el_read. cbn [rd step]. rewrite (symbol_start c S1). assert (Q := rd_atom buf1 [] [c] [] S2). rewrite app_nil_r in Q. rewrite Q. cbn [rd]. now rewrite rev_app_distr, rev_involutive. }
        rewrite R. assert (N : match atom_of (c :: buf1) with DStr _ | DList _ => False | _ => True end). { unfold atom_of. destruct (beq c ":"); [exact I|]. destruct (read_number (c :: buf1)) as [(z, [|])|]; exact I. }
        exists RETRY, sp, (c :: buf1). split; [destruct (atom_of (c :: buf1)); try (now destruct N); reflexivity|]. apply Part; auto; rewrite X1, app_length; lia.
      * rewrite (R2 y X1 X2 eq_refl). eexists _, _, _. split; [reflexivity|]. apply Part; auto; rewrite X1, app_length; lia.
Qed.

(** Received: [t]; still to come: [future]. *)
Section Stream.
Context (its : list item).
Definition whole : bytes := "("%char :: body its.
Hypothesis its_ok : Forall ok its.
Hypothesis its_spaced : Forall spaced (tl its).
(** What is to come does not start within what could be read already. *)
Definition settled (todo : list item) (sk buf future : bytes) : Prop :=
  buf = [] \/ exists i rest, todo = i :: rest /\ sk = i_ws i /\ buf ++ future = i_text i ++ body rest /\ length buf <= length (i_text i) /\ (length buf = length (i_text i) -> is_atom (i_d i) = true).
Definition inlist (st : stream) (t future : bytes) (done todo : list item) (sk : bytes) : Prop :=
  e_state st = LResult /\ its = done ++ todo /\ e_results st = map i_d done /\ t = "("%char :: texts done ++ sk ++ e_buf st /\ forallb ws sk = true /\
  sk ++ e_buf st ++ future = body todo /\ scanned (e_parser st) (e_buf st) /\ p_depth (e_parser st) = 1.
Definition atend (st : stream) (future : bytes) : Prop := e_state st = LEnd /\ e_results st = map i_d its /\ e_buf st = [] /\ (future = [] \/ future = [chr 10]).
Definition waits (st : stream) (t future : bytes) : Prop :=
  (st = stream_init /\ t = [] /\ future = whole) \/
  (exists done todo sk, inlist st t future done todo sk /\ settled todo sk (e_buf st) future) \/
  atend st future.
Lemma tl_app_spaced (done todo : list item) : its = done ++ todo -> Forall ok todo /\ Forall spaced (tl todo).
Proof.
  intros E. rewrite E in *. apply Forall_app in its_ok as (_ & O). split; [exact O|]. destruct done as [|i done]; [exact its_spaced|]. cbn in its_spaced. apply Forall_app in its_spaced as (_ & S). destruct todo; [constructor|]. now inversion S.
Qed.
Lemma end_loop fuel sp buf res future : 1 <= fuel -> (buf ++ future = [chr 10] \/ buf ++ future = []) -> res = map i_d its ->
  exists st', parse_loop fuel {| e_parser := sp; e_state := LEnd; e_buf := buf; e_results := res |} = Some st' /\ atend st' future.
Proof.
  intros L E R. destruct fuel as [|f]; [lia|]. cbn [parse_loop e_state e_buf e_parser e_results]. assert (C : (buf = [] \/ buf = [chr 10]) /\ (future = [] \/ future = [chr 10])).
  { destruct buf as [|a [|b buf]]; cbn in E.
    - split; [now left|]. tauto.
    - destruct E as [E|E]; [injection E as -> ->; auto|discriminate].
    - destruct E; discriminate. }
  destruct C as ([-> | ->] & F); (eexists; split; [reflexivity|]); repeat split; auto.
Qed.
Lemma list_loop fuel : forall st t future done todo sk, inlist st t future done todo sk -> length (e_buf st) + 2 <= fuel ->
  exists st', parse_loop fuel st = Some st' /\ waits st' t future.
Proof.
  induction fuel as [|f IH]; intros st t future done todo sk (Es & Ei & Er & Et & Wk & Eb & Sc & Dp) L; [lia|].
  destruct (tl_app_spaced done todo Ei) as (O & Sd). cbn [parse_loop]. rewrite Es.
  destruct (sexp_read_spec todo sk (e_buf st) future (e_parser st) O Sd Wk Eb Sc Dp) as (d & sp' & buf' & -> & Oc).
  destruct Oc as [sp' w buf' S' D' Ew Ww Hs|sp' u -> Eu|i rest sp' u -> S' D' E1 E2 Lu].
  - change (is_sym RETRY "retry") with true. cbn iota. eexists. split; [reflexivity|]. right. left. exists done, todo, (sk ++ w).
    split.
    + unfold inlist. cbn [e_state e_results e_buf e_parser]. rewrite forallb_app, Wk, Ww. repeat split; auto.
      * rewrite Et, Ew. now rewrite <- app_assoc.
      * rewrite Ew in Eb. now rewrite <- !app_assoc in *.
    + unfold settled. cbn [e_buf]. exact Hs.
  - change (is_sym END_ "retry") with false. change (is_sym END_ "end") with true. cbn iota. rewrite app_nil_r in Ei. subst done.
    destruct (end_loop f sp' u (e_results st) future ltac:(lia) (or_introl Eu) Er) as (st' & E & A). exists st'. split; [exact E|]. right. now right.
  - inversion O as [|? ? (O1 & O2) O']; subst. rewrite (not_control (i_d i) (i_text i) "retry") by auto. rewrite (not_control (i_d i) (i_text i) "end") by auto.
    eapply (IH _ _ _ (done ++ [i]) rest []); cbn [e_buf]; [|lia].
    unfold inlist. cbn [e_state e_results e_buf e_parser app]. repeat split; auto.
    + now rewrite <- app_assoc.
    + rewrite Er, map_app. reflexivity.
    + f_equal. rewrite texts_app, <- app_assoc. f_equal. unfold texts. cbn. rewrite app_nil_r. exact E1.
Qed.
Lemma filter_step st t chunk future : waits st t (chunk ++ future) -> exists st', process_filter st chunk = Some st' /\ waits st' (t ++ chunk) future.
Proof.
  unfold process_filter. intros [(-> & -> & E)|[(done & todo & sk & (Es & Ei & Er & Et & Wk & Eb & Sc & Dp) & _)|(Es & Er & Eb & Ef)]].
  - cbn [stream_init e_buf e_state e_parser e_results app]. destruct chunk as [|c chunk].
    + cbn in *. eexists. split; [reflexivity|]. left. auto.
    + injection E as -> E. cbn [length Nat.add]. cbn [parse_loop e_state e_buf e_parser e_results]. unfold sexp_begin_list. change (dropwhile ws ("("%char :: chunk)) with ("("%char :: chunk). cbn iota. change (beq "(" "(") with true. cbn iota.
      eapply (list_loop _ _ _ _ [] its []); cbn [e_buf]; [|lia]. unfold inlist. cbn [e_state e_results e_buf e_parser app]. repeat split; auto. now left.
  - rewrite Es, Er. eapply (list_loop _ _ _ _ done todo sk); cbn [e_buf]; [|lia]. unfold inlist. cbn [e_state e_results e_buf e_parser]. repeat split; auto.
    + rewrite Et. cbn. now rewrite <- !app_assoc.
    + now rewrite <- !app_assoc.
    + now apply scanned_more.
  - rewrite Es, Er, Eb. cbn [app]. destruct (end_loop (length chunk + 3) (e_parser st) chunk (map i_d its) future ltac:(lia)) as (st' & E & A); [tauto|reflexivity|]. exists st'. split; [exact E|]. right. now right.
Qed.
Lemma filter_waits chunks : forall st t future, waits st t (concat chunks ++ future) -> exists st', filter_all st chunks = Some st' /\ waits st' (t ++ concat chunks) future.
Proof.
  induction chunks as [|c chunks IH]; intros st t future H; cbn [filter_all concat] in *.
  - rewrite app_nil_r. eauto.
  - rewrite <- app_assoc in H. destruct (filter_step st t c _ H) as (st1 & -> & H1). destruct (IH _ _ _ H1) as (st2 & E & H2). exists st2. split; [exact E|]. now rewrite app_assoc.
Qed.
Lemma body_not_ws l s : forallb ws s = true -> s <> body l.
Proof. intros W ->. unfold body in W. rewrite forallb_app in W. apply andb_true_iff in W as (_ & W). discriminate W. Qed.
Lemma waits_end st : waits st whole [] -> e_state st = LEnd /\ e_results st = map i_d its /\ e_buf st = [].
Proof.
  intros [(_ & E & _)|[(done & todo & sk & (Es & Ei & Er & Et & Wk & Eb & Sc & Dp) & Sd)|(Es & Er & Eb & _)]]; [discriminate| |auto].
  exfalso. rewrite app_nil_r in Eb. destruct Sd as [E|(i & rest & -> & -> & E & L & _)].
  - rewrite E, app_nil_r in Eb. exact (body_not_ws todo sk Wk Eb).
  - rewrite app_nil_r in E. rewrite E, app_length in L. unfold body in L. rewrite app_length in L. cbn in L. lia.
Qed.
(** Everything of which a character more than its text has arrived is delivered. *)
Lemma waits_prompt st t future its1 its2 : waits st t future -> its = its1 ++ its2 -> length ("("%char :: texts its1) < length t -> exists l, e_results st = map i_d its1 ++ l.
Proof.
  intros [(_ & -> & _)|[(done & todo & sk & (Es & Ei & Er & Et & Wk & Eb & Sc & Dp) & Sd)|(Es & Er & _)]] E L; [cbn in L; lia| |exists (map i_d its2); now rewrite Er, E, map_app].
  rewrite Er. rewrite Ei in E. apply app_eq_app in E as (l & [(X1 & X2)|(X1 & X2)]); [subst done; rewrite map_app; eauto|].
  subst its1 todo. assert (L2 : length (sk ++ e_buf st) <= length (texts l) \/ l = []).
  { destruct l as [|i l]; [now right|]. left. cbn [app] in *. destruct Sd as [B|(i' & rest & X & -> & B & Lb & _)].
    - rewrite B, app_nil_r. rewrite B in Eb. unfold body in Eb. rewrite texts_cons in Eb. rewrite <- !app_assoc in Eb. destruct (tl_app_spaced done (i :: l ++ its2) Ei) as (O & _). inversion O as [|? ? (O1 & O2) _]; subst.
      destruct (text_head _ _ O2) as (h & tl_ & Et' & Hw & _). rewrite Et' in Eb. rewrite texts_cons. rewrite !app_length. cbn [app] in Eb.
      assert (length sk <= length (i_ws i)); [|lia]. clear - Wk Eb Hw. revert Wk Eb. generalize (i_ws i). generalize (tl_ ++ texts (l ++ its2) ++ [")"%char; chr 10]). intros r w. revert w. induction sk as [|a sk IH]; intros w W E; [cbn; lia|]. destruct w as [|b w]; cbn in *.
      + injection E as -> _. apply andb_true_iff in W as (W & _). congruence.
      + injection E as -> E. apply andb_true_iff in W as (_ & W). specialize (IH w W E). lia.
    - injection X as <- <-. rewrite texts_cons, !app_length. lia. }
  destruct L2 as [L2| ->].
  - exfalso. rewrite Et in L. cbn [length] in L. rewrite texts_app, !app_length in L. rewrite app_length in L2. lia.
  - exists []. now rewrite !app_nil_r.
Qed.
Lemma ws_short sk w c r r' : forallb ws sk = true -> ws c = false -> sk ++ r' = w ++ c :: r -> r' = [] -> False.
Proof. intros W C E ->. rewrite app_nil_r in E. subst sk. rewrite forallb_app in W. cbn in W. rewrite C in W. now destruct (forallb ws w). Qed.
Lemma waits_prompt_closed st t future its1 i its2 : waits st t future -> its = (its1 ++ [i]) ++ its2 -> is_atom (i_d i) = false -> length ("("%char :: texts (its1 ++ [i])) <= length t ->
  exists l, e_results st = map i_d (its1 ++ [i]) ++ l.
Proof.
  intros H E A L. destruct (Nat.eq_dec (length ("("%char :: texts (its1 ++ [i]))) (length t)) as [Q|Q]; [|eapply waits_prompt; eauto; lia].
  destruct H as [(_ & -> & _)|[(done & todo & sk & (Es & Ei & Er & Et & Wk & Eb & Sc & Dp) & Sd)|(Es & Er & _)]]; [cbn in L; lia| |exists (map i_d its2); now rewrite Er, E, map_app].
  rewrite Er. assert (E0 := E). rewrite Ei in E. apply app_eq_app in E as (l & [(X1 & X2)|(X1 & X2)]); [subst done; rewrite map_app; eauto|].
  destruct l as [|j l]; [exists []; rewrite app_nil_r in X1; now rewrite X1, app_nil_r|]. exfalso.
  assert (LT : length (sk ++ e_buf st) = length (texts (j :: l))).
  { rewrite Et, X1 in Q. cbn [length] in Q. rewrite texts_app, !app_length in Q. rewrite app_length. lia. }
  destruct (tl_app_spaced done todo Ei) as (O & _). rewrite X2 in O. cbn [app] in O.
  inversion O as [|? ? (O1 & O2) O']; subst. destruct (text_head _ _ O2) as (h & tl_ & Et' & Hw & _).
  rewrite texts_cons, !app_length in LT.
  assert (Ljl : texts l = [] -> l = []).
  { destruct l as [|k l]; [reflexivity|]. intros X. cbn [app] in O'. inversion O' as [|? ? (_ & O3) _]; subst. destruct (text_head _ _ O3) as (? & ? & Z & _). rewrite texts_cons, Z in X. destruct (i_ws k); discriminate X. }
  destruct Sd as [B|(i' & rest & X & -> & B & Lb & Lc)].
  - rewrite B in *. cbn [app length] in *. unfold body in Eb. rewrite texts_cons in Eb. rewrite Et' in *. cbn [length] in LT. rewrite <- !app_assoc in Eb. cbn [app] in Eb.
    assert (length sk <= length (i_ws j)); [|lia]. clear - Wk Eb Hw. revert Eb. generalize (i_ws j). generalize (tl_ ++ texts (l ++ its2) ++ [")"%char; chr 10]). intros r w. revert w. induction sk as [|a sk IH]; intros w E; [cbn; lia|]. cbn in Wk. apply andb_true_iff in Wk as (W1 & W2). destruct w as [|b w]; cbn in *.
    + injection E as -> _. congruence.
    + injection E as -> E. specialize (IH W2 w E). lia.
  - injection X as <- <-. assert (texts l = []) by (apply length_zero_iff_nil; lia). rewrite (Ljl H) in *. cbn in X1.
    assert (i = j) by (apply (app_inj_tail its1 done i j) in X1; tauto). subst j. rewrite Lc in A by (cbn in LT; lia). discriminate.
Qed.
End Stream.
