(** Folder names and folder creation. *)
From Verif Require Import Bytes StrUtil StrUtilProofs Fs Insert InsertSpec.
Local Open Scope nat_scope.

Lemma not_in_forallb s : ~ In SL s -> forallb (fun c => negb (beq c SL)) s = true.
Proof. intros H. apply forallb_forall. intros x Hx. destruct (beq_spec x SL) as [->|]; [contradiction|reflexivity]. Qed.
Lemma to_slash s r : ~ In SL s -> dropwhile (fun c => negb (beq c SL)) (s ++ SL :: r) = SL :: r.
Proof. intros H. induction s as [|c s IH]; [reflexivity|]. cbn [app dropwhile]. destruct (beq_spec c SL) as [->|]; [exfalso; apply H; now left|]. cbn. apply IH. intros X. apply H. now right. Qed.
Lemma no_slash s : ~ In SL s -> dropwhile (fun c => negb (beq c SL)) s = [].
Proof. intros H. apply dropwhile_forall, not_in_forallb, H. Qed.
Definition dotdot : bytes := lit "..".
(** The test at the start of a component. *)
Definition is_dotdot (p : bytes) : bool := match p with c0 :: c1 :: r => beq c0 "." && beq c1 "." && (beq (peek r) NUL || beq (peek r) SL) | _ => false end.
Lemma valid_from_eq fuel p : valid_from (S fuel) p = if is_dotdot p then false else match dropwhile (fun c => negb (beq c SL)) p with [] => true | _ :: p => valid_from fuel p end.
Proof. destruct p as [|c0 [|c1 r]]; reflexivity. Qed.
Lemma is_dotdot_spec s r : ~ In SL s -> cstr s -> (r = [] \/ exists t, r = SL :: t) -> is_dotdot (s ++ r) = bseq s dotdot.
Proof.
  intros Hs Hc Hr. assert (Pr : beq (peek r) NUL || beq (peek r) SL = true) by (destruct Hr as [->|(t & ->)]; reflexivity).
  destruct s as [|c0 [|c1 [|c2 s]]].
  - destruct Hr as [->|(t & ->)]; [reflexivity|]. cbn. destruct t; reflexivity.
  - destruct Hr as [->|(t & ->)]; cbn; [now rewrite andb_false_r|]. rewrite !andb_false_r. reflexivity.
  - cbn [app is_dotdot]. rewrite Pr, andb_true_r. cbn. now rewrite andb_true_r.
  - cbn [app is_dotdot peek]. replace (beq c2 NUL || beq c2 SL) with false; [cbn; now rewrite !andb_false_r|].
    symmetry. apply orb_false_iff. split; apply beq_neq.
    + apply (cstr_In _ c2 Hc). cbn. auto.
    + intros ->. apply Hs. cbn. auto.
Qed.
Lemma valid_spec s l : components s l -> cstr s -> forall fuel, length s < fuel -> valid_from fuel s = forallb (fun c => negb (bseq c dotdot)) l.
Proof.
  induction 1 as [s Hs|s r l Hs Hr IH]; intros Hc [|fuel] Hf; try (cbn in Hf; lia); rewrite valid_from_eq.
  - pose proof (is_dotdot_spec s [] Hs Hc (or_introl eq_refl)) as D. rewrite app_nil_r in D. rewrite D, (no_slash s Hs). cbn [forallb]. now destruct (bseq s dotdot).
  - change (s ++ "/"%char :: r) with (s ++ SL :: r) in *. apply cstr_app in Hc as [Hc1 Hc2]. apply cstr_cons in Hc2 as [_ Hc2]. rewrite (is_dotdot_spec s (SL :: r) Hs Hc1 (or_intror (ex_intro _ r eq_refl))).
    rewrite (to_slash s r Hs). cbn [forallb]. destruct (bseq s dotdot); cbn; [reflexivity|]. apply IH; [exact Hc2|]. rewrite app_length in Hf. cbn in Hf. lia.
Qed.
Lemma split_components s : components s (split_slash [] s).
Proof.
  assert (A : forall s acc, ~ In SL acc -> components (acc ++ s) (split_slash acc s)).
  { clear. intros s. induction s as [|c s IH]; intros acc H; cbn [split_slash].
    - rewrite app_nil_r. now constructor.
    - destruct (beq_spec c SL) as [->|N]; [apply (comp_cons acc s _ H), (IH []); intros []|].
      replace (acc ++ c :: s) with ((acc ++ [c]) ++ s) by (rewrite <- app_assoc; reflexivity). apply IH. intros X. apply in_app_or in X as [X|[X|[]]]; auto. }
  apply (A s []). intros [].
Qed.
Lemma components_exists s : exists l, components s l.
Proof. eexists. apply split_components. Qed.
Lemma first_slash a b r r' : a ++ SL :: r = b ++ SL :: r' -> ~ In SL a -> ~ In SL b -> a = b /\ r = r'.
Proof.
  revert b. induction a as [|c a IH]; intros [|d b] H Ha Hb; cbn in H.
  - injection H as ->. auto.
  - injection H as <- H. exfalso. apply Hb. now left.
  - injection H as -> H. exfalso. apply Ha. now left.
  - injection H as <- H. destruct (IH b H) as [-> ->]; [intros X; apply Ha; now right|intros X; apply Hb; now right|]. auto.
Qed.
Lemma components_unique s l : components s l -> forall l', components s l' -> l = l'.
Proof.
  induction 1 as [s Hs|s r l Hs Hr IH]; intros l' H'.
  - inversion H' as [s' _ E|s' r' l'' Hs' Hr' E]; [reflexivity|]. subst. exfalso. apply Hs. apply in_or_app. right. now left.
  - inversion H' as [s' Hs' E|s' r' l'' Hs' Hr' E]; subst.
    + exfalso. apply Hs'. apply in_or_app. right. now left.
    + change ("/"%char) with SL in E. apply first_slash in E as [-> ->]; auto. f_equal. auto.
Qed.
Lemma components_app a la : components a la -> forall b lb, components b lb -> components (a ++ SL :: b) (la ++ lb).
Proof.
  induction 1 as [s Hs|s r l Hs Hr IH]; intros b lb Hb.
  - exact (comp_cons s b lb Hs Hb).
  - rewrite <- app_assoc. cbn [app]. exact (comp_cons s _ _ Hs (IH b lb Hb)).
Qed.
Lemma components_slashes a la k : components a la -> components (a ++ repeat SL k) (la ++ repeat [] k).
Proof.
  intros H. induction k as [|k IH] in a, la, H |- *; cbn; [now rewrite !app_nil_r|].
  replace (a ++ SL :: repeat SL k) with ((a ++ [SL]) ++ repeat SL k) by (rewrite <- app_assoc; reflexivity).
  replace (la ++ [] :: repeat [] k) with ((la ++ [[]]) ++ repeat [] k) by (rewrite <- app_assoc; reflexivity).
  apply IH. apply (components_app a la H [] [[]]). constructor. intros [].
Qed.
Lemma walk_app a : forall f b, walk f (a ++ b) = walk (walk f a) b.
Proof. induction a as [|c a IH]; intros f b; cbn; [reflexivity|]. apply IH. Qed.
Lemma walk_empties k : forall f, walk f (repeat [] k) = f.
Proof. induction k as [|k IH]; intros f; cbn; auto. Qed.
Lemma walk_down l : forall f, ~ In dotdot l -> exists sub, walk f l = f ++ sub.
Proof.
  induction l as [|c l IH]; intros f H; cbn [walk]; [exists []; now rewrite app_nil_r|].
  assert (Hl : ~ In dotdot l) by (intros X; apply H; now right).
  destruct (bseq_spec c []); [now apply IH|]. destruct (bseq_spec c (lit ".")); [now apply IH|]. destruct (bseq_spec c (lit "..")) as [->|]; [exfalso; apply H; now left|].
  destruct (IH (f ++ [c]) Hl) as (sub & E). exists (c :: sub). rewrite E, <- app_assoc. reflexivity.
Qed.
Lemma forallb_dotdot l : forallb (fun c => negb (bseq c dotdot)) l = true <-> ~ In dotdot l.
Proof.
  rewrite forallb_forall. split.
  - intros H X. specialize (H _ X). now rewrite bseq_refl in H.
  - intros H x Hx. destruct (bseq_spec x dotdot) as [->|]; [contradiction|reflexivity].
Qed.

(** ** mkdir_recursive *)
Definition real (c : bytes) : bool := negb (bseq c [] || bseq c (lit ".")).
Lemma resolve_app a b : resolve (a ++ SL :: b) = resolve a ++ resolve b.
Proof.
  unfold resolve. fold real. rewrite <- filter_app. f_equal. eapply components_unique; [apply split_components|]. apply components_app; apply split_components.
Qed.
(** [p] is [path] or an ancestor of it, textually. *)
Definition ancestor (p path : bytes) : Prop := p = path \/ exists t, path = p ++ SL :: t.
Lemma ancestor_resolve p path : ancestor p path -> exists t, resolve path = resolve p ++ t.
Proof. intros [->|(t & ->)]; [exists []; now rewrite app_nil_r|]. exists (resolve t). apply resolve_app. Qed.
Lemma last_slash s : match before_last_slash s with Some p => exists l, s = p ++ SL :: l /\ ~ In SL l | None => ~ In SL s end.
Proof.
  induction s as [|c s IH]; [intros []|]. cbn [before_last_slash]. destruct (before_last_slash s) as [p|].
  - destruct IH as (l & -> & H). exists l. auto.
  - destruct (beq_spec c SL) as [->|N]; [exists s; auto|]. intros [X|X]; auto.
Qed.
Lemma ancestor_trans p q r : ancestor p q -> ancestor q r -> ancestor p r.
Proof.
  intros [->|(t & ->)] H; [exact H|]. destruct H as [<-|(u & ->)]; right; [eauto|]. exists (t ++ SL :: u). rewrite <- app_assoc. reflexivity.
Qed.
Definition made (path : bytes) (d s : tree) : Prop := forall k, s k = d k \/ (d k = None /\ s k = Some true /\ exists p, ancestor p path /\ k = resolve p).
Lemma made_refl path d : made path d d.
Proof. intros k. auto. Qed.
Lemma made_mono p path d s : ancestor p path -> made p d s -> made path d s.
Proof. intros A H k. destruct (H k) as [E|(E1 & E2 & q & Q1 & Q2)]; [auto|]. right. split; [exact E1|]. split; [exact E2|]. exists q. split; [eapply ancestor_trans; eauto|exact Q2]. Qed.
Lemma lbseq_refl k : lbseq k k = true.
Proof. unfold lbseq. destruct (list_eq_dec bytes_eq_dec k k); congruence. Qed.
Lemma made_mkdir path d w : Forall (made path d) (tseen w) -> tnow w (resolve path) = None -> Forall (made path d) (tseen (tmkdir (resolve path) w)).
Proof.
  intros H N. unfold tseen, tmkdir in *. cbn. apply Forall_app. split; [exact H|]. constructor; [|constructor].
  assert (H1 : made path d (tnow w)) by (rewrite Forall_app in H; destruct H as [_ H]; now inversion H).
  intros k. destruct (lbseq k (resolve path)) eqn:E; [|apply H1].
  unfold lbseq in E. destruct (list_eq_dec bytes_eq_dec k (resolve path)) as [->|]; [|discriminate].
  right. destruct (H1 (resolve path)) as [X|(X & Y & _)]; [|congruence]. rewrite <- X. split; [exact N|]. split; [reflexivity|]. exists path. split; [now left|reflexivity].
Qed.
Lemma mkdir_safe fuel ok sok : forall path d w, Forall (made path d) (tseen w) ->
  let '(r, w') := mkdir_recursive fuel ok sok path w in Forall (made path d) (tseen w') /\ (r = true -> tnow w' (resolve path) = Some true).
Proof.
  induction fuel as [|fuel IH]; intros path d w H; cbn [mkdir_recursive]; [split; [exact H|discriminate]|].
  destruct (tnow w (resolve path)) as [isdir|] eqn:E; [split; [exact H|intros ->; exact E]|].
  assert (A : let '(go, hp, w1) := (match before_last_slash path with Some (c :: p) => let '(r, w) := mkdir_recursive fuel ok sok (c :: p) w in (r, true, w) | _ => (true, false, w) end) in
     Forall (made path d) (tseen w1)).
  { pose proof (last_slash path) as L. destruct (before_last_slash path) as [[|c p]|]; try exact H. destruct L as (l & EL & _).
    assert (An : ancestor (c :: p) path) by (right; eauto).
    (* the recursion creates only ancestors; states seen before are fine *)
    pose proof (IH (c :: p) (tnow w) {| tnow := tnow w; tpast := [] |} (Forall_cons _ (made_refl _ _) (Forall_nil _))) as R.
    assert (T : forall f pa w, mkdir_recursive f ok sok pa w = let '(r, w') := mkdir_recursive f ok sok pa {| tnow := tnow w; tpast := [] |} in (r, {| tnow := tnow w'; tpast := tpast w ++ tpast w' |})).
    { clear. induction f as [|f IH]; intros pa w; cbn [mkdir_recursive]; [destruct w; cbn; now rewrite app_nil_r|].
      cbn [tnow]. destruct (tnow w (resolve pa)); [destruct w; cbn; now rewrite app_nil_r|].
      assert (K : forall go hp w1 w1', tnow w1 = tnow w1' -> tpast w1 = tpast w ++ tpast w1' ->
        (if negb go then (false, w1) else match tnow w1 (resolve pa) with Some _ => (false, w1) | None => if ok pa then ((negb hp || sok pa)%bool, tmkdir (resolve pa) w1) else (false, w1) end) =
        let '(r, w') := (if negb go then (false, w1') else match tnow w1' (resolve pa) with Some _ => (false, w1') | None => if ok pa then ((negb hp || sok pa)%bool, tmkdir (resolve pa) w1') else (false, w1') end) in
        (r, {| tnow := tnow w'; tpast := tpast w ++ tpast w' |})).
      { intros go hp [n1 p1] [n1' p1'] E1 E2. cbn in E1, E2. subst. destruct go; cbn [negb tnow tpast]; [|reflexivity]. destruct (n1' (resolve pa)); [reflexivity|]. destruct (ok pa); [|reflexivity]. unfold tmkdir. cbn. now rewrite app_assoc. }
      destruct (before_last_slash pa) as [[|c p]|].
      - apply (K true false); cbn; [reflexivity|now rewrite app_nil_r].
      - rewrite (IH (c :: p) w). destruct (mkdir_recursive f ok sok (c :: p) {| tnow := tnow w; tpast := [] |}) as [r w']. apply (K r true); reflexivity.
      - apply (K true false); cbn; [reflexivity|now rewrite app_nil_r]. }
    rewrite T. destruct (mkdir_recursive fuel ok sok (c :: p) {| tnow := tnow w; tpast := [] |}) as [r w1]. destruct R as [R _]. unfold tseen in *. cbn [tnow tpast].
    rewrite Forall_app in H. destruct H as [H1 H2]. inversion H2 as [|? ? H3 _]. subst. rewrite <- app_assoc. apply Forall_app. split; [exact H1|].
    rewrite Forall_forall in *. intros s Hs k. destruct (R s Hs k) as [X|(X & Y & q & Q1 & Q2)].
    - rewrite X. apply H3.
    - destruct (H3 k) as [Z|(Z1 & Z2 & _)]; [|congruence]. right. rewrite <- Z. split; [exact X|]. split; [exact Y|]. exists q. split; [eapply ancestor_trans; eauto|exact Q2]. }
  destruct (match before_last_slash path with Some (c :: p) => _ | _ => _ end) as [[go hp] w1]. destruct go; cbn [negb]; [|split; [exact A|discriminate]].
  destruct (tnow w1 (resolve path)) eqn:E1; [split; [exact A|discriminate]|].
  destruct (ok path); [|split; [exact A|discriminate]]. split; [now apply made_mkdir|]. intros _. cbn. now rewrite lbseq_refl.
Qed.
(** Liveness, for paths without empty or "." components below the root. *)
Definition plain (path : bytes) : Prop := exists cs, path = concat (map (fun c => SL :: c) cs) /\ Forall (fun c => ~ In SL c /\ real c = true) cs.
Lemma resolve_one c : ~ In SL c -> real c = true -> resolve c = [c].
Proof. intros H R. unfold resolve. fold real. rewrite (components_unique _ _ (split_components c) [c]) by now constructor. cbn. now rewrite R. Qed.
Lemma last_slash_at a c : ~ In SL c -> before_last_slash (a ++ SL :: c) = Some a.
Proof.
  intros H. induction a as [|x a IH]; cbn.
  - replace (before_last_slash c) with (@None bytes); [reflexivity|]. pose proof (last_slash c) as L. destruct (before_last_slash c); [|reflexivity]. destruct L as (l0 & -> & _). exfalso. apply H. apply in_or_app. right. now left.
  - cbn in IH. rewrite IH. reflexivity.
Qed.
Lemma mkdir_live ok sok : (forall p, ok p = true) -> (forall p, sok p = true) -> forall cs, Forall (fun c => ~ In SL c /\ real c = true) cs -> cs <> [] -> forall path, path = concat (map (fun c => SL :: c) cs) ->
  forall fuel w, length path < fuel -> (forall p, ancestor p path -> tnow w (resolve p) <> Some false) -> fst (mkdir_recursive fuel ok sok path w) = true.
Proof.
  intros Hok Hsok cs. induction cs as [|c cs IH] using rev_ind; intros F Ne path -> fuel w Hf Hd; [congruence|].
  apply Forall_app in F as [F Fc]. apply Forall_cons_iff in Fc as [[Hc Rc] _].
  destruct fuel as [|fuel]; [lia|]. rewrite map_app, concat_app in *. cbn [map concat] in *. rewrite app_nil_r in *. set (P := concat (map (fun c => SL :: c) cs)) in *. cbn [mkdir_recursive].
  assert (Hself := Hd _ (or_introl eq_refl)).
  destruct (tnow w (resolve (P ++ SL :: c))) as [[]|] eqn:E; [reflexivity|congruence|]. rewrite (last_slash_at P c Hc).
  destruct P as [|x P'] eqn:EP.
  - cbn [negb]. rewrite E, Hok. reflexivity.
  - assert (Ncs : cs <> []) by (intros ->; discriminate).
    assert (L : length (x :: P') < fuel) by (rewrite app_length in Hf; cbn in *; lia).
    assert (D : forall p, ancestor p (x :: P') -> tnow w (resolve p) <> Some false).
    { intros p Hp. apply Hd. eapply ancestor_trans; [exact Hp|]. right. eauto. }
    pose proof (IH F Ncs (x :: P') eq_refl fuel w L D) as G.
    assert (M : Forall (made (x :: P') (tnow w)) (tseen {| tnow := tnow w; tpast := [] |})) by (constructor; [apply made_refl|constructor]).
    pose proof (mkdir_safe fuel ok sok (x :: P') (tnow w)) as Sf.
    assert (Sf' : tnow (snd (mkdir_recursive fuel ok sok (x :: P') w)) (resolve ((x :: P') ++ SL :: c)) = None).
    { (* run from the present state, without history *)
      assert (Q : forall w, (exists pst, w = {| tnow := tnow w; tpast := pst |})) by (intros []; cbn; eauto).
      assert (Fl : made (x :: P') (tnow w) (tnow (snd (mkdir_recursive fuel ok sok (x :: P') w)))).
      { assert (T : forall f pa w w', tnow w = tnow w' -> tnow (snd (mkdir_recursive f ok sok pa w)) = tnow (snd (mkdir_recursive f ok sok pa w')) /\ fst (mkdir_recursive f ok sok pa w) = fst (mkdir_recursive f ok sok pa w')).
        { clear. induction f as [|f IH]; intros pa w w' Ew; cbn [mkdir_recursive]; [auto|]. rewrite Ew. destruct (tnow w' (resolve pa)); [auto|].
          assert (K : forall go hp w1 w1', tnow w1 = tnow w1' ->
             tnow (snd (if negb go then (false, w1) else match tnow w1 (resolve pa) with Some _ => (false, w1) | None => if ok pa then ((negb hp || sok pa)%bool, tmkdir (resolve pa) w1) else (false, w1) end)) =
             tnow (snd (if negb go then (false, w1') else match tnow w1' (resolve pa) with Some _ => (false, w1') | None => if ok pa then ((negb hp || sok pa)%bool, tmkdir (resolve pa) w1') else (false, w1') end)) /\
             fst (if negb go then (false, w1) else match tnow w1 (resolve pa) with Some _ => (false, w1) | None => if ok pa then ((negb hp || sok pa)%bool, tmkdir (resolve pa) w1) else (false, w1) end) =
             fst (if negb go then (false, w1') else match tnow w1' (resolve pa) with Some _ => (false, w1') | None => if ok pa then ((negb hp || sok pa)%bool, tmkdir (resolve pa) w1') else (false, w1') end)).
          { intros go hp w1 w1' E1. destruct go; cbn [negb]; [|auto]. rewrite E1. destruct (tnow w1' (resolve pa)); [auto|]. destruct (ok pa); [|auto]. unfold tmkdir. cbn. now rewrite E1. }
          destruct (before_last_slash pa) as [[|c p]|]; try (apply K; assumption).
          destruct (IH (c :: p) w w' Ew) as [I1 I2]. destruct (mkdir_recursive f ok sok (c :: p) w) as [r w1], (mkdir_recursive f ok sok (c :: p) w') as [r' w1']. cbn in I1, I2. subst. apply K. exact I1. }
        destruct (T fuel (x :: P') w {| tnow := tnow w; tpast := [] |} eq_refl) as [-> _]. specialize (Sf _ M). destruct (mkdir_recursive fuel ok sok (x :: P') {| tnow := tnow w; tpast := [] |}) as [r w1]. destruct Sf as [Sf _]. cbn [snd]. unfold tseen in Sf. rewrite Forall_app in Sf. destruct Sf as [_ Sf]. now inversion Sf. }
      destruct (Fl (resolve ((x :: P') ++ SL :: c))) as [X|(_ & _ & p & A & Ep)]; [now rewrite X|].
      exfalso. apply ancestor_resolve in A as (t & A). rewrite (resolve_app (x :: P') c), (resolve_one c Hc Rc) in Ep. apply (f_equal (@length _)) in A, Ep. rewrite app_length in A, Ep. cbn in *. lia. }
    destruct (mkdir_recursive fuel ok sok (x :: P') w) as [r w1]. cbn [fst snd] in *. subst r. cbn [negb]. rewrite Sf', Hok, Hsok. reflexivity.
Qed.
