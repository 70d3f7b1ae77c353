(** Invariants of the lifetimes of objects in the Python bindings. *)
From Verif Require Import PyLife PyLifeSpec.
From Coq Require Import Arith Bool List Lia.
Import ListNotations.
Local Open Scope nat_scope.

(** ** Memory *)
Inductive under (h : heap) : block -> block -> Prop :=
| u_self b : under h b b
| u_up b p c : h b = Some (Some p) -> under h p c -> under h b c.
Definition okheap (h : heap) (n : block) : Prop := forall b pa, h b = Some pa -> b < n /\ match pa with Some p => p < b /\ h p <> None | None => True end.
Lemma above_under h n (H : okheap h n) c : forall f b, b <= f -> (above f h b c = true <-> under h b c).
Proof.
  induction f as [|f IH]; intros b L; cbn [above].
  - rewrite orb_false_r. split; [intros E; apply Nat.eqb_eq in E; subst; constructor|]. intros U. inversion U; subst; [apply Nat.eqb_refl|].
    destruct (H _ _ H0) as [_ [X _]]. lia.
  - destruct (Nat.eqb_spec b c) as [->|N]; cbn [orb]; [split; auto; constructor|].
    destruct (h b) as [[p|]|] eqn:E.
    + destruct (H _ _ E) as [_ [X _]]. rewrite IH by lia. split; [now apply u_up|]. intros U. inversion U; subst; [contradiction|]. congruence.
    + split; [discriminate|]. intros U. inversion U; subst; [contradiction|congruence].
    + split; [discriminate|]. intros U. inversion U; subst; [contradiction|congruence].
Qed.
Lemma free_spec h n (H : okheap h n) c b : (under h b c -> talloc_free h c b = None) /\ (~ under h b c -> talloc_free h c b = h b).
Proof.
  unfold talloc_free. destruct (above b h b c) eqn:E.
  - apply (above_under h n H) in E; [|lia]. split; [reflexivity|contradiction].
  - split; [|reflexivity]. intros U. apply (above_under h n H c b b (le_n b)) in U. congruence.
Qed.
Lemma free_some h n (H : okheap h n) c b pa : talloc_free h c b = Some pa -> h b = Some pa /\ ~ under h b c.
Proof.
  intros E. unfold talloc_free in E. destruct (above b h b c) eqn:A; [discriminate|]. split; [exact E|]. intros U. apply (above_under h n H c b b (le_n b)) in U. congruence.
Qed.
Lemma free_ok h n (H : okheap h n) c : okheap (talloc_free h c) n.
Proof.
  intros b pa E. apply (free_some h n H) in E as [E U]. destruct (H b pa E) as [L P]. split; [exact L|]. destruct pa as [p|]; [|exact Logic.I]. destruct P as [P1 P2]. split; [exact P1|].
  rewrite (proj2 (free_spec h n H c p)); [exact P2|]. intros V. apply U. now apply u_up with p.
Qed.
Lemma free_under h n (H : okheap h n) c b d : under (talloc_free h c) b d -> under h b d.
Proof. induction 1 as [|b p d E U IH]; [constructor|]. apply (free_some h n H) in E as [E _]. now apply u_up with p. Qed.
Lemma under_le h n (H : okheap h n) b c : under h b c -> c <= b.
Proof. induction 1 as [|b p c E U IH]; [lia|]. destruct (H _ _ E) as [_ [X _]]. lia. Qed.
Lemma under_trans h a b c : under h a b -> under h b c -> under h a c.
Proof. induction 1; auto. intros U. apply u_up with p; auto. Qed.
Lemma talloc_ok h n (H : okheap h n) o : match o with Some p => h p <> None | None => True end -> okheap (talloc h n o) (S n).
Proof.
  intros P b pa E. unfold talloc in *. destruct (Nat.eqb_spec b n) as [->|N].
  - injection E as <-. split; [lia|]. destruct o as [p|]; [|exact Logic.I]. destruct (h p) eqn:Q; [|easy]. destruct (H _ _ Q) as [L _]. split; [exact L|].
    destruct (Nat.eqb_spec p n); [lia|congruence].
  - destruct (H _ _ E) as [L Q]. split; [lia|]. destruct pa as [p|]; [|exact Logic.I]. destruct Q as [Q1 Q2]. split; [exact Q1|]. destruct (Nat.eqb_spec p n); [discriminate|exact Q2].
Qed.
Lemma talloc_under_old h n (H : okheap h n) o b c : b < n -> under (talloc h n o) b c -> under h b c.
Proof.
  intros L U. induction U as [|b p c E U IH]; [constructor|]. unfold talloc in E. destruct (Nat.eqb_spec b n); [lia|]. destruct (H _ _ E) as [_ [X _]]. apply u_up with p; [exact E|]. apply IH. lia.
Qed.
Lemma talloc_under_new h n (H : okheap h n) o c : match o with Some p => h p <> None | None => True end -> under (talloc h n o) n c -> c = n \/ exists p, o = Some p /\ under h p c.
Proof.
  intros P U. inversion U as [|b p c' E U']; subst; [now left|]. right. unfold talloc in E. rewrite Nat.eqb_refl in E. injection E as ->. exists p. split; [reflexivity|].
  destruct (h p) eqn:Q; [|easy]. destruct (H _ _ Q) as [L _]. now apply (talloc_under_old h n H (Some p)).
Qed.
Lemma up_under h k : forall b B, up k h b = Some B -> under h b B.
Proof. induction k as [|k IH]; cbn [up]; intros b B E; [injection E as <-; constructor|]. destruct (h b) as [[p|]|] eqn:Q; try discriminate. apply u_up with p; auto. Qed.
Lemma up_live h n (H : okheap h n) k : forall b B, h b <> None -> up k h b = Some B -> h B <> None.
Proof. induction k as [|k IH]; cbn [up]; intros b B L E; [injection E as <-; exact L|]. destruct (h b) as [[p|]|] eqn:Q; try discriminate. destruct (H _ _ Q) as [_ [_ X]]. now apply (IH p). Qed.
Lemma up_strict h n (H : okheap h n) k b B : up (S k) h b = Some B -> B < b.
Proof. cbn [up]. destruct (h b) as [[p|]|] eqn:Q; try discriminate. intros E. destruct (H _ _ Q) as [_ [X _]]. apply up_under, (under_le h n H) in E. lia. Qed.

(** ** Objects *)
Definition viewable (c : cls) : bool := match c with Database | Thread | Message | Owned => true | _ => false end.
(** Memory of others is put below theirs. *)
Definition shelters (c : cls) : bool := match c with Threads | ThreadMessages | Replies | Leaf | View => false | _ => true end.
Definition depth_ok (h : heap) (c : cls) (b : block) : Prop :=
  match c with
  | Database => True
  | Replies => exists p q, h b = Some (Some p) /\ h p = Some (Some q)
  | _ => exists p, h b = Some (Some p)
  end.
Record wf (s : state) : Prop := {
  wf_obj : forall x r, objs s x = Some r -> x < next_obj s;
  wf_parent : forall x r, objs s x = Some r -> match o_parent r with None => o_cls r = Database | Some p => o_cls r <> Database /\ p < x /\ exists rp, objs s p = Some rp end;
  wf_view : forall x r, objs s x = Some r -> o_cls r = View -> o_ptr r = None /\ exists p rp, o_parent r = Some p /\ objs s p = Some rp /\ viewable (o_cls rp) = true;
  wf_ptr : forall x r b, objs s x = Some r -> o_ptr r = Some b -> b < next_block s;
  wf_heap : okheap (memory s) (next_block s);
  wf_above : forall x r b o ro c, objs s x = Some r -> o_ptr r = Some b -> objs s o = Some ro -> o_ptr ro = Some c -> under (memory s) b c ->
    descends (objs s) x o /\ (x <> o -> shelters (o_cls ro) = true);
  wf_depth : forall x r b, objs s x = Some r -> o_ptr r = Some b -> memory s b <> None -> depth_ok (memory s) (o_cls r) b
}.
Lemma empty_wf : wf empty.
Proof. constructor; cbn; try discriminate; try (intros; discriminate). Qed.

Lemma descends_trans os a b c : descends os a b -> descends os b c -> descends os a c.
Proof. induction 1; auto. intros D. eapply d_up; eauto. Qed.
Lemma upd_same os o r : upd os o r o = Some r. Proof. unfold upd. now rewrite Nat.eqb_refl. Qed.
Lemma upd_other os o r x : x <> o -> upd os o r x = os x. Proof. intros N. unfold upd. destruct (Nat.eqb_spec x o); [contradiction|reflexivity]. Qed.
Lemma upd_inv os o r x rx : upd os o r x = Some rx -> (x = o /\ rx = r) \/ (x <> o /\ os x = Some rx).
Proof. unfold upd. destruct (Nat.eqb_spec x o); intros E; [left; split; congruence|right; auto]. Qed.
Lemma descends_new os o r x y : os o = None -> descends os x y -> descends (upd os o r) x y.
Proof. intros N. induction 1 as [|x rx p y E P D IH]; [constructor|]. apply d_up with rx p; auto. rewrite upd_other; [exact E|congruence]. Qed.
Lemma descends_upd os o r0 r x y : os o = Some r0 -> o_parent r = o_parent r0 -> descends os x y <-> descends (upd os o r) x y.
Proof.
  intros E P. split; induction 1 as [|x rx p y Ex Px D IH]; try constructor.
  - destruct (Nat.eq_dec x o) as [->|N]; [apply d_up with r p; [apply upd_same|congruence|exact IH]|apply d_up with rx p; [now rewrite upd_other|exact Px|exact IH]].
  - apply upd_inv in Ex as [[-> ->]|[N Ex]]; [apply d_up with r0 p; congruence|apply d_up with rx p; auto].
Qed.

Lemma pointer_object s o b : wf s -> pointer (objs s) o = Some b -> exists q rq, objs s q = Some rq /\ o_ptr rq = Some b /\ o_cls rq <> View /\ descends (objs s) o q /\
  match objs s o with Some r => if match o_cls r with View => true | _ => false end then viewable (o_cls rq) = true /\ o_parent r = Some q else q = o | None => False end.
Proof.
  intros W E. unfold pointer in E. destruct (objs s o) as [r|] eqn:O; [|discriminate].
  destruct (o_cls r) eqn:C; try (exists o, r; repeat split; auto; [congruence|constructor]).
  destruct (o_parent r) as [p|] eqn:P; [|discriminate]. destruct (objs s p) as [rp|] eqn:Q; [|discriminate].
  destruct (wf_view s W o r O C) as (_ & p' & rp' & P' & Q' & V). assert (p' = p) by congruence. subst p'. assert (rp' = rp) by congruence. subst rp'.
  exists p, rp. repeat split; auto; [intros X; rewrite X in V; discriminate|]. eapply d_up; eauto. constructor.
Qed.

(** A new object. *)
Lemma new_wf s c parent owner : wf s ->
  match parent with
  | None => c = Database /\ owner = None
  | Some p => c <> Database /\ c <> View /\ (exists rp, objs s p = Some rp) /\
      exists B q rq b k, owner = Some B /\ objs s q = Some rq /\ o_ptr rq = Some b /\ descends (objs s) p q /\ up k (memory s) b = Some B /\ memory s b <> None /\
        (k = 0 -> shelters (o_cls rq) = true) /\ (c = Replies -> exists z, memory s B = Some (Some z))
  end -> wf (new_obj s c parent owner).
Proof.
  intros W H. assert (N : objs s (next_obj s) = None) by (destruct (objs s (next_obj s)) eqn:E; [apply (wf_obj s W) in E; lia|reflexivity]).
  assert (OL : match owner with Some p => memory s p <> None | None => True end).
  { destruct owner as [B|]; [|exact Logic.I]. destruct parent; [|now destruct H]. destruct H as (_ & _ & _ & B' & q & rq & b & k & E & _ & _ & _ & U & L & _). injection E as ->.
    eapply up_live; eauto. apply W. }
  unfold new_obj. constructor; cbn [objs next_obj memory next_block].
  - intros x r E. apply upd_inv in E as [[-> ->]|[X E]]; [lia|]. apply (wf_obj s W) in E. lia.
  - intros x r E. apply upd_inv in E as [[-> ->]|[X E]]; cbn [o_parent o_cls].
    + destruct parent as [p|]; [|apply H]. destruct H as (H1 & _ & (rp & Hp) & _). split; [exact H1|]. split; [apply (wf_obj s W) in Hp; lia|]. exists rp. rewrite upd_other; [exact Hp|congruence].
    + pose proof (wf_parent s W x r E) as P. destruct (o_parent r) as [p|]; [|exact P]. destruct P as (P1 & P2 & rp & P3). split; [exact P1|]. split; [exact P2|]. exists rp. rewrite upd_other; [exact P3|congruence].
  - intros x r E V. apply upd_inv in E as [[-> ->]|[X E]]; cbn [o_cls] in V.
    + destruct parent; [now destruct H as (_ & H & _)|]. destruct H. congruence.
    + destruct (wf_view s W x r E V) as (A & p & rp & P & Q & R). split; [exact A|]. exists p, rp. split; [exact P|]. split; [|exact R]. rewrite upd_other; [exact Q|congruence].
  - intros x r b E P. apply upd_inv in E as [[-> ->]|[X E]]; cbn [o_ptr] in P; [injection P as <-; lia|]. pose proof (wf_ptr s W x r b E P). lia.
  - apply talloc_ok; [apply W|exact OL].
  - intros x r b o ro d E P Eo Po U. apply upd_inv in E as [[-> ->]|[X E]].
    + cbn [o_ptr] in P. injection P as <-. apply (talloc_under_new _ _ (wf_heap s W) owner d OL) in U as [->|(B & -> & U)].
      * apply upd_inv in Eo as [[-> ->]|[Y Eo]]; [split; [constructor|congruence]|]. pose proof (wf_ptr s W o ro _ Eo Po). lia.
      * assert (Ld : d < next_block s) by (apply (under_le _ _ (wf_heap s W)) in U; destruct (memory s B) eqn:Q; [|easy]; apply (wf_heap s W) in Q; lia).
        apply upd_inv in Eo as [[-> ->]|[Y Eo]]; [cbn [o_ptr] in Po; injection Po as Po; lia|].
        destruct parent as [p|]; [|destruct H; discriminate]. destruct H as (_ & _ & _ & B' & q & rq & b & k & E & Eq & Pq & D & K & L & Sh & _). injection E as <-.
        assert (U' : under (memory s) b d) by (eapply under_trans; [eapply up_under; eauto|exact U]).
        destruct (wf_above s W q rq b o ro d Eq Pq Eo Po U') as [A1 A2]. split.
        -- eapply d_up; [apply upd_same|reflexivity|]. apply descends_new; [exact N|]. eapply descends_trans; eauto.
        -- intros _. destruct (Nat.eq_dec q o) as [->|Nq]; [|now apply A2]. assert (rq = ro) by congruence. subst rq. assert (b = d) by congruence. subst b.
           apply Sh. destruct k as [|k]; [reflexivity|]. apply (up_strict _ _ (wf_heap s W)) in K. apply (under_le _ _ (wf_heap s W)) in U. lia.
    + assert (Lb : b < next_block s) by (eapply wf_ptr; eauto). apply (talloc_under_old _ _ (wf_heap s W)) in U; [|exact Lb].
      apply upd_inv in Eo as [[-> ->]|[Y Eo]]; [cbn [o_ptr] in Po; injection Po as <-; apply (under_le _ _ (wf_heap s W)) in U; lia|].
      destruct (wf_above s W x r b o ro d E P Eo Po U) as [A1 A2]. split; [now apply descends_new|exact A2].
  - intros x r b E P L. apply upd_inv in E as [[-> ->]|[X E]].
    + cbn [o_ptr o_cls] in *. injection P as <-. unfold talloc, depth_ok. destruct parent as [p|]; [|destruct H as [-> _]; exact Logic.I].
      destruct H as (_ & _ & _ & B & q & rq & b & k & -> & _ & _ & _ & K & Lb & _ & R). rewrite Nat.eqb_refl.
      assert (BN : B <> next_block s). { intros ->. pose proof (up_live _ _ (wf_heap s W) _ _ _ Lb K) as Q. destruct (memory s (next_block s)) eqn:Q'; [|easy]. apply (wf_heap s W) in Q'. lia. }
      destruct c; try exact Logic.I; try (exists B; reflexivity). destruct (R eq_refl) as (z & Z). exists B, z. split; [reflexivity|]. destruct (Nat.eqb_spec B (next_block s)); [contradiction|exact Z].
    + assert (Lb : b < next_block s) by (eapply wf_ptr; eauto). assert (T : talloc (memory s) (next_block s) owner b = memory s b) by (unfold talloc; destruct (Nat.eqb_spec b (next_block s)); [lia|reflexivity]).
      rewrite T in L. pose proof (wf_depth s W x r b E P L) as D. unfold depth_ok in *. destruct (o_cls r); auto; rewrite ?T; auto.
      destruct D as (p & z & D1 & D2). exists p, z. split; [exact D1|]. unfold talloc. destruct (Nat.eqb_spec p (next_block s)) as [->|]; [|exact D2].
      destruct (wf_heap s W _ _ D2) as [Q _]. lia.
Qed.
(** A new view. *)
Lemma view_wf s o r : wf s -> objs s o = Some r -> viewable (o_cls r) = true ->
  wf {| memory := memory s; next_block := next_block s; objs := upd (objs s) (next_obj s) {| o_cls := View; o_parent := Some o; o_ptr := None; o_final := false |}; next_obj := S (next_obj s) |}.
Proof.
  intros W O V. assert (N : objs s (next_obj s) = None) by (destruct (objs s (next_obj s)) eqn:E; [apply (wf_obj s W) in E; lia|reflexivity]).
  constructor; cbn [objs next_obj memory next_block].
  - intros x r' E. apply upd_inv in E as [[-> ->]|[X E]]; [lia|]. apply (wf_obj s W) in E. lia.
  - intros x r' E. apply upd_inv in E as [[-> ->]|[X E]]; cbn [o_parent o_cls].
    + split; [discriminate|]. split; [apply (wf_obj s W) in O; lia|]. exists r. rewrite upd_other; [exact O|congruence].
    + pose proof (wf_parent s W x r' E) as P. destruct (o_parent r') as [p|]; [|exact P]. destruct P as (P1 & P2 & rp & P3). split; [exact P1|]. split; [exact P2|]. exists rp. rewrite upd_other; [exact P3|congruence].
  - intros x r' E C. apply upd_inv in E as [[-> ->]|[X E]]; cbn [o_cls o_ptr] in *.
    + split; [reflexivity|]. exists o, r. split; [reflexivity|]. split; [|exact V]. rewrite upd_other; [exact O|congruence].
    + destruct (wf_view s W x r' E C) as (A & p & rp & P & Q & R). split; [exact A|]. exists p, rp. split; [exact P|]. split; [|exact R]. rewrite upd_other; [exact Q|congruence].
  - intros x r' b E P. apply upd_inv in E as [[-> ->]|[X E]]; [discriminate P|]. now apply (wf_ptr s W x r').
  - apply W.
  - intros x r' b q rq d E P Eo Po U. apply upd_inv in E as [[-> ->]|[X E]]; [discriminate P|]. apply upd_inv in Eo as [[-> ->]|[Y Eo]]; [discriminate Po|].
    destruct (wf_above s W x r' b q rq d E P Eo Po U) as [A1 A2]. split; [now apply descends_new|exact A2].
  - intros x r' b E P L. apply upd_inv in E as [[-> ->]|[X E]]; [discriminate P|]. now apply (wf_depth s W x r').
Qed.
(** An object loses its pointer, or is marked; memory may be freed. *)
Lemma less_wf s o r r' h : wf s -> objs s o = Some r -> o_cls r' = o_cls r -> o_parent r' = o_parent r -> (o_ptr r' = None \/ o_ptr r' = o_ptr r) ->
  (h = memory s \/ exists c, h = talloc_free (memory s) c) -> wf (set_memory (set_obj s o r') h).
Proof.
  intros W O C P Q M.
  assert (G : forall x rx, upd (objs s) o r' x = Some rx -> exists r0, objs s x = Some r0 /\ o_cls rx = o_cls r0 /\ o_parent rx = o_parent r0 /\ (forall b, o_ptr rx = Some b -> o_ptr r0 = Some b)).
  { intros x rx E. apply upd_inv in E as [[-> ->]|[X E]]; [|exists rx; auto]. exists r. split; [exact O|]. split; [exact C|]. split; [exact P|]. intros b B. destruct Q; congruence. }
  assert (K : forall p rp, objs s p = Some rp -> exists rp', upd (objs s) o r' p = Some rp' /\ o_cls rp' = o_cls rp).
  { intros p rp E. destruct (Nat.eq_dec p o) as [->|N]; [exists r'; split; [apply upd_same|congruence]|exists rp; split; [now rewrite upd_other|reflexivity]]. }
  assert (HS : forall b pa, h b = Some pa -> memory s b = Some pa) by (destruct M as [->|(c & ->)]; [auto|]; intros b pa E; apply (free_some _ _ (wf_heap s W)) in E; apply E).
  assert (HU : forall b c, under h b c -> under (memory s) b c) by (destruct M as [->|(c & ->)]; [auto|]; intros b d; apply (free_under _ _ (wf_heap s W))).
  constructor; cbn [set_memory set_obj objs next_obj memory next_block].
  - intros x rx E. apply G in E as (r0 & E & _). now apply (wf_obj s W) in E.
  - intros x rx E. apply G in E as (r0 & E & E1 & E2 & _). pose proof (wf_parent s W x r0 E) as H. rewrite E1, E2. destruct (o_parent r0) as [p|]; [|exact H].
    destruct H as (H1 & H2 & rp & H3). split; [exact H1|]. split; [exact H2|]. destruct (K p rp H3) as (rp' & H4 & _). eauto.
  - intros x rx E V. apply G in E as (r0 & E & E1 & E2 & E3). rewrite E1 in V. destruct (wf_view s W x r0 E V) as (A & p & rp & B1 & B2 & B3). split.
    + destruct (o_ptr rx) as [b|]; [|reflexivity]. specialize (E3 b eq_refl). congruence.
    + destruct (K p rp B2) as (rp' & K1 & K2). exists p, rp'. split; [congruence|]. split; [exact K1|congruence].
  - intros x rx b E B. apply G in E as (r0 & E & _ & _ & E3). apply (wf_ptr s W x r0 b E). auto.
  - destruct M as [->|(c & ->)]; [apply W|]. apply free_ok, W.
  - intros x rx b q rq c E B Eq Bq U. apply G in E as (r0 & E & _ & _ & E3). apply G in Eq as (rq0 & Eq & Cq & _ & Eq3).
    destruct (wf_above s W x r0 b q rq0 c E (E3 _ B) Eq (Eq3 _ Bq) (HU _ _ U)) as [A1 A2]. split; [apply (proj1 (descends_upd _ o r r' x q O P)); exact A1|]. rewrite Cq. exact A2.
  - intros x rx b E B L. apply G in E as (r0 & E & E1 & _ & E3). rewrite E1.
    assert (L0 : memory s b <> None) by (destruct (h b) eqn:X; [apply HS in X; congruence|easy]). pose proof (wf_depth s W x r0 b E (E3 _ B) L0) as D.
    assert (HB : h b = memory s b) by (destruct (h b) eqn:X; [symmetry; now apply HS|easy]). unfold depth_ok in *. destruct (o_cls r0); rewrite ?HB; auto.
    destruct D as (p & z & D1 & D2). exists p, z. split; [exact D1|]. destruct M as [->|(c & ->)]; [exact D2|].
    assert (F := free_ok (memory s) (next_block s) (wf_heap s W) c b (Some p)). rewrite HB in F. destruct (F D1) as (_ & _ & F1). destruct (talloc_free (memory s) c p) eqn:X; [|easy]. apply (free_some _ _ (wf_heap s W)) in X as [X _]. congruence.
Qed.
Lemma destroy_wf s o s1 : wf s -> destroy s o = Returns s1 \/ destroy s o = Raises s1 -> wf s1.
Proof.
  intros W H. unfold destroy in H. destruct (objs s o) as [r|] eqn:O; [|destruct H as [H|H]; [discriminate H|injection H as <-; exact W]].
  destruct (keeps_nothing (o_cls r)); [destruct H as [H|H]; [injection H as <-; exact W|discriminate H]|]. destruct (_ || _).
  - destruct (o_ptr r) as [b|] eqn:P; [|destruct H as [H|H]; [injection H as <-; exact W|discriminate H]].
    destruct (in_use (memory s) b); [|destruct H; discriminate]. destruct H as [H|H]; [injection H as <-|discriminate H]. eapply less_wf; eauto; reflexivity.
  - destruct H as [H|H]; [injection H as <-|discriminate H]. change (set_obj s o (with_ptr r None)) with (set_memory (set_obj s o (with_ptr r None)) (memory s)). eapply less_wf; eauto; reflexivity.
Qed.
(** What destroying does to the rest. *)
Lemma destroy_objs s o s1 : destroy s o = Returns s1 -> next_obj s1 = next_obj s /\ next_block s1 = next_block s /\ (forall x, x <> o -> objs s1 x = objs s x) /\
  exists r r1, objs s o = Some r /\ objs s1 o = Some r1 /\ o_cls r1 = o_cls r /\ o_parent r1 = o_parent r /\ o_final r1 = o_final r /\ (o_ptr r1 = None \/ keeps_nothing (o_cls r) = true /\ o_ptr r1 = o_ptr r).
Proof.
  unfold destroy. destruct (objs s o) as [r|] eqn:O; [|discriminate]. destruct (keeps_nothing (o_cls r)) eqn:Kn.
  { intros E. injection E as <-. split; [reflexivity|]. split; [reflexivity|]. split; [reflexivity|]. exists r, r. auto 10. }
  destruct (_ || _).
  - destruct (o_ptr r) as [b|] eqn:P.
    + destruct (in_use (memory s) b); [|discriminate]. intros E. injection E as <-. cbn. split; [reflexivity|]. split; [reflexivity|]. split; [intros x N; now apply upd_other|].
      exists r, (with_ptr r None). rewrite upd_same. cbn. auto 10.
    + intros E. injection E as <-. split; [reflexivity|]. split; [reflexivity|]. split; [reflexivity|]. exists r, r. auto 10.
  - intros E. injection E as <-. cbn. split; [reflexivity|]. split; [reflexivity|]. split; [intros x N; now apply upd_other|]. exists r, (with_ptr r None). rewrite upd_same. cbn. auto 10.
Qed.
(** A pointer is replaced by a new block below the database. *)
Lemma renew_wf s o r R rR d : wf s -> objs s o = Some r -> o_cls r <> View -> o_cls r <> Database -> o_cls r <> Replies -> objs s R = Some rR -> o_parent rR = None -> o_ptr rR = Some d -> memory s d <> None ->
  descends (objs s) o R ->
  wf {| memory := talloc (memory s) (next_block s) (Some d); next_block := S (next_block s); objs := upd (objs s) o (with_ptr r (Some (next_block s))); next_obj := next_obj s |}.
Proof.
  intros W O NV ND NR ER PR DR Ld Dsc. set (r' := with_ptr r (Some (next_block s))).
  assert (CR : o_cls rR = Database) by (pose proof (wf_parent s W R rR ER) as H; now rewrite PR in H).
  assert (K : forall p rp, objs s p = Some rp -> exists rp', upd (objs s) o r' p = Some rp' /\ o_cls rp' = o_cls rp).
  { intros p rp E. destruct (Nat.eq_dec p o) as [->|N]; [exists r'; split; [apply upd_same|cbn; congruence]|exists rp; split; [now rewrite upd_other|reflexivity]]. }
  constructor; cbn [objs next_obj memory next_block].
  - intros x rx E. apply upd_inv in E as [[-> ->]|[X E]]; [now apply (wf_obj s W) in O|now apply (wf_obj s W) in E].
  - intros x rx E. assert (G : exists r0, objs s x = Some r0 /\ o_cls rx = o_cls r0 /\ o_parent rx = o_parent r0) by (apply upd_inv in E as [[-> ->]|[X E]]; [exists r; auto|exists rx; auto]).
    destruct G as (r0 & E0 & E1 & E2). pose proof (wf_parent s W x r0 E0) as H. rewrite E1, E2. destruct (o_parent r0) as [p|]; [|exact H].
    destruct H as (H1 & H2 & rp & H3). split; [exact H1|]. split; [exact H2|]. destruct (K p rp H3) as (rp' & H4 & _). eauto.
  - intros x rx E V. apply upd_inv in E as [[-> ->]|[X E]]; [cbn in V; contradiction|]. destruct (wf_view s W x rx E V) as (A & p & rp & B1 & B2 & B3). split; [exact A|].
    destruct (K p rp B2) as (rp' & K1 & K2). exists p, rp'. split; [exact B1|]. split; [exact K1|congruence].
  - intros x rx b E B. apply upd_inv in E as [[-> ->]|[X E]]; [cbn in B; injection B as <-; lia|]. apply (wf_ptr s W x rx b E) in B. lia.
  - apply talloc_ok; [apply W|exact Ld].
  - intros x rx b q rq c E B Eq Bq U.
    assert (Dn : forall y z, descends (objs s) y z -> descends (upd (objs s) o r') y z) by (intros y z; exact (proj1 (descends_upd _ o r r' y z O eq_refl))).
    apply upd_inv in E as [[-> ->]|[X E]].
    + cbn in B. injection B as <-. apply (talloc_under_new _ _ (wf_heap s W) (Some d)) in U; [|exact Ld]. destruct U as [->|(B & EB & U)].
      * apply upd_inv in Eq as [[-> ->]|[Y Eq]]; [split; [constructor|congruence]|]. apply (wf_ptr s W q rq _ Eq) in Bq. lia.
      * injection EB as <-. assert (Lc : c < next_block s) by (apply (under_le _ _ (wf_heap s W)) in U; destruct (memory s d) eqn:Q; [|easy]; apply (wf_heap s W) in Q; lia).
        apply upd_inv in Eq as [[-> ->]|[Y Eq]]; [cbn in Bq; injection Bq as Bq; lia|].
        destruct (wf_above s W R rR d q rq c ER DR Eq Bq U) as [A1 A2].
        assert (q = R) as ->. { inversion A1; subst; [reflexivity|]. congruence. }
        split; [now apply Dn|]. intros _. assert (rq = rR) by congruence. subst. now rewrite CR.
    + assert (Lb : b < next_block s) by (eapply wf_ptr; eauto). apply (talloc_under_old _ _ (wf_heap s W)) in U; [|exact Lb].
      apply upd_inv in Eq as [[-> ->]|[Y Eq]]; [cbn in Bq; injection Bq as <-; apply (under_le _ _ (wf_heap s W)) in U; lia|].
      destruct (wf_above s W x rx b q rq c E B Eq Bq U) as [A1 A2]. split; [now apply Dn|exact A2].
  - intros x rx b E B L. apply upd_inv in E as [[-> ->]|[X E]].
    + cbn in B. injection B as <-. unfold talloc, depth_ok, r'. cbn [o_cls with_ptr]. rewrite Nat.eqb_refl. destruct (o_cls r); try contradiction; exists d; reflexivity.
    + assert (Lb : b < next_block s) by (eapply wf_ptr; eauto). assert (T : talloc (memory s) (next_block s) (Some d) b = memory s b) by (unfold talloc; destruct (Nat.eqb_spec b (next_block s)); [lia|reflexivity]).
      rewrite T in L. pose proof (wf_depth s W x rx b E B L) as D. unfold depth_ok in *. destruct (o_cls rx); auto; rewrite ?T; auto.
      destruct D as (p & z & D1 & D2). exists p, z. split; [exact D1|]. unfold talloc. destruct (Nat.eqb_spec p (next_block s)) as [->|]; [|exact D2].
      destruct (wf_heap s W _ _ D2) as [Q _]. lia.
Qed.
Lemma root_spec s o r : wf s -> objs s o = Some r -> exists rR, objs s (root (objs s) o) = Some rR /\ o_parent rR = None /\ descends (objs s) o (root (objs s) o).
Proof.
  intros W. unfold root. assert (G : forall f o r, o < f -> objs s o = Some r -> exists rR, objs s (root_from f (objs s) o) = Some rR /\ o_parent rR = None /\ descends (objs s) o (root_from f (objs s) o)).
  { induction f as [|f IH]; intros x rx L E; [lia|]. cbn [root_from]. rewrite E. destruct (o_parent rx) as [p|] eqn:P.
    - pose proof (wf_parent s W x rx E) as H. rewrite P in H. destruct H as (_ & H2 & rp & H3). destruct (IH p rp ltac:(lia) H3) as (rR & A & B & C). exists rR. split; [exact A|]. split; [exact B|]. eapply d_up; eauto.
    - exists rx. split; [exact E|]. split; [exact P|constructor]. }
  apply G. lia.
Qed.
Lemma root_same os o x r0 r1 : os x = Some r0 -> o_parent r1 = o_parent r0 -> root (upd os x r1) o = root os o.
Proof.
  intros E P. unfold root. generalize (S o). intros f. revert o. induction f as [|f IH]; intros o; [reflexivity|]. cbn [root_from].
  destruct (Nat.eq_dec o x) as [->|N]; [rewrite upd_same, E, P|rewrite upd_other by exact N; destruct (os o) as [ro|]; [|reflexivity]; destruct (o_parent ro); auto].
  destruct (o_parent r0); auto.
Qed.

(** Whatever happens, the state stays well formed. *)
Theorem step_wf s e s1 : wf s -> step s e = Returns s1 \/ step s e = Raises s1 -> wf s1.
Proof.
  intros W H. destruct e as [|o m|o|o|o|o|o|o found]; cbn [step] in H.
  - destruct H as [H|H]; [injection H as <-|discriminate H]. apply new_wf; [exact W|]. now split.
  - unfold call in H. destruct (objs s o) as [r|] eqn:O; [|destruct H as [H|H]; [discriminate H|injection H as <-; exact W]].
    destruct (makes (o_cls r) m) as [[c n]|] eqn:M; [|destruct H as [H|H]; [discriminate H|injection H as <-; exact W]].
    unfold access in H. destruct (pointer (objs s) o) as [b|] eqn:P; [|destruct H as [H|H]; [discriminate H|injection H as <-; exact W]].
    destruct (in_use (memory s) b) eqn:L; [|destruct H; discriminate]. destruct (up n (memory s) b) as [B|] eqn:U; [|destruct H; discriminate].
    destruct H as [H|H]; [injection H as <-|discriminate H].
    destruct (pointer_object s o b W P) as (q & rq & Eq & Pq & Cq & D & T). rewrite O in T.
    assert (Lb : memory s b <> None) by (unfold in_use in L; destruct (memory s b); congruence).
    apply new_wf; [exact W|]. split; [destruct (o_cls r), m; try discriminate M; injection M as <- <-; discriminate|]. split; [destruct (o_cls r), m; try discriminate M; injection M as <- <-; discriminate|].
    split; [eauto|]. exists B, q, rq, b, n. repeat (split; [eauto; fail|]). split.
    + intros ->. destruct (o_cls r) eqn:C; cbn in T; try (subst q; assert (rq = r) by congruence; subst rq; rewrite C; destruct m; try discriminate M; reflexivity).
      destruct T as [T _]. destruct (o_cls rq); try discriminate T; reflexivity.
    + intros ->. destruct (o_cls r) eqn:C, m; try discriminate M. injection M as <-. cbn [up] in U. injection U as <-. cbn in T. subst q. assert (rq = r) by congruence. subst rq.
      pose proof (wf_depth s W o r b O Pq Lb) as X. rewrite C in X. exact X.
  - destruct (objs s o) as [r|] eqn:O; [|destruct H as [H|H]; [discriminate H|injection H as <-; exact W]].
    destruct (o_cls r) eqn:C; try (destruct H as [H|H]; [discriminate H|injection H as <-; exact W]); destruct H as [H|H]; try discriminate H; injection H as <-; eapply view_wf; eauto; now rewrite C.
  - unfold access in H. destruct (pointer (objs s) o); [|destruct H as [H|H]; [discriminate H|injection H as <-; exact W]]. destruct (in_use (memory s) b); destruct H as [H|H]; try discriminate H. now injection H as <-.
  - destruct (objs s o) as [r|] eqn:O; [|destruct H as [H|H]; [discriminate H|injection H as <-; exact W]].
    destruct (o_cls r) eqn:C; try (destruct H as [H|H]; [discriminate H|injection H as <-; exact W]);
    (unfold access in H; destruct (pointer (objs s) o); [|destruct H as [H|H]; [discriminate H|injection H as <-; exact W]]; destruct (in_use (memory s) b); [|destruct H; discriminate];
     destruct (destroy s o) as [s2|s2|] eqn:D; destruct H as [H|H]; try discriminate H; injection H as <-; eapply destroy_wf; eauto).
  - eapply destroy_wf; eauto.
  - destruct (objs s o) as [r|] eqn:O; [|destruct H as [H|H]; [discriminate H|injection H as <-; exact W]].
    destruct (destroy s o) as [s2|s2|] eqn:D; [|destruct H as [H|H]; [discriminate H|injection H as <-; eapply destroy_wf; eauto]|destruct H; discriminate].
    destruct (destroy_objs s o s2 D) as (_ & _ & _ & r0 & r1 & _ & E1 & _). rewrite E1 in H. destruct H as [H|H]; [injection H as <-|discriminate H].
    change (set_obj s2 o (finalized r1)) with (set_memory (set_obj s2 o (finalized r1)) (memory s2)). eapply less_wf; eauto. eapply destroy_wf; eauto.
  - unfold rollback in H. destruct (objs s o) as [r|] eqn:O; [|destruct H as [H|H]; [discriminate H|injection H as <-; exact W]].
    assert (CC : o_cls r = Message \/ o_cls r = Owned \/ ((step s (Rollback o found)) = Raises s)).
    { cbn [step]. unfold rollback. rewrite O. destruct (o_cls r); auto. }
    assert (G : (o_cls r = Message \/ o_cls r = Owned) -> wf s1).
    { intros C. assert (H' : access s o (fun _ => match destroy s o with Returns s1 => match objs s1 o, pointer (objs s1) (root (objs s1) o) with
                | Some r1, Some d => if in_use (memory s1) d then if found then Raises {| memory := talloc (memory s1) (next_block s1) (Some d); next_block := S (next_block s1);
                                  objs := upd (objs s1) o (with_ptr r1 (Some (next_block s1))); next_obj := next_obj s1 |} else Raises s1 else Undefined
                | _, _ => Raises s1 end | x => x end) = Returns s1 \/ access s o (fun _ => match destroy s o with Returns s1 => match objs s1 o, pointer (objs s1) (root (objs s1) o) with
                | Some r1, Some d => if in_use (memory s1) d then if found then Raises {| memory := talloc (memory s1) (next_block s1) (Some d); next_block := S (next_block s1);
                                  objs := upd (objs s1) o (with_ptr r1 (Some (next_block s1))); next_obj := next_obj s1 |} else Raises s1 else Undefined
                | _, _ => Raises s1 end | x => x end) = Raises s1) by (destruct C as [C|C]; rewrite C in H; exact H).
      clear H CC. unfold access in H'. destruct (pointer (objs s) o); [|destruct H' as [H|H]; [discriminate H|injection H as <-; exact W]]. destruct (in_use (memory s) b); [|destruct H'; discriminate].
      destruct (destroy s o) as [s2|s2|] eqn:D; [|destruct H' as [H|H]; [discriminate H|injection H as <-; eapply destroy_wf; eauto]|destruct H'; discriminate].
      assert (W2 : wf s2) by (eapply destroy_wf; eauto). destruct (destroy_objs s o s2 D) as (_ & _ & _ & r0 & r1 & E0 & E1 & C1 & P1 & _). assert (r0 = r) by congruence. subst r0. rewrite E1 in H'.
      destruct (root_spec s2 o r1 W2 E1) as (rR & A & B & Dd). destruct (pointer (objs s2) (root (objs s2) o)) as [d|] eqn:P; [|destruct H' as [H|H]; [discriminate H|injection H as <-; exact W2]].
      destruct (in_use (memory s2) d) eqn:L; [|destruct H'; discriminate]. destruct found; [|destruct H' as [H|H]; [discriminate H|injection H as <-; exact W2]].
      destruct H' as [H|H]; [discriminate H|injection H as <-]. unfold pointer in P. rewrite A in P. pose proof (wf_parent s2 W2 _ _ A) as CR. rewrite B in CR. rewrite CR in P.
      eapply (renew_wf s2 o r1 (root (objs s2) o) rR d); eauto; try (rewrite C1; destruct C as [C|C]; rewrite C; discriminate). unfold in_use in L. destruct (memory s2 d); congruence. }
    destruct CC as [C|[C|C]]; [apply G; auto|apply G; auto|]. cbn [step] in C. unfold rollback in C. rewrite O in C. destruct (o_cls r) eqn:CL; try (apply G; auto; fail); destruct H as [H|H]; try discriminate H; injection H as <-; exact W.
Qed.
