(** Proofs for C85. *)
From Coq Require Import Lia.
From Verif Require Import Bytes EmacsDraft EmacsDraftSpec.
Local Open Scope nat_scope.

Lemma same_char_special f c x : In c [chr 60; chr 35; chr 33; chr 47] -> same_char f x c = beq x c.
Proof.
  intros H. destruct f; [|reflexivity]. unfold same_char. cbn in H. destruct H as [<-|[<-|[<-|[<-|[]]]]]; destruct x as [[] [] [] [] [] [] [] []]; reflexivity.
Qed.
Section Tags.
Variables (f : bool) (tags : list bytes).
Hypothesis W : Forall word tags.
Notation q := (quote_loop f tags).
Notation u := (unquote_loop f tags).

Lemma quotable_eq s : quotable f tags s = true -> exists r, s = chr 60 :: chr 35 :: r /\ bangs_tag f tags r = true.
Proof.
  destruct s as [|a [|b r]]; try discriminate. cbn [quotable]. intros H. apply andb_true_iff in H as [H H3]. apply andb_true_iff in H as [H1 H2].
  apply Ascii.eqb_eq in H1, H2. subst. exists r. auto.
Qed.
Lemma q_yes r : bangs_tag f tags r = true -> q (chr 60 :: chr 35 :: r) = chr 60 :: chr 35 :: chr 33 :: q r.
Proof. intros H. change (q (chr 60 :: chr 35 :: r)) with (if bangs_tag f tags r then chr 60 :: chr 35 :: chr 33 :: q r else chr 60 :: q (chr 35 :: r)). now rewrite H. Qed.
Lemma q_no c s : quotable f tags (c :: s) = false -> q (c :: s) = c :: q s.
Proof. intros H. cbn [quote_loop]. now rewrite H. Qed.
Lemma q_other c s : c <> chr 60 -> q (c :: s) = c :: q s.
Proof. intros N. apply q_no. destruct (quotable f tags (c :: s)) eqn:E; [|reflexivity]. apply quotable_eq in E as (r & E & _). now injection E as E. Qed.

Lemma literal_q t : Forall (fun c => c <> chr 60) t -> forall r, match literal f t (q r) with Some _ => true | None => false end = match literal f t r with Some _ => true | None => false end.
Proof.
  induction t as [|x t IH]; intros F r; [destruct r; reflexivity|]. inversion F as [|x' t' F1 F2]; subst. destruct r as [|c r]; [reflexivity|].
  destruct (quotable f tags (c :: r)) eqn:E.
  - apply quotable_eq in E as (r2 & E & B). rewrite E, (q_yes _ B). cbn [literal]. rewrite same_char_special by (cbn; auto).
    destruct (beq x (chr 60)) eqn:X; [apply Ascii.eqb_eq in X; contradiction|reflexivity].
  - rewrite (q_no _ _ E). cbn [literal]. destruct (same_char f x c); [apply IH; exact F2|reflexivity].
Qed.
Lemma word_no c t : In c [chr 60; chr 35; chr 33; chr 47] -> word t -> Forall (fun x => x <> c) t.
Proof.
  intros I [_ F]. eapply Forall_impl; [|exact F]. intros x [H|H] E; subst x; cbn in I; destruct I as [<-|[<-|[<-|[<-|[]]]]]; first [discriminate H | discriminate E].
Qed.
Lemma tag_at_q r : tag_at f tags (q r) = tag_at f tags r.
Proof.
  unfold tag_at. assert (G : forall l, Forall word l -> existsb (fun t => match literal f t (q r) with Some _ => true | None => false end) l = existsb (fun t => match literal f t r with Some _ => true | None => false end) l); [|apply G; exact W].
  induction 1 as [|t l T _ IH]; [reflexivity|]. cbn [existsb]. rewrite IH. f_equal. apply literal_q. apply word_no; [cbn; auto|exact T].
Qed.
Lemma slash_tag_q r : slash_tag f tags (q r) = slash_tag f tags r.
Proof.
  unfold slash_tag. rewrite tag_at_q. f_equal. destruct r as [|c r]; [reflexivity|]. destruct (quotable f tags (c :: r)) eqn:E.
  - apply quotable_eq in E as (r2 & E & B). rewrite E, (q_yes _ B). injection E as -> _. reflexivity.
  - rewrite (q_no _ _ E). now rewrite tag_at_q.
Qed.
Lemma bangs_tag_q r : bangs_tag f tags (q r) = bangs_tag f tags r.
Proof.
  induction r as [|c r IH]; [reflexivity|]. destruct (quotable f tags (c :: r)) eqn:E.
  - apply quotable_eq in E as (r2 & E & B). rewrite E in *. rewrite (q_yes _ B).
    assert (H : slash_tag f tags (chr 60 :: chr 35 :: chr 33 :: q r2) = slash_tag f tags (chr 60 :: chr 35 :: r2)) by (rewrite <- (q_yes _ B); apply slash_tag_q).
    cbn [bangs_tag]. rewrite H. reflexivity.
  - rewrite (q_no _ _ E). assert (H : slash_tag f tags (c :: q r) = slash_tag f tags (c :: r)) by (rewrite <- (q_no _ _ E); apply slash_tag_q).
    cbn [bangs_tag]. now rewrite H, IH.
Qed.
Lemma u_yes r : bangs_tag f tags r = true -> u (chr 60 :: chr 35 :: chr 33 :: r) = chr 60 :: chr 35 :: u r.
Proof. intros H. change (u (chr 60 :: chr 35 :: chr 33 :: r)) with (if bangs_tag f tags r then chr 60 :: chr 35 :: u r else chr 60 :: u (chr 35 :: chr 33 :: r)). now rewrite H. Qed.
Lemma unquote_quote n : forall s, length s <= n -> u (q s) = s.
Proof.
  induction n as [|n IH]; intros s L; [destruct s; [reflexivity|cbn in L; lia]|]. destruct s as [|c s]; [reflexivity|]. cbn [length] in L.
  destruct (quotable f tags (c :: s)) eqn:E.
  - apply quotable_eq in E as (r & E & B). rewrite E, (q_yes _ B), u_yes by (now rewrite bangs_tag_q). injection E as Ec Es. subst s. cbn [length] in L. rewrite IH by lia. reflexivity.
  - rewrite (q_no _ _ E). assert (N : unquotable f tags (c :: q s) = false).
    { destruct (unquotable f tags (c :: q s)) eqn:U; [|reflexivity]. exfalso. destruct s as [|d s]; [discriminate U|].
      assert (C : c = chr 60 /\ exists r, q (d :: s) = chr 35 :: chr 33 :: r /\ bangs_tag f tags r = true).
      { destruct (q (d :: s)) as [|x [|y z]]; try discriminate U. cbn [unquotable] in U. apply andb_true_iff in U as [U U4]. apply andb_true_iff in U as [U U3]. apply andb_true_iff in U as [U1 U2].
        apply Ascii.eqb_eq in U1, U2, U3. subst. eauto. }
      destruct C as (-> & r & Q & B). assert (D : d = chr 35 /\ q s = chr 33 :: r).
      { destruct (quotable f tags (d :: s)) eqn:E2; [apply quotable_eq in E2 as (r2 & E2 & B2); rewrite E2, (q_yes _ B2) in Q; discriminate Q|]. rewrite (q_no _ _ E2) in Q. injection Q as -> ->. auto. }
      destruct D as (-> & Q2). assert (X : bangs_tag f tags s = true).
      { rewrite <- bangs_tag_q, Q2. cbn [bangs_tag]. rewrite B. cbn. apply orb_true_r. }
      cbn [quotable] in E. rewrite X in E. discriminate E. }
    cbn [unquote_loop]. rewrite N. f_equal. apply IH. lia.
Qed.
Lemma slash_bangs r : slash_tag f tags r = true -> bangs_tag f tags r = true.
Proof. destruct r; cbn [bangs_tag]; intros ->; reflexivity. Qed.
Lemma slash_bang r : slash_tag f tags (chr 33 :: r) = false.
Proof.
  unfold slash_tag. change (beq (chr 33) "/") with false. rewrite andb_false_l, orb_false_r. unfold tag_at.
  assert (G : forall l, Forall word l -> existsb (fun t => match literal f t (chr 33 :: r) with Some _ => true | None => false end) l = false); [|apply G; exact W].
  induction 1 as [|t l T _ IH]; [reflexivity|]. cbn [existsb]. rewrite IH, orb_false_r. assert (T1 := word_no (chr 33) t ltac:(cbn; auto) T). destruct t as [|x t]; [destruct T as [T _]; congruence|].
  inversion T1; subst. cbn [literal]. rewrite same_char_special by (cbn; auto). destruct (beq x (chr 33)) eqn:X; [apply Ascii.eqb_eq in X; contradiction|reflexivity].
Qed.
Lemma hidden n : forall s, length s <= n -> forall a b, q s = a ++ chr 60 :: chr 35 :: b -> slash_tag f tags b = false.
Proof.
  induction n as [|n IH]; intros s L a b Q; [destruct s; [destruct a; discriminate Q|cbn in L; lia]|]. destruct s as [|c s]; [destruct a; discriminate Q|]. cbn [length] in L.
  destruct (quotable f tags (c :: s)) eqn:E.
  - apply quotable_eq in E as (r & E & B). rewrite E, (q_yes _ B) in Q. injection E as _ Es. subst s. cbn [length] in L.
    destruct a as [|a1 [|a2 [|a3 a]]]; cbn [app] in Q.
    + injection Q as <-. apply slash_bang.
    + discriminate Q.
    + discriminate Q.
    + injection Q as _ _ _ Q. apply (IH r ltac:(lia) a). exact Q.
  - rewrite (q_no _ _ E) in Q. destruct a as [|a1 a]; cbn [app] in Q.
    + injection Q as -> Q. destruct s as [|d s]; [discriminate Q|].
      assert (D : d = chr 35 /\ q s = b).
      { destruct (quotable f tags (d :: s)) eqn:E2; [apply quotable_eq in E2 as (r2 & E2 & B2); rewrite E2, (q_yes _ B2) in Q; discriminate Q|]. rewrite (q_no _ _ E2) in Q. injection Q as -> ->. auto. }
      destruct D as (-> & <-). rewrite slash_tag_q. destruct (slash_tag f tags s) eqn:X; [|reflexivity]. apply slash_bangs in X. cbn [quotable] in E. rewrite X in E. discriminate E.
    + injection Q as _ Q. apply (IH s ltac:(lia) a). exact Q.
Qed.
End Tags.

Lemma literal_same f t t' r : same_text f t t' -> literal f t (t' ++ r) = Some r.
Proof.
  revert t'. induction t as [|x t IH]; intros [|y t'] H; try reflexivity; try (destruct f; discriminate H). cbn [app literal].
  assert (X : same_char f x y = true /\ same_text f t t').
  { unfold same_text, same_char in *. destruct f; [cbn [map] in H|]; injection H as H1 H2; [rewrite H1|subst]; split; auto; apply Ascii.eqb_refl. }
  destruct X as (-> & X). apply IH. exact X.
Qed.
Lemma tag_at_same f tags t t' r : In t tags -> same_text f t t' -> tag_at f tags (t' ++ r) = true.
Proof. intros I H. apply existsb_exists. exists t. split; [exact I|]. now rewrite (literal_same _ _ _ _ H). Qed.

(** ** Headers *)
Definition no (n : bytes) (h : bytes * bytes) : bool := negb (same_name (fst h) n).
Lemma filter_all {A} (p : A -> bool) l : Forall (fun x => p x = true) l -> filter p l = l.
Proof. induction 1 as [|x l H _ IH]; [reflexivity|]. cbn [filter]. now rewrite H, IH. Qed.
Lemma filter_filter {A} (p r : A -> bool) l : filter p (filter r l) = filter (fun x => r x && p x) l.
Proof. induction l as [|x l IH]; [reflexivity|]. cbn [filter]. destruct (r x); cbn [filter andb]; [destruct (p x)|]; now rewrite IH. Qed.
Lemma Forall_filter {A} (P : A -> Prop) (p : A -> bool) l : Forall P l -> Forall P (filter p l).
Proof. induction 1 as [|x l H _ IH]; [constructor|]. cbn [filter]. destruct (p x); auto. Qed.
Lemma find_app_none {A} (p : A -> bool) a b : Forall (fun x => p x = false) a -> find p (a ++ b) = find p b.
Proof. induction 1 as [|x l H _ IH]; [reflexivity|]. cbn [app find]. now rewrite H. Qed.
Lemma existsb_app_right {A} (p : A -> bool) a b : existsb p b = true -> existsb p (a ++ b) = true.
Proof. intros H. rewrite existsb_app, H. apply orb_true_r. Qed.
Definition base (h : list (bytes * bytes)) : list (bytes * bytes) := filter (no (lit "Date")) (filter (no (lit "Message-ID")) h).
Lemma base_kept h : base h = filter kept h.
Proof. unfold base. rewrite filter_filter. reflexivity. Qed.
Definition added (id date : bytes) : list (bytes * bytes) := [(lit "Message-ID", lit "<" ++ id ++ lit ">"); (lit "Date", date); (DRAFT, lit "True")].
Lemma save_headers f tags id date m : m_headers (save_text f tags id date m) =
  base (m_headers m) ++ added id date ++ match secure_line f (m_body m) with Some (line, _) => [(SECURE, line)] | None => [] end.
Proof.
  unfold save_text, quote_some_mml, remove_header, add_header. cbn [m_headers m_body]. rewrite filter_app. unfold base, added.
  destruct (secure_line f (m_body m)) as [[line rest]|]; cbn [m_headers]; rewrite <- !app_assoc; reflexivity.
Qed.
Lemma save_body f tags id date m : m_body (save_text f tags id date m) = quote_loop f tags match secure_line f (m_body m) with Some (_, rest) => rest | None => m_body m end.
Proof. unfold save_text, quote_some_mml, remove_header, add_header. cbn [m_headers m_body]. destruct (secure_line f (m_body m)) as [[line rest]|]; reflexivity. Qed.
Lemma base_again h : filter (no (lit "Date")) (filter (no (lit "Message-ID")) (base h)) = base h.
Proof.
  rewrite base_kept, filter_filter. apply filter_all. apply Forall_forall. intros x I. apply filter_In in I as [_ I]. exact I.
Qed.
Lemma span_eq p s : fst (span p s) ++ snd (span p s) = s.
Proof. induction s as [|c s IH]; [reflexivity|]. cbn [span]. destruct (p c); [|reflexivity]. destruct (span p s) as [a b]. cbn [fst snd app] in *. now rewrite IH. Qed.
Lemma span_stop p s c r : snd (span p s) = c :: r -> p c = false.
Proof. induction s as [|d s IH]; [discriminate|]. cbn [span]. destruct (p d) eqn:D; [destruct (span p s); exact IH|]. intros E. injection E as -> _. exact D. Qed.
Lemma secure_eq f s line rest : secure_line f s = Some (line, rest) -> s = line ++ NL :: rest.
Proof.
  unfold secure_line. assert (E := span_eq (fun c => negb (beq c NL)) s). assert (T := span_stop (fun c => negb (beq c NL)) s). destruct (span _ s) as [a [|c b]]; cbn [fst snd] in *; [discriminate|].
  specialize (T c b eq_refl). apply negb_false_iff, Ascii.eqb_eq in T. subst c. destruct (literal f (lit "<#secure") a) as [y|]; [|discriminate]. destruct (rev y) as [|d z]; [discriminate|].
  destruct (beq d ">"); [|discriminate]. intros H. injection H as <- <-. symmetry. exact E.
Qed.
Lemma round_trip f tags id date m : Forall word tags -> ordinary m ->
  resume_text f tags (save_text f tags id date m) = {| m_headers := filter kept (m_headers m); m_body := m_body m |}.
Proof.
  intros W O. unfold resume_text. set (s := save_text f tags id date m).
  assert (H1 : m_headers (remove_header (lit "Date") (remove_header (lit "Message-ID") s)) = base (m_headers m) ++ (DRAFT, lit "True") :: match secure_line f (m_body m) with Some (line, _) => [(SECURE, line)] | None => [] end).
  { unfold remove_header. cbn [m_headers]. subst s. rewrite save_headers. fold (no (lit "Message-ID")). fold (no (lit "Date")). rewrite !filter_app, base_again.
    destruct (secure_line f (m_body m)) as [[line rest]|]; reflexivity. }
  rewrite H1. rewrite existsb_app_right by reflexivity.
  assert (OB : Forall (fun h => same_name (fst h) DRAFT = false /\ same_name (fst h) SECURE = false) (base (m_headers m))) by (unfold base; now repeat apply Forall_filter).
  set (m2 := remove_header DRAFT _).
  assert (H2 : m_headers m2 = base (m_headers m) ++ match secure_line f (m_body m) with Some (line, _) => [(SECURE, line)] | None => [] end).
  { subst m2. unfold remove_header at 1. cbn [m_headers]. rewrite H1, filter_app. rewrite (filter_all _ (base _)) by (eapply Forall_impl; [|exact OB]; intros h [A _]; cbn beta; now rewrite A).
    destruct (secure_line f (m_body m)) as [[line rest]|]; reflexivity. }
  assert (B2 : m_body m2 = m_body s) by reflexivity.
  unfold unquote_some_mml, fetch. unfold remove_header. cbn [m_headers m_body]. rewrite B2, H2. rewrite find_app_none by (eapply Forall_impl; [|exact OB]; intros h [_ A]; exact A).
  rewrite filter_app, (filter_all _ (base _)) by (eapply Forall_impl; [|exact OB]; intros h [_ A]; cbn beta; now rewrite A).
  subst s. rewrite save_body, base_kept. destruct (secure_line f (m_body m)) as [[line rest]|] eqn:S.
  - rewrite (unquote_quote f tags W _ _ (le_n _)). apply secure_eq in S. rewrite S. cbn [find filter]. change (same_name (fst (SECURE, line)) SECURE) with true. cbn [negb option_map snd]. now rewrite app_nil_r.
  - rewrite (unquote_quote f tags W _ _ (le_n _)). cbn [filter find option_map]. now rewrite app_nil_r.
Qed.

(** ** Encryption *)
Lemma literal_self f t r : literal f t (t ++ r) = Some r.
Proof. apply literal_same. unfold same_text. destruct f; reflexivity. Qed.
Lemma later_yes f p k x r : ~ In NL x -> k r = true -> later_on_line f p k (x ++ p ++ r) = true.
Proof.
  intros N K. induction x as [|c x IH]; cbn [app].
  - destruct (p ++ r) eqn:E; cbn [later_on_line]; rewrite <- E, literal_self, K; reflexivity.
  - cbn [later_on_line]. rewrite IH by (intros I; apply N; now right). destruct (beq c NL) eqn:B; [apply Ascii.eqb_eq in B; destruct N; left; auto|]. apply orb_true_r.
Qed.
Lemma has_later f a s : has_encryption_tag f s = true -> has_encryption_tag f (a ++ s) = true.
Proof. intros H. induction a as [|c a IH]; [exact H|]. cbn [app has_encryption_tag]. rewrite IH. apply orb_true_r. Qed.
Lemma has_here f s : encryption_tag f s = true -> has_encryption_tag f s = true.
Proof. destruct s; cbn [has_encryption_tag]; intros ->; reflexivity. Qed.
Lemma asks_has f s : asks_encryption s -> has_encryption_tag f s = true.
Proof.
  destruct 1 as [a b|a x y b N1 N2]; apply has_later, has_here; unfold encryption_tag.
  - now rewrite literal_self.
  - rewrite (literal_self f (lit "<#secure")). rewrite (later_yes f (lit "mode=")); [apply orb_true_r|exact N1|]. apply later_yes; [exact N2|reflexivity].
Qed.

(** ** History *)
Lemma live_mark i l : flat_map (fun '(j, _, deleted) => if deleted : bool then [] else [j]) (map (fun '(j, m, x) => (j, m : mail, x || bseq i j)) l) =
  filter (fun j => negb (bseq i j)) (flat_map (fun '(j, _, deleted) => if deleted : bool then [] else [j]) l).
Proof.
  induction l as [|[[j m] []] l IH]; [reflexivity| |]; cbn [map flat_map app orb]; [exact IH|]. cbn [filter]. destruct (bseq i j); cbn [negb app]; now rewrite IH.
Qed.
Lemma ids_mark i l : map (fun '(j, _, _) => j) (map (fun '(j, m, x) => (j, m : mail, x || bseq i j)) l) = map (fun '(j, _, _) => j : bytes) l.
Proof. induction l as [|[[j m] x] l IH]; [reflexivity|]. cbn [map]. now rewrite IH. Qed.
Lemma live_ids d i : In i (live d) -> In i (ids d).
Proof. unfold live, ids. induction (saved d) as [|[[j m] []] l IH]; [auto| |]; cbn [flat_map map app]; [intros H; right; auto|]. intros [H|H]; [left; exact H|right; auto]. Qed.
Definition filt (i : bytes) (l : list bytes) : list bytes := filter (fun j => negb (bseq i j)) l.
Lemma filt_none i l : ~ In i l -> filt i l = l.
Proof. intros N. apply filter_all. apply Forall_forall. intros x I. destruct (bseq_spec i x); [subst; contradiction|reflexivity]. Qed.
Lemma filt_app i a b : filt i (a ++ b) = filt i a ++ filt i b. Proof. apply filter_app. Qed.
Lemma filt_one i : filt i [i] = []. Proof. unfold filt. cbn [filter]. now rewrite bseq_refl. Qed.
(** The current draft is known, and it is none of the others. *)
Definition tracked (others : list bytes) (d : drafts) : Prop := match current d with Some i => In i (ids d) /\ ~ In i others | None => True end.
Lemma marked d : exists d', mark_deleted true d = Some d' /\ live d' = match current d with Some i => filt i (live d) | None => live d end /\ ids d' = ids d /\ current d' = current d /\ sent d' = sent d.
Proof.
  unfold mark_deleted. destruct (current d) as [i|] eqn:C.
  - eexists. split; [reflexivity|]. unfold live, ids. cbn [saved current sent]. rewrite live_mark, ids_mark. auto.
  - exists d. auto.
Qed.
Lemma one_filt others d : at_most_one others d -> tracked others d -> match current d with Some i => filt i (live d) | None => live d end = others.
Proof.
  unfold tracked. intros M T. destruct (current d) as [i|] eqn:C.
  - destruct T as [_ N]. destruct M as [E|(j & Cj & E)]; [now rewrite E, filt_none|]. assert (j = i) by congruence. subst j. now rewrite E, filt_app, filt_one, app_nil_r, filt_none.
  - destruct M as [E|(j & Cj & E)]; [exact E|congruence].
Qed.
Lemma save_live f tags p others d i date m yes ins : at_most_one others d -> tracked others d -> ~ In i (ids d) -> ~ In i others -> 
  step f tags p d (Save i date m yes ins true) = d \/
  let d' := step f tags p d (Save i date m yes ins true) in live d' = others ++ [i] /\ current d' = Some i /\ ids d' = ids d ++ [i] /\ In (i, save_text true tags i date m, false) (saved d').
Proof.
  intros M T N NO. cbn [step]. destruct (has_encryption_tag f (m_body m) && negb (allowed p yes)); [left; reflexivity|]. destruct ins; [|left; reflexivity]. right. cbn [negb].
  set (d1 := {| saved := saved d ++ [(i, save_text true tags i date m, false)]; current := current d; sent := sent d |}).
  assert (L1 : live d1 = live d ++ [i]) by (unfold live, d1; cbn [saved]; now rewrite flat_map_app).
  assert (I1 : ids d1 = ids d ++ [i]) by (unfold ids, d1; cbn [saved]; now rewrite map_app).
  destruct (marked d1) as (d2 & E2 & L2 & I2 & C2 & S2). rewrite E2. cbn [live ids saved current].
  split; [|split; [reflexivity|split]].
  - change (live d2 = others ++ [i]). rewrite L2, L1. change (current d1) with (current d). rewrite <- (one_filt _ _ M T). unfold tracked in T. destruct (current d) as [j|]; [|reflexivity].
    rewrite filt_app. f_equal. apply filt_none. intros [H|[]]. subst j. tauto.
  - change (ids d2 = ids d ++ [i]). now rewrite I2.
  - unfold mark_deleted in E2. change (current d1) with (current d) in E2. unfold tracked in T. destruct (current d) as [j|]; [|injection E2 as <-; apply in_or_app; right; left; reflexivity].
    injection E2 as <-. cbn [saved d1]. apply in_map_iff. exists (i, save_text true tags i date m, false). split; [|apply in_or_app; right; left; reflexivity].
    destruct (bseq_spec j i); [subst; tauto|reflexivity].
Qed.
Lemma send_live f tags p others d tr : at_most_one others d -> tracked others d ->
  let d' := step f tags p d (Send true tr) in live d' = others /\ current d' = current d /\ ids d' = ids d /\ sent d' = tr || sent d.
Proof.
  intros M T. cbn [step]. destruct (marked d) as (d2 & E2 & L2 & I2 & C2 & S2). rewrite E2. cbn [live ids saved current sent].
  rewrite (one_filt _ _ M T) in L2. split; [exact L2|]. split; [exact C2|]. split; [exact I2|]. now rewrite S2.
Qed.
Lemma run_inv f tags p others l : forall d, at_most_one others d -> tracked others d -> tags_work l -> NoDup (new_ids l) -> (forall i, In i (new_ids l) -> ~ In i (ids d) /\ ~ In i others) ->
  at_most_one others (run f tags p d l) /\ tracked others (run f tags p d l) /\ (forall i, In i (ids (run f tags p d l)) -> In i (ids d) \/ In i (new_ids l)).
Proof.
  induction l as [|a l IH]; intros d M T W ND F; [cbn; auto|]. inversion W as [|a' l' W1 W2]; subst. unfold run. cbn [fold_left]. fold (run f tags p (step f tags p d a) l).
  destruct a as [i date m yes ins tg|tg tr]; subst tg.
  - cbn [new_ids flat_map app] in *. inversion ND as [|i' l' N1 N2]; subst. destruct (F i (or_introl eq_refl)) as [F1 F2].
    destruct (save_live f tags p others d i date m yes ins M T F1 F2) as [E|(L & C & I & _)].
    + rewrite E. destruct (IH d M T W2 N2 (fun j Hj => F j (or_intror Hj))) as (A & B & D). split; [exact A|]. split; [exact B|]. intros j Hj. apply D in Hj as [Hj|Hj]; [left|right; right]; exact Hj.
    + set (d' := step f tags p d (Save i date m yes ins true)) in *. destruct (IH d') as (A & B & D); auto.
      * right. eauto.
      * unfold tracked. rewrite C, I. split; [apply in_or_app; right; left; reflexivity|exact F2].
      * intros j Hj. destruct (F j (or_intror Hj)) as [G1 G2]. split; [|exact G2]. rewrite I. intros X. apply in_app_or in X as [X|[X|[]]]; [contradiction|]. subst j. contradiction.
      * split; [exact A|]. split; [exact B|]. intros j Hj. apply D in Hj as [Hj|Hj]; [|right; right; exact Hj]. rewrite I in Hj. apply in_app_or in Hj as [Hj|[Hj|[]]]; [left; exact Hj|right; left; exact Hj].
  - destruct (send_live f tags p others d tr M T) as (L & C & I & _). set (d' := step f tags p d (Send true tr)) in *. destruct (IH d') as (A & B & D); auto.
    + left. exact L.
    + unfold tracked. rewrite C, I. exact T.
    + intros j Hj. rewrite I. now apply F.
    + split; [exact A|]. split; [exact B|]. intros j Hj. apply D in Hj. now rewrite I in Hj.
Qed.
