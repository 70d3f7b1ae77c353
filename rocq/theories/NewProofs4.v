From Verif Require Import Bytes Terms DocMap MsgId MsgIdProofs MailStore MailStoreSpec MailStoreProofs MailStoreProofs2 Maildir New NewSpec NewProofs NewProofs2 NewProofs3.
From Coq Require Import Sorted Permutation.
Local Open Scope N_scope.

Lemma node_ind' (P : node -> Prop) : (forall c, P (NReg c)) ->
  (forall mt nl es, (forall n nd, In (n, nd) es -> P nd) -> P (NDir mt nl es)) ->
  (forall mt nl, P (NUnreadable mt nl)) -> P NOther -> P NBroken -> forall nd, P nd.
Proof.
  intros H1 H2 H3 H4 H5. fix IH 1. intros [c|mt nl es|mt nl| |]; [apply H1| |apply H3|exact H4|exact H5]. apply H2.
  induction es as [|[n nd] es IHes]; intros n' nd' Hin; [destruct Hin|]. destruct Hin as [Hin|Hin].
  - injection Hin as _ <-. apply IH.
  - exact (IHes n' nd' Hin).
Qed.

Section Tree.
Variable ignored : bytes -> bytes -> bool.
Notation scanned := (scanned ignored).
Notation entered := (entered ignored).
Notation ordinary := (ordinary ignored).

Lemma scanned_dir top mt nl es q x : scanned top (NDir mt nl es) q x <->
  (q = top /\ x = NDir mt nl es) \/ exists n sub, In (n, sub) es /\ is_dir sub /\ entered top es n /\ scanned (child top n) sub q x.
Proof.
  split.
  - induction 1 as [|p m l e n sub Hp IH Hin Hd He]; [now left|]. right.
    destruct IH as [[-> [= -> -> ->]]|(n' & sub' & H1 & H2 & H3 & H4)].
    + exists n, sub. split; [exact Hin|]. split; [exact Hd|]. split; [exact He|]. constructor.
    + exists n', sub'. repeat (split; [assumption|]). eapply scanned_sub; eassumption.
  - intros [[-> ->]|(n & sub & H1 & H2 & H3 & H4)]; [constructor|].
    induction H4 as [|p m l e n' sub' Hp IH Hin Hd He].
    + eapply scanned_sub; [constructor|eassumption..].
    + eapply scanned_sub; eassumption.
Qed.
Lemma scanned_leaf top nd q x : (forall mt nl es, nd <> NDir mt nl es) -> scanned top nd q x -> q = top /\ x = nd.
Proof.
  intros Hn. induction 1 as [|p m l e n sub Hp IH Hin Hd He]; [auto|]. destruct IH as [_ IH]. exfalso. eapply Hn. symmetry. exact IH.
Qed.
Lemma scanned_upto top nd q x : scanned top nd q x -> upto q top.
Proof.
  induction 1 as [|p m l e n sub Hp IH Hin Hd He]; [now left|]. right. destruct IH as [->|(r & ->)]; [now exists n|].
  rewrite child_child. eexists; reflexivity.
Qed.
Lemma scanned_good top nd q x : good_tree nd -> scanned top nd q x -> good_tree x.
Proof.
  intros Hg. induction 1 as [|p m l e n sub Hp IH Hin Hd He]; [exact Hg|]. inversion IH as [? ? ? G1 G2| | | |]; subst. now apply (G2 n sub).
Qed.
Lemma scanned_rooted top nd q x : rooted top -> scanned top nd q x -> rooted q.
Proof. intros Hg. induction 1 as [|p m l e n sub Hp IH Hin Hd He]; [exact Hg|]. now apply rooted_child. Qed.
Lemma scanned_isdir top nd q x : is_dir nd -> scanned top nd q x -> is_dir x.
Proof. intros Hg. induction 1; assumption. Qed.
(** Names of entries contain no '/'. *)
Lemma scanned_entry top nd q mt nl es n sub : good_tree nd -> scanned top nd q (NDir mt nl es) -> In (n, sub) es -> mem SLASH n = false.
Proof. intros Hg Hs Hin. apply scanned_good in Hs; [|exact Hg]. inversion Hs as [? ? ? G1 G2| | | |]; subst. now apply (G2 n sub). Qed.

Lemma good_fun (es : list (bytes * node)) n a b : NoDup (map fst es) -> In (n, a) es -> In (n, b) es -> a = b.
Proof.
  induction es as [|[m c] es IH]; cbn; intros Hn H1 H2; [destruct H1|]. apply NoDup_cons_iff in Hn as [Hn Hd].
  destruct H1 as [H1|H1], H2 as [H2|H2].
  - congruence.
  - injection H1 as -> ->. exfalso. apply Hn. apply in_map_iff. now exists (n, b).
  - injection H2 as -> ->. exfalso. apply Hn. apply in_map_iff. now exists (n, a).
  - auto.
Qed.

(** Paths below a directory. *)
Definition beneath (p q : bytes) : Prop := upto q p.
Lemma beneath_child p n r : beneath p (child p n) /\ beneath p (child (child p n) r).
Proof. split; right; [now exists n|]. rewrite child_child. eauto. Qed.
Lemma beneath_trans p q r : beneath p q -> beneath q r -> beneath p r.
Proof.
  intros [->|(x & E)] [->|(y & ->)]; [now left|now right; exists y|now right; exists x|].
  right. rewrite E, child_child. eauto.
Qed.
Lemma beneath_two p n m q : mem SLASH n = false -> mem SLASH m = false -> beneath (child p n) q -> beneath (child p m) q -> n = m.
Proof.
  intros Hn Hm H1 H2. destruct H1 as [<-|(r & ->)], H2 as [E2|(r' & E2)].
  - apply child_same in E2. congruence.
  - exfalso. revert E2. now apply child_below.
  - exfalso. revert E2. now apply child_below.
  - eapply below_same; eassumption.
Qed.
Lemma beneath_inv p n q : mem SLASH n = false -> beneath (child p n) q -> q <> p.
Proof.
  intros Hn [<-|(r & ->)] E; symmetry in E; [now apply child_not_self in E|]. rewrite child_child in E. now apply child_not_self in E.
Qed.
(** [upto] two things. *)
Lemma upto_chain p a b : upto p a -> upto p b -> upto a b \/ upto b a.
Proof.
  unfold upto. intros [->|(r & Ea)] Hb; [tauto|]. destruct Hb as [->|(r' & Eb)]; [right; right; eauto|].
  rewrite Ea in Eb. unfold child in Eb. apply app_eq_app in Eb as (l & [[E1 E2]|[E1 E2]]).
  - destruct l as [|c l]; [rewrite app_nil_r in E1; left; left; congruence|]. cbn in E2. injection E2 as <- _. left. right. exists l. exact E1.
  - destruct l as [|c l]; [rewrite app_nil_r in E1; left; left; congruence|]. cbn in E2. injection E2 as <- _. right. right. exists l. exact E1.
Qed.

Definition dirb (nd : node) : bool := match nd with NDir _ _ _ | NUnreadable _ _ => true | _ => false end.
Lemma dirb_is_dir nd : dirb nd = true <-> is_dir nd.
Proof. destruct nd; cbn; split; intros H; try discriminate; try contradiction; auto. Qed.

Definition hasdir (x : bytes) (l : list (bytes * node)) : bool := existsb (fun e => bseq (fst e) x && dirb (snd e)) l.
Lemma hasdir_spec x l : hasdir x l = true <-> exists nd, In (x, nd) l /\ is_dir nd.
Proof.
  unfold hasdir. rewrite existsb_exists. split.
  - intros ([n nd] & Hin & H). cbn in H. apply andb_true_iff in H as [H1 H2]. apply bseq_eq in H1. subst n. exists nd. split; [exact Hin|]. now apply dirb_is_dir.
  - intros (nd & Hin & Hd). exists (x, nd). split; [exact Hin|]. cbn. rewrite bseq_refl. now apply dirb_is_dir.
Qed.
Definition b2n (b : bool) : nat := if b then 1 else 0.
Lemma maildir_found_eq l : NoDup (map fst l) ->
  maildir_found (map (fun e => (fst e, dirent_type (snd e))) l) = (b2n (hasdir (lit "new") l) + b2n (hasdir (lit "cur") l) + b2n (hasdir (lit "tmp") l))%nat.
Proof.
  induction l as [|[n nd] l IH]; intros Hd; [reflexivity|]. cbn [map fst] in Hd. apply NoDup_cons_iff in Hd as [Hn Hd]. specialize (IH Hd).
  assert (Hno : hasdir n l = false).
  { destruct (hasdir n l) eqn:E; [|reflexivity]. apply hasdir_spec in E as (x & Hx & _). exfalso. apply Hn. apply in_map_iff. now exists (n, x). }
  assert (Hc : forall x, hasdir x ((n, nd) :: l) = (bseq n x && dirb nd) || hasdir x l) by reflexivity.
  rewrite !Hc. cbn [map fst snd]. destruct nd; cbn [dirent_type maildir_found dirb]; rewrite ?andb_false_r, ?andb_true_r; cbn [orb]; try exact IH.
  - rewrite IH. destruct (bseq_spec n (lit "new")) as [->|]; [rewrite Hno; cbn; lia|].
    destruct (bseq_spec n (lit "cur")) as [->|]; [rewrite Hno; cbn; lia|].
    destruct (bseq_spec n (lit "tmp")) as [->|]; [rewrite Hno; cbn; lia|]. reflexivity.
  - rewrite IH. destruct (bseq_spec n (lit "new")) as [->|]; [rewrite Hno; cbn; lia|].
    destruct (bseq_spec n (lit "cur")) as [->|]; [rewrite Hno; cbn; lia|].
    destruct (bseq_spec n (lit "tmp")) as [->|]; [rewrite Hno; cbn; lia|]. reflexivity.
Qed.
Lemma resemble_maildir l : NoDup (map fst l) ->
  (entries_resemble_maildir (map (fun e => (fst e, dirent_type (snd e))) l) = true <-> maildir l).
Proof.
  intros Hd. unfold entries_resemble_maildir. rewrite Nat.leb_le, maildir_found_eq by exact Hd.
  assert (X : maildir l <-> hasdir (lit "new") l = true /\ hasdir (lit "cur") l = true /\ hasdir (lit "tmp") l = true).
  { rewrite !hasdir_spec. unfold maildir. cbn [In]. split.
    - intros H. split; [|split]; apply H; tauto.
    - intros (H1 & H2 & H3) n [<-|[<-|[<-|[]]]]; assumption. }
  rewrite X. destruct (hasdir (lit "new") l), (hasdir (lit "cur") l), (hasdir (lit "tmp") l); cbn; split; try lia; try tauto; intuition discriminate.
Qed.
Lemma maildir_perm a b : Permutation a b -> maildir a -> maildir b.
Proof. intros P H n Hn. destruct (H n Hn) as (nd & H1 & H2). exists nd. split; [|exact H2]. eapply Permutation_in; eassumption. Qed.

(** The predicates of a sub-tree. *)
Definition VT (p : bytes) (nd : node) : bytes -> content -> Prop := visible ignored p nd.
Definition GT (p : bytes) (nd : node) (f : bytes) : Prop := exists q x mt nl es, scanned p nd q (NDir mt nl es) /\ f = child q x /\ mem SLASH x = false /\
  ~ (ordinary q x /\ exists c, In (x, NReg c) es).
Definition GDT (p : bytes) (nd : node) (f : bytes) : Prop := exists q x mt nl es, scanned p nd q (NDir mt nl es) /\ f = child q x /\ mem SLASH x = false /\
  ~ (ordinary q x /\ exists nd', In (x, nd') es).
Definition DT (p : bytes) (nd : node) (f : bytes) : Prop := exists q x, scanned p nd q x /\ upto q f.
Definition MT (st : bytes -> Z) (p : bytes) (nd : node) (q : bytes) (m : Z) : Prop := exists nl es, scanned p nd q (NDir m nl es) /\ m <> st q.

Lemma VT_beneath p nd g c : VT p nd g c -> beneath p g.
Proof.
  intros (q & mt & nl & es & n & Hs & _ & _ & ->). apply scanned_upto in Hs. eapply beneath_trans; [exact Hs|]. apply (beneath_child q n []).
Qed.
Lemma GT_beneath p nd g : GT p nd g -> beneath p g.
Proof.
  intros (q & x & mt & nl & es & Hs & -> & _). apply scanned_upto in Hs. eapply beneath_trans; [exact Hs|]. apply (beneath_child q x []).
Qed.
Lemma GDT_beneath p nd g : GDT p nd g -> beneath p g.
Proof.
  intros (q & x & mt & nl & es & Hs & -> & _). apply scanned_upto in Hs. eapply beneath_trans; [exact Hs|]. apply (beneath_child q x []).
Qed.
(** A directory created for [p/n] is below it or above it. *)
Lemma DT_chain p nd g : DT p nd g -> beneath p g \/ upto p g.
Proof.
  intros (q & x & Hs & Hu). apply scanned_upto in Hs. destruct (upto_chain q g p Hu Hs) as [H|H]; [now left|now right].
Qed.
Lemma DT_other p n m nd g : mem SLASH n = false -> mem SLASH m = false -> DT (child p n) nd g -> beneath (child p m) g -> n = m.
Proof.
  intros Hn Hm HD HB. apply DT_chain in HD as [HD|HD]; [eapply beneath_two; eassumption|].
  assert (X : beneath (child p m) (child p n)) by (eapply beneath_trans; eassumption).
  eapply beneath_two; [exact Hn|exact Hm| |exact X]. now left.
Qed.
End Tree.
