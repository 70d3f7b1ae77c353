(** Where a recorded file can lie relative to the scanned directories. *)
From Verif Require Import Bytes Terms DocMap MsgId MsgIdProofs MailStore MailStoreSpec MailStoreProofs MailStoreProofs2 Maildir New NewSpec NewProofs NewProofs2 NewProofs3 NewProofs4 NewProofs5 NewProofs7 NewProofs8.
From Coq Require Import Sorted Permutation.

Lemma beneath_len p q : beneath p q -> length p <= length q.
Proof. intros [->|(r & ->)]; [lia|]. rewrite length_child. lia. Qed.

Section Place.
Variables (ignore_verbatim : list bytes) (ignore_regex : list (bytes -> bool)).
Notation ignored := (entry_in_ignore_list ignore_verbatim ignore_regex).
Notation scanned := (scanned ignored).
Notation entered := (entered ignored).
Notation ordinary := (ordinary ignored).
Notation GT := (GT ignored).
Notation GDT := (GDT ignored).
Notation visible := (visible ignored).
Notation shadowed := (shadowed ignored).

Lemma scanned_beneath top nd q x : scanned top nd q x -> beneath top q.
Proof. apply scanned_upto. Qed.

Lemma scanned_fun nd : good_tree nd -> forall top q x y, scanned top nd q x -> scanned top nd q y -> x = y.
Proof.
  induction nd as [c|mt nl l IH|mt nl| |] using node_ind'; intros Hg top q x y Hx Hy;
    try (apply scanned_leaf in Hx as [_ ->]; [|discriminate]; apply scanned_leaf in Hy as [_ ->]; [reflexivity|discriminate]).
  inversion Hg as [? ? ? Nd Hch| | | |]; subst.
  apply scanned_dir in Hx as [[-> ->]|(n & sub & H1 & H2 & H3 & H4)]; apply scanned_dir in Hy as [[Ey ->]|(n' & sub' & K1 & K2 & K3 & K4)].
  - reflexivity.
  - exfalso. apply scanned_beneath in K4. apply (beneath_inv top n') in K4; [now apply K4|]. now apply (Hch n' sub').
  - exfalso. apply scanned_beneath in H4. apply (beneath_inv top n) in H4; [now apply H4|]. now apply (Hch n sub).
  - assert (n = n') by (eapply beneath_two; [now apply (Hch n sub)|now apply (Hch n' sub')|eapply scanned_beneath; exact H4|eapply scanned_beneath; exact K4]). subst n'.
    assert (sub = sub') by (eapply good_fun; eassumption). subst sub'. eapply (IH n sub); [exact H1|now apply (Hch n sub)|eassumption..].
Qed.
Lemma scanned_chain nd : good_tree nd -> forall top p mt nl es q x n, scanned top nd p (NDir mt nl es) -> scanned top nd q x -> mem SLASH n = false ->
  beneath (child p n) q -> exists sub, In (n, sub) es /\ is_dir sub /\ entered p es n.
Proof.
  induction nd as [c|mt0 nl0 l IH|mt0 nl0| |] using node_ind'; intros Hg top p mt nl es q x n Hp Hq Hn Hb;
    try (apply scanned_leaf in Hp as [_ Hp]; [discriminate Hp|discriminate]).
  inversion Hg as [? ? ? Nd Hch| | | |]; subst.
  apply scanned_dir in Hp as [[-> [= -> -> ->]]|(m1 & sub1 & H1 & H2 & H3 & H4)]; apply scanned_dir in Hq as [[-> _]|(m2 & sub2 & K1 & K2 & K3 & K4)].
  - exfalso. now apply beneath_inv in Hb.
  - assert (n = m2) by (eapply beneath_two; [exact Hn|now apply (Hch m2 sub2)|exact Hb|eapply scanned_beneath; exact K4]). subst m2. eauto.
  - exfalso. apply scanned_beneath in H4. apply beneath_len in H4, Hb. rewrite length_child in *. lia.
  - assert (B1 := scanned_beneath _ _ _ _ H4). assert (B2 := scanned_beneath _ _ _ _ K4).
    assert (B3 : beneath (child top m1) q). { eapply beneath_trans; [exact B1|]. eapply beneath_trans; [exact (proj1 (beneath_child p n []))|exact Hb]. }
    assert (m1 = m2) by (eapply beneath_two; [now apply (Hch m1 sub1)|now apply (Hch m2 sub2)|eassumption..]). subst m2.
    assert (sub1 = sub2) by (eapply good_fun; eassumption). subst sub2. eapply (IH m1 sub1); [exact H1|now apply (Hch m1 sub1)|eassumption..].
Qed.
Lemma scanned_end nd : good_tree nd -> forall top p mt nl q x, scanned top nd p (NUnreadable mt nl) -> scanned top nd q x -> beneath p q -> q = p.
Proof.
  induction nd as [c|mt0 nl0 l IH|mt0 nl0| |] using node_ind'; intros Hg top p mt nl q x Hp Hq Hb;
    try (apply scanned_leaf in Hp as [-> _]; [|discriminate]; apply scanned_leaf in Hq as [-> _]; [reflexivity|discriminate]).
  inversion Hg as [? ? ? Nd Hch| | | |]; subst.
  apply scanned_dir in Hp as [[_ E]|(m1 & sub1 & H1 & H2 & H3 & H4)]; [discriminate E|]. apply scanned_dir in Hq as [[-> _]|(m2 & sub2 & K1 & K2 & K3 & K4)].
  - exfalso. apply scanned_beneath in H4. apply beneath_len in H4, Hb. rewrite length_child in *. lia.
  - assert (B1 := scanned_beneath _ _ _ _ H4). assert (B2 := scanned_beneath _ _ _ _ K4).
    assert (m1 = m2) by (eapply beneath_two; [now apply (Hch m1 sub1)|now apply (Hch m2 sub2)|eapply beneath_trans; eassumption|exact B2]). subst m2.
    assert (sub1 = sub2) by (eapply good_fun; eassumption). subst sub2. eapply (IH m1 sub1); [exact H1|now apply (Hch m1 sub1)|eassumption..].
Qed.

Definition gone (top : bytes) (nd : node) (f : bytes) : Prop := GT top nd f \/ exists d, GDT top nd d /\ below d f.

Lemma GDT_entered nd top d : good_tree nd -> GDT top nd d -> forall q x, scanned top nd q x -> beneath d q -> False.
Proof.
  intros Hg (q' & x' & mt & nl & es & Hs & -> & Hx & Hno) q x Hq Hb.
  destruct (scanned_chain nd Hg top q' mt nl es q x x' Hs Hq Hx Hb) as (sub & H1 & H2 & H3). apply Hno. split; [apply H3|eauto].
Qed.
Lemma below_two a b f : below a f -> below b f -> beneath a b \/ beneath b a.
Proof.
  intros (r & ->) (r' & E). destruct (upto_chain ignored (child a r) a b) as [X|X]; [right; eauto|right; eauto|now right|now left].
Qed.
Lemma visible_not_gone nd top f c : good_tree nd -> visible top nd f c -> ~ gone top nd f.
Proof.
  intros Hg (q & mt & nl & es & n & Hs & Hin & Ho & ->) H.
  assert (Hn : mem SLASH n = false) by (eapply scanned_entry; eassumption). destruct H as [(q' & x & m & n' & e & Hs' & E & Hx & Hno)|(d & Hd & Hb)].
  - apply child_inj in E as [<- <-]; auto. assert (E := scanned_fun nd Hg top q _ _ Hs Hs'). injection E as <- <- <-. apply Hno. eauto.
  - apply below_parent in Hb; [|exact Hn]. eapply GDT_entered; eassumption.
Qed.
Lemma shadowed_not_gone nd top f : good_tree nd -> shadowed top nd f -> ~ gone top nd f.
Proof.
  intros Hg [(p & mt & nl & es & n & sub & rest & Hs & Hin & Ho & Hne & Ef)|(p & mt & nl & rest & Hs & Ef)] H.
  - assert (Hn : mem SLASH n = false) by (eapply scanned_entry; eassumption).
    assert (Hb : below (child p n) f) by now exists rest.
    assert (Nd : NoDup (map fst es)) by (apply scanned_good in Hs; [now inversion Hs|exact Hg]).
    assert (No : forall q x, scanned top nd q x -> beneath (child p n) q -> False).
    { intros q x Hq B. destruct (scanned_chain nd Hg top p mt nl es q x n Hs Hq Hn B) as (sub' & X1 & X2 & X3). assert (sub = sub') by (eapply good_fun; eassumption). subst sub'. tauto. }
    destruct H as [(q & x & m & n' & e & Hs' & E & Hx & Hno)|(d & Hd & Hbd)].
    + rewrite E in Hb. apply below_parent in Hb; [|exact Hx]. eauto.
    + assert (Hd' := Hd). destruct Hd' as (q & x & m & n' & e & Hs' & -> & Hx & Hno).
      destruct (below_two _ _ _ Hb Hbd) as [[E|B]|[E|B]].
      * apply child_inj in E as [<- <-]; auto. assert (E := scanned_fun nd Hg top p _ _ Hs Hs'). injection E as <- <- <-. apply Hno. eauto.
      * apply below_parent in B; [|exact Hx]. eauto.
      * apply child_inj in E as [-> ->]; auto. assert (E := scanned_fun nd Hg top p _ _ Hs Hs'). injection E as <- <- <-. apply Hno. eauto.
      * apply below_parent in B; [|exact Hn]. exact (GDT_entered nd top _ Hg Hd p _ Hs B).
  - assert (Hb : below p f) by now exists rest. destruct H as [(q & x & m & n' & e & Hs' & E & Hx & Hno)|(d & Hd & Hbd)].
    + rewrite E in Hb. apply below_parent in Hb; [|exact Hx]. assert (q = p) by (eapply scanned_end; eassumption). subst q.
      assert (X := scanned_fun nd Hg top p _ _ Hs Hs'). discriminate.
    + assert (Hd' := Hd). destruct Hd' as (q & x & m & n' & e & Hs' & -> & Hx & Hno). destruct (below_two _ _ _ Hb Hbd) as [B|B].
      * destruct B as [E|B].
        -- eapply GDT_entered; [exact Hg|exact Hd|exact Hs|left; now symmetry].
        -- apply below_parent in B; [|exact Hx]. assert (q = p) by (eapply scanned_end; eassumption). subst q. assert (X := scanned_fun nd Hg top p _ _ Hs Hs'). discriminate.
      * exact (GDT_entered nd top _ Hg Hd p _ Hs B).
Qed.

Definition look (n : bytes) (l : list (bytes * node)) : option node := option_map snd (find (fun e => bseq n (fst e)) l).
Lemma look_Some n l nd : look n l = Some nd -> In (n, nd) l.
Proof.
  unfold look. pose proof (MailStoreProofs.find_spec (fun e => bseq n (fst e)) l) as F. destruct (find _ l) as [[x y]|]; [|discriminate].
  intros [= <-]. destruct F as [F1 F2]. apply bseq_eq in F2. cbn in F2. now subst x.
Qed.
Lemma look_None n l nd : look n l = None -> ~ In (n, nd) l.
Proof.
  unfold look. destruct (find (fun e => bseq n (fst e)) l) eqn:F; [discriminate|]. intros _ H. apply (find_none _ _ F) in H. cbn in H. now rewrite bseq_refl in H.
Qed.
Lemma ordinary_dec p n : ordinary p n \/ ~ ordinary p n.
Proof. destruct (ord ignore_verbatim ignore_regex p n) eqn:E; [left|right; intros X]; apply (ord_ordinary _ _ (fun _ => 0%Z) (fun _ _ => True)) in E || apply (ord_ordinary _ _ (fun _ => 0%Z) (fun _ _ => True)) in X; [exact E|congruence]. Qed.
Lemma entered_dec p l n : NoDup (map fst l) -> entered p l n \/ ~ entered p l n.
Proof.
  intros Nd. pose proof (ent_entered ignore_verbatim ignore_regex (fun _ => 0%Z) (fun _ _ => True) (entries_resemble_maildir (map (fun e => (fst e, dirent_type (snd e))) l)) p l n (resemble_maildir l Nd)) as X.
  destruct (ent ignore_verbatim ignore_regex _ p n); [left; now apply X|right; intros Y; apply X in Y; discriminate].
Qed.

Lemma classify nd : good_tree nd -> is_dir nd -> forall top f (known : bytes -> Prop), below top f -> (forall p, below p f -> known p) ->
  (exists c, visible top nd f c) \/ shadowed top nd f \/ GT top nd f \/ exists d, GDT top nd d /\ known d /\ below d f.
Proof.
  induction nd as [c|mt nl l IH|mt nl| |] using node_ind'; intros Hg Hdir top f known Hb Hk; try destruct Hdir.
  - inversion Hg as [? ? ? Nd Hch| | | |]; subst. destruct (below_cases top f Hb) as [(n & -> & Hn)|(n & Hn & Hbn)].
    + assert (X : (exists c, In (n, NReg c) l) \/ ~ exists c, In (n, NReg c) l).
      { destruct (look n l) as [nd|] eqn:E.
        - apply look_Some in E. destruct nd as [c| | | |]; [left; eauto|..]; right; intros (c & X); pose proof (good_fun _ _ _ _ Nd E X); discriminate.
        - right. intros (c & X). now apply (look_None _ _ _ E) in X. }
      destruct X as [(c & X)|X].
      * destruct (ordinary_dec top n) as [O|O].
        -- left. exists c, top, mt, nl, l, n. split; [constructor|auto].
        -- right. right. left. exists top, n, mt, nl, l. split; [constructor|]. split; [reflexivity|]. split; [exact Hn|tauto].
      * right. right. left. exists top, n, mt, nl, l. split; [constructor|]. split; [reflexivity|]. split; [exact Hn|tauto].
    + destruct (look n l) as [sub|] eqn:E.
      2:{ right. right. right. exists (child top n). split; [|split; [now apply Hk|exact Hbn]]. exists top, n, mt, nl, l. split; [constructor|]. split; [reflexivity|]. split; [exact Hn|].
          intros [_ (nd' & X)]. now apply (look_None _ _ _ E) in X. }
      apply look_Some in E. destruct (ordinary_dec top n) as [O|O].
      2:{ right. right. right. exists (child top n). split; [|split; [now apply Hk|exact Hbn]]. exists top, n, mt, nl, l. split; [constructor|]. split; [reflexivity|]. split; [exact Hn|tauto]. }
      assert (D : (is_dir sub /\ entered top l n) \/ ~ (is_dir sub /\ entered top l n)).
      { destruct (dirb sub) eqn:Ed; [|right; intros [X _]; apply dirb_is_dir in X; congruence]. apply dirb_is_dir in Ed. destruct (entered_dec top l n Nd); [now left|right; tauto]. }
      destruct D as [[D1 D2]|D].
      2:{ right. left. left. destruct Hbn as (r & ->). exists top, mt, nl, l, n, sub, r. split; [constructor|]. auto. }
      assert (Up : forall q x, scanned (child top n) sub q x -> scanned top (NDir mt nl l) q x) by (intros q x X; apply scanned_dir; right; exists n, sub; auto).
      destruct (IH n sub E (proj2 (Hch n sub E)) D1 (child top n) f known Hbn Hk) as [(c & X)|[X|[X|(d & X & Y)]]].
      * left. destruct X as (q & m & n' & e & y & Hs & X). exists c, q, m, n', e, y. auto.
      * right. left. destruct X as [(p & m & n' & e & y & s' & r & Hs & X)|(p & m & n' & r & Hs & X)]; [left; exists p, m, n', e, y, s', r; auto|right; exists p, m, n', r; auto].
      * right. right. left. destruct X as (q & x & m & n' & e & Hs & X). exists q, x, m, n', e. auto.
      * right. right. right. exists d. split; [|exact Y]. destruct X as (q & x & m & n' & e & Hs & X). exists q, x, m, n', e. auto.
  - right. left. right. destruct Hb as (r & ->). exists top, mt, nl, r. split; [constructor|reflexivity].
Qed.
Lemma known_rooted db : good_ndb db -> forall q, known_dir db q -> beneath [] q.
Proof.
  intros Hg q. remember (length q) as k eqn:Ek. revert q Ek. induction k as [k IH] using lt_wf_ind. intros q -> Hk.
  destruct (g_dir _ Hg q Hk) as [->|(q' & n & -> & Hn & Hk')]; [now left|].
  eapply beneath_trans; [eapply (IH (length q')); [rewrite length_child; lia|reflexivity|exact Hk']|exact (proj1 (beneath_child q' n []))].
Qed.
Lemma recorded_below db : good_ndb db -> forall f, recorded db f -> below [] f.
Proof.
  intros Hg f Hf. destruct (g_file _ Hg f Hf) as (q & n & -> & Hn & Hk). apply (known_rooted db Hg) in Hk. eapply below_trans; [exact Hk|]. now exists n.
Qed.
End Place.
