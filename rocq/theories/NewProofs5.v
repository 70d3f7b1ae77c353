From Verif Require Import Bytes Terms DocMap MsgId MsgIdProofs MailStore MailStoreSpec MailStoreProofs MailStoreProofs2 Maildir New NewSpec NewProofs NewProofs2 NewProofs3 NewProofs4.
From Coq Require Import Sorted Permutation.
Local Open Scope N_scope.

Ltac none := intros; match goal with H : noV _ _ |- _ => destruct H | H : noP _ |- _ => destruct H | H : noM _ _ |- _ => destruct H end.

Section Walk.
Variable compressed : bytes -> bytes.
Hypothesis compressed_short : forall s, (length (compressed s) <= 189)%nat.
Variables (full_scan sync : bool) (new_tags ignore_verbatim : list bytes) (ignore_regex : list (bytes -> bool)) (stat_time : bytes -> Z).
Variable A : bytes -> bytes -> Prop.
Notation canon := (canon compressed).
Notation inv := (inv compressed).
Notation ignored := (entry_in_ignore_list ignore_verbatim ignore_regex).
Notation mail s := (n_mail (s_db s)).
Notation isrec s f := (recorded (s_db s) f).
Notation eff := (eff compressed sync new_tags A).
Notation ord := (ord ignore_verbatim ignore_regex).
Notation reg := (reg ignore_verbatim ignore_regex).
Notation present := (present ignore_verbatim ignore_regex).
Notation V2 := (V2 ignore_verbatim ignore_regex).
Notation pass1 := (pass1 ignore_verbatim ignore_regex).
Notation pass2 := (pass2 compressed sync new_tags ignore_verbatim ignore_regex).
Notation add_files := (add_files compressed full_scan sync new_tags ignore_verbatim ignore_regex stat_time).
Notation VT := (VT ignored).
Notation GT := (GT ignored).
Notation GDT := (GDT ignored).
Notation DT := (DT ignored).
Notation MT := (MT ignored stat_time).
Notation trustworthy := (trustworthy ignored).
Notation scanned := (scanned ignored).
Notation entered := (entered ignored).
Notation ordinary := (ordinary ignored).

Definition legal (nd : node) : Prop := forall f keys ok, mail_in nd f keys ok ->
  (forall r, In r keys -> canon r <> canon (f_id f)) /\ forall t, In t (f_auto_tags f) -> A (canon (f_id f)) t.
Definition mkE (e : bytes * node) : entry := (fst e, (dirent_type (snd e), add_files (snd e))).

Lemma add_files_dir mt nl es p s : add_files (NDir mt nl es) p s =
  scan_dir compressed full_scan sync new_tags ignore_verbatim ignore_regex stat_time mt nl (map mkE es) p s.
Proof.
  cbn [New.add_files]. f_equal. induction es as [|[n nd] es IH]; [reflexivity|]. cbn [map]. rewrite IH. reflexivity.
Qed.

Lemma eff_bool V G GD D M b b' s s' : b = b' -> eff V G GD D M b s s' -> eff V G GD D M b' s s'.
Proof. now intros ->. Qed.
Lemma eff_idle V G GD D M s s' : inv (mail s) -> good_ndb (s_db s) ->
  s_db s' = s_db s -> s_removed_files s' = s_removed_files s -> s_removed_dirs s' = s_removed_dirs s -> s_mtimes s' = s_mtimes s -> s_vanished s' = s_vanished s -> (live s' -> live s) ->
  eff V G GD D M false s s'.
Proof.
  intros Hi Hg E1 E2 E3 E4 E6 E5. apply (eff_tick_l compressed sync new_tags A _ _ _ _ _ _ s s' s'); auto.
  eapply (eff_weaken compressed sync new_tags A); [| | | | | |apply (eff_nothing compressed sync new_tags A false s'); rewrite ?E1; assumption]; try none; discriminate.
Qed.
Lemma eff_dead V G GD D M b s s' : inv (mail s) -> good_ndb (s_db s) ->
  s_db s' = s_db s -> s_removed_files s' = s_removed_files s -> s_removed_dirs s' = s_removed_dirs s -> s_mtimes s' = s_mtimes s -> s_vanished s' = s_vanished s -> ~ live s' ->
  eff V G GD D M b s s'.
Proof.
  intros Hi Hg E1 E2 E3 E4 E6 E5. apply (eff_tick_l compressed sync new_tags A _ _ _ _ _ _ s s' s'); auto; [tauto|].
  eapply (eff_weaken compressed sync new_tags A); [| | | | | |apply (eff_nothing compressed sync new_tags A b s'); rewrite ?E1; assumption]; try none. tauto.
Qed.
Lemma eff_inv V G GD D M b s s' : eff V G GD D M b s s' -> inv (mail s') /\ good_ndb (s_db s').
Proof. intros E. split; apply E. Qed.

Lemma trust_transfer top nd db db' : (forall q, beneath top q -> dir_get q db' = dir_get q db) ->
  (forall g, beneath top g -> (recorded db' g <-> recorded db g)) -> trustworthy top nd db -> trustworthy top nd db'.
Proof.
  intros Hd Hr T p mt nl es Hs Hm.
  assert (Bp : beneath top p) by (eapply scanned_upto; exact Hs).
  assert (Bc : forall n, beneath top (child p n)) by (intros n; eapply beneath_trans; [exact Bp|apply (beneath_child p n [])]).
  assert (Kc : forall n, known_dir db' (child p n) <-> known_dir db (child p n)) by (intros n; unfold known_dir; now rewrite Hd by apply Bc).
  rewrite Hd in Hm by exact Bp. destruct (T p mt nl es Hs Hm) as (T1 & T2 & T3 & T4). split; [|split; [|split]].
  - intros n Hn H. apply T1; [exact Hn|]. now apply Hr in H.
  - intros n f keys ok Hin Ho. apply Hr; [apply Bc|]. eapply T2; eassumption.
  - intros n Hn H. apply T3; [exact Hn|]. now apply Kc.
  - intros E H. apply T4; [exact E|]. intros n Hn X. apply (H n Hn). now apply Kc.
Qed.
Lemma trust_sub top mt nl es db n sub : trustworthy top (NDir mt nl es) db -> In (n, sub) es -> is_dir sub -> entered top es n -> trustworthy (child top n) sub db.
Proof.
  intros T Hin Hd He p m l e Hs. apply (T p m l e). apply scanned_dir. right. exists n, sub. auto.
Qed.

Definition walk_ok (nd : node) : Prop := is_dir nd -> forall p s t, rooted p -> good_tree nd -> legal nd -> inv (mail s) -> good_ndb (s_db s) ->
  (t = true -> full_scan = true \/ trustworthy p nd (s_db s)) ->
  exists b s', add_files nd p s = Some (b, s') /\ eff (VT p nd) (GT p nd) (GDT p nd) (DT p nd) (MT p nd) (b && t) s s'.

Definition ent (md : bool) (p n : bytes) : bool := ord p n && negb (never_entered md p n).
Definition Sub (md : bool) (p : bytes) (l : list (bytes * node)) (Q : bytes -> node -> Prop) : Prop :=
  exists n nd, In (n, nd) l /\ is_dir nd /\ ent md p n = true /\ Q (child p n) nd.

Lemma Sub_cons md p n nd l Q : Sub md p ((n, nd) :: l) Q <-> (is_dir nd /\ ent md p n = true /\ Q (child p n) nd) \/ Sub md p l Q.
Proof.
  unfold Sub. split.
  - intros (x & y & [[= <- <-]|H] & H2 & H3 & H4); [left; auto|right; exists x, y; auto].
  - intros [(H1 & H2 & H3)|(x & y & H1 & H2)]; [exists n, nd; cbn; auto|exists x, y; cbn; auto].
Qed.

Lemma pass1_eff md p : rooted p -> forall l s t, (forall n nd, In (n, nd) l -> walk_ok nd) -> NoDup (map fst l) ->
  (forall n nd, In (n, nd) l -> mem SLASH n = false /\ good_tree nd /\ legal nd) -> inv (mail s) -> good_ndb (s_db s) ->
  (t = true -> full_scan = true \/ forall n nd, In (n, nd) l -> is_dir nd -> ent md p n = true -> trustworthy (child p n) nd (s_db s)) ->
  exists b s', pass1 md p (map mkE l) s = Some (b, s') /\
    eff (fun g c => Sub md p l (fun q nd => VT q nd g c)) (fun f => Sub md p l (fun q nd => GT q nd f)) (fun f => Sub md p l (fun q nd => GDT q nd f))
        (fun f => Sub md p l (fun q nd => DT q nd f)) (fun x m => Sub md p l (fun q nd => MT q nd x m)) (b && t) s s'.
Proof.
  intros Hp. induction l as [|[n nd] l IH]; intros s t Hw Nd Hl Hi Hg Ht; cbn [map New.pass1].
  { exists true, s. split; [reflexivity|]. eapply (eff_weaken compressed sync new_tags A); [| | | | | |apply (eff_nothing compressed sync new_tags A _ s Hi Hg)]; try none.
    intros _ _. split; [intros g f keys ok (? & ? & [] & _)|]. split; intros f (? & ? & [] & _). }
  cbn [map fst] in Nd. apply NoDup_cons_iff in Nd as [Nn Nd].
  assert (Hw' : forall n nd, In (n, nd) l -> walk_ok nd) by (intros; eapply Hw; right; eassumption).
  assert (Hl' : forall n nd, In (n, nd) l -> mem SLASH n = false /\ good_tree nd /\ legal nd) by (intros; eapply Hl; right; eassumption).
  unfold mkE at 1. cbn [fst snd].
  destruct (interrupted_spec s) as (i & s1 & -> & Edb & Erf & Erd & Emt & Evn & Elive & Ei). destruct i.
  { exists true, s1. split; [reflexivity|]. apply eff_dead; auto. intros L. destruct (Elive L). discriminate. }
  assert (Lv : live s1 -> live s) by (intros L; now apply Elive).
  (* an entry pass 1 does nothing with *)
  assert (Skip : (is_dir nd -> ent md p n = true -> False) -> exists b s', pass1 md p (map mkE l) s1 = Some (b, s') /\
    eff (fun g c => Sub md p ((n,nd)::l) (fun q nd => VT q nd g c)) (fun f => Sub md p ((n,nd)::l) (fun q nd => GT q nd f)) (fun f => Sub md p ((n,nd)::l) (fun q nd => GDT q nd f))
        (fun f => Sub md p ((n,nd)::l) (fun q nd => DT q nd f)) (fun x m => Sub md p ((n,nd)::l) (fun q nd => MT q nd x m)) (b && t) s s').
  { intros Hno. destruct (IH s1 t) as (b & s' & E & F); auto; [now rewrite Edb|now rewrite Edb| |].
    { intros T. destruct (Ht T) as [X|X]; [now left|right]. intros. rewrite Edb. apply X; auto. now right. }
    exists b, s'. split; [exact E|]. apply (eff_tick_l compressed sync new_tags A _ _ _ _ _ _ s s1 s'); auto.
    assert (S : forall Q, Sub md p ((n,nd)::l) Q <-> Sub md p l Q). { intros Q. rewrite Sub_cons. split; [intros [(X & Y & _)|X]; [destruct (Hno X Y)|exact X]|tauto]. }
    eapply (eff_weaken compressed sync new_tags A); [| | | | | |exact F]; intros; try (now apply S).
    split; [intros g f keys ok X; left; now apply S|]. split; intros f X; left; now apply S. }
  destruct (special_directory n) eqn:Es. { apply Skip. unfold ent, NewProofs3.ord. rewrite Es. discriminate. }
  destruct (ignored p n) eqn:Eg. { apply Skip. unfold ent, NewProofs3.ord. rewrite Eg. rewrite andb_false_r. discriminate. }
  assert (Eo : ord p n = true) by (unfold NewProofs3.ord; now rewrite Es, Eg).
  assert (Dec : dirent_type nd = KBroken \/ (dirent_type nd = KDir /\ is_dir nd) \/ ((forall x y z : option (bool * nstate),
     match dirent_type nd with KReg _ => x | KDir => y | KOther => x | KBroken => z end = x) /\ ~ is_dir nd)).
  { destruct nd; cbn; auto. }
  destruct Dec as [Dec|[[Dec Hdir]|[Dec Hdir]]].
  - rewrite Dec. exists false, s1. split; [reflexivity|]. apply eff_idle; auto.
  - rewrite Dec. destruct (never_entered md p n) eqn:Ene. { apply Skip. unfold ent. rewrite Ene, Eo. discriminate. }
    assert (Een : ent md p n = true) by (unfold ent; now rewrite Ene, Eo).
    destruct (Hl n nd (or_introl eq_refl)) as (Hns & Hgt & Hleg).
    destruct (Hw n nd (or_introl eq_refl) Hdir (child p n) s1 t) as (b1 & s2 & E1 & F1); auto; try (rewrite Edb; assumption); [now apply rooted_child| |].
    { intros T. rewrite Edb. destruct (Ht T) as [X|X]; [now left|right]. apply X; auto. now left. }
    rewrite E1. assert (F1' : eff (VT (child p n) nd) (GT (child p n) nd) (GDT (child p n) nd) (DT (child p n) nd) (MT (child p n) nd) (b1 && t) s s2)
      by (apply (eff_tick_l compressed sync new_tags A _ _ _ _ _ _ s s1 s2); auto).
    destruct b1.
    2:{ exists false, s2. split; [reflexivity|]. eapply (eff_weaken compressed sync new_tags A); [| | | | | |exact F1']; intros; try (apply Sub_cons; left; auto). discriminate. }
    destruct (eff_inv _ _ _ _ _ _ _ _ F1') as [I2 G2].
    destruct (IH s2 t) as (b & s' & E & F); auto.
    { intros T. destruct (Ht T) as [X|X]; [now left|right]. intros n' nd' Hin' Hd' He'. assert (T' := X n' nd' (or_intror Hin') Hd' He').
      destruct (Hl' n' nd' Hin') as (Hns' & _).
      assert (Ne : n <> n'). { intros ->. apply Nn. apply in_map_iff. now exists (n', nd'). }
      eapply trust_transfer; [| |exact T'].
      - intros q Bq. destruct (dir_get q (s_db s2)) as [m|] eqn:Q.
        + destruct (e_dsound _ _ _ _ _ _ _ _ _ _ _ _ F1' q m Q) as [Y|(Y & _ & Z)]; [now rewrite Y|]. exfalso. apply Ne. eapply DT_other; eassumption.
        + destruct (dir_get q (s_db s)) as [m|] eqn:Q'; [|reflexivity]. apply (e_dmono _ _ _ _ _ _ _ _ _ _ _ _ F1') in Q'. congruence.
      - intros g Bg. split; intros (j & Hj).
        + apply (e_sound _ _ _ _ _ _ _ _ _ _ _ _ F1') in Hj as [Hj|(_ & f & keys & Hv & _)]; [now exists j|]. exfalso. apply Ne. apply VT_beneath in Hv. exact (beneath_two p n n' g Hns Hns' Hv Bg).
        + exists j. now apply (e_mono _ _ _ _ _ _ _ _ _ _ _ _ F1'). }
    exists b, s'. split; [exact E|].
    assert (Other : forall (Q : bytes -> node -> Prop) g, (forall q x, Q q x -> beneath q g) -> beneath (child p n) g -> Sub md p l Q -> False).
    { intros Q g HQ Bg (n' & nd' & Hin' & _ & _ & HQ'). destruct (Hl' n' nd' Hin') as (Hns' & _). apply HQ in HQ'.
      assert (n = n') by exact (beneath_two p n n' g Hns Hns' Bg HQ'). subst n'. apply Nn. apply in_map_iff. now exists (n, nd'). }
    apply (eff_bool _ _ _ _ _ ((true && t) && (b && t))); [destruct b, t; reflexivity|].
    eapply (eff_weaken compressed sync new_tags A); [| | | | | |eapply (eff_seq compressed sync new_tags A); [| | |exact F1'|exact F]].
    + intros f c [H|H]; apply Sub_cons; auto.
    + intros f [H|H]; apply Sub_cons; auto.
    + intros f [H|H]; apply Sub_cons; auto.
    + intros f [H|H]; apply Sub_cons; auto.
    + intros x m [H|H]; apply Sub_cons; auto.
    + intros _ _. split; [intros g f keys ok H; apply Sub_cons in H; left; tauto|]. split; intros f H; apply Sub_cons in H; left; tauto.
    + intros f c c' H1 H2. refine (Other _ f _ _ H2); [intros q x; apply VT_beneath|]. eapply VT_beneath; exact H1.
    + intros f c H1 H2. refine (Other _ f _ _ H2); [intros q x; apply GT_beneath|]. eapply VT_beneath; exact H1.
    + intros f H1 (n' & nd' & Hin' & _ & _ & H2). destruct (Hl' n' nd' Hin') as (Hns' & _). apply GDT_beneath in H2.
      assert (n = n') by (eapply DT_other; eassumption). subst n'. apply Nn. apply in_map_iff. now exists (n, nd').
  - rewrite Dec. apply Skip. intros; contradiction.
Qed.
End Walk.
