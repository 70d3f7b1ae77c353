From Verif Require Import Bytes Terms DocMap MsgId MsgIdProofs MailStore MailStoreSpec MailStoreProofs MailStoreProofs2 Maildir New NewSpec NewProofs NewProofs2 NewProofs3 NewProofs4 NewProofs5 NewProofs6 NewProofs7 NewProofs8 NewProofs9 NewProofs10.
From Coq Require Import Sorted Permutation.

Ltac none := intros; match goal with H : noV _ _ |- _ => destruct H | H : noP _ |- _ => destruct H | H : noM _ _ |- _ => destruct H end.

Section Stop.
Variable compressed : bytes -> bytes.
Hypothesis compressed_short : forall s, (length (compressed s) <= 189)%nat.
Variables (full_scan sync : bool) (new_tags ignore_verbatim : list bytes) (ignore_regex : list (bytes -> bool)) (stat_time : bytes -> Z).
Variable A : bytes -> bytes -> Prop.
Notation canon := (canon compressed).
Notation inv := (inv compressed).
Notation ignored := (entry_in_ignore_list ignore_verbatim ignore_regex).
Notation mail s := (n_mail (s_db s)).
Notation isrec s f := (recorded (s_db s) f).
Notation eff := (eff compressed sync new_tags A).
Notation ord := (ord ignore_verbatim ignore_regex).
Notation reg := (reg ignore_verbatim ignore_regex).
Notation present := (present ignore_verbatim ignore_regex).
Notation V2 := (V2 ignore_verbatim ignore_regex).
Notation pass1 := (pass1 ignore_verbatim ignore_regex).
Notation pass2 := (pass2 compressed sync new_tags ignore_verbatim ignore_regex).
Notation add_files := (add_files compressed full_scan sync new_tags ignore_verbatim ignore_regex stat_time).
Notation VT := (VT ignored).
Notation GT := (GT ignored).
Notation GDT := (GDT ignored).
Notation DT := (DT ignored).
Notation MT := (MT ignored stat_time).
Notation trustworthy := (trustworthy ignored).
Notation scanned := (scanned ignored).
Notation entered := (entered ignored).
Notation ordinary := (ordinary ignored).

Notation legal := (legal compressed A).
Notation mkE := (mkE compressed full_scan sync new_tags ignore_verbatim ignore_regex stat_time).
Notation ent := (ent ignore_verbatim ignore_regex).
Notation Sub := (Sub ignore_verbatim ignore_regex).
Notation walk_ok := (walk_ok compressed full_scan sync new_tags ignore_verbatim ignore_regex stat_time A).
Notation eff_weaken := (eff_weaken compressed sync new_tags A).
Notation eff_seq := (eff_seq compressed sync new_tags A).

Notation finish := (finish compressed sync new_tags ignore_verbatim ignore_regex stat_time).
Notation notmuch_new := (notmuch_new compressed full_scan sync new_tags ignore_verbatim ignore_regex stat_time).
Notation gone := (gone ignore_verbatim ignore_regex).
Notation recd db := (rec (n_mail db)).

Notation run := (run compressed ignore_verbatim ignore_regex stat_time A).

(** ---- A scan that fails or is interrupted removes nothing ---- *)
Definition mono (w : walker) : Prop := forall p s b s', w p s = Some (b, s') -> live s' -> live s.
Lemma add_file_tick p n c s s' : add_file compressed sync new_tags p n c s = Some s' -> s_tick s' = s_tick s.
Proof.
  unfold add_file. destruct c as [[[f keys] ok]|]; [|intros [= <-]; reflexivity].
  destruct (index_file compressed (child p n) f keys ok (mail s)) as [[st m]|]; [|discriminate]. intros [= <-]. destruct st; reflexivity.
Qed.
Lemma pass1_mono md p es : (forall n k w, In (n, (k, w)) es -> mono w) -> forall s b s', pass1 md p es s = Some (b, s') -> live s' -> live s.
Proof.
  induction es as [|[n [k w]] es IH]; intros Hw s b s'; cbn [New.pass1]; [intros [= _ <-]; auto|].
  destruct (interrupted_cases s) as [[-> _]|(s1 & -> & L & _)]; [intros [= _ <-]; auto|]. intros _ _. exact L.
Qed.
Lemma pass1_clean md p es : (forall n k w, In (n, (k, w)) es -> mono w) -> forall s s', pass1 md p es s = Some (true, s') -> live s' ->
  forall n k w, In (n, (k, w)) es -> ord p n = true -> k <> KBroken /\ (k = KDir -> never_entered md p n = false -> exists s1 s2, w (child p n) s1 = Some (true, s2) /\ live s2).
Proof.
  induction es as [|[x [k0 w0]] es IH]; intros Hw s s' E L n k w Hin Ho; [destruct Hin|]. cbn [New.pass1] in E.
  assert (Hw' : forall n k w, In (n, (k, w)) es -> mono w) by (intros; eapply Hw; right; eassumption).
  destruct (interrupted_cases s) as [[Ei NL]|(s1 & Ei & Li & _)]; rewrite Ei in E.
  { injection E as <-. contradiction. }
  destruct Hin as [Hin|Hin].
  - injection Hin as -> -> ->. unfold NewProofs3.ord in Ho. apply andb_true_iff in Ho as [O1 O2]. apply negb_true_iff in O1, O2. rewrite O1, O2 in E.
    destruct k; try discriminate; (split; [discriminate|]); try discriminate. intros _ Ne. rewrite Ne in E.
    destruct (w (child p n) s1) as [[[|] s2]|] eqn:Ew; try discriminate. exists s1, s2. split; [exact Ew|]. eapply pass1_mono; eassumption.
  - destruct (special_directory x); [eapply IH; eassumption|]. destruct (ignored p x); [eapply IH; eassumption|].
    destruct k0; try discriminate; try (eapply IH; eassumption). destruct (never_entered md p x); [eapply IH; eassumption|].
    destruct (w0 (child p x) s1) as [[[|] s2]|]; try discriminate. eapply IH; eassumption.
Qed.
Lemma pass2_mono p es : forall dbf dbd s b lf ld s', pass2 p es dbf dbd s = Some (b, lf, ld, s') -> live s' -> live s.
Proof.
  destruct es as [|[n [k w]] es]; intros dbf dbd s b lf ld s'; cbn [New.pass2]; [intros [= _ _ _ <-]; auto|].
  destruct (interrupted_cases s) as [[-> _]|(s1 & -> & L & _)]; [intros [= _ _ _ <-]; auto|]. intros _ _. exact L.
Qed.
Lemma scan_mono mt nl es : (forall n k w, In (n, (k, w)) es -> mono w) -> mono (scan_dir compressed full_scan sync new_tags ignore_verbatim ignore_regex stat_time mt nl es).
Proof.
  intros Hw p s b s'. unfold scan_dir. match goal with |- context [if ?c then Some (true, s) else _] => destruct c end; [intros [= _ <-]; auto|].
  set (es' := match dir_get p (s_db s) with Some _ => sort_entries es | None => es end).
  assert (Hw' : forall n k w, In (n, (k, w)) es' -> mono w).
  { intros n k w H. apply (Hw n k w). unfold es' in H. destruct (dir_get p (s_db s)); [|exact H]. eapply Permutation_in; [apply Permutation_sym, sort_perm|exact H]. }
  destruct (pass1 _ p es' s) as [[[|] s1]|] eqn:E1; [| |discriminate].
  2:{ intros [= _ <-]. eapply pass1_mono; eassumption. }
  match goal with |- context [if ?c then Some (true, s1) else _] => destruct c end; [intros [= _ <-]; eapply pass1_mono; eassumption|].
  match goal with |- context [New.pass2 _ _ _ _ _ p es' ?a ?b s1] => destruct (pass2 p es' a b s1) as [[[[[|] lf] ld] s2]|] eqn:E2 end; [| |discriminate].
  2:{ intros [= _ <-] L. eapply pass1_mono; [exact Hw'|exact E1|]. eapply pass2_mono; eassumption. }
  destruct (interrupted_cases s2) as [[-> NL]|(s3 & -> & L2 & _)].
  - intros [= _ <-] L. contradiction.
  - intros _ _. eapply pass1_mono; [exact Hw'|exact E1|]. eapply pass2_mono; eassumption.
Qed.
Lemma add_files_mono nd : mono (add_files nd).
Proof.
  induction nd as [c|mt nl l IH|mt nl| |] using node_ind'; intros p s b s'; try (cbn; intros [= _ <-]; auto; fail).
  - rewrite add_files_dir. apply scan_mono. intros n k w H. apply in_map_iff in H as ([x sub] & [= <- <- <-] & H). now apply (IH x).
  - cbn [New.add_files]. match goal with |- context [if ?c then _ else _] => destruct c end; intros [= _ <-]; auto.
Qed.

Lemma good_tree_dir mt nl es : good_tree (NDir mt nl es) -> NoDup (map fst es) /\ forall n nd, In (n, nd) es -> good_name n /\ good_tree nd.
Proof. intros H. inversion H; subst; auto. Qed.
(** The directories below [nd] are readable and their entries are no dangling links. *)
Definition readable (top : bytes) (nd : node) : Prop := forall q x, scanned top nd q x ->
  match x with NUnreadable _ _ => False | NDir _ _ es => forall n, In (n, NBroken) es -> ~ ordinary q n | _ => True end.
Lemma scan_clean nd : full_scan = true -> good_tree nd -> forall p s s', add_files nd p s = Some (true, s') -> live s' -> readable p nd.
Proof.
  intros Hfull. induction nd as [c|mt nl l IH|mt nl| |] using node_ind'; intros Hg p s s' E L q x Hs; try (cbn in E; discriminate).
  - destruct (good_tree_dir _ _ _ Hg) as [Nd Hch]. rewrite add_files_dir in E. unfold scan_dir in E.
    assert (U : match dir_get p (s_db s) with Some m => negb full_scan && Z.eqb mt m | None => false end = false) by (rewrite Hfull; destruct (dir_get p (s_db s)); reflexivity).
    rewrite U in E. cbn [andb] in E.
    set (es' := match dir_get p (s_db s) with Some _ => sort_entries (map mkE l) | None => map mkE l end) in E.
    set (md := entries_resemble_maildir _) in E.
    assert (Hin : forall n sub, In (n, sub) l -> In (n, (dirent_type sub, add_files sub)) es').
    { intros n sub H. assert (X : In (n, (dirent_type sub, add_files sub)) (map mkE l)) by (apply in_map_iff; exists (n, sub); auto).
      unfold es'. destruct (dir_get p (s_db s)); [|exact X]. eapply Permutation_in; [apply sort_perm|exact X]. }
    assert (Hmd : md = true <-> maildir l).
    { unfold md, es'. destruct (dir_get p (s_db s)).
      - rewrite (sort_map mkE) by reflexivity. rewrite map_map. cbn [NewProofs5.mkE fst snd]. rewrite resemble_maildir.
        + split; apply maildir_perm; [apply Permutation_sym|]; apply sort_perm.
        + eapply Permutation_NoDup; [|exact Nd]. apply Permutation_map, sort_perm.
      - rewrite map_map. cbn [NewProofs5.mkE fst snd]. now apply resemble_maildir. }
    assert (Hw : forall n k w, In (n, (k, w)) es' -> mono w).
    { intros n k w H. assert (X : In (n, (k, w)) (map mkE l)).
      { unfold es' in H. destruct (dir_get p (s_db s)); [|exact H]. eapply Permutation_in; [apply Permutation_sym, sort_perm|exact H]. }
      apply in_map_iff in X as ([y sub] & [= <- <- <-] & X). apply add_files_mono. }
    destruct (pass1 md p es' s) as [[[|] s1]|] eqn:E1; try discriminate.
    assert (L1 : live s1).
    { match type of E with match New.pass2 _ _ _ _ _ p es' ?a ?b s1 with _ => _ end = _ => destruct (pass2 p es' a b s1) as [[[[[|] lf] ld] s2]|] eqn:E2 end; try discriminate.
      eapply pass2_mono; [exact E2|]. destruct (interrupted_cases s2) as [[Ei NL]|(s3 & Ei & L2 & _)]; [|exact L2]. rewrite Ei in E. injection E as <-. contradiction. }
    pose proof (pass1_clean md p es' Hw s s1 E1 L1) as C.
    apply scanned_dir in Hs as [[-> ->]|(n & sub & H1 & H2 & H3 & H4)].
    + intros n Hn Ho. apply (ord_ordinary _ _ stat_time A) in Ho. destruct (C n _ _ (Hin n NBroken Hn) Ho) as [X _]. now apply X.
    + assert (He := proj2 (ent_entered ignore_verbatim ignore_regex stat_time A md p l n Hmd) H3).
      unfold NewProofs5.ent in He. apply andb_true_iff in He as [Ho He]. apply negb_true_iff in He.
      destruct (C n _ _ (Hin n sub H1) Ho) as [_ X]. destruct X as (s2 & s3 & Ew & L3); [destruct sub; try destruct H2; reflexivity|exact He|].
      exact (IH n sub H1 (proj2 (Hch n sub H1)) (child p n) s2 s3 Ew L3 q x H4).
  - cbn [New.add_files] in E.
    assert (U : match dir_get p (s_db s) with Some m => negb full_scan && Z.eqb mt m | None => false end = false) by (rewrite Hfull; destruct (dir_get p (s_db s)); reflexivity).
    rewrite U in E. cbn [andb] in E. discriminate.
Qed.

Theorem stopped_removes_nothing root ticks db : inv (n_mail db) -> good_ndb db -> good_tree root -> legal root -> full_scan = true -> ~ readable [] root ->
  exists db', notmuch_new root ticks db = Some (ExitFailure, db') /\ forall f i, recd db f i -> recd db' f i.
Proof.
  intros Hi Hg Hgt Hleg Hfull Hbad. unfold New.notmuch_new.
  set (s := {| s_db := db; s_removed_files := []; s_removed_dirs := []; s_mtimes := []; s_vanished := 0; s_tick := ticks |}).
  destruct (dirb root) eqn:Hdb.
  2:{ assert (E : add_files root [] s = Some (false, s)) by (destruct root; try discriminate; reflexivity). rewrite E. exists db. auto. }
  apply dirb_is_dir in Hdb.
  destruct (walk_all compressed compressed_short full_scan sync new_tags ignore_verbatim ignore_regex stat_time A root Hdb [] s true) as (b & s1 & E & F); auto; [now left|].
  rewrite E. pose proof (e_mono _ _ _ _ _ _ _ _ _ _ _ _ F) as Mono. destruct b; [|exists (s_db s1); auto].
  destruct (interrupted_cases s1) as [[Ei NL]|(s2 & _ & L & _)].
  2:{ exfalso. apply Hbad. eapply scan_clean; eassumption. }
  destruct (dead_loops compressed sync s1 NL) as (D1 & D2 & D3). rewrite D1, D2, D3, Ei. exists (s_db s1). auto.
Qed.
End Stop.
