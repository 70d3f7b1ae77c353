(** A run that is not interrupted and finds no obstacle does not fail. *)
From Verif Require Import Bytes Terms DocMap MsgId MsgIdProofs MailStore MailStoreSpec MailStoreProofs MailStoreProofs2 Maildir New NewSpec NewProofs NewProofs2 NewProofs3 NewProofs4 NewProofs5 NewProofs6 NewProofs7 NewProofs8 NewProofs9 NewProofs10 NewProofs11 NewCrash.
From Coq Require Import Sorted Permutation.

Section Calm.
Variable compressed : bytes -> bytes.
Variables (full_scan sync : bool) (new_tags ignore_verbatim : list bytes) (ignore_regex : list (bytes -> bool)) (stat_time : bytes -> Z).
Notation ignored := (entry_in_ignore_list ignore_verbatim ignore_regex).
Notation ord := (ord ignore_verbatim ignore_regex).
Notation pass1 := (pass1 ignore_verbatim ignore_regex).
Notation pass2 := (pass2 compressed sync new_tags ignore_verbatim ignore_regex).
Notation add_files := (add_files compressed full_scan sync new_tags ignore_verbatim ignore_regex stat_time).
Notation mkE := (mkE compressed full_scan sync new_tags ignore_verbatim ignore_regex stat_time).
Notation scan_dir := (scan_dir compressed full_scan sync new_tags ignore_verbatim ignore_regex stat_time).
Notation readable := (readable ignore_verbatim ignore_regex).
Notation A := (fun _ _ : bytes => True).

Definition calm (w : walker) (p : bytes) : Prop := forall s b s', s_tick s = None -> w p s = Some (b, s') -> b = true /\ s_tick s' = None.
Lemma calm_int s : s_tick s = None -> interrupted s = (false, s).
Proof. intros H. unfold interrupted. now rewrite H. Qed.
Lemma pass1_calm md p es : (forall n k w, In (n, (k, w)) es -> ord p n = true -> k <> KBroken /\ (k = KDir -> never_entered md p n = false -> calm w (child p n))) ->
  forall s b s', s_tick s = None -> pass1 md p es s = Some (b, s') -> b = true /\ s_tick s' = None.
Proof.
  induction es as [|[n [k w]] es IH]; intros Hw s b s' Ht; cbn [New.pass1]; [intros [= <- <-]; auto|]. rewrite (calm_int s Ht).
  assert (Hw' : forall n k w, In (n, (k, w)) es -> ord p n = true -> k <> KBroken /\ (k = KDir -> never_entered md p n = false -> calm w (child p n))) by (intros; eapply Hw; [right|]; eassumption).
  specialize (IH Hw'). destruct (special_directory n) eqn:O1; [now apply IH|]. destruct (ignored p n) eqn:O2; [now apply IH|].
  destruct (Hw n k w (or_introl eq_refl)) as [Nb Hc]; [unfold NewProofs3.ord; now rewrite O1, O2|].
  destruct k; try (now apply IH); [|contradiction]. destruct (never_entered md p n) eqn:Ne; [now apply IH|].
  destruct (w (child p n) s) as [[b1 s1]|] eqn:Ew; [|discriminate]. destruct (Hc eq_refl eq_refl s b1 s1 Ht Ew) as [-> T1]. now apply IH.
Qed.
Lemma pass2_calm p es : (forall n k w, In (n, (k, w)) es -> ord p n = true -> k <> KBroken) ->
  forall dbf dbd s b lf ld s', s_tick s = None -> pass2 p es dbf dbd s = Some (b, lf, ld, s') -> b = true /\ s_tick s' = None.
Proof.
  induction es as [|[n [k w]] es IH]; intros Hw dbf dbd s b lf ld s' Ht; cbn [New.pass2]; [intros [= <- _ _ <-]; auto|]. rewrite (calm_int s Ht).
  assert (Hw' : forall n k w, In (n, (k, w)) es -> ord p n = true -> k <> KBroken) by (intros; eapply Hw; [right|]; eassumption).
  specialize (IH Hw'). destruct (special_directory n) eqn:O1; [now apply IH|]. destruct (ignored p n) eqn:O2; [now apply IH|].
  assert (Nb : k <> KBroken) by (apply (Hw n k w (or_introl eq_refl)); unfold NewProofs3.ord; now rewrite O1, O2).
  destruct (passed_files n dbf) as [qf dbf']. destruct (passed_dirs n dbd) as [qd dbd'].
  destruct k as [c| | |]; try (apply IH; exact Ht); [|contradiction].
  destruct (match dbf' with f :: _ => bseq f n | [] => false end); [now apply IH|].
  destruct (add_file compressed sync new_tags p n c _) as [s1|] eqn:Ea; [|discriminate]. apply IH.
  apply (add_file_tick compressed sync new_tags) in Ea. now rewrite Ea.
Qed.
Lemma add_files_calm nd : good_tree nd -> dirb nd = true -> forall p, readable p nd -> calm (add_files nd) p.
Proof.
  induction nd as [c|mt nl l IH|mt nl| |] using node_ind'; intros Hg Hd p Hr; try discriminate.
  2:{ exfalso. exact (Hr p _ (scanned_top _ _ _)). }
  destruct (good_tree_dir _ _ _ Hg) as [Nd Hch]. intros s b s' Ht. rewrite add_files_dir. unfold New.scan_dir.
  match goal with |- context [if ?c then Some (true, s) else _] => destruct c end; [intros [= <- <-]; auto|].
  set (es' := match dir_get p (s_db s) with Some _ => sort_entries (map mkE l) | None => map mkE l end).
  set (md := entries_resemble_maildir _).
  assert (Hin : forall n k w, In (n, (k, w)) es' -> exists sub, In (n, sub) l /\ k = dirent_type sub /\ w = add_files sub).
  { intros n k w H. assert (X : In (n, (k, w)) (map mkE l)).
    { unfold es' in H. destruct (dir_get p (s_db s)); [|exact H]. eapply Permutation_in; [apply Permutation_sym, sort_perm|exact H]. }
    apply in_map_iff in X as ([y sub] & [= <- <- <-] & X). eauto. }
  assert (Hmd : md = true <-> maildir l).
  { unfold md, es'. destruct (dir_get p (s_db s)).
    - rewrite (sort_map mkE) by reflexivity. rewrite map_map. cbn [NewProofs5.mkE fst snd]. rewrite resemble_maildir.
      + split; apply maildir_perm; [apply Permutation_sym|]; apply sort_perm.
      + eapply Permutation_NoDup; [|exact Nd]. apply Permutation_map, sort_perm.
    - rewrite map_map. cbn [NewProofs5.mkE fst snd]. now apply resemble_maildir. }
  assert (Nb : forall n k w, In (n, (k, w)) es' -> ord p n = true -> k <> KBroken).
  { intros n k w H Ho -> . apply Hin in H as (sub & H & Ek & _). destruct sub; try discriminate.
    apply (ord_ordinary _ _ stat_time A) in Ho. exact (Hr p _ (scanned_top _ _ _) n H Ho). }
  destruct (pass1 md p es' s) as [[b1 s1]|] eqn:E1; [|discriminate].
  destruct (pass1_calm md p es') with (s := s) (b := b1) (s' := s1) as [-> T1]; auto.
  { intros n k w H Ho. split; [eapply Nb; eassumption|]. intros Ek Ne. apply Hin in H as (sub & H & Ek' & ->).
    assert (Db : dirb sub = true) by (destruct sub; cbn in *; congruence).
    apply (IH n sub H); [now apply (Hch n)|exact Db|]. intros q x Hs. apply Hr.
    apply scanned_dir. right. exists n, sub. split; [exact H|]. split; [now apply dirb_is_dir|]. split; [|exact Hs].
    apply (ent_entered ignore_verbatim ignore_regex stat_time A md p l n Hmd). unfold NewProofs5.ent. now rewrite Ho, Ne. }
  match goal with |- context [if ?c then Some (true, s1) else _] => destruct c end; [intros [= <- <-]; auto|].
  match goal with |- context [New.pass2 _ _ _ _ _ p es' ?a ?b s1] => destruct (pass2 p es' a b s1) as [[[[b2 lf] ld] s2]|] eqn:E2 end; [|discriminate].
  apply pass2_calm in E2 as [-> T2]; [|exact Nb|exact T1]. rewrite (calm_int s2 T2).
  intros [= <- <-]. split; [reflexivity|]. destruct (Z.eqb mt (stat_time p)); exact T2.
Qed.
Lemma loops_calm l1 : forall s s', s_tick s = None -> removal_loop compressed sync l1 s = Some s' -> s_tick s' = None.
Proof.
  induction l1 as [|n l IH]; intros s s' Ht; cbn [removal_loop]; [now intros [= <-]|]. rewrite (calm_int s Ht).
  destruct (remove_filename compressed sync n _) as [m|]; [|discriminate]. apply IH. exact Ht.
Qed.
Lemma loopd_calm l1 : forall s s', s_tick s = None -> directory_loop compressed sync l1 s = Some s' -> s_tick s' = None.
Proof.
  induction l1 as [|n l IH]; intros s s' Ht; cbn [directory_loop]; [now intros [= <-]|]. rewrite (calm_int s Ht).
  destruct (remove_directory compressed sync _ n _) as [m|]; [|discriminate]. apply IH. exact Ht.
Qed.
Lemma loopm_calm l1 : forall s, s_tick s = None -> s_tick (mtime_loop l1 s) = None.
Proof.
  induction l1 as [|[n m] l IH]; intros s Ht; cbn [mtime_loop]; [exact Ht|]. rewrite (calm_int s Ht). apply IH. exact Ht.
Qed.
Theorem calm_run root db e db' : good_tree root -> dirb root = true -> readable [] root ->
  notmuch_new compressed full_scan sync new_tags ignore_verbatim ignore_regex stat_time root None db = Some (e, db') -> e <> ExitFailure.
Proof.
  intros Hg Hd Hr. unfold New.notmuch_new. fold (start None db).
  destruct (add_files root [] (start None db)) as [[b s1]|] eqn:E; [|discriminate].
  destruct (add_files_calm root Hg Hd [] Hr (start None db) b s1 eq_refl E) as [-> T1].
  destruct (removal_loop compressed sync _ s1) as [s2|] eqn:E2; [|discriminate]. apply loops_calm in E2; [|exact T1].
  destruct (directory_loop compressed sync _ s2) as [s3|] eqn:E3; [|discriminate]. apply loopd_calm in E3; [|exact E2].
  assert (T4 := loopm_calm (s_mtimes s3) s3 E3). rewrite (calm_int _ T4). intros [= <- _]. destruct (Nat.eqb _ 0); discriminate.
Qed.
End Calm.
