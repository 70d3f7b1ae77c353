(** Reachable databases are good; what follows for a run from one. *)
From Verif Require Import Bytes Terms DocMap MsgId MsgIdProofs MailStore MailStoreSpec MailStoreProofs MailStoreProofs2 Maildir New NewSpec NewProofs NewProofs2 NewProofs3 NewProofs4 NewProofs5 NewProofs6 NewProofs7 NewProofs8 NewProofs9 NewProofs10 NewProofs11.
From Coq Require Import Sorted Permutation.

Section Reach.
Variable compressed : bytes -> bytes.
Hypothesis compressed_short : forall s, (length (compressed s) <= 189)%nat.
Notation inv := (inv compressed).
Notation canon := (canon compressed).
Notation reached := (reached compressed).
Notation run_new := (run_new compressed).
Notation possible := (possible compressed).
Notation auto_tag := (auto_tag compressed).

Definition wrun (w : new_run) := run compressed (w_verbatim w) (w_regex w) (w_time w) (auto_tag w) (w_root w).
Lemma possible_legal w : possible w -> NewProofs5.legal compressed (auto_tag w) (w_root w).
Proof.
  intros [_ H] f keys ok Hm. split.
  - intros r Hr. apply (legal_self compressed [] f keys ok); [exact (H f keys ok Hm f keys ok eq_refl)|exact Hr].
  - intros t Ht. exists f, keys, ok. auto.
Qed.
Lemma run_ok w t db : inv (n_mail db) -> good_ndb db -> possible w -> (t = true -> w_full_scan w = true \/ trustworthy (w_ignored w) [] (w_root w) db) ->
  exists e db', run_new w db = Some (e, db') /\ wrun w t db e db'.
Proof.
  intros Hi Hg Hp Ht. apply run_spec; auto; [apply Hp|now apply possible_legal].
Qed.
Lemma good_same_rec db m : good_ndb db -> (forall f i, rec m f i -> rec (n_mail db) f i) -> good_ndb {| n_mail := m; n_dirs := n_dirs db |}.
Proof.
  intros Hg H. apply (good_fewer db); auto; unfold known_dir, dir_get; cbn; auto. apply Hg.
Qed.
Lemma reached_good db : reached db -> inv (n_mail db) /\ good_ndb db.
Proof.
  induction 1 as [|w db e db' _ [Hi Hg] Hp E|id tags db _ [Hi Hg]|sy tags p n c s s' _ [Hi Hg] Hr Hn Hc Hno E|sy name db m _ [Hi Hg] E].
  - split; [apply inv_empty|]. constructor; cbn; try (intros; exfalso; repeat match goal with H : recorded_for _ _ _ |- _ => destruct H as (? & ? & H & _); discriminate H
      | H : recorded _ _ |- _ => destruct H as (? & H) | H : known_dir _ _ |- _ => destruct H as (? & H); discriminate H end; fail). constructor.
  - destruct (run_ok w false db Hi Hg Hp) as (e' & db1 & E' & R); [discriminate|]. rewrite E in E'. injection E' as <- <-. destruct R. auto.
  - destruct (retag_keeps compressed id tags (fun _ => True) (n_mail db) Hi) as (H1 & H2 & _); [tauto|]. split; [exact H1|]. apply good_same_rec; [exact Hg|]. intros f i. apply H2.
  - destruct (add_file_eff compressed compressed_short sy tags (fun _ => 0%Z) (fun _ _ => True) p n c s Hi Hg Hr Hn) as (s1 & E' & F); auto.
    { intros f keys ok Ec. split; [|tauto]. intros r Hk. apply (legal_self compressed [] f keys ok); [exact (Hc f keys ok Ec)|exact Hk]. }
    rewrite E in E'. injection E' as <-. destruct F. auto.
  - destruct (remove_filename_spec compressed sy name (n_mail db) Hi (g_owner _ Hg name)) as (m1 & E' & I1 & R1 & _). rewrite E in E'. injection E' as <-.
    split; [exact I1|]. apply good_same_rec; [exact Hg|]. intros f i H. now apply R1 in H.
Qed.
Lemma rec_dec db f : inv (n_mail db) -> recorded db f \/ ~ recorded db f.
Proof. apply (visible_rec_dec compressed). Qed.

Lemma where_recorded w db f : good_ndb db -> possible w -> is_dir (w_root w) -> recorded db f ->
  (exists c, visible (w_ignored w) [] (w_root w) f c) \/ shadowed (w_ignored w) [] (w_root w) f \/ NewProofs9.gone (w_verbatim w) (w_regex w) [] (w_root w) f.
Proof.
  intros Hg [Hgt _] Hdir Hr. pose proof (recorded_below db Hg f Hr) as B.
  destruct (classify (w_verbatim w) (w_regex w) (w_root w) Hgt Hdir [] f (fun _ => True) B) as [X|[X|[X|(d & X & _ & Y)]]]; auto; right; right; [left|right]; eauto.
Qed.
Lemma not_gone w f : possible w -> (exists c, visible (w_ignored w) [] (w_root w) f c) \/ shadowed (w_ignored w) [] (w_root w) f ->
  ~ NewProofs9.gone (w_verbatim w) (w_regex w) [] (w_root w) f.
Proof.
  intros [Hgt _] [(c & H)|H]; [eapply visible_not_gone|eapply shadowed_not_gone]; eassumption.
Qed.
(** A run on something that is no directory fails. *)
Lemma no_dir w db : ~ is_dir (w_root w) -> run_new w db = Some (ExitFailure, db).
Proof.
  intros H. unfold NewSpec.run_new, notmuch_new. destruct (w_root w); try (exfalso; apply H; exact I); reflexivity.
Qed.
Lemma is_dir_dec nd : is_dir nd \/ ~ is_dir nd.
Proof. destruct nd; cbn; auto. Qed.

Lemma obstacle_not_readable w : obstacle (w_ignored w) (w_root w) -> ~ readable (w_verbatim w) (w_regex w) [] (w_root w).
Proof.
  intros [(p & mt & nl & H)|(p & mt & nl & es & n & H & Hin & Ho)] R.
  - exact (R p _ H).
  - exact (R p _ H n Hin Ho).
Qed.

(** After a successful run the recorded mtimes can be trusted, on the same tree. *)
Lemma trusted_after w db db' : inv (n_mail db) -> good_ndb db -> possible w -> honest_links (w_ignored w) (w_root w) -> wrun w true db ExitSuccess db' ->
  trustworthy (w_ignored w) [] (w_root w) db'.
Proof.
  intros Hi Hg Hp Hh R p mt nl es Hs _. assert (Hgt := proj1 Hp).
  assert (Nd : NoDup (map fst es)) by (apply scanned_good in Hs; [now inversion Hs|exact Hgt]).
  split; [|split; [|split]].
  - intros n Hn (i & Hr). assert (X := r_gone _ _ _ _ _ _ _ _ _ _ R eq_refl ltac:(discriminate) _ _ Hr).
    destruct (ordinary_dec (w_verbatim w) (w_regex w) p n) as [Ho|Ho].
    + destruct (look n es) as [[c| | | |]|] eqn:E; try (exfalso; apply X; left; exists p, n, mt, nl, es; split; [exact Hs|]; split; [reflexivity|]; split; [exact Hn|]; intros [_ (c & Hc)];
        first [now apply (look_None n es _ E) in Hc | apply look_Some in E; pose proof (good_fun _ _ _ _ Nd E Hc) as Y; discriminate Y]; fail).
      apply look_Some in E. split; [exact Ho|]. now exists c.
    + exfalso. apply X. left. exists p, n, mt, nl, es. split; [exact Hs|]. split; [reflexivity|]. split; [exact Hn|]. tauto.
  - intros n f keys ok Hin Ho. assert (Hv : visible (w_ignored w) [] (w_root w) (child p n) (Some (f, keys, ok))) by (exists p, mt, nl, es, n; auto).
    destruct (rec_dec db (child p n) Hi) as [(i & Hr)|Hr].
    + exists i. apply (r_stay _ _ _ _ _ _ _ _ _ _ R); [exact Hr|]. eapply visible_not_gone; eassumption.
    + destruct (r_success _ _ _ _ _ _ _ _ _ _ R eq_refl eq_refl _ _ _ _ Hv) as [->|X]; [|contradiction].
      exists (canon (f_id f)). apply (r_done _ _ _ _ _ _ _ _ _ _ R eq_refl ltac:(discriminate)). split; [exact Hr|]. exists f, keys. auto.
  - intros n Hn Hk. destruct (r_dirs _ _ _ _ _ _ _ _ _ _ R eq_refl ltac:(discriminate) _ Hk) as [[H|H] X].
    + assert (Y : ~ GDT (w_ignored w) [] (w_root w) (child p n)). { intros Y. apply X. split; [exact H|]. exists (child p n). split; [exact Y|now left]. }
      destruct (ordinary_dec (w_verbatim w) (w_regex w) p n) as [Ho|Ho].
      * split; [exact Ho|]. destruct (look n es) as [sub|] eqn:E; [apply look_Some in E; eauto|].
        exfalso. apply Y. exists p, n, mt, nl, es. split; [exact Hs|]. split; [reflexivity|]. split; [exact Hn|]. intros [_ (c & Hc)]. now apply (look_None n es _ E) in Hc.
      * exfalso. apply Y. exists p, n, mt, nl, es. split; [exact Hs|]. split; [reflexivity|]. split; [exact Hn|]. intros [Z _]. now apply Ho.
    + destruct H as (q & x & Hq & Hu). destruct (scanned_chain (w_verbatim w) (w_regex w) (w_root w) Hgt [] p mt nl es q x n Hs Hq Hn Hu) as (sub & H1 & _ & H2 & _). eauto.
  - intros -> _ n nd Hin Hd. eapply Hh; eassumption.
Qed.
End Reach.
