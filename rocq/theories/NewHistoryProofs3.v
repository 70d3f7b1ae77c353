(** Recorded mtimes stay trustworthy over any history. *)
From Verif Require Import Bytes Terms DocMap MsgId MsgIdProofs MailStore MailStoreSpec MailStoreProofs MailStoreProofs2 Maildir New NewSpec NewProofs NewProofs2 NewProofs3 NewProofs4 NewProofs5 NewProofs6 NewProofs7 NewProofs8 NewProofs9 NewProofs10 NewProofs12 NewCrash NewHistorySpec NewHistoryProofs NewHistoryProofs2.
From Coq Require Import Sorted Permutation.

Section History.
Variable compressed : bytes -> bytes.
Hypothesis compressed_short : forall s, (length (compressed s) <= 189)%nat.
Variables (verbatim : list bytes) (regex : list (bytes -> bool)).
Notation ignored := (entry_in_ignore_list verbatim regex).
Notation inv := (inv compressed).
Notation trust := (trust verbatim regex).
Notation quiet := (quiet verbatim regex).
Notation steady := (steady verbatim regex).
Notation observed := (observed verbatim regex).
Notation usable := (usable compressed verbatim regex).
Notation history := (history compressed verbatim regex).
Notation auto_tag := (auto_tag compressed).
Notation recd db := (rec (n_mail db)).

Lemma trust_same p es es' db : same_entries es es' -> trust p es db -> trust p es' db.
Proof.
  intros (S1 & S2 & S3) (T1 & T2 & T3). split; [|split].
  - intros n Hn Hr. destruct (T1 n Hn Hr) as [Ho (c & Hc)]. split; [exact Ho|]. destruct (S2 n c Hc) as (c' & X & _). now exists c'.
  - intros n f keys ok Hin Ho. destruct (S3 n _ Hin) as ([[[f' keys'] ok']|] & X & Y); [eapply T2; eassumption|]. destruct Y as [_ Y]. discriminate (Y eq_refl).
  - intros n Hn Hk. destruct (T3 n Hn Hk) as [Ho Hd]. split; [exact Ho|]. apply in_names, S1, in_names. exact Hd.
Qed.
Lemma same_refl es : same_entries es es.
Proof. split; [tauto|]. split; intros n c H; exists c; tauto. Qed.
Lemma steady_tail ev H : steady (ev :: H) -> steady H.
Proof. intros S H0 w H1 w0 H2 E. apply (S (ev :: H0) w H1 w0 H2). now rewrite E. Qed.

(** The recorded mtime of a directory is 0 or one that a run found, and the database agrees
    with that listing if nothing happened to the directory since. *)
Definition sound (H : list event) (db : ndb) : Prop :=
  forall p m, dir_get p db = Some m -> m = 0%Z \/ exists H1 w H2 es, H = H1 ++ Run w :: H2 /\ usable w /\ observed w p m es /\ m <> w_time w p /\
    (Forall (quiet p m es) H1 -> trust p es db).
Lemma sound_trustworthy H db w : sound H db -> usable w -> steady (Run w :: H) -> trustworthy ignored [] (w_root w) db.
Proof.
  intros So (_ & _ & _ & Hl & Hz & _) St p mt nl es Hs Hd.
  destruct (So p mt Hd) as [->|(H1 & w0 & H2 & es0 & -> & U & O & N & T)]; [exfalso; apply (Hz p 0%Z es); [now exists nl|reflexivity]|].
  destruct (St [] w H1 w0 H2 eq_refl p mt es es0) as [S Q]; [now exists nl|exact O|exact N|].
  destruct (trust_same p es0 es db S (T Q)) as (T1 & T2 & T3). split; [exact T1|]. split; [exact T2|]. split; [exact T3|].
  intros -> _ n nd Hin Hdir. eapply Hl; eassumption.
Qed.
(** One run, wherever it stops. *)
Lemma sound_run H db w db' : inv (n_mail db) -> sound H db -> usable w ->
  stop compressed verbatim regex (w_time w) (auto_tag w) (w_root w) db db' -> sound (Run w :: H) db'.
Proof.
  intros Hi So Us R. assert (Us' := Us). destruct Us' as (Hp & Hv & Hx & Hl & Hz & Hok).
  assert (Old : forall p m, dir_get p db = Some m -> m = 0%Z \/ exists H1 w0 H2 es, Run w :: H = H1 ++ Run w0 :: H2 /\ usable w0 /\ observed w0 p m es /\ m <> w_time w0 p /\
    (Forall (quiet p m es) H1 -> trust p es db')).
  { intros p m Hd. destruct (So p m Hd) as [->|(H1 & w0 & H2 & es0 & -> & U & O & N & T)]; [now left|right].
    exists (Run w :: H1), w0, H2, es0. split; [reflexivity|]. split; [exact U|]. split; [exact O|]. split; [exact N|]. intros Q. inversion Q as [|? ? Q1 Q2]; subst.
    destruct Q1 as (es' & (nl & Hs) & S). specialize (T Q2).
    assert (T' : trust p es' db') by (eapply (stop_trust compressed) with (root := w_root w); [apply Hp|exact R|exact Hs|eapply trust_same; eassumption]).
    eapply trust_same; [|exact T']. destruct S as (S1 & S2 & S3). split; [intros n; symmetry; apply S1|]. auto. }
  intros p m Hd. destruct (st_mtime _ _ _ _ _ _ _ _ R) as [Mt|[Fi Mt]].
  - destruct (Mt p m Hd) as [X|X]; [now apply Old|now left].
  - destruct (Mt p m Hd) as [X|[X|(nl & es & Hs & N)]]; [now apply Old|now left|right].
    exists [], w, H, es. split; [reflexivity|]. split; [exact Us|]. split; [now exists nl|]. split; [exact N|]. intros _.
    eapply (finished_trust compressed); [apply Hp|exact Hok|exact Hi|exact R|exact Fi|exact Hs].
Qed.
(** Another command that leaves the directories it does not touch alone. *)
Lemma sound_touch H db db' q : sound H db -> (forall p m, dir_get p db' = Some m -> dir_get p db = Some m \/ m = 0%Z) ->
  (forall p n, p <> q -> mem SLASH n = false -> (recorded db' (child p n) <-> recorded db (child p n))) ->
  (forall x, known_dir db' x -> known_dir db x \/ upto q x) -> sound (Touch q :: H) db'.
Proof.
  intros So Hm Hr Hk p m Hd. destruct (Hm p m Hd) as [Hd0| ->]; [|now left].
  destruct (So p m Hd0) as [->|(H1 & w0 & H2 & es & -> & U & O & N & T)]; [now left|right].
  exists (Touch q :: H1), w0, H2, es. split; [reflexivity|]. split; [exact U|]. split; [exact O|]. split; [exact N|]. intros Q. inversion Q as [|? ? Q1 Q2]; subst.
  destruct Q1 as [Nq Q1]. destruct (T Q2) as (T1 & T2 & T3). split; [|split].
  - intros n Hn X. apply (Hr p n) in X; [now apply T1|congruence|exact Hn].
  - intros n f keys ok Hin Ho. assert (X := T2 n f keys ok Hin Ho). apply (Hr p n); auto.
    destruct O as (nl & Hs). eapply scanned_entry; [apply U|exact Hs|exact Hin].
  - intros n Hn X. apply Hk in X as [X|[X|(rest & X)]]; [now apply T3| |].
    + destruct (Q1 n [] Hn) as [Ho Hin]; [now left|]. split; [exact Ho|]. now apply in_names.
    + destruct (Q1 n rest Hn) as [Ho Hin]; [now right|]. split; [exact Ho|]. now apply in_names.
Qed.
Lemma usable_legal w : usable w -> NewProofs5.legal compressed (auto_tag w) (w_root w).
Proof. intros (Hp & _). now apply possible_legal. Qed.

Theorem history_sound H db : history H db -> steady H -> inv (n_mail db) /\ good_ndb db /\ sound H db.
Proof.
  induction 1 as [|H db w e db' _ IH U E|H db w db' _ IH U K|H db id tags _ IH|H sy tags p n c s s' _ IH Hr Hn Hc Hno E|H sy p n db m _ IH Hn E]; intros St.
  - split; [apply inv_empty|]. split; [|intros p m X; discriminate X].
    constructor; cbn; try (intros; exfalso; repeat match goal with H : recorded_for _ _ _ |- _ => destruct H as (? & ? & H & _); discriminate H
      | H : recorded _ _ |- _ => destruct H as (? & H) | H : known_dir _ _ |- _ => destruct H as (? & H); discriminate H end; fail). constructor.
  - destruct (IH (steady_tail _ _ St)) as (Hi & Hg & So). assert (T := sound_trustworthy H db w So U St).
    assert (U' := U). destruct U' as (Hp & Hv & Hx & _).
    destruct (stop_spec compressed compressed_short (w_full_scan w) (w_sync w) (w_tags w) verbatim regex (w_time w) (auto_tag w) (w_root w) (w_ticks w) db Hi Hg) as [(e1 & db1 & E1 & R) _];
      [apply Hp|now apply usable_legal|now right|].
    unfold run_new in E. rewrite Hv, Hx in E. rewrite E in E1. injection E1 as <- <-.
    split; [apply R|]. split; [apply R|]. eapply sound_run; eassumption.
  - destruct (IH (steady_tail _ _ St)) as (Hi & Hg & So). assert (T := sound_trustworthy H db w So U St).
    assert (U' := U). destruct U' as (Hp & Hv & Hx & _).
    assert (X := fun ticks => stop_spec compressed compressed_short (w_full_scan w) (w_sync w) (w_tags w) verbatim regex (w_time w) (auto_tag w) (w_root w) ticks db Hi Hg (proj1 Hp) (usable_legal w U) (or_intror T)).
    assert (R : stop compressed verbatim regex (w_time w) (auto_tag w) (w_root w) db db').
    { destruct K as [ticks e db' E|ticks s1 s2 db' E1 E2 Hin]; rewrite Hv, Hx in *.
      - destruct (X ticks) as [(e1 & db1 & E1 & R) _]. rewrite E in E1. injection E1 as <- <-. exact R.
      - destruct (X ticks) as [_ Y]. eapply Y; eassumption. }
    split; [apply R|]. split; [apply R|]. eapply sound_run; eassumption.
  - destruct (IH St) as (Hi & Hg & So). destruct (retag_keeps compressed id tags (fun _ => True) (n_mail db) Hi) as (H1 & H2 & _); [tauto|].
    split; [exact H1|]. split; [apply good_same_rec; [exact Hg|]; intros f i; apply H2|].
    intros p m Hd. destruct (So p m Hd) as [X|(Ha & w & Hb & es & X1 & X2 & X3 & X4 & T)]; [now left|right]. exists Ha, w, Hb, es.
    split; [exact X1|]. split; [exact X2|]. split; [exact X3|]. split; [exact X4|]. intros Q. destruct (T Q) as (T1 & T2 & T3). split; [|split].
    + intros x Hx (i & Y). apply T1; [exact Hx|]. exists i. now apply H2.
    + intros x f keys ok Y1 Y2. destruct (T2 x f keys ok Y1 Y2) as (i & Y). exists i. now apply H2.
    + exact T3.
  - destruct (IH (steady_tail _ _ St)) as (Hi & Hg & So).
    destruct (add_file_eff compressed compressed_short sy tags (fun _ => 0%Z) (fun _ _ => True) p n c s Hi Hg Hr Hn) as (s1 & E' & F); auto.
    { intros f keys ok Ec. split; [|tauto]. intros r Hk. apply (legal_self compressed [] f keys ok); [exact (Hc f keys ok Ec)|exact Hk]. }
    rewrite E in E'. injection E' as <-. destruct F as [e_inv e_good e_sound e_mono e_keeps e_files e_dirs e_dmono e_dsound e_mt e_tick e_done e_van].
    split; [exact e_inv|]. split; [exact e_good|]. apply (sound_touch H (s_db s)); auto.
    + intros q m X. apply e_dsound in X as [X|(_ & -> & _)]; auto.
    + intros q x Nq Hx. split; intros (i & X).
      * apply e_sound in X as [X|(_ & f & keys & [X _] & _)]; [now exists i|]. apply child_inj in X as [-> _]; auto. contradiction.
      * exists i. now apply e_mono.
    + intros x (m & X). apply e_dsound in X as [X|(_ & _ & X)]; [left; now exists m|now right].
  - destruct (IH (steady_tail _ _ St)) as (Hi & Hg & So).
    destruct (remove_filename_spec compressed sy (child p n) (n_mail db) Hi (g_owner _ Hg (child p n))) as (m1 & E' & I1 & R1 & _). rewrite E in E'. injection E' as <-.
    split; [exact I1|]. split; [apply good_same_rec; [exact Hg|]; intros f i X; now apply R1 in X|]. apply (sound_touch H db); auto.
    intros q x Nq Hx. split; intros (i & X).
    + exists i. now apply R1 in X.
    + exists i. apply R1. split; [exact X|]. intros Y. apply child_inj in Y as [-> _]; auto.
Qed.
End History.
