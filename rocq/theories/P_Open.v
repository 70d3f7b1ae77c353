(** Property C50: which configuration file and database are used; opening and creating
    (lib/open.cc). *)
From Verif Require Import Bytes StringMap StrUtil Config ConfigSpec ConfigProofs ConfigProofs2 P_Config Open OpenSpec OpenProofs.
Local Open Scope nat_scope.

Local Lemma uses_unique w a k1 k2 : uses_config w a k1 -> uses_config w a k2 -> k1 = k2.
Proof.
  unfold uses_config. intros [[A B]|[A (p & k & E1 & E2 & E3)]] [[A' B']|[A' (p' & k' & E1' & E2' & E3')]]; try contradiction; congruence.
Qed.

(** Opening: the configuration file and the database are the first in the documented
    search orders (later places are not tried when the first is unusable); the Xapian
    database is in "xapian" there, or else in ".notmuch/xapian"; nothing is created or
    changed, whatever the outcome, and there is no NULL dereference. *)
Theorem C50_open_uses_the_first_place :
  forall xcreate w d a write o d', open_with_config xcreate w d a write = (Opened o, d') ->
  exists kf dir,
    uses_config w a kf /\ database_place w d a kf = Some (db_path o) /\ absolute_path (db_path o) /\ d_stat d (db_path o) = IsDir /\
    db_xapian o = dir ++ lit "/xapian" /\ d_xapian d (db_xapian o) = X_ok /\
    (dir = db_path o \/ dir = db_path o ++ lit "/.notmuch" /\ d_xapian d (db_path o ++ lit "/xapian") = X_missing).
Proof.
  intros xcreate w d a write o d' H. unfold open_with_config in H. pose proof (load_key_file_spec w a) as L.
  destruct (load_key_file w a) as [[[s|] cp] kf]; [discriminate|]. rewrite choose_spec in H.
  destruct (database_place w d a kf) as [p|] eqn:Ep; [|discriminate].
  destruct (negb (beq (peek p) "/"%char)) eqn:Ea; [discriminate|]. apply abs_true in Ea.
  destruct (is_dir d p) eqn:Ed; [|discriminate]. pose proof (choose_xapian_spec d p Ed) as X.
  destruct (choose_xapian_path d p) as [s|dir]; [discriminate|]. destruct X as [X1 X2].
  pose proof (finish_ok _ _ _ _ _ _ _ _ _ _ _ X1 H) as (-> & F1 & F2 & F3).
  exists kf, dir. rewrite F1, F2. repeat split; auto; [unfold is_dir in Ed; now destruct (d_stat d p)|].
  destruct X2 as [X2|(X2 & X3 & _)]; auto.
Qed.
Print Assumptions C50_open_uses_the_first_place.

Theorem C50_open_changes_nothing :
  forall xcreate w d a write, snd (open_with_config xcreate w d a write) = d /\
    fst (open_with_config xcreate w d a write) <> Crash /\ fst (open_with_config xcreate w d a write) <> Failed DATABASE_EXISTS.
Proof.
  intros xcreate w d a write. unfold open_with_config. pose proof (load_key_file_spec w a) as L.
  destruct (load_key_file w a) as [[[s|] cp] kf]; [destruct L as [-> _]; repeat split; discriminate|]. rewrite choose_spec.
  destruct (database_place w d a kf) as [p|] eqn:Ep; [|repeat split; discriminate].
  destruct (negb (beq (peek p) "/"%char)); [repeat split; discriminate|].
  destruct (is_dir d p) eqn:Ed; [|repeat split; discriminate]. pose proof (choose_xapian_spec d p Ed) as X.
  destruct (choose_xapian_path d p) as [s|dir]; [cbn; repeat split; [discriminate|]; intros [= ->]; tauto|]. destruct X as [X1 X2].
  destruct (finish_open xcreate w d a kf write p dir (by_xdg w d a kf)) as [r d'] eqn:E.
  pose proof (finish_ok _ _ _ _ _ _ _ _ _ _ _ X1 E) as (-> & F). cbn. split; [reflexivity|].
  destruct r as [|s|o]; [destruct F|split; [discriminate|destruct F as [-> | ->]; discriminate]|split; discriminate].
Qed.
Print Assumptions C50_open_changes_nothing.

(** The documented failures. *)
Theorem C50_open_failures :
  forall xcreate w d a write, let r := fst (open_with_config xcreate w d a write) in
  (r = Failed NO_CONFIG <-> ~ exists kf, uses_config w a kf) /\
  forall kf, uses_config w a kf ->
  (r = Failed NO_DATABASE <-> database_place w d a kf = None \/
     exists p, database_place w d a kf = Some p /\ absolute_path p /\ d_stat d p <> IsDir) /\
  (forall p, database_place w d a kf = Some p -> ~ absolute_path p -> r = Failed PATH_ERROR) /\
  (forall p, database_place w d a kf = Some p -> absolute_path p -> d_stat d p = IsDir ->
     d_xapian d (p ++ lit "/xapian") = X_missing -> d_stat d (p ++ lit "/.notmuch") <> IsDir -> r = Failed FILE_ERROR).
Proof.
  intros xcreate w d a write r. subst r. unfold open_with_config. pose proof (load_key_file_spec w a) as L.
  destruct (load_key_file w a) as [[[s|] cp] kf].
  { destruct L as [-> L]. split; [split; [intros _ (kf' & H); now apply (L kf')|reflexivity]|]. intros kf' H. exfalso. now apply (L kf'). }
  rewrite choose_spec.
  assert (D : forall p, is_dir d p = true <-> d_stat d p = IsDir) by (intros p; unfold is_dir; destruct (d_stat d p); split; congruence).
  destruct (database_place w d a kf) as [p|] eqn:Ep.
  2: { cbn [fst]. split; [split; [discriminate|intros H; exfalso; apply H; eauto]|]. intros kf' K. pose proof (uses_unique _ _ _ _ L K) as <-.
       rewrite Ep. split; [split; auto|]. split; intros p [=]. }
  destruct (negb (beq (peek p) "/"%char)) eqn:Ea.
  { apply peek_abs in Ea. cbn [fst]. split; [split; [discriminate|intros H; exfalso; apply H; eauto]|]. intros kf' K. pose proof (uses_unique _ _ _ _ L K) as <-.
    rewrite Ep. split; [split; [discriminate|intros [[=]|(p' & [= <-] & H & _)]; contradiction]|]. split; [reflexivity|]. intros p' [= <-] H. contradiction. }
  apply abs_true in Ea. destruct (is_dir d p) eqn:Ed.
  2: { cbn [fst]. split; [split; [discriminate|intros H; exfalso; apply H; eauto]|]. intros kf' K. pose proof (uses_unique _ _ _ _ L K) as <-.
       rewrite Ep. assert (Nd : d_stat d p <> IsDir) by (rewrite <- D; congruence). split; [split; [|reflexivity]|].
       - intros _. right. eauto.
       - split; intros p' [= <-]; [contradiction|]. intros _ H. contradiction. }
  pose proof (proj1 (D p) Ed) as Ed'. pose proof (choose_xapian_spec d p Ed) as X.
  destruct (choose_xapian_path d p) as [s|dir] eqn:Ex.
  - destruct X as (X1 & X2 & X3 & X4 & X5). cbn [fst]. split; [split; [congruence|intros H; exfalso; apply H; eauto]|].
    intros kf' K. pose proof (uses_unique _ _ _ _ L K) as <-. rewrite Ep.
    split; [split; [congruence|intros [[=]|(p' & [= <-] & _ & H)]; contradiction]|]. split; intros p' [= <-]; [contradiction|].
    intros _ _ M N. unfold choose_xapian_path in Ex. change (dir_exists d) with (is_dir d) in Ex. rewrite Ed in Ex.
    unfold trial_open, slash in Ex. change (p ++ lit "/" ++ lit "xapian") with (p ++ lit "/xapian") in Ex. rewrite M in Ex.
    change (p ++ lit "/" ++ lit ".notmuch") with (p ++ lit "/.notmuch") in Ex.
    destruct (is_dir d (p ++ lit "/.notmuch")) eqn:E2; [apply D in E2; contradiction|]. now injection Ex as <-.
  - destruct X as [X1 X2]. destruct (finish_open xcreate w d a kf write p dir (by_xdg w d a kf)) as [r d'] eqn:E.
    pose proof (finish_ok _ _ _ _ _ _ _ _ _ _ _ X1 E) as (-> & F). cbn [fst].
    assert (R : r <> Failed NO_CONFIG /\ r <> Failed NO_DATABASE).
    { destruct r as [|s|o]; [destruct F|destruct F as [-> | ->]; split; discriminate|split; discriminate]. }
    split; [split; [intros H; exfalso; now apply R|intros H; exfalso; apply H; eauto]|].
    intros kf' K. pose proof (uses_unique _ _ _ _ L K) as <-. rewrite Ep.
    split; [split; [intros H; exfalso; now apply R|intros [[=]|(p' & [= <-] & _ & H)]; contradiction]|]. split; intros p' [= <-]; [contradiction|].
    intros _ _ M N. exfalso. destruct X2 as [->|(-> & _ & Q)].
    + unfold slash in X1. change (p ++ lit "/" ++ lit "xapian") with (p ++ lit "/xapian") in X1. congruence.
    + apply D in Q. contradiction.
Qed.
Print Assumptions C50_open_failures.

(** Creating: a database is made at the first place (or, when there is none, in the XDG
    directory), in ".notmuch/xapian" unless mail and database are kept apart; only where
    there was none. *)
Theorem C50_create_makes_a_new_database :
  forall mkdir xcreate w d a o d', mkdir_works mkdir -> xcreate_works xcreate ->
  create_with_config mkdir xcreate w d a = (Opened o, d') ->
  d_xapian d (db_xapian o) = X_missing /\ d_xapian d' (db_xapian o) = X_ok /\ d_meta d' (db_xapian o) = [] /\
  exists kf, uses_config w a kf /\ creation_place w d a kf = Some (db_path o) /\ absolute_path (db_path o) /\
    d_stat d' (db_path o) = IsDir /\
    db_xapian o = db_path o ++ (if db_split o then lit "/xapian" else lit "/.notmuch/xapian").
Proof.
  intros mkdir xcreate w d a o d' Hk Hx H. rewrite create_unfold in H. pose proof (load_key_file_spec w a) as L.
  destruct (load_key_file w a) as [[[s|] cp] kf]; [discriminate|]. pose proof (place_spec mkdir w d a kf Hk) as P.
  destruct (place mkdir w d a kf) as [[[[[s|] p] split0] d1]|]; [discriminate| |discriminate].
  destruct P as (P1 & P2 & P3 & P4 & P5 & P6 & _).
  destruct (create_split d1 kf p split0) as [split|]; [|discriminate].
  assert (X : exists dir d2, (if split then Some (p, d1) else match mkdir (slash p (lit ".notmuch")) d1 with Some d => Some (slash p (lit ".notmuch"), d) | None => None end) = Some (dir, d2) /\
     slash dir (lit "xapian") = p ++ (if split then lit "/xapian" else lit "/.notmuch/xapian") /\ only_new_dirs d1 d2 /\ same_databases (fun _ => True) d1 d2).
  { destruct split.
    - exists p, d1. repeat split; auto; apply only_refl.
    - destruct (mkdir (slash p (lit ".notmuch")) d1) as [d2|] eqn:Em; [|discriminate]. destruct (Hk _ _ _ Em) as (M1 & M2 & M3).
      exists (slash p (lit ".notmuch")), d2. split; [reflexivity|]. split; [unfold slash; now rewrite <- !app_assoc|]. auto. }
  destruct X as (dir & d2 & Ex & Es & O2 & S2). rewrite Ex in H.
  destruct (trial_open d2 (slash dir (lit "xapian"))) eqn:Et; [|discriminate].
  assert (N : d_xapian d2 (slash dir (lit "xapian")) <> X_ok) by (unfold trial_open in Et; destruct (d_xapian d2 _); congruence).
  destruct (finish_new _ _ _ _ _ _ _ _ _ _ Hx N H) as (F1 & F2 & F3 & F4 & F5 & F6 & F7 & F8 & _).
  rewrite F4, F3, F5. split; [|split; [exact F7|split; [exact F8|]]].
  - rewrite <- F6. symmetry. destruct (S2 (slash dir (lit "xapian")) I) as [Q _]. destruct (P6 (slash dir (lit "xapian")) I) as [Q' _]. congruence.
  - exists kf. repeat split; auto.
    apply (only_dir _ _ _ (only_trans _ _ _ O2 F1) P4).
Qed.
Print Assumptions C50_create_makes_a_new_database.

(** Whatever happens, no existing database is changed; asking to create one that exists
    is refused. *)
Theorem C50_create_never_touches_a_database :
  forall mkdir xcreate w d a r d', mkdir_works mkdir -> xcreate_works xcreate ->
  create_with_config mkdir xcreate w d a = (r, d') ->
  (forall q, d_xapian d q = X_ok -> d_xapian d' q = X_ok /\ d_meta d' q = d_meta d q /\ d_compatible d' q = d_compatible d q) /\
  only_new_dirs d d' /\
  (r = Failed DATABASE_EXISTS ->
     same_databases (fun _ => True) d d' /\
     exists kf p, uses_config w a kf /\ creation_place w d a kf = Some p /\
       (d_xapian d (p ++ lit "/xapian") = X_ok \/ d_xapian d (p ++ lit "/.notmuch/xapian") = X_ok)).
Proof.
  intros mkdir xcreate w d a r d' Hk Hx H. rewrite create_unfold in H. pose proof (load_key_file_spec w a) as L.
  assert (Z : d' = d -> r <> Failed DATABASE_EXISTS -> (forall q, d_xapian d q = X_ok -> d_xapian d' q = X_ok /\ d_meta d' q = d_meta d q /\ d_compatible d' q = d_compatible d q) /\
  only_new_dirs d d' /\ (r = Failed DATABASE_EXISTS -> same_databases (fun _ => True) d d' /\
     exists kf p, uses_config w a kf /\ creation_place w d a kf = Some p /\
       (d_xapian d (p ++ lit "/xapian") = X_ok \/ d_xapian d (p ++ lit "/.notmuch/xapian") = X_ok))).
  { intros -> N. split; [auto|]. split; [apply only_refl|congruence]. }
  destruct (load_key_file w a) as [[[s|] cp] kf].
  { destruct L as [-> _]. injection H as <- <-. apply Z; [reflexivity|discriminate]. }
  pose proof (place_spec mkdir w d a kf Hk) as P.
  destruct (place mkdir w d a kf) as [[[[[s|] p] split0] d1]|].
  { destruct P as [-> P]. injection H as <- <-. apply Z; [reflexivity|]. destruct P as [-> | ->]; discriminate. }
  2: { injection H as <- <-. apply Z; [reflexivity|discriminate]. }
  destruct P as (P1 & P2 & P3 & P4 & P5 & P6 & _).
  assert (W : forall dd, only_new_dirs d dd -> same_databases (fun _ => True) d dd -> d' = dd -> r <> Failed DATABASE_EXISTS -> 
    (forall q, d_xapian d q = X_ok -> d_xapian d' q = X_ok /\ d_meta d' q = d_meta d q /\ d_compatible d' q = d_compatible d q) /\
    only_new_dirs d d' /\ (r = Failed DATABASE_EXISTS -> same_databases (fun _ => True) d d' /\
     exists kf p, uses_config w a kf /\ creation_place w d a kf = Some p /\
       (d_xapian d (p ++ lit "/xapian") = X_ok \/ d_xapian d (p ++ lit "/.notmuch/xapian") = X_ok))).
  { intros dd O S -> N. split; [|split; [exact O|congruence]]. intros q Hq. destruct (S q I) as (S1 & S2 & S3). now rewrite S1. }
  destruct (create_split d1 kf p split0) as [split|]; [|injection H as <- <-; now apply (W d1)].
  destruct (if split then Some (p, d1) else match mkdir (slash p (lit ".notmuch")) d1 with Some d => Some (slash p (lit ".notmuch"), d) | None => None end) as [[dir d2]|] eqn:Ex.
  2: { injection H as <- <-. now apply (W d1). }
  assert (X : slash dir (lit "xapian") = p ++ (if split then lit "/xapian" else lit "/.notmuch/xapian") /\ only_new_dirs d1 d2 /\ same_databases (fun _ => True) d1 d2).
  { destruct split.
    - injection Ex as <- <-. repeat split; auto; apply only_refl.
    - destruct (mkdir (slash p (lit ".notmuch")) d1) as [d2'|] eqn:Em; [|discriminate]. injection Ex as <- <-. destruct (Hk _ _ _ Em) as (M1 & M2 & M3).
      split; [unfold slash; now rewrite <- !app_assoc|]. auto. }
  destruct X as (Es & O2 & S2).
  pose proof (only_trans _ _ _ P5 O2) as O. pose proof (same_trans _ _ _ _ P6 S2) as S.
  destruct (trial_open d2 (slash dir (lit "xapian"))) eqn:Et.
  - assert (N : d_xapian d2 (slash dir (lit "xapian")) <> X_ok) by (unfold trial_open in Et; destruct (d_xapian d2 _); congruence).
    destruct (finish_new _ _ _ _ _ _ _ _ _ _ Hx N H) as (F1 & F2 & F3). split; [|split].
    + intros q Hq. destruct (S q I) as (S1 & S3 & S4). destruct (F2 q) as (G1 & G2 & G3); [intros ->; congruence|].
      rewrite G1, G2, G3, S1, S3, S4. auto.
    + apply (only_trans _ _ _ O F1).
    + intros ->. congruence.
  - injection H as <- <-. split; [|split; [exact O|]].
    + intros q Hq. destruct (S q I) as (S1 & S3 & S4). now rewrite S1.
    + intros _. split; [exact S|]. exists kf, p. split; [exact L|]. split; [exact P1|].
      unfold trial_open in Et. destruct (d_xapian d2 (slash dir (lit "xapian"))) eqn:E; try discriminate.
      destruct (S (slash dir (lit "xapian")) I) as [Q _]. rewrite E, Es in Q. destruct split; auto.
Qed.
Print Assumptions C50_create_never_touches_a_database.

(** What was created is what opening with the same arguments then finds, and it opens; if
    there is no other database in "xapian" of the same directory, and making directories
    did not bring the XDG directory into being. *)
Theorem C50_created_database_is_found :
  forall mkdir xcreate w d a o d' write xcreate', mkdir_works mkdir -> xcreate_works xcreate ->
  create_with_config mkdir xcreate w d a = (Opened o, d') ->
  (forall kf, uses_config w a kf -> xdg_undisturbed w d d' a kf) ->
  (db_split o = false -> d_xapian d (db_path o ++ lit "/xapian") = X_missing) ->
  exists o', open_with_config xcreate' w d' a write = (Opened o', d') /\
    db_path o' = db_path o /\ db_xapian o' = db_xapian o.
Proof.
  intros mkdir xcreate w d a o d' write xcreate' Hk Hx H Hplace Hns. rewrite create_unfold in H. pose proof (load_key_file_spec w a) as L.
  unfold open_with_config.
  destruct (load_key_file w a) as [[[s|] cp] kf]; [discriminate|]. pose proof (place_spec mkdir w d a kf Hk) as P.
  destruct (place mkdir w d a kf) as [[[[[s|] p] split0] d1]|]; [discriminate| |discriminate].
  destruct P as (P1 & P2 & P3 & P4 & P5 & P6 & _).
  destruct (create_split d1 kf p split0) as [split|] eqn:Esp; [|discriminate].
  assert (X : exists dir d2, (if split then Some (p, d1) else match mkdir (slash p (lit ".notmuch")) d1 with Some d => Some (slash p (lit ".notmuch"), d) | None => None end) = Some (dir, d2) /\
     dir = (if split then p else p ++ lit "/.notmuch") /\ only_new_dirs d1 d2 /\ same_databases (fun _ => True) d1 d2 /\
     (split = false -> d_stat d2 (p ++ lit "/.notmuch") = IsDir)).
  { destruct split.
    - exists p, d1. repeat split; auto; (apply only_refl || discriminate).
    - destruct (mkdir (slash p (lit ".notmuch")) d1) as [d2|] eqn:Em; [|discriminate]. destruct (Hk _ _ _ Em) as (M1 & M2 & M3).
      exists (slash p (lit ".notmuch")), d2. repeat split; auto; apply M3; exact I. }
  destruct X as (dir & d2 & Ex & Es & O2 & S2 & Dn). rewrite Ex in H.
  destruct (trial_open d2 (slash dir (lit "xapian"))) eqn:Et; [|discriminate].
  assert (N : d_xapian d2 (slash dir (lit "xapian")) <> X_ok) by (unfold trial_open in Et; destruct (d_xapian d2 _); congruence).
  destruct (finish_new _ _ _ _ _ _ _ _ _ _ Hx N H) as (F1 & F2 & F3 & F4 & F5 & F6 & F7 & F8 & F9 & F10).
  set (x := slash dir (lit "xapian")) in *.
  assert (Dp : d_stat d' p = IsDir) by (apply (only_dir _ _ _ (only_trans _ _ _ O2 F1) P4)).
  destruct (place_again w d d' a kf p) as [PA PB]; [apply (only_trans _ _ _ P5 (only_trans _ _ _ O2 F1))|exact P1|exact Dp|now apply Hplace|].
  rewrite choose_spec, PA.
  assert (Ea := proj2 (abs_true p) P2). rewrite Ea.
  assert (Ip : is_dir d' p = true) by (unfold is_dir; now rewrite Dp). rewrite Ip.
  assert (C : choose_xapian_path d' p = inr dir).
  { unfold choose_xapian_path. change (dir_exists d') with (is_dir d'). rewrite Ip. unfold trial_open. destruct split; subst dir.
    - fold x. now rewrite F7.
    - assert (M : d_xapian d' (slash p (lit "xapian")) = X_missing).
      { destruct (F2 (slash p (lit "xapian"))) as [Q _].
        - unfold x, slash. intros E. apply (f_equal (@length _)) in E. rewrite !app_length in E. cbn in E. lia.
        - rewrite Q. destruct (S2 (slash p (lit "xapian")) I) as [Q2 _]. destruct (P6 (slash p (lit "xapian")) I) as [Q3 _].
          rewrite Q2, Q3. rewrite F3 in Hns. apply Hns. exact F5. }
      rewrite M. assert (Dn' : is_dir d' (slash p (lit ".notmuch")) = true).
      { unfold is_dir. change (slash p (lit ".notmuch")) with (p ++ lit "/.notmuch"). now rewrite (only_dir _ _ _ F1 (Dn eq_refl)). }
      rewrite Dn'. change (slash p (lit ".notmuch")) with (p ++ lit "/.notmuch"). fold x. now rewrite F7. }
  rewrite C. unfold finish_open. fold x. rewrite F7, F9.
  fold (create_opening w d' a kf p dir (by_xdg w d' a kf) x).
  assert (Q : exists m, open_config (create_opening w d' a kf p dir (by_xdg w d' a kf) x) = Some m).
  { assert (PN : forall s, path_not_stored (create_opening w d' a kf p dir s x)).
    { intros s0. split; cbn [create_opening o_meta]; rewrite F8; [constructor|now right]. }
    pose proof (proj1 (C49_when_opening_succeeds _ (PN split)) (ex_intro _ _ F10)) as (Q1 & Q2 & Q3).
    apply (C49_when_opening_succeeds _ (PN (by_xdg w d' a kf))). split; [exact Q1|]. split; [exact Q2|].
    cbn [create_opening o_split]. intros Hb. apply Q3. cbn [create_opening o_split].
    rewrite (PB Hb) in P3. subst split0. rewrite create_split_true in Esp. now injection Esp as <-. }
  destruct Q as (m & Q). rewrite Q. eexists. split; [reflexivity|]. cbn. auto.
Qed.
Print Assumptions C50_created_database_is_found.

(** ** A concrete world *)
Definition ex_mkdir : mkdir_t := fun p d =>
  match d_stat d p with
  | Missing | IsDir => Some {| d_stat := fun q => if bseq q p then IsDir else d_stat d q; d_canon := d_canon d; d_xapian := d_xapian d;
                               d_meta := d_meta d; d_compatible := d_compatible d |}
  | _ => None
  end.
Definition ex_xcreate : xcreate_t := fun p d =>
  match d_stat d p with
  | Missing | IsDir => Some {| d_stat := fun q => if bseq q p then IsDir else d_stat d q; d_canon := d_canon d;
                               d_xapian := fun q => if bseq q p then X_ok else d_xapian d q;
                               d_meta := fun q => if bseq q p then [] else d_meta d q;
                               d_compatible := fun q b => if bseq q p then true else d_compatible d q b |}
  | _ => None
  end.
Lemma ex_mkdir_works : mkdir_works ex_mkdir.
Proof.
  intros p d d' H. unfold ex_mkdir in H.
  destruct (d_stat d p) eqn:E; try discriminate; injection H as <-; cbn; (split; [now rewrite bseq_refl|]); (split; [|intros q _; auto]);
    intros q; cbn; (destruct (bseq q p) eqn:Eq; [apply bseq_eq in Eq; subst q|now left]); auto.
Qed.
Lemma ex_xcreate_works : xcreate_works ex_xcreate.
Proof.
  intros p d d' H. unfold ex_xcreate in H.
  destruct (d_stat d p) eqn:E; try discriminate; injection H as <-; cbn; rewrite bseq_refl;
    (split; [reflexivity|]); (split; [reflexivity|]); (split; [intros; now rewrite ?bseq_refl|]); split.
  - intros q; cbn; (destruct (bseq q p) eqn:Eq; [apply bseq_eq in Eq; subst q|now left]); auto.
  - intros q Hq. cbn. rewrite (ConfigProofs.bseq_neq q p) by exact Hq. auto.
  - intros q; cbn; (destruct (bseq q p) eqn:Eq; [apply bseq_eq in Eq; subst q|now left]); auto.
  - intros q Hq. cbn. rewrite (ConfigProofs.bseq_neq q p) by exact Hq. auto.
Qed.
Definition ex_w (vars : list (string * string)) : world :=
  {| w_env := fun v => match find (fun e => bseq (lit (fst e)) v) vars with Some e => Some (lit (snd e)) | None => None end;
     w_pw := {| pw_gecos := lit "U"; pw_name := lit "u" |};
     w_readable := fun _ => false;
     w_keyfile := fun p => if bseq p (lit "/c") then Some [(lit "new", lit "tags", Some (lit "x"))] else None |}.
Definition ex_d (dirs dbs : list string) : disk :=
  {| d_stat := fun p => if existsb (fun s => bseq (lit s) p) dirs then IsDir else Missing;
     d_canon := fun p => Some p;
     d_xapian := fun p => if existsb (fun s => bseq (lit s) p) dbs then X_ok else X_missing;
     d_meta := fun _ => []; d_compatible := fun _ _ => true |}.
Definition ex_a (p : option string) : args := {| a_path := option_map lit p; a_config := Some (lit "/c"); a_profile := None |}.
Definition where_ (r : outcome) : option (bytes * bytes) := match r with Opened o => Some (db_path o, db_xapian o) | _ => None end.

(** A database is created in $MAILDIR, and then found there, although there is ~/mail. *)
Example C50_example :
  let w := ex_w [("HOME", "/h"); ("MAILDIR", "/m")]%string in
  let d := ex_d ["/h"; "/h/mail"]%string [] in
  where_ (fst (create_with_config ex_mkdir ex_xcreate w d (ex_a None))) = Some (lit "/m", lit "/m/.notmuch/xapian") /\
  where_ (fst (open_with_config ex_xcreate w (snd (create_with_config ex_mkdir ex_xcreate w d (ex_a None))) (ex_a None) false))
  = Some (lit "/m", lit "/m/.notmuch/xapian") /\
  uses_config w (ex_a None) (Some [(lit "new", lit "tags", Some (lit "x"))]) /\
  xdg_undisturbed w d (snd (create_with_config ex_mkdir ex_xcreate w d (ex_a None))) (ex_a None) (Some [(lit "new", lit "tags", Some (lit "x"))]) /\
  fst (create_with_config ex_mkdir ex_xcreate w (snd (create_with_config ex_mkdir ex_xcreate w d (ex_a None))) (ex_a None)) = Failed DATABASE_EXISTS.
Proof.
  intros w d. split; [vm_compute; reflexivity|]. split; [vm_compute; reflexivity|]. split; [|split; [|vm_compute; reflexivity]].
  - right. split; [discriminate|]. exists (lit "/c"). eexists. split; [reflexivity|]. split; vm_compute; reflexivity.
  - intros xd E. right. left.
    assert (X : xdg w (ex_a None) "XDG_DATA_HOME" ".local/share" = Some (lit "/h/.local/share/notmuch/default")) by (vm_compute; reflexivity).
    rewrite X in E. injection E as <-. vm_compute. reflexivity.
Qed.

(** ** What does not hold *)
(** lib/notmuch.h: "in the environment variable NOTMUCH_DATABASE, if non-empty". *)
Theorem C50_empty_variable_is_ignored_refuted :
  ~ (forall xcreate w w' d a write, a_path a = None -> w_env w (lit "NOTMUCH_DATABASE") = Some [] ->
     (forall v, v <> lit "NOTMUCH_DATABASE" -> w_env w' v = w_env w v) -> w_env w' (lit "NOTMUCH_DATABASE") = None ->
     w_pw w' = w_pw w -> w_readable w' = w_readable w -> w_keyfile w' = w_keyfile w ->
     where_ (fst (open_with_config xcreate w d a write)) = where_ (fst (open_with_config xcreate w' d a write))).
Proof.
  intros H.
  specialize (H ex_xcreate (ex_w [("HOME", "/h"); ("MAILDIR", "/m"); ("NOTMUCH_DATABASE", "")]%string) (ex_w [("HOME", "/h"); ("MAILDIR", "/m")]%string)
                (ex_d ["/m"; "/m/.notmuch"]%string ["/m/.notmuch/xapian"]%string) (ex_a None) false eq_refl eq_refl).
  assert (X : None = Some (lit "/m", lit "/m/.notmuch/xapian")).
  { etransitivity; [|etransitivity; [apply H|]]; try (vm_compute; reflexivity).
    intros v Hv. cbn [ex_w w_env find fst snd]. destruct (bseq (lit "HOME") v); [reflexivity|]. destruct (bseq (lit "MAILDIR") v); [reflexivity|].
    destruct (bseq (lit "NOTMUCH_DATABASE") v) eqn:E; [|reflexivity]. apply bseq_eq in E. congruence. }
  discriminate X.
Qed.
Print Assumptions C50_empty_variable_is_ignored_refuted.

(** With a database in "xapian" already there, creation succeeds and makes a second one
    that opening will never use. *)
Theorem C50_created_database_is_found_refuted :
  ~ (forall mkdir xcreate w d a o d' o' d'', mkdir_works mkdir -> xcreate_works xcreate ->
     create_with_config mkdir xcreate w d a = (Opened o, d') ->
     open_with_config xcreate w d' a false = (Opened o', d'') -> db_xapian o' = db_xapian o).
Proof.
  intros H.
  set (w := ex_w [("HOME", "/h")]%string). set (d := ex_d ["/m"]%string ["/m/xapian"]%string). set (a := ex_a (Some "/m"%string)).
  assert (X : exists o d' o', create_with_config ex_mkdir ex_xcreate w d a = (Opened o, d') /\
    open_with_config ex_xcreate w d' a false = (Opened o', d') /\ db_xapian o = lit "/m/.notmuch/xapian" /\ db_xapian o' = lit "/m/xapian").
  { do 3 eexists. split; [vm_compute; reflexivity|]. split; [vm_compute; reflexivity|]. split; reflexivity. }
  destruct X as (o & d' & o' & X1 & X2 & X3 & X4).
  specialize (H _ _ _ _ _ _ _ _ _ ex_mkdir_works ex_xcreate_works X1 X2). rewrite X3, X4 in H. discriminate H.
Qed.
Print Assumptions C50_created_database_is_found_refuted.

(** A failed creation can leave a database behind: with no place named and no mail root
    configured, the database is made in the XDG directory before the missing mail root is
    noticed; creating again then says that it exists. *)
Theorem C50_failed_creation_leaves_nothing_refuted :
  ~ (forall mkdir xcreate w d a s d', mkdir_works mkdir -> xcreate_works xcreate ->
     create_with_config mkdir xcreate w d a = (Failed s, d') -> forall q, d_xapian d' q = d_xapian d q).
Proof.
  intros H. set (w := ex_w [("HOME", "/h")]%string). set (d := ex_d ["/h"]%string []).
  assert (X : exists d', create_with_config ex_mkdir ex_xcreate w d (ex_a None) = (Failed CONFIG_STATUS, d') /\
              d_xapian d' (lit "/h/.local/share/notmuch/default/xapian") = X_ok).
  { eexists. split; vm_compute; reflexivity. }
  destruct X as (d' & X1 & X2). specialize (H _ _ _ _ _ _ _ ex_mkdir_works ex_xcreate_works X1 (lit "/h/.local/share/notmuch/default/xapian")).
  rewrite X2 in H. unfold d in H. cbn in H. discriminate H.
Qed.
Print Assumptions C50_failed_creation_leaves_nothing_refuted.

(** Without HOME and XDG_DATA_HOME (and no place named) creation dereferences NULL. *)
Theorem C50_create_never_crashes_refuted :
  ~ (forall mkdir xcreate w d a, mkdir_works mkdir -> xcreate_works xcreate -> fst (create_with_config mkdir xcreate w d a) <> Crash).
Proof.
  intros H. apply (H ex_mkdir ex_xcreate (ex_w []) (ex_d [] []) (ex_a None) ex_mkdir_works ex_xcreate_works). vm_compute. reflexivity.
Qed.
Print Assumptions C50_create_never_crashes_refuted.
(** With a place to create it at, it does not (the model's other crash needs a mail root
    that can be canonicalised while the database's own directory, just made, cannot). *)
Theorem C50_create_never_crashes :
  forall mkdir xcreate w d a, mkdir_works mkdir -> xcreate_works xcreate ->
  (forall kf, uses_config w a kf -> creation_place w d a kf <> None) ->
  (forall p d', d_stat d' p = IsDir -> d_canon d' p <> None) ->
  fst (create_with_config mkdir xcreate w d a) <> Crash.
Proof.
  intros mkdir xcreate w d a Hk Hx Hp Hc. rewrite create_unfold. pose proof (load_key_file_spec w a) as L.
  destruct (load_key_file w a) as [[[s|] cp] kf]; [discriminate|]. pose proof (place_spec mkdir w d a kf Hk) as P.
  destruct (place mkdir w d a kf) as [[[[[s|] p] split0] d1]|]; [discriminate| |exfalso; now apply (Hp kf)].
  destruct P as (_ & _ & _ & P4 & _).
  assert (E : exists s, create_split d1 kf p split0 = Some s).
  { unfold create_split. destruct kf as [kf|]; [|eauto]. destruct split0; [eauto|].
    destruct (match kf_string kf _ _ with Some r => _ | None => _ end); [|eauto].
    destruct (d_canon d1 p) eqn:E; [eauto|]. exfalso. now apply (Hc _ _ P4). }
  destruct E as (split & ->).
  destruct (if split then Some (p, d1) else _) as [[dir d2]|]; [|discriminate].
  destruct (trial_open d2 (slash dir (lit "xapian"))) eqn:Et; [|discriminate].
  assert (N : d_xapian d2 (slash dir (lit "xapian")) <> X_ok) by (unfold trial_open in Et; destruct (d_xapian d2 _); congruence).
  destruct (finish_open xcreate w d2 a kf true p dir split) as [r d'] eqn:E.
  destruct (finish_new _ _ _ _ _ _ _ _ _ _ Hx N E) as (_ & _ & F). destruct r; [destruct F|discriminate|discriminate].
Qed.
Print Assumptions C50_create_never_crashes.
