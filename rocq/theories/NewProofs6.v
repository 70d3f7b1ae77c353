From Verif Require Import Bytes Terms DocMap MsgId MsgIdProofs MailStore MailStoreSpec MailStoreProofs MailStoreProofs2 Maildir New NewSpec NewProofs NewProofs2 NewProofs3 NewProofs4 NewProofs5.
From Coq Require Import Sorted Permutation.
Local Open Scope N_scope.

Ltac none := intros; match goal with H : noV _ _ |- _ => destruct H | H : noP _ |- _ => destruct H | H : noM _ _ |- _ => destruct H end.

Section Walk2.
Variable compressed : bytes -> bytes.
Hypothesis compressed_short : forall s, (length (compressed s) <= 189)%nat.
Variables (full_scan sync : bool) (new_tags ignore_verbatim : list bytes) (ignore_regex : list (bytes -> bool)) (stat_time : bytes -> Z).
Variable A : bytes -> bytes -> Prop.
Notation canon := (canon compressed).
Notation inv := (inv compressed).
Notation ignored := (entry_in_ignore_list ignore_verbatim ignore_regex).
Notation mail s := (n_mail (s_db s)).
Notation isrec s f := (recorded (s_db s) f).
Notation eff := (eff compressed sync new_tags A).
Notation ord := (ord ignore_verbatim ignore_regex).
Notation reg := (reg ignore_verbatim ignore_regex).
Notation present := (present ignore_verbatim ignore_regex).
Notation V2 := (V2 ignore_verbatim ignore_regex).
Notation pass1 := (pass1 ignore_verbatim ignore_regex).
Notation pass2 := (pass2 compressed sync new_tags ignore_verbatim ignore_regex).
Notation add_files := (add_files compressed full_scan sync new_tags ignore_verbatim ignore_regex stat_time).
Notation VT := (VT ignored).
Notation GT := (GT ignored).
Notation GDT := (GDT ignored).
Notation DT := (DT ignored).
Notation MT := (MT ignored stat_time).
Notation trustworthy := (trustworthy ignored).
Notation scanned := (scanned ignored).
Notation entered := (entered ignored).
Notation ordinary := (ordinary ignored).

Notation legal := (legal compressed A).
Notation mkE := (mkE compressed full_scan sync new_tags ignore_verbatim ignore_regex stat_time).
Notation ent := (ent ignore_verbatim ignore_regex).
Notation Sub := (Sub ignore_verbatim ignore_regex).
Notation walk_ok := (walk_ok compressed full_scan sync new_tags ignore_verbatim ignore_regex stat_time A).
Notation eff_weaken := (eff_weaken compressed sync new_tags A).
Notation eff_seq := (eff_seq compressed sync new_tags A).


Lemma sort_map {X Y} (h : bytes * X -> bytes * Y) : (forall e, fst (h e) = fst e) -> forall l, sort_entries (map h l) = map h (sort_entries l).
Proof.
  intros Hh. assert (I : forall e l, insert_entry (h e) (map h l) = map h (insert_entry e l)).
  { intros e l. induction l as [|a l IH]; [reflexivity|]. cbn [map insert_entry]. rewrite !Hh. destruct (bleb (fst e) (fst a)); [reflexivity|]. cbn [map]. now rewrite IH. }
  induction l as [|a l IH]; [reflexivity|]. cbn [map]. unfold sort_entries in *. cbn [fold_right]. now rewrite IH, I.
Qed.

(** What follows pass 1: pass 2, the leftovers, and the mtime. *)
Definition finish (mt : Z) (p : bytes) (es : list entry) (dbf dbd : list bytes) (s : nstate) : option (bool * nstate) :=
  match pass2 p es dbf dbd s with
  | None => None
  | Some (false, _, _, s) => Some (false, s)
  | Some (true, left_files, left_dirs, s) =>
      let '(i, s) := interrupted s in
      if i then Some (true, s)
      else
        let s := queue_files (map (child p) left_files) s in
        let s := queue_dirs (map (child p) left_dirs) s in
        Some (true, if Z.eqb mt (stat_time p) then s else queue_mtime p mt s)
  end.

Lemma finish_eff mt p es dbf dbd s : rooted p -> inv (mail s) -> good_ndb (s_db s) ->
  tsorted dbf -> tsorted dbd -> StronglySorted elt es \/ (dbf = [] /\ dbd = []) ->
  NoDup (map fst es) -> (forall n, In n (map fst es) -> mem SLASH n = false) -> mails_ok compressed A es ->
  (forall n, In n dbf -> isrec s (child p n)) -> (forall n, In n (map fst es) -> isrec s (child p n) -> In n dbf) ->
  (forall n, In n dbd -> known_dir (s_db s) (child p n)) ->
  exists b s', finish mt p es dbf dbd s = Some (b, s') /\
    eff (V2 p es) (fun f => exists n, f = child p n /\ In n dbf /\ ~ reg p es n)
        (fun f => exists n, f = child p n /\ In n dbd /\ ~ present p es n) (upto p) (fun q m => q = p /\ m = mt /\ mt <> stat_time p) b s s'.
Proof.
  intros Hp Hi Hg H1 H2 H3 H4 H5 H6 H7 H8 H9.
  destruct (pass2_eff compressed compressed_short sync new_tags ignore_verbatim ignore_regex stat_time A p Hp es dbf dbd s Hi Hg H1 H2 H3 H4 H5 H6 H7 H8 H9)
    as (b & lf & ld & s2 & E & Lf & Ld & Hleft & F).
  unfold finish. rewrite E. destruct b.
  2:{ exists false, s2. split; [reflexivity|]. eapply eff_weaken; [| | | | | |exact F]; try none; try tauto; try discriminate.
      - intros f (n & X1 & X2 & _ & X3). eauto.
      - intros f (n & X1 & X2 & _ & X3). eauto. }
  destruct (eff_inv _ _ _ _ _ _ _ _ _ _ _ _ F) as [I2 G2].
  destruct (interrupted_spec s2) as (i & s3 & -> & Edb & Erf & Erd & Emt & Evn & Elive & Ei). destruct i.
  { exists true, s3. split; [reflexivity|].
    assert (NL : ~ live s3) by (intros L; destruct (Elive L); discriminate).
    apply (eff_bool compressed sync new_tags A _ _ _ _ _ (true && true)); [reflexivity|].
    eapply eff_weaken; [| | | | | |eapply eff_seq; [| | |exact F|apply (eff_dead compressed sync new_tags A noV noP noP noP noM true s2 s3); auto]]; try none.
    - intros f c [X|[]]. exact X.
    - intros f [(n & X1 & X2 & _ & X3)|[]]. eauto.
    - intros f [(n & X1 & X2 & _ & X3)|[]]. eauto.
    - intros f [X|[]]. exact X.
    - intros x m [[]|[]].
    - tauto. }
  assert (L2 : live s2) by now apply Ei. destruct (Hleft L2 eq_refl) as [Nf Ndd].
  assert (F3 : eff (V2 p es) (fun f => exists n, f = child p n /\ In n dbf /\ ~ In n lf /\ ~ reg p es n)
        (fun f => exists n, f = child p n /\ In n dbd /\ ~ In n ld /\ ~ present p es n) (upto p) noM true s s3).
  { assert (T : eff noV noP noP noP noM true s2 s3).
    { apply (eff_tick_l compressed sync new_tags A _ _ _ _ _ _ s2 s3 s3); auto. apply eff_nothing; rewrite Edb; assumption. }
    apply (eff_bool compressed sync new_tags A _ _ _ _ _ (true && true)); [reflexivity|].
    eapply eff_weaken; [| | | | | |eapply eff_seq; [| | |exact F|exact T]]; try none.
    - intros f c [X|[]]. exact X.
    - intros f [X|[]]. exact X.
    - intros f [X|[]]. exact X.
    - intros f [X|[]]. exact X.
    - intros x m [[]|[]].
    - intros _ _. split; [intros; left; now left|]. split; intros; left; now left. }
  assert (I3 : inv (mail s3)) by (rewrite Edb; exact I2). assert (G3 : good_ndb (s_db s3)) by (rewrite Edb; exact G2).
  set (s4 := queue_files (map (child p) lf) s3). set (s5 := queue_dirs (map (child p) ld) s4).
  assert (F4 : eff noV (fun f => In f (map (child p) lf)) noP noP noM true s3 s4).
  { apply (eff_queue_files compressed sync new_tags stat_time A); auto. intros f Hf. apply in_map_iff in Hf as (n & <- & Hn). destruct (H7 n (Lf n Hn)) as (j & Hj). exists j. now apply (e_mono _ _ _ _ _ _ _ _ _ _ _ _ F3). }
  assert (F5 : eff noV noP (fun f => In f (map (child p) ld)) noP noM true s4 s5).
  { apply (eff_queue_dirs compressed sync new_tags stat_time A); auto. intros f Hf. apply in_map_iff in Hf as (n & <- & Hn). destruct (H9 n (Ld n Hn)) as (j & Hj). exists j. now apply (e_dmono _ _ _ _ _ _ _ _ _ _ _ _ F3). }
  set (s6 := if Z.eqb mt (stat_time p) then s5 else queue_mtime p mt s5).
  assert (F6 : eff noV noP noP noP (fun q m => q = p /\ m = mt /\ mt <> stat_time p) true s5 s6).
  { unfold s6. destruct (Z.eqb_spec mt (stat_time p)) as [Z|Z].
    - eapply eff_weaken; [| | | | | |apply (eff_nothing compressed sync new_tags A true s5)]; auto; try none.
    - eapply eff_weaken; [| | | | | |apply (eff_queue_mtime compressed sync new_tags A p mt s5)]; auto; try none. intros q m [-> ->]. auto. }
  exists true, s6. split; [reflexivity|].
  apply (eff_bool compressed sync new_tags A _ _ _ _ _ (true && (true && (true && true)))); [reflexivity|].
  eapply eff_weaken; [| | | | | |eapply eff_seq; [| | |exact F3|eapply eff_seq; [| | |exact F4|eapply eff_seq; [| | |exact F5|exact F6]]]]; try none.
  - intros f c [X|[[]|[[]|[]]]]. exact X.
  - intros f [(n & X1 & X2 & _ & X3)|[X|[[]|[]]]]; [eauto|]. apply in_map_iff in X as (n & <- & Hn). exists n. auto.
  - intros f [(n & X1 & X2 & _ & X3)|[[]|[X|[]]]]; [eauto|]. apply in_map_iff in X as (n & <- & Hn). exists n. auto.
  - intros f [X|[[]|[[]|[]]]]. exact X.
  - intros q m [[]|[[]|[[]|X]]]. exact X.
  - intros _ _. split; [intros g f keys ok X; left; now left|]. split.
    + intros f (n & -> & X2 & X3). left. destruct (in_dec (list_eq_dec ascii_dec) n lf) as [Y|Y]; [right; left; now apply in_map|left; eauto].
    + intros f (n & -> & X2 & X3). left. destruct (in_dec (list_eq_dec ascii_dec) n ld) as [Y|Y]; [right; right; left; now apply in_map|left; eauto].
  - intros f c c' _ [[]|[[]|[]]].
  - intros f c (n & w & X1 & X2 & ->) [X|[[]|[]]]. apply in_map_iff in X as (n' & E' & Hn). apply child_same in E'. subst n'. apply (Nf n Hn). split; [exact X2|eauto].
  - intros f X [[]|[Y|[]]]. apply in_map_iff in Y as (n' & <- & Hn). now apply not_upto in X.
Qed.
End Walk2.
