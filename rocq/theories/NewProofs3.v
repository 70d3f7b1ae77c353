From Verif Require Import Bytes Terms DocMap MsgId MsgIdProofs MailStore MailStoreSpec MailStoreProofs MailStoreProofs2 Maildir New NewSpec NewProofs NewProofs2.
From Coq Require Import Sorted Permutation.
Local Open Scope N_scope.

Section Scan.
Variable compressed : bytes -> bytes.
Hypothesis compressed_short : forall s, (length (compressed s) <= 189)%nat.
Variables (full_scan sync : bool) (new_tags ignore_verbatim : list bytes) (ignore_regex : list (bytes -> bool)) (stat_time : bytes -> Z).
Variable A : bytes -> bytes -> Prop.
Notation canon := (canon compressed).
Notation inv := (inv compressed).
Notation ignored := (entry_in_ignore_list ignore_verbatim ignore_regex).
Notation mail s := (n_mail (s_db s)).
Notation isrec s f := (recorded (s_db s) f).

Lemma rec_recorded s f i : rec (mail s) f i <-> recorded_for (s_db s) f i.
Proof. reflexivity. Qed.

(** A sequence of files added, each under a name not recorded. *)
Inductive adds : mdb -> mdb -> Prop :=
| adds_refl m : adds m m
| adds_file m p n f keys ok s s' : adds m (mail s) -> inv (mail s) -> ~ isrec s (child p n) ->
    (forall r, In r keys -> canon r <> canon (f_id f)) -> (forall t, In t (f_auto_tags f) -> A (canon (f_id f)) t) ->
    add_file compressed sync new_tags p n (Some (f, keys, ok)) s = Some s' -> adds m (mail s').
Lemma adds_trans a b c : adds a b -> adds b c -> adds a c.
Proof. intros H1 H2. induction H2; [exact H1|]. eapply adds_file; eauto. Qed.

(** The effect of a part of the scan: which files it may add, which files and directories
    it queues, which directory documents it creates. *)
Record eff (V : bytes -> content -> Prop) (G GD D : bytes -> Prop) (M : bytes -> Z -> Prop) (b : bool) (s s' : nstate) : Prop := {
  e_inv : inv (mail s');
  e_good : good_ndb (s_db s');
  e_sound : forall g i, rec (mail s') g i -> rec (mail s) g i \/
              (~ isrec s g /\ exists f keys, V g (Some (f, keys, true)) /\ i = canon (f_id f));
  e_mono : forall g i, rec (mail s) g i -> rec (mail s') g i;
  e_keeps : keeps (fun _ => False) A (mail s) (mail s');
  e_files : exists q, s_removed_files s' = s_removed_files s ++ q /\ (forall f, In f q -> isrec s f /\ G f) /\
              (live s' -> b = true -> forall f, isrec s f -> G f -> In f q);
  e_dirs : exists q, s_removed_dirs s' = s_removed_dirs s ++ q /\ (forall f, In f q -> known_dir (s_db s) f /\ GD f) /\
              (live s' -> b = true -> forall f, known_dir (s_db s) f -> GD f -> In f q);
  e_dmono : forall q m, dir_get q (s_db s) = Some m -> dir_get q (s_db s') = Some m;
  e_dsound : forall q m, dir_get q (s_db s') = Some m -> dir_get q (s_db s) = Some m \/ (dir_get q (s_db s) = None /\ m = 0%Z /\ D q);
  e_mt : exists l, s_mtimes s' = s_mtimes s ++ l /\ forall q m, In (q, m) l -> M q m;
  e_tick : live s' -> live s;
  e_done : live s' -> b = true -> forall g f keys, V g (Some (f, keys, true)) -> ~ isrec s g -> exists i, rec (mail s') g i;
  e_van : (s_vanished s <= s_vanished s')%nat /\
    (live s' -> b = true -> forall g f keys, V g (Some (f, keys, false)) -> ~ isrec s g -> (s_vanished s < s_vanished s')%nat) /\
    ((s_vanished s < s_vanished s')%nat -> exists g f keys, V g (Some (f, keys, false)) /\ ~ isrec s g);
  e_adds : adds (mail s) (mail s') }.

Definition noV (_ : bytes) (_ : content) := False.
Definition noP (_ : bytes) := False.
Definition noM (_ : bytes) (_ : Z) := False.
Lemma eff_nothing b s : inv (mail s) -> good_ndb (s_db s) -> eff noV noP noP noP noM b s s.
Proof.
  intros Hi Hg. constructor; auto; try (intros; tauto).
  - apply keeps_refl.
  - exists []. rewrite app_nil_r. split; [reflexivity|]. split; [intros f []|intros _ _ f _ []].
  - exists []. rewrite app_nil_r. split; [reflexivity|]. split; [intros f []|intros _ _ f _ []].
  - exists []. rewrite app_nil_r. split; [reflexivity|]. intros q m [].
  - intros _ _ g f keys [].
  - cbn. split; [lia|]. split; [intros _ _ g f keys []|lia].
  - apply adds_refl.
Qed.

(** Soundness for larger predicates; completeness for smaller ones. *)
Lemma eff_weaken (V V' : bytes -> content -> Prop) (G G' GD GD' D D' : bytes -> Prop) (M M' : bytes -> Z -> Prop) b s s' :
  (forall f c, V f c -> V' f c) -> (forall f, G f -> G' f) -> (forall f, GD f -> GD' f) -> (forall f, D f -> D' f) -> (forall p m, M p m -> M' p m) ->
  (b = true -> live s' -> (forall g f keys ok, V' g (Some (f, keys, ok)) -> V g (Some (f, keys, ok)) \/ isrec s g) /\
     (forall f, G' f -> G f \/ ~ isrec s f) /\ (forall f, GD' f -> GD f \/ ~ known_dir (s_db s) f)) ->
  eff V G GD D M b s s' -> eff V' G' GD' D' M' b s s'.
Proof.
  intros H1 H2 H3 H4 H5 H6 E. destruct E. constructor; auto.
  - intros g i Hr. destruct (e_sound0 g i Hr) as [X|(X & f & keys & Y & Z)]; [now left|]. right. split; [exact X|]. exists f, keys. auto.
  - destruct e_files0 as (q & Q1 & Q2 & Q3). exists q. split; [exact Q1|]. split.
    + intros f Hf. destruct (Q2 f Hf). auto.
    + intros L B f Hr Hg. destruct (H6 B L) as (_ & Y & _). apply Q3; auto. destruct (Y f Hg); [assumption|contradiction].
  - destruct e_dirs0 as (q & Q1 & Q2 & Q3). exists q. split; [exact Q1|]. split.
    + intros f Hf. destruct (Q2 f Hf). auto.
    + intros L B f Hr Hg. destruct (H6 B L) as (_ & _ & Y). apply Q3; auto. destruct (Y f Hg); [assumption|contradiction].
  - intros q m Hd. destruct (e_dsound0 q m Hd) as [X|(X & Y & Z)]; auto.
  - destruct e_mt0 as (l & L1 & L2). exists l. split; [exact L1|]. auto.
  - intros L B g f keys Hv Hn. destruct (H6 B L) as (Y & _). destruct (Y g f keys true Hv) as [X|X]; [|contradiction]. eauto.
  - destruct e_van0 as (W1 & W2 & W3). split; [exact W1|]. split.
    + intros L B g f keys Hv Hn. destruct (H6 B L) as (Y & _). destruct (Y g f keys false Hv) as [X|X]; [|contradiction]. eauto.
    + intros W. destruct (W3 W) as (g & f & keys & X & Y). exists g, f, keys. auto.
Qed.

(** One part after the other, if the first does not add what the second looks at. *)
Lemma eff_seq (V1 V2 : bytes -> content -> Prop) (G1 G2 GD1 GD2 D1 D2 : bytes -> Prop) (M1 M2 : bytes -> Z -> Prop) b1 b s s1 s2 :
  (forall f c c', V1 f c -> V2 f c' -> False) -> (forall f c, V1 f c -> G2 f -> False) -> (forall f, D1 f -> GD2 f -> False) ->
  eff V1 G1 GD1 D1 M1 b1 s s1 -> eff V2 G2 GD2 D2 M2 b s1 s2 ->
  eff (fun f c => V1 f c \/ V2 f c) (fun f => G1 f \/ G2 f) (fun f => GD1 f \/ GD2 f) (fun f => D1 f \/ D2 f) (fun p m => M1 p m \/ M2 p m) (b1 && b) s s2.
Proof.
  intros HV HG HD E1 E2.
  assert (Hrec : forall g, isrec s1 g -> isrec s g \/ exists f keys, V1 g (Some (f, keys, true))).
  { intros g (i & Hr). apply (e_sound _ _ _ _ _ _ _ _ E1) in Hr as [Hr|(_ & f & keys & Hv & _)]; [left; exists i; exact Hr|right; eauto]. }
  assert (Hmon : forall g, isrec s g -> isrec s1 g). { intros g (i & Hr). exists i. now apply (e_mono _ _ _ _ _ _ _ _ E1). }
  assert (Hkn : forall q, known_dir (s_db s1) q -> known_dir (s_db s) q \/ D1 q).
  { intros q (m & Hm). destruct (e_dsound _ _ _ _ _ _ _ _ E1 q m Hm) as [X|(_ & _ & X)]; [left; eexists; eassumption|now right]. }
  assert (Hkm : forall q, known_dir (s_db s) q -> known_dir (s_db s1) q). { intros q (m & Hm). exists m. now apply (e_dmono _ _ _ _ _ _ _ _ E1). }
  constructor.
  - apply E2.
  - apply E2.
  - intros g i Hr. apply (e_sound _ _ _ _ _ _ _ _ E2) in Hr as [Hr|(Hn & f & keys & Hv & ->)].
    + apply (e_sound _ _ _ _ _ _ _ _ E1) in Hr as [Hr|(Hn & f & keys & Hv & ->)]; [now left|]. right. split; [exact Hn|]. eauto.
    + right. split; [auto|]. eauto.
  - intros g i Hr. now apply (e_mono _ _ _ _ _ _ _ _ E2), (e_mono _ _ _ _ _ _ _ _ E1).
  - eapply keeps_trans; [apply E1|apply E2].
  - destruct (e_files _ _ _ _ _ _ _ _ E1) as (q1 & Q1 & Q2 & Q3). destruct (e_files _ _ _ _ _ _ _ _ E2) as (q2 & R1 & R2 & R3).
    exists (q1 ++ q2). rewrite R1, Q1, app_assoc. split; [reflexivity|]. split.
    + intros f Hf. apply in_app_or in Hf as [Hf|Hf]; [destruct (Q2 f Hf); auto|]. destruct (R2 f Hf) as [X Y]. split; [|auto].
      destruct (Hrec f X) as [Z|(a & k & Z)]; [exact Z|]. exfalso. eauto.
    + intros L B f Hr Hg. apply andb_true_iff in B as [B1 B]. destruct Hg as [Hg|Hg]; apply in_or_app; [left|right; auto]. apply Q3; auto. now apply (e_tick _ _ _ _ _ _ _ _ E2).
  - destruct (e_dirs _ _ _ _ _ _ _ _ E1) as (q1 & Q1 & Q2 & Q3). destruct (e_dirs _ _ _ _ _ _ _ _ E2) as (q2 & R1 & R2 & R3).
    exists (q1 ++ q2). rewrite R1, Q1, app_assoc. split; [reflexivity|]. split.
    + intros f Hf. apply in_app_or in Hf as [Hf|Hf]; [destruct (Q2 f Hf); auto|]. destruct (R2 f Hf) as [X Y]. split; [|auto].
      destruct (Hkn f X) as [Z|Z]; [exact Z|]. exfalso. eauto.
    + intros L B f Hr Hg. apply andb_true_iff in B as [B1 B]. destruct Hg as [Hg|Hg]; apply in_or_app; [left|right; auto]. apply Q3; auto. now apply (e_tick _ _ _ _ _ _ _ _ E2).
  - intros q m H. now apply (e_dmono _ _ _ _ _ _ _ _ E2), (e_dmono _ _ _ _ _ _ _ _ E1).
  - intros q m H. apply (e_dsound _ _ _ _ _ _ _ _ E2) in H as [H|(Hn & -> & Hd)].
    + apply (e_dsound _ _ _ _ _ _ _ _ E1) in H as [H|(Hn & -> & Hd)]; [now left|right; auto].
    + right. split; [|auto]. destruct (dir_get q (s_db s)) eqn:X; [|reflexivity]. apply (e_dmono _ _ _ _ _ _ _ _ E1) in X. congruence.
  - destruct (e_mt _ _ _ _ _ _ _ _ E1) as (l1 & L1 & L2). destruct (e_mt _ _ _ _ _ _ _ _ E2) as (l2 & K1 & K2). exists (l1 ++ l2). rewrite K1, L1, app_assoc.
    split; [reflexivity|]. intros q m H. apply in_app_or in H as [H|H]; auto.
  - intros L. now apply (e_tick _ _ _ _ _ _ _ _ E1), (e_tick _ _ _ _ _ _ _ _ E2).
  - intros L B g f keys Hv Hn. apply andb_true_iff in B as [B1 B]. destruct Hv as [Hv|Hv].
    + destruct (e_done _ _ _ _ _ _ _ _ E1 (e_tick _ _ _ _ _ _ _ _ E2 L) B1 g f keys Hv Hn) as (i & X). exists i. now apply (e_mono _ _ _ _ _ _ _ _ E2).
    + apply (e_done _ _ _ _ _ _ _ _ E2 L B g f keys Hv). intros X. destruct (Hrec g X) as [Z|(a & k & Z)]; [contradiction|]. eauto.
  - destruct (e_van _ _ _ _ _ _ _ _ E1) as (W1 & W2 & W3). destruct (e_van _ _ _ _ _ _ _ _ E2) as (U1 & U2 & U3). split; [lia|]. split.
    + intros L B g f keys Hv Hn. apply andb_true_iff in B as [B1 B]. destruct Hv as [Hv|Hv].
      * pose proof (W2 (e_tick _ _ _ _ _ _ _ _ E2 L) B1 g f keys Hv Hn). lia.
      * assert (s_vanished s1 < s_vanished s2)%nat; [|lia]. apply (U2 L B g f keys Hv). intros X. destruct (Hrec g X) as [Z|(a & k & Z)]; [contradiction|]. eauto.
    + intros W. destruct (Nat.lt_ge_cases (s_vanished s) (s_vanished s1)) as [Z|Z].
      * destruct (W3 Z) as (g & f & keys & X & Y). exists g, f, keys. auto.
      * destruct U3 as (g & f & keys & X & Y); [lia|]. exists g, f, keys. auto.
  - eapply adds_trans; [apply E1|apply E2].
Qed.
(** States that differ in the interruption counter only. *)
Lemma eff_tick_l V G GD D M b s0 s s' : s_db s0 = s_db s -> s_removed_files s0 = s_removed_files s -> s_removed_dirs s0 = s_removed_dirs s ->
  s_mtimes s0 = s_mtimes s -> s_vanished s0 = s_vanished s -> (live s -> live s0) -> eff V G GD D M b s s' -> eff V G GD D M b s0 s'.
Proof.
  intros E1 E2 E3 E4 E6 E5 E. destruct E. constructor; rewrite ?E1, ?E2, ?E3, ?E4, ?E6; auto.
Qed.

Definition ord (p n : bytes) : bool := negb (special_directory n) && negb (ignored p n).
Lemma ord_ordinary p n : ord p n = true <-> ordinary ignored p n.
Proof.
  unfold ord, ordinary, special_directory. rewrite andb_true_iff, !negb_true_iff, orb_false_iff, !bseq_neq. tauto.
Qed.

(** ---- Adding one file ---- *)
Definition justD (p : bytes) : bytes -> Prop := upto p.
Lemma add_file_eff p n c s : inv (mail s) -> good_ndb (s_db s) -> rooted p -> mem SLASH n = false ->
  (forall f keys ok, c = Some (f, keys, ok) -> (forall r, In r keys -> canon r <> canon (f_id f)) /\ forall t, In t (f_auto_tags f) -> A (canon (f_id f)) t) ->
  ~ isrec s (child p n) ->
  exists s', add_file compressed sync new_tags p n c s = Some s' /\
    eff (fun g c' => g = child p n /\ c' = c) noP noP (upto p) noM true s s'.
Proof.
  intros Hi Hg Hp Hn Hc Hr.
  destruct (add_file_spec compressed compressed_short sync new_tags p n c s Hi) as (s' & E & Hi' & Hrec & Hk & Hd & Hf & Hq & Hm & Ht & Hvan).
  { intros f keys ok X. now apply (Hc f keys ok). }
  exists s'. split; [exact E|].
  assert (KD : forall q, known_dir (s_db s') q <-> known_dir (s_db s) q \/ (c <> None /\ upto p q)).
  { intros q. destruct c as [c|].
    - pose proof (known_make_dirs p (s_db s) (mail s') q) as X. unfold known_dir in *. unfold dir_get in *. cbn in X. rewrite Hd. rewrite X. intuition discriminate.
    - unfold known_dir, dir_get. rewrite Hd. intuition. }
  constructor.
  - exact Hi'.
  - assert (Gd : good_ndb {| n_mail := mail s; n_dirs := n_dirs (s_db s') |}).
    { rewrite Hd. destruct c; [now apply good_add_dirs|]. destruct (s_db s); exact Hg. }
    constructor.
    + intros f i j Hi1 Hj1. apply Hrec in Hi1, Hj1. destruct Hi1 as [Hi1|(f1 & k1 & Ec1 & Eg1 & Ei1)], Hj1 as [Hj1|(f2 & k2 & Ec2 & Eg2 & Ei2)].
      * exact (g_owner _ Hg f i j Hi1 Hj1).
      * subst f. exfalso. apply Hr. now exists i.
      * subst f. exfalso. apply Hr. now exists j.
      * congruence.
    + intros f (i & Hfi). apply Hrec in Hfi as [Hfi|(f1 & k1 & Ec & -> & _)].
      * destruct (g_file _ Gd f) as (q & x & -> & Hx & (m & Hkq)); [exists i; exact Hfi|]. exists q, x. split; [reflexivity|]. split; [exact Hx|]. exists m. exact Hkq.
      * exists p, n. split; [reflexivity|]. split; [exact Hn|]. apply KD. right. split; [congruence|]. now left.
    + intros q (m & Hq'). destruct (g_dir _ Gd q) as [->|(r & x & -> & Hx & (m' & Hkr))]; [exists m; exact Hq'|now left|]. right. exists r, x. split; [reflexivity|]. split; [exact Hx|]. exists m'. exact Hkr.
    + exact (g_nodup _ Gd).
  - intros g i H. apply Hrec in H as [H|(f & keys & Ec & -> & ->)]; [now left|]. right. split; [exact Hr|]. exists f, keys. auto.
  - intros g i H. apply Hrec. now left.
  - eapply keeps_weaken; [| |exact Hk]; [tauto|]. intros i t (f & keys & ok & Ec & -> & Hin). destruct (Hc f keys ok Ec) as [_ X]. now apply X.
  - exists []. rewrite app_nil_r. split; [exact Hf|]. split; [intros f []|intros _ _ f _ []].
  - exists []. rewrite app_nil_r. split; [exact Hq|]. split; [intros f []|intros _ _ f _ []].
  - intros q m H. destruct c; [|unfold dir_get in *; now rewrite Hd]. rewrite dir_get_dirs in *. rewrite Hd. unfold make_dirs. now rewrite make_dirs_get, H.
  - intros q m H. destruct c; [|left; unfold dir_get in *; now rewrite Hd in H]. rewrite dir_get_dirs in *. rewrite Hd in H. unfold make_dirs in H. rewrite make_dirs_get in H.
    destruct (dget_dirs q (n_dirs (s_db s))); [left; exact H|]. destruct (existsb (bseq q) (ancestors [] p)) eqn:X; [|discriminate]. injection H as <-.
    right. split; [reflexivity|]. split; [reflexivity|]. now apply existsb_ancestors.
  - exists []. rewrite app_nil_r. split; [exact Hm|]. intros q m [].
  - unfold live. now rewrite Ht.
  - intros _ _ g f keys [-> Ec] _. exists (canon (f_id f)). apply Hrec. right. exists f, keys. auto.
  - rewrite Hvan. split; [lia|]. split.
    + intros _ _ g f keys [-> <-] _. cbn. lia.
    + intros W. destruct c as [[[f keys] [|]]|]; cbn in W; try lia. exists (child p n), f, keys. auto.
  - destruct c as [[[f keys] ok]|].
    + destruct (Hc f keys ok eq_refl) as (X1 & X2). eapply adds_file; [apply adds_refl|exact Hi|exact Hr|exact X1|exact X2|exact E].
    + cbn in E. injection E as <-. apply adds_refl.
Qed.

Lemma eff_queue_files l s : inv (mail s) -> good_ndb (s_db s) -> (forall f, In f l -> isrec s f) ->
  eff noV (fun f => In f l) noP noP noM true s (queue_files l s).
Proof.
  intros Hi Hg Hl. constructor; cbn; auto; try (intros; tauto).
  - apply keeps_refl.
  - exists l. split; [reflexivity|]. split; [auto|tauto].
  - exists []. rewrite app_nil_r. split; [reflexivity|]. split; [intros f []|intros _ _ f _ []].
  - exists []. rewrite app_nil_r. split; [reflexivity|]. intros q m [].
  - intros _ _ g f keys [].
  - cbn. split; [lia|]. split; [intros _ _ g f keys []|lia].
  - apply adds_refl.
Qed.
Lemma eff_queue_dirs l s : inv (mail s) -> good_ndb (s_db s) -> (forall f, In f l -> known_dir (s_db s) f) ->
  eff noV noP (fun f => In f l) noP noM true s (queue_dirs l s).
Proof.
  intros Hi Hg Hl. constructor; cbn; auto; try (intros; tauto).
  - apply keeps_refl.
  - exists []. rewrite app_nil_r. split; [reflexivity|]. split; [intros f []|intros _ _ f _ []].
  - exists l. split; [reflexivity|]. split; [auto|tauto].
  - exists []. rewrite app_nil_r. split; [reflexivity|]. intros q m [].
  - intros _ _ g f keys [].
  - cbn. split; [lia|]. split; [intros _ _ g f keys []|lia].
  - apply adds_refl.
Qed.
Lemma eff_queue_mtime p m s : inv (mail s) -> good_ndb (s_db s) ->
  eff noV noP noP noP (fun q x => q = p /\ x = m) true s (queue_mtime p m s).
Proof.
  intros Hi Hg. constructor; cbn; auto; try (intros; tauto).
  - apply keeps_refl.
  - exists []. rewrite app_nil_r. split; [reflexivity|]. split; [intros f []|intros _ _ f _ []].
  - exists []. rewrite app_nil_r. split; [reflexivity|]. split; [intros f []|intros _ _ f _ []].
  - exists [(p, m)]. split; [reflexivity|]. intros q x [[= <- <-]|[]]. auto.
  - intros _ _ g f keys [].
  - cbn. split; [lia|]. split; [intros _ _ g f keys []|lia].
  - apply adds_refl.
Qed.
Lemma not_upto p n : ~ upto p (child p n).
Proof.
  intros [E|(r & E)]; [symmetry in E; now apply child_not_self in E|]. rewrite child_child in E. now apply child_not_self in E.
Qed.

(** The entries of a directory, without what recursion does. *)
Definition reg (p : bytes) (es : list entry) (n : bytes) : Prop := ord p n = true /\ exists c w, In (n, (KReg c, w)) es.
Definition present (p : bytes) (es : list entry) (n : bytes) : Prop := ord p n = true /\ exists k w, In (n, (k, w)) es.
Definition mails_ok (es : list entry) : Prop := forall n f keys ok w, In (n, (KReg (Some (f, keys, ok)), w)) es ->
  (forall r, In r keys -> canon r <> canon (f_id f)) /\ forall t, In t (f_auto_tags f) -> A (canon (f_id f)) t.
Definition V2 (p : bytes) (es : list entry) (g : bytes) (c : content) : Prop :=
  exists n w, In (n, (KReg c, w)) es /\ ord p n = true /\ g = child p n.

Lemma blt_not_eq a b : blt a b -> a <> b.
Proof. unfold blt. intros H ->. rewrite bltb_irrefl in H. discriminate. Qed.
Lemma bleb_blt_false a b : bleb a b = true -> blt b a -> False.
Proof. unfold blt. rewrite bltb_bleb_neg. intros -> H. discriminate. Qed.

Ltac none := intros; match goal with H : noV _ _ |- _ => destruct H | H : noP _ |- _ => destruct H | H : noM _ _ |- _ => destruct H end.
Ltac nope := try solve [none | contradiction].
Lemma pass2_eff p : rooted p -> forall es dbf dbd s, inv (mail s) -> good_ndb (s_db s) ->
  tsorted dbf -> tsorted dbd -> StronglySorted elt es \/ (dbf = [] /\ dbd = []) ->
  NoDup (map fst es) -> (forall n, In n (map fst es) -> mem SLASH n = false) -> mails_ok es ->
  (forall n, In n dbf -> isrec s (child p n)) -> (forall n, In n (map fst es) -> isrec s (child p n) -> In n dbf) ->
  (forall n, In n dbd -> known_dir (s_db s) (child p n)) ->
  exists b lf ld s', pass2 compressed sync new_tags ignore_verbatim ignore_regex p es dbf dbd s = Some (b, lf, ld, s') /\
    incl lf dbf /\ incl ld dbd /\
    (live s' -> b = true -> (forall n, In n lf -> ~ reg p es n) /\ (forall n, In n ld -> ~ present p es n)) /\
    eff (V2 p es) (fun f => exists n, f = child p n /\ In n dbf /\ ~ In n lf /\ ~ reg p es n)
        (fun f => exists n, f = child p n /\ In n dbd /\ ~ In n ld /\ ~ present p es n) (upto p) noM b s s'.
Proof.
  intros Hp. induction es as [|[n [k w]] es IH]; intros dbf dbd s Hi Hg Sf Sd Hs Nd Hsl Hm Hf He Hd; cbn [pass2].
  { exists true, dbf, dbd, s. split; [reflexivity|]. split; [apply incl_refl|]. split; [apply incl_refl|]. split.
    - intros _ _. split; intros n _ [_ (c & w & [])].
    - eapply eff_weaken; [| | | | | |apply (eff_nothing true s Hi Hg)]; try none; try (intros; tauto).
      intros _ _. split; [intros g f keys ok (n & w & [] & _)|]. split; intros f (n & _ & H & H' & _); contradiction. }
  destruct (interrupted_spec s) as (i & s1 & -> & Edb & Erf & Erd & Emt & Evn & Elive & Ei). destruct i.
  { exists true, dbf, dbd, s1. split; [reflexivity|]. split; [apply incl_refl|]. split; [apply incl_refl|].
    assert (NL : ~ live s1) by (intros L; destruct (Elive L); discriminate). split; [tauto|].
    apply (eff_tick_l _ _ _ _ _ _ s s1 s1); auto; [intros L; now apply Elive|].
    eapply eff_weaken; [| | | | | |apply (eff_nothing true s1)]; try none; try (intros; tauto); now rewrite Edb. }
  cbn [map] in Nd. apply NoDup_cons_iff in Nd as [Nn Nd].
  assert (Hm' : mails_ok es) by (intros x f keys ok w' Hin; eapply Hm; right; exact Hin).
  assert (Hs' : StronglySorted elt es \/ (dbf = [] /\ dbd = [])) by (destruct Hs as [Hs|Hs]; [left; now inversion Hs|now right]).
  assert (Lift : forall b lf ld s2 s', (live s2 -> live s) ->
     s_db s2 = s_db s -> s_removed_files s2 = s_removed_files s -> s_removed_dirs s2 = s_removed_dirs s -> s_mtimes s2 = s_mtimes s -> s_vanished s2 = s_vanished s ->
     eff (V2 p ((n,(k,w)) :: es)) (fun f => exists x, f = child p x /\ In x dbf /\ ~ In x lf /\ ~ reg p ((n,(k,w)) :: es) x)
        (fun f => exists x, f = child p x /\ In x dbd /\ ~ In x ld /\ ~ present p ((n,(k,w)) :: es) x) (upto p) noM b s2 s' ->
     eff (V2 p ((n,(k,w)) :: es)) (fun f => exists x, f = child p x /\ In x dbf /\ ~ In x lf /\ ~ reg p ((n,(k,w)) :: es) x)
        (fun f => exists x, f = child p x /\ In x dbd /\ ~ In x ld /\ ~ present p ((n,(k,w)) :: es) x) (upto p) noM b s s').
  { intros. eapply eff_tick_l with (s := s2); eauto. }
  destruct (ord p n) eqn:Eo.
  2:{ (* skipped entry *)
    assert (Sk : forall r : option (bool * list bytes * list bytes * nstate), (if special_directory n then r else if ignored p n then r else
        let '(qf, db_files) := passed_files n dbf in
        let s := queue_files (map (child p) qf) s1 in
        let '(qd, db_subdirs) := passed_dirs n dbd in
        let s := queue_dirs (map (child p) qd) s in
        match k with
        | KBroken => Some (false, db_files, db_subdirs, s)
        | KReg c =>
            let known := match db_files with f :: _ => bseq f n | [] => false end in
            if known then pass2 compressed sync new_tags ignore_verbatim ignore_regex p es (tl db_files) db_subdirs s
            else match add_file compressed sync new_tags p n c s with
                 | Some s => pass2 compressed sync new_tags ignore_verbatim ignore_regex p es db_files db_subdirs s
                 | None => None
                 end
        | _ => pass2 compressed sync new_tags ignore_verbatim ignore_regex p es db_files db_subdirs s
        end) = r).
    { intros r. unfold ord in Eo. destruct (special_directory n); [reflexivity|]. destruct (ignored p n); [reflexivity|discriminate]. }
    rewrite Sk. clear Sk.
    destruct (IH dbf dbd s1) as (b & lf & ld & s' & E & H1 & H2 & H3 & H4); rewrite ?Edb; auto.
    { intros x Hx. apply Hsl. now right. }
    { intros x Hx. apply He. now right. }
    assert (Rg : forall x, reg p ((n,(k,w)) :: es) x <-> reg p es x).
    { intros x. unfold reg. split; intros [O (c & w' & H)]; (split; [exact O|]); exists c, w'; [destruct H as [H|H]; [congruence|exact H]|now right]. }
    assert (Pr : forall x, present p ((n,(k,w)) :: es) x <-> present p es x).
    { intros x. unfold present. split; intros [O (c & w' & H)]; (split; [exact O|]); exists c, w'; [destruct H as [H|H]; [congruence|exact H]|now right]. }
    assert (Vv : forall g c, V2 p ((n,(k,w)) :: es) g c <-> V2 p es g c).
    { intros g c. unfold V2. split; intros (x & w' & H & O & X); exists x, w'; (split; [|auto]); [destruct H as [H|H]; [congruence|exact H]|now right]. }
    exists b, lf, ld, s'. split; [exact E|]. split; [exact H1|]. split; [exact H2|]. split.
    - intros L B. destruct (H3 L B) as [X Y]. split; intros x Hx Q; [apply (X x Hx); now apply Rg|apply (Y x Hx); now apply Pr].
    - apply (Lift b lf ld s1 s'); auto; [intros L; now apply Elive|].
      eapply eff_weaken; [| | | | | |exact H4]; try none; try tauto.
      + intros f c. apply Vv.
      + intros f (x & X1 & X2 & X3 & X4). exists x. rewrite Rg. auto.
      + intros f (x & X1 & X2 & X3 & X4). exists x. rewrite Pr. auto.
      + intros _ _. split; [intros g f keys ok X; left; now apply Vv|]. split.
        * intros f (x & X1 & X2 & X3 & X4). left. exists x. rewrite Rg in X4. auto.
        * intros f (x & X1 & X2 & X3 & X4). left. exists x. rewrite Pr in X4. auto. }
  (* an ordinary entry *)
  assert (Eo' := Eo). unfold ord in Eo'. apply andb_true_iff in Eo' as [Es Eg]. apply negb_true_iff in Es, Eg. rewrite Es, Eg. clear Es Eg.
  destruct (passed_files_spec n dbf Sf) as (qf & rf & -> & Ef & Qf & Rf & Srf).
  destruct (passed_dirs_spec n dbd Sd) as (qd & rd & -> & Exd & Qd & Rd & Srd).
  rewrite Forall_forall in Qf, Rf, Qd, Rd.
  (* the tail entries come after n, or there is nothing recorded *)
  assert (After : forall x, In x (map fst es) -> blt n x \/ (dbf = [] /\ dbd = [])).
  { intros x Hx. destruct Hs as [Hs|Hs]; [left|now right]. apply StronglySorted_inv in Hs as [_ Hs]. rewrite Forall_forall in Hs.
    apply in_map_iff in Hx as (e & <- & Hx). exact (Hs e Hx). }
  set (s2 := queue_files (map (child p) qf) s1). set (s3 := queue_dirs (map (child p) qd) s2).
  assert (D1 : s_db s1 = s_db s) by exact Edb. assert (D2 : s_db s2 = s_db s) by exact Edb. assert (D3 : s_db s3 = s_db s) by exact Edb.
  assert (E12 : eff noV (fun f => In f (map (child p) qf)) noP noP noM true s1 s2).
  { apply eff_queue_files; rewrite ?D1; auto. intros f X. apply in_map_iff in X as (x & <- & X). apply Hf. rewrite Ef. apply in_or_app. now left. }
  assert (E23 : eff noV noP (fun f => In f (map (child p) qd)) noP noM true s2 s3).
  { apply eff_queue_dirs; rewrite ?D2; auto. intros f X. apply in_map_iff in X as (x & <- & X). apply Hd. apply Exd. now left. }
  pose proof (eff_seq _ _ _ _ _ _ _ _ _ _ true true _ _ _ (fun f c c' (X : noV f c) _ => X) (fun f c (X : noV f c) _ => X) (fun f (X : noP f) _ => X) E12 E23) as E13.
  assert (Qn : forall x, In x qf -> In x dbf /\ ~ In x rf /\ ~ In x (map fst ((n, (k, w)) :: es))).
  { intros x Hx. pose proof (Qf x Hx) as L. split; [rewrite Ef; apply in_or_app; now left|]. split.
    - intros X. apply Rf in X. exact (bleb_blt_false _ _ X L).
    - cbn. intros [<-|X]; [now apply blt_not_eq in L|]. destruct (After x X) as [Y|[Y _]].
      + pose proof (bltb_trans _ _ _ L Y) as Z. rewrite bltb_irrefl in Z. discriminate.
      + rewrite Y in Ef. symmetry in Ef. apply app_eq_nil in Ef as [-> _]. destruct Hx. }
  assert (Qdn : forall x, In x qd -> In x dbd /\ ~ In x rd /\ ~ In x (map fst ((n, (k, w)) :: es))).
  { intros x Hx. pose proof (Qd x Hx) as L. split; [apply Exd; now left|]. split.
    - intros X. apply Rd in X. pose proof (bltb_trans _ _ _ L X) as Z. rewrite bltb_irrefl in Z. discriminate.
    - cbn. intros [<-|X]; [now apply blt_not_eq in L|]. destruct (After x X) as [Y|[_ Y]].
      + pose proof (bltb_trans _ _ _ L Y) as Z. rewrite bltb_irrefl in Z. discriminate.
      + assert (W : In x dbd) by (apply Exd; now left). rewrite Y in W. destruct W. }
  assert (RegIn : forall x, reg p ((n,(k,w)) :: es) x -> In x (map fst ((n,(k,w)) :: es))).
  { intros x [_ (c & w' & X)]. apply in_map_iff. exists (x, (KReg c, w')). auto. }
  assert (PrIn : forall x, present p ((n,(k,w)) :: es) x -> In x (map fst ((n,(k,w)) :: es))).
  { intros x [_ (c & w' & X)]. apply in_map_iff. exists (x, (c, w')). auto. }
  assert (PrN : present p ((n,(k,w)) :: es) n) by (split; [exact Eo|]; exists k, w; now left).
  assert (PrT : forall x, x <> n -> (present p ((n,(k,w)) :: es) x <-> present p es x)).
  { intros x Hx. unfold present. split; intros [O (c & w' & H)]; (split; [exact O|]); exists c, w'; [destruct H as [H|H]; [congruence|exact H]|now right]. }
  assert (RgT : forall x, x <> n -> (reg p ((n,(k,w)) :: es) x <-> reg p es x)).
  { intros x Hx. unfold reg. split; intros [O (c & w' & H)]; (split; [exact O|]); exists c, w'; [destruct H as [H|H]; [congruence|exact H]|now right]. }
  assert (Rdn : forall x, In x rd -> x <> n /\ In x dbd).
  { intros x Hx. split; [intros ->; apply Rd in Hx; now apply blt_not_eq in Hx|]. apply Exd. auto. }
  assert (Sl' : forall x, In x (map fst es) -> mem SLASH x = false) by (intros x Hx; apply Hsl; now right).
  assert (KDn : forall x, In x rd -> known_dir (s_db s) (child p x)) by (intros x Hx; apply Hd; now apply Rdn).
  assert (Hs2 : StronglySorted elt es \/ rf = [] /\ rd = []).
  { destruct Hs' as [X|[X Y]]; [now left|]. right. rewrite X in Ef. symmetry in Ef. apply app_eq_nil in Ef as [_ ->]. split; [reflexivity|].
    destruct rd as [|y rd]; [reflexivity|]. exfalso. assert (W : In y dbd) by (apply Exd; right; right; now left). rewrite Y in W. destruct W. }
  (* assemble: from the effect of the rest, with the lists db' = rf or its tail *)
  assert (Asm : forall b lf ld s4 s' rf',
     (forall x, In x rf -> x = n \/ In x rf') -> incl rf' rf -> (In n rf' -> ~ reg p ((n,(k,w)) :: es) n) ->
     (In n dbf -> ~ In n rf' -> reg p ((n,(k,w)) :: es) n) ->
     (forall c, k = KReg c -> V2 p ((n,(k,w)) :: es) (child p n) c) ->
     incl lf rf' -> incl ld rd ->
     (live s' -> b = true -> (forall x, In x lf -> ~ reg p es x) /\ (forall x, In x ld -> ~ present p es x)) ->
     eff (fun g c => k = KReg c /\ g = child p n /\ ~ isrec s g) noP noP (upto p) noM true s3 s4 ->
     eff (V2 p es) (fun f => exists x, f = child p x /\ In x rf' /\ ~ In x lf /\ ~ reg p es x)
        (fun f => exists x, f = child p x /\ In x rd /\ ~ In x ld /\ ~ present p es x) (upto p) noM b s4 s' ->
     (live s' -> b = true -> (forall x, In x lf -> ~ reg p ((n,(k,w)) :: es) x) /\ (forall x, In x ld -> ~ present p ((n,(k,w)) :: es) x)) /\
     eff (V2 p ((n,(k,w)) :: es)) (fun f => exists x, f = child p x /\ In x dbf /\ ~ In x lf /\ ~ reg p ((n,(k,w)) :: es) x)
        (fun f => exists x, f = child p x /\ In x dbd /\ ~ In x ld /\ ~ present p ((n,(k,w)) :: es) x) (upto p) noM b s s').
  { intros b lf ld s4 s' rf' F1 F2 F3 F4 F5 F6 F7 F8 E34 E4. split.
    - intros L B. destruct (F8 L B) as [X Y]. split; intros x Hx Q.
      + destruct (bytes_eq_dec x n) as [->|Hne]; [apply (F3 (F6 _ Hx) Q)|]. apply (X x Hx). now apply RgT.
      + destruct (Rdn x (F7 _ Hx)) as [Hne _]. apply (Y x Hx). now apply PrT.
    - apply (Lift b lf ld s1 s'); auto; [intros L; now apply Elive|].
      assert (NV : forall f c (P : Prop), noV f c \/ noV f c -> P) by (intros f c P [X|X]; destruct X).
      pose proof (eff_seq _ _ _ _ _ _ _ _ _ _ true true _ _ _ (fun f c c' X _ => NV f c False X) (fun f c X _ => NV f c False X)
         (fun f (X : noP f \/ noP f) _ => match X with or_introl Y => Y | or_intror Y => Y end) E13 E34) as E14.
      refine (eff_weaken _ _ _ _ _ _ _ _ _ _ _ _ _ _ _ _ _ _ _ (eff_seq _ _ _ _ _ _ _ _ _ _ true b _ _ _ _ _ _ E14 E4)).
      + intros f c [[[X|X]|X]|X]; nope.
        * destruct X as (X1 & X2 & _). subst. now apply F5.
        * destruct X as (x & w' & X1 & X2 & X3). exists x, w'. split; [now right|auto].
      + intros f [[[X|X]|X]|X]; nope.
        * apply in_map_iff in X as (x & <- & X). destruct (Qn x X) as (Y1 & Y2 & Y3). exists x. split; [reflexivity|]. split; [exact Y1|]. split; [|auto].
          intros Z. apply Y2, F2, F6, Z.
        * destruct X as (x & -> & X1 & X2 & X3). exists x. split; [reflexivity|]. split; [rewrite Ef; apply in_or_app; right; now apply F2|]. split; [exact X2|].
          intros Q. destruct (bytes_eq_dec x n) as [->|Hne]; [now apply F3|]. apply X3. now apply RgT.
      + intros f [[[X|X]|X]|X]; nope.
        * apply in_map_iff in X as (x & <- & X). destruct (Qdn x X) as (Y1 & Y2 & Y3). exists x. split; [reflexivity|]. split; [exact Y1|]. split; [|auto].
          intros Z. apply Y2, F7, Z.
        * destruct X as (x & -> & X1 & X2 & X3). destruct (Rdn x X1) as [Hne Y]. exists x. split; [reflexivity|]. split; [exact Y|]. split; [exact X2|].
          intros Q. apply X3. now apply PrT.
      + intros f [[[X|X]|X]|X]; nope; exact X.
      + intros q m [[[X|X]|X]|X]; contradiction.
      + intros B L. split; [|split].
        * intros g f keys ok (x & w' & X1 & X2 & X3). destruct X1 as [X1|X1].
          -- injection X1 as -> Ek _. subst g. destruct (in_dec bytes_eq_dec x dbf) as [Y|Y].
             ++ right. rewrite D1. now apply Hf.
             ++ left. left. right. split; [exact Ek|]. split; [reflexivity|]. intros Z. apply Y. apply He; [now left|exact Z].
          -- left. right. exists x, w'. auto.
        * intros f (x & -> & X1 & X2 & X3). left. rewrite Ef in X1. apply in_app_or in X1 as [X1|X1]; [left; left; left; now apply in_map|].
          destruct (F1 x X1) as [->|Y].
          { destruct (in_dec bytes_eq_dec n rf') as [Y|Y]; [right; exists n; split; [reflexivity|]; split; [exact Y|]; split; [exact X2|]|].
            - intros Q. apply X3. destruct Q as [O (c & w' & Q)]. split; [exact O|]. exists c, w'. now right.
            - exfalso. apply X3, F4; [|exact Y]. rewrite Ef. apply in_or_app. now right. }
          right. exists x. split; [reflexivity|]. split; [exact Y|]. split; [exact X2|]. intros [O (c & w' & Q)]. apply X3. split; [exact O|]. exists c, w'. now right.
        * intros f (x & -> & X1 & X2 & X3). left. apply Exd in X1 as [X1|[[-> X1]|X1]]; [left; left; right; now apply in_map|contradiction|].
          right. exists x. split; [reflexivity|]. split; [exact X1|]. split; [exact X2|]. intros Q. apply X3. apply PrT; [now apply Rdn|exact Q].
      + intros f c c' [[X|X]|X] (x & w' & Y1 & Y2 & Y3); nope. destruct X as (_ & X & _). subst f. apply child_same in Y3. subst x.
        apply Nn. apply in_map_iff. exists (n, (KReg c', w')). auto.
      + intros f c [[X|X]|X] (x & Y1 & Y2 & Y3 & Y4); nope. destruct X as (_ & X & Z). subst f. apply child_same in Y1. subst x. apply Z. apply Hf. rewrite Ef. apply in_or_app. right. now apply F2.
      + intros f [[X|X]|X] (x & -> & _); nope. now apply not_upto in X. }
  destruct k as [c| | |].
  - (* regular file *)
    assert (Rn : reg p ((n, (KReg c, w)) :: es) n) by (split; [exact Eo|]; exists c, w; now left).
    destruct (match rf with f :: _ => bseq f n | [] => false end) eqn:Ek.
    + destruct rf as [|f rf]; [discriminate|]. apply bseq_eq in Ek. subst f. cbn [tl].
      assert (Nrf : ~ In n rf). { apply tsorted_nodup in Srf. now inversion Srf. }
      destruct (IH rf rd s3) as (b & lf & ld & s' & E & H1 & H2 & H3 & H4); rewrite ?D3; auto.
      * now inversion Srf.
      * destruct Hs2 as [X|[X _]]; [now left|discriminate].
      * intros x Hx. apply Hf. rewrite Ef. apply in_or_app. right. now right.
      * intros x Hx Hr. destruct (After x Hx) as [L|[X _]]; [|rewrite X in Ef; destruct qf; discriminate].
        assert (Y : In x dbf) by (apply He; [now right|exact Hr]). rewrite Ef in Y. apply in_app_or in Y as [Y|[Y|Y]]; [| |exact Y].
        { exfalso. apply (Qn x Y). now right. } { subst x. now apply blt_not_eq in L. }
      * exists b, lf, ld, s'. split; [exact E|]. split; [intros x Hx; rewrite Ef; apply in_or_app; right; right; now apply H1|]. split; [intros x Hx; now apply Rdn, H2|].
        apply (Asm b lf ld s3 s' rf); auto.
        -- intros x [X|X]; auto.
        -- intros x X. now right.
        -- intros c' [= ->]. exists n, w. split; [now left|auto].
        -- assert (R0 : isrec s (child p n)). { apply Hf. rewrite Ef. apply in_or_app. right. now left. }
           eapply eff_weaken; [| | | | | |apply (eff_nothing true s3); rewrite D3; assumption]; try none.
           intros _ _. split; [intros g f keys ok (_ & -> & X); contradiction|]. split; auto.
    + assert (Nrf : ~ In n rf).
      { intros X. destruct rf as [|f rf]; [destruct X|]. apply bseq_neq in Ek. destruct X as [X|X]; [congruence|].
        assert (Y := Rf f (or_introl eq_refl)). apply StronglySorted_inv in Srf as [_ Srf]. rewrite Forall_forall in Srf. apply Srf in X. exact (bleb_blt_false _ _ Y X). }
      assert (Ndb : ~ In n dbf). { rewrite Ef. intros X. apply in_app_or in X as [X|X]; [|contradiction]. apply (Qn n X). now left. }
      assert (Nr : ~ isrec s3 (child p n)). { rewrite D3. intros X. apply Ndb, He; [now left|exact X]. }
      destruct (add_file_eff p n c s3) as (s4 & -> & E34); rewrite ?D3; auto.
      { intros f keys ok ->. apply (Hm n f keys ok w). now left. }
      destruct (IH rf rd s4) as (b & lf & ld & s' & E & H1 & H2 & H3 & H4); auto.
      * apply E34.
      * apply E34.
      * intros x Hx. destruct (Hf x) as (i & Hi'); [rewrite Ef; apply in_or_app; now right|]. exists i. apply (e_mono _ _ _ _ _ _ _ _ E34). rewrite D3. exact Hi'.
      * intros x Hx (i & Hr). apply (e_sound _ _ _ _ _ _ _ _ E34) in Hr as [Hr|(_ & f & keys & (X & _) & _)].
        -- rewrite D3 in Hr. assert (Y : In x dbf) by (apply He; [now right|now exists i]). rewrite Ef in Y. apply in_app_or in Y as [Y|Y]; [|exact Y]. exfalso. apply (Qn x Y). now right.
        -- apply child_same in X. subst x. contradiction.
      * intros x Hx. destruct (KDn x Hx) as (m & Hm0). exists m. apply (e_dmono _ _ _ _ _ _ _ _ E34). now rewrite D3.
      * exists b, lf, ld, s'. split; [exact E|]. split; [intros x Hx; rewrite Ef; apply in_or_app; right; now apply H1|]. split; [intros x Hx; now apply Rdn, H2|].
        apply (Asm b lf ld s4 s' rf); auto.
        -- intros x X. exact X.
        -- intros c' [= ->]. exists n, w. split; [now left|auto].
        -- eapply eff_weaken; [| | | | | |exact E34]; try none; try tauto.
           ++ intros f c' [-> ->]. split; [reflexivity|]. split; [reflexivity|]. now rewrite D3 in Nr.
           ++ intros _ _. split; [|split; auto]. intros g f keys ok (X & -> & Z). left. split; [reflexivity|congruence].
  - destruct (IH rf rd s3) as (b & lf & ld & s' & E & H1 & H2 & H3 & H4); rewrite ?D3; auto.
    * intros x Hx. apply Hf. rewrite Ef. apply in_or_app. now right.
    * intros x Hx Hr. assert (Y : In x dbf) by (apply He; [now right|exact Hr]). rewrite Ef in Y. apply in_app_or in Y as [Y|Y]; [|exact Y].
      exfalso. apply (Qn x Y). now right.
    * exists b, lf, ld, s'. split; [exact E|]. split; [intros x Hx; rewrite Ef; apply in_or_app; right; now apply H1|]. split; [intros x Hx; now apply Rdn, H2|].
      assert (NR : ~ reg p ((n, (KDir, w)) :: es) n). { intros [_ (c & w' & [X|X])]; [congruence|]. apply Nn. apply in_map_iff. exists (n, (KReg c, w')). auto. }
      apply (Asm b lf ld s3 s' rf); auto.
      -- intros x X. exact X.
      -- intros X Y. destruct (Y). rewrite Ef in X. apply in_app_or in X as [X|X]; [|exact X]. exfalso. apply (Qn n X). now left.
      -- intros c' X. discriminate.
      -- eapply eff_weaken; [| | | | | |apply (eff_nothing true s3); rewrite D3; assumption]; try none.
         intros _ _. split; [intros g f keys ok (X & _); discriminate|]. split; auto.
  - destruct (IH rf rd s3) as (b & lf & ld & s' & E & H1 & H2 & H3 & H4); rewrite ?D3; auto.
    * intros x Hx. apply Hf. rewrite Ef. apply in_or_app. now right.
    * intros x Hx Hr. assert (Y : In x dbf) by (apply He; [now right|exact Hr]). rewrite Ef in Y. apply in_app_or in Y as [Y|Y]; [|exact Y].
      exfalso. apply (Qn x Y). now right.
    * exists b, lf, ld, s'. split; [exact E|]. split; [intros x Hx; rewrite Ef; apply in_or_app; right; now apply H1|]. split; [intros x Hx; now apply Rdn, H2|].
      assert (NR : ~ reg p ((n, (KOther, w)) :: es) n). { intros [_ (c & w' & [X|X])]; [congruence|]. apply Nn. apply in_map_iff. exists (n, (KReg c, w')). auto. }
      apply (Asm b lf ld s3 s' rf); auto.
      -- intros x X. exact X.
      -- intros X Y. destruct (Y). rewrite Ef in X. apply in_app_or in X as [X|X]; [|exact X]. exfalso. apply (Qn n X). now left.
      -- intros c' X. discriminate.
      -- eapply eff_weaken; [| | | | | |apply (eff_nothing true s3); rewrite D3; assumption]; try none.
         intros _ _. split; [intros g f keys ok (X & _); discriminate|]. split; auto.
  - exists false, rf, rd, s3. split; [reflexivity|]. split; [intros x Hx; rewrite Ef; apply in_or_app; now right|]. split; [intros x Hx; now apply Rdn|]. split; [discriminate|].
    apply (Lift false rf rd s1 s3); auto; [intros L; now apply Elive|].
    assert (E13' : eff (fun f c => noV f c \/ noV f c) (fun f => In f (map (child p) qf) \/ noP f) (fun f => noP f \/ In f (map (child p) qd))
       (fun f => noP f \/ noP f) (fun p m => noM p m \/ noM p m) false s1 s3).
    { destruct E13. constructor; auto.
      - destruct e_files0 as (q & Q1 & Q2 & Q3). exists q. split; [exact Q1|]. split; [exact Q2|]. discriminate.
      - destruct e_dirs0 as (q & Q1 & Q2 & Q3). exists q. split; [exact Q1|]. split; [exact Q2|]. discriminate.
      - discriminate.
      - destruct e_van0 as (W1 & W2 & W3). split; [exact W1|]. split; [discriminate|exact W3]. }
    eapply eff_weaken; [| | | | | |exact E13'].
    + intros f c [X|X]; destruct X.
    + intros f [X|X]; [|destruct X]. apply in_map_iff in X as (x & <- & X). destruct (Qn x X) as (Y1 & Y2 & Y3). exists x. auto 10.
    + intros f [X|X]; [destruct X|]. apply in_map_iff in X as (x & <- & X). destruct (Qdn x X) as (Y1 & Y2 & Y3). exists x. auto 10.
    + intros f [X|X]; destruct X.
    + intros f m [X|X]; destruct X.
    + discriminate.
Qed.
End Scan.
