From Verif Require Import Bytes Terms Meta MetaProofs Db Decimal Paths PathsSpec.
Local Open Scope nat_scope.

Lemma is_slash_eq c : is_slash c = true <-> c = SLASH.
Proof. apply beq_eq. Qed.
Lemma is_slash_neq c : is_slash c = false <-> c <> SLASH.
Proof. apply beq_neq. Qed.
Lemma is_slash_SLASH : is_slash SLASH = true. Proof. reflexivity. Qed.

Definition all_slash (s : bytes) := forallb is_slash s = true.
Definition no_slash (s : bytes) := forallb (fun c => negb (is_slash c)) s = true.
Lemma no_slash_In s : no_slash s <-> ~ In SLASH s.
Proof.
  unfold no_slash. rewrite forallb_forall. split.
  - intros H Hin. apply H in Hin. rewrite is_slash_SLASH in Hin. discriminate.
  - intros H x Hx. apply negb_true_iff, is_slash_neq. intros ->. contradiction.
Qed.
Lemma all_slash_repeat s : all_slash s -> s = repeat SLASH (length s).
Proof.
  unfold all_slash. induction s as [|c s IH]; cbn; [auto|]. rewrite andb_true_iff, is_slash_eq.
  intros [-> H]. f_equal; auto.
Qed.
Lemma repeat_all_slash k : all_slash (repeat SLASH k).
Proof. unfold all_slash. induction k; auto. Qed.

(** * The backward loops *)
Lemma nth_mid (x y z : bytes) i : i < length y -> nth (length x + i) (x ++ y ++ z) NUL = nth i y NUL.
Proof. intros H. rewrite app_nth2 by lia. replace (length x + i - length x) with i by lia. apply app_nth1. exact H. Qed.
Lemma nth_last (x z : bytes) : x <> [] -> nth (length x - 1) (x ++ z) NUL = last x NUL.
Proof.
  intros H. destruct (exists_last H) as (x' & c & ->). rewrite last_last, app_length. cbn [length].
  rewrite <- app_assoc. replace (length x' + 1 - 1) with (length x') by lia. rewrite app_nth2 by lia.
  rewrite Nat.sub_diag. reflexivity.
Qed.
Lemma back_run f x : (x = [] \/ f (last x NUL) = false) -> forall y z, forallb f y = true ->
  back f (x ++ y ++ z) (length (x ++ y) - 1) = length x - 1.
Proof.
  intros Hx y. induction y as [|c y IH] using rev_ind; intros z Hy.
  - rewrite app_nil_r. cbn [app]. destruct Hx as [->|Hx]; [reflexivity|].
    destruct x as [|a x]; [reflexivity|]. remember (length (a :: x) - 1) as n eqn:E.
    destruct n; [cbn in E; reflexivity|]. cbn [back]. rewrite E, nth_last by discriminate. rewrite Hx. reflexivity.
  - rewrite forallb_app in Hy. apply andb_true_iff in Hy as [Hy Hc]. cbn in Hc. rewrite andb_true_r in Hc.
    specialize (IH (c :: z) Hy). rewrite <- app_assoc. cbn [app].
    replace (length (x ++ y ++ [c]) - 1) with (length (x ++ y)) by (rewrite !app_length; cbn; lia).
    destruct (length (x ++ y)) as [|n] eqn:E.
    + cbn [back]. rewrite app_length in E. assert (length x = 0) by lia. lia.
    + cbn [back]. replace (nth (S n) (x ++ y ++ c :: z) NUL) with c.
      * rewrite Hc. replace (S n - 1) with n in IH by lia. exact IH.
      * rewrite <- E, app_assoc, app_nth2 by lia. rewrite Nat.sub_diag. reflexivity.
Qed.
Lemma back_multi_run x : (x = [] \/ is_slash (last x NUL) = false) -> forall y z, all_slash y ->
  back_multi (x ++ y ++ z) (length (x ++ y)) = length x.
Proof.
  intros Hx y. induction y as [|c y IH] using rev_ind; intros z Hy.
  - rewrite app_nil_r. cbn [app]. destruct Hx as [->|Hx]; [reflexivity|].
    destruct x as [|a x]; [reflexivity|]. remember (length (a :: x)) as n eqn:E.
    destruct n; [cbn in E; reflexivity|]. cbn [back_multi]. replace n with (length (a :: x) - 1) by lia.
    rewrite nth_last by discriminate. rewrite Hx. reflexivity.
  - unfold all_slash in *. rewrite forallb_app in Hy. apply andb_true_iff in Hy as [Hy Hc]. cbn in Hc. rewrite andb_true_r in Hc.
    specialize (IH (c :: z) Hy). rewrite <- app_assoc. cbn [app].
    replace (length (x ++ y ++ [c])) with (S (length (x ++ y))) by (rewrite !app_length; cbn; lia).
    cbn [back_multi]. replace (nth (length (x ++ y)) (x ++ y ++ c :: z) NUL) with c.
    + rewrite Hc. exact IH.
    + rewrite app_assoc, app_nth2 by lia. rewrite Nat.sub_diag. reflexivity.
Qed.

Lemma last_app_ne (a b : bytes) d : b <> [] -> last (a ++ b) d = last b d.
Proof.
  intros H. destruct (exists_last H) as (b' & c & ->). rewrite app_assoc, !last_last. reflexivity.
Qed.
Lemma no_slash_last b : b <> [] -> no_slash b -> is_slash (last b NUL) = false.
Proof.
  intros H N. destruct (exists_last H) as (b' & c & ->). rewrite last_last. unfold no_slash in N.
  rewrite forallb_app in N. apply andb_true_iff in N as [_ N]. cbn in N. rewrite andb_true_r in N. now apply negb_true_iff.
Qed.
Lemma all_slash_last b : b <> [] -> all_slash b -> is_slash (last b NUL) = true.
Proof.
  intros H N. destruct (exists_last H) as (b' & c & ->). rewrite last_last. unfold all_slash in N.
  rewrite forallb_app in N. apply andb_true_iff in N as [_ N]. cbn in N. rewrite andb_true_r in N. exact N.
Qed.

(** * split_path on an arbitrary spelling *)
Lemma split_gen D S1 B S2 :
  all_slash S1 -> all_slash S2 -> B <> [] -> no_slash B -> (D = [] \/ is_slash (last D NUL) = false) -> (D <> [] -> S1 <> []) ->
  split_path (D ++ S1 ++ B ++ S2) =
  match D with [] => (Some [], Str (S1 ++ B ++ S2)) | _ => (Some D, Str (B ++ S2)) end.
Proof.
  intros H1 H2 HB HnB HD HS. unfold split_path.
  assert (Hne : exists a r, D ++ S1 ++ B ++ S2 = a :: r).
  { destruct D; [destruct S1; [destruct B; [congruence|]|]|]; cbn; eauto. }
  destruct Hne as (a & r & Hne). rewrite Hne. rewrite <- Hne. clear a r Hne.
  set (p := D ++ S1 ++ B ++ S2).
  assert (E1 : back is_slash p (length p - 1) = length (D ++ S1 ++ B) - 1).
  { unfold p. replace (D ++ S1 ++ B ++ S2) with ((D ++ S1 ++ B) ++ S2 ++ []) by (now rewrite app_nil_r, <- !app_assoc).
    replace (length ((D ++ S1 ++ B) ++ S2 ++ [])) with (length ((D ++ S1 ++ B) ++ S2)) by (now rewrite app_nil_r).
    apply back_run; [|exact H2]. right. rewrite last_app_ne by (destruct S1; [exact HB|discriminate]). rewrite last_app_ne by exact HB. now apply no_slash_last. }
  rewrite E1.
  assert (E2 : back (fun c => negb (is_slash c)) p (length (D ++ S1 ++ B) - 1) = length (D ++ S1) - 1).
  { unfold p. replace (D ++ S1 ++ B ++ S2) with ((D ++ S1) ++ B ++ S2) by (now rewrite <- !app_assoc).
    rewrite (app_assoc D S1 B). apply back_run; [|exact HnB].
    destruct S1 as [|s S1].
    - destruct D; [left; reflexivity|]. exfalso. apply HS; [discriminate|reflexivity].
    - right. rewrite last_app_ne by discriminate. rewrite all_slash_last; [reflexivity|discriminate|exact H1]. }
  rewrite E2.
  assert (E3 : back_multi p (length (D ++ S1) - 1) = length D).
  { destruct S1 as [|s S1].
    - destruct D; [reflexivity|]. exfalso. apply HS; [discriminate|reflexivity].
    - destruct (exists_last (l := s :: S1) ltac:(discriminate)) as (S1' & c & E). unfold p. rewrite E in *.
      unfold all_slash in H1. rewrite forallb_app in H1. apply andb_true_iff in H1 as [H1 _].
      replace (length (D ++ S1' ++ [c]) - 1) with (length (D ++ S1')) by (rewrite !app_length; cbn; lia).
      rewrite <- (app_assoc S1' [c]). now apply back_multi_run. }
  rewrite E3. destruct D as [|d D]; [reflexivity|].
  cbn [length].
  assert (L : (length ((d :: D) ++ S1) - 1 <? length ((d :: D) ++ S1 ++ B) - 1) = true).
  { apply Nat.ltb_lt. rewrite !app_length. destruct B; [congruence|]. cbn. lia. }
  rewrite L. f_equal.
  - f_equal. unfold p. change (S (length D)) with (length (d :: D)). rewrite firstn_app, Nat.sub_diag, firstn_all, firstn_O, app_nil_r. reflexivity.
  - f_equal. unfold p. replace (S (length ((d :: D) ++ S1) - 1)) with (length ((d :: D) ++ S1)) by (rewrite app_length; cbn; lia).
    rewrite app_assoc, skipn_app, Nat.sub_diag, skipn_all. reflexivity.
Qed.

Lemma span_end (f : byte -> bool) p : exists a b, p = a ++ b /\ forallb f b = true /\ (a = [] \/ f (last a NUL) = false).
Proof.
  induction p as [|c p IH] using rev_ind; [exists [], []; auto|].
  destruct (f c) eqn:E.
  - destruct IH as (a & b & -> & Hb & Ha). exists a, (b ++ [c]). rewrite <- app_assoc. split; [reflexivity|]. split; [|exact Ha].
    rewrite forallb_app, Hb. cbn. now rewrite E.
  - exists (p ++ [c]), []. rewrite app_nil_r. split; [reflexivity|]. split; [reflexivity|]. right. now rewrite last_last.
Qed.
(** Every path is either all slashes or has the shape [split_gen] needs. *)
Lemma path_shape p : all_slash p \/
  exists D S1 B S2, p = D ++ S1 ++ B ++ S2 /\ all_slash S1 /\ all_slash S2 /\ B <> [] /\ no_slash B /\
    (D = [] \/ is_slash (last D NUL) = false) /\ (D <> [] -> S1 <> []).
Proof.
  destruct (span_end is_slash p) as (p1 & S2 & -> & H2 & E1).
  destruct p1 as [|x1 p1']; [left; exact H2|]. destruct E1 as [E1|E1]; [discriminate|]. remember (x1 :: p1') as p1 eqn:Ep1. assert (Hp1 : p1 <> []) by (subst; discriminate). clear Ep1. right.
  destruct (span_end (fun c => negb (is_slash c)) p1) as (p2 & B & -> & HB & E2).
  destruct (span_end is_slash p2) as (D & S1 & -> & H1 & E3).
  exists D, S1, B, S2. rewrite <- !app_assoc. split; [reflexivity|]. split; [exact H1|]. split; [exact H2|].
  assert (B <> []) as HBne.
  { intros ->. rewrite app_nil_r in *. destruct E2 as [E2|E2]; [congruence|]. rewrite E1 in E2. discriminate. }
  split; [exact HBne|]. split; [exact HB|]. split; [exact E3|].
  intros HD ->. rewrite app_nil_r in *. destruct E2 as [E2|E2]; [congruence|]. destruct E3 as [E3|E3]; [congruence|].
  rewrite E3 in E2. discriminate.
Qed.

(** * Components *)
Definition flush (cur : bytes) : list bytes := match cur with [] => [] | _ => [cur] end.
Lemma components_from_noslash s : no_slash s -> forall cur p, components_from cur (s ++ p) = components_from (cur ++ s) p.
Proof.
  unfold no_slash. induction s as [|c s IH]; intros H cur p; [now rewrite app_nil_r|].
  cbn in H. apply andb_true_iff in H as [H1 H2]. apply negb_true_iff in H1. cbn [app components_from]. rewrite H1, IH by exact H2.
  now rewrite <- app_assoc.
Qed.
Lemma components_slash cur p : components_from cur (SLASH :: p) = flush cur ++ components p.
Proof. reflexivity. Qed.
Lemma components_from_slash_app a : forall cur p, (p = [] \/ is_slash (peek p) = true) ->
  components_from cur (a ++ p) = components_from cur a ++ components p.
Proof.
  induction a as [|c a IH]; intros cur p Hp.
  - cbn [app]. destruct Hp as [->|Hp].
    + cbn. now rewrite app_nil_r.
    + destruct p as [|d p]; [discriminate|]. cbn [peek] in Hp. apply is_slash_eq in Hp. subst. rewrite !components_slash. reflexivity.
  - cbn [app components_from]. destruct (is_slash c); [|apply IH; exact Hp].
    rewrite IH by exact Hp. now rewrite app_assoc.
Qed.
Lemma components_slash_app a p : (p = [] \/ is_slash (peek p) = true) -> components (a ++ p) = components a ++ components p.
Proof. apply components_from_slash_app. Qed.
Lemma components_slashes s p : all_slash s -> components (s ++ p) = components p.
Proof.
  intros H. rewrite (all_slash_repeat s H). generalize (length s). intros n. induction n; [reflexivity|].
  cbn [repeat app]. unfold components at 1. rewrite components_slash. exact IHn.
Qed.
Lemma components_all_slash s : all_slash s -> components s = [].
Proof. intros H. rewrite <- (app_nil_r s). rewrite components_slashes by exact H. reflexivity. Qed.
Lemma all_slash_peek s p : all_slash s -> s <> [] -> is_slash (peek (s ++ p)) = true.
Proof. intros H N. destruct s; [congruence|]. unfold all_slash in H. cbn in *. now apply andb_true_iff in H as [H _]. Qed.
Lemma components_name b : b <> [] -> no_slash b -> forall s, all_slash s -> components (b ++ s) = [b].
Proof.
  intros H N s Hs. rewrite components_slash_app.
  - rewrite (components_all_slash s) by exact Hs. rewrite app_nil_r.
    unfold components. rewrite <- (app_nil_r b) at 1. rewrite components_from_noslash by exact N. cbn. destruct b; [congruence|reflexivity].
  - destruct s; [left; reflexivity|right]. rewrite <- (app_nil_r (a :: s)). apply all_slash_peek; [exact Hs|discriminate].
Qed.

Theorem split_components p : p <> [] ->
  exists d b, split_path p = (Some d, Str b) /\ components d ++ components b = components p /\
    (components p <> [] -> exists c, components b = [c]).
Proof.
  intros Hp. destruct (path_shape p) as [H|(D & S1 & B & S2 & -> & H1 & H2 & HB & HnB & HD & HS)].
  - exists [], p. assert (E : split_path p = (Some [], Str p)).
    { unfold split_path. destruct p as [|c p]; [congruence|]. set (q := c :: p) in *.
      assert (E1 : back is_slash q (length q - 1) = 0).
      { pose proof (back_run is_slash [] (or_introl eq_refl) q [] H) as R. cbn [app] in R. rewrite app_nil_r in R. exact R. }
      rewrite E1. reflexivity. }
    rewrite E. split; [reflexivity|]. split; [reflexivity|]. rewrite components_all_slash by exact H. congruence.
  - rewrite split_gen by assumption. destruct D as [|d D].
    + exists [], (S1 ++ B ++ S2). split; [reflexivity|]. split; [reflexivity|]. cbn [app]. intros _.
      rewrite components_slashes by exact H1. rewrite components_name by assumption. eauto.
    + exists (d :: D), (B ++ S2). split; [reflexivity|]. split.
      * rewrite (components_slash_app (d :: D)) by (right; apply all_slash_peek; [exact H1|apply HS; discriminate]).
        rewrite (components_slashes S1) by exact H1. reflexivity.
      * intros _. rewrite components_name by assumption. eauto.
Qed.

(** * Canonical paths *)
Lemma name_no_slash c : name_ok c -> c <> [] /\ no_slash c.
Proof. intros [H N]. split; [exact H|]. now apply no_slash_In. Qed.
Lemma join_cons c cs : cs <> [] -> join (c :: cs) = c ++ SLASH :: join cs.
Proof. destruct cs; [congruence|reflexivity]. Qed.
Lemma join_snoc cs b : cs <> [] -> join (cs ++ [b]) = join cs ++ SLASH :: b.
Proof.
  induction cs as [|c cs IH]; intros H; [congruence|]. destruct cs as [|c' cs]; [reflexivity|].
  rewrite <- app_comm_cons, join_cons by discriminate. rewrite IH by discriminate. rewrite (join_cons c (c' :: cs)) by discriminate.
  now rewrite <- app_assoc.
Qed.
Lemma join_nil cs : names cs -> (join cs = [] <-> cs = []).
Proof.
  intros H. split; [|intros ->; reflexivity]. destruct cs as [|c cs]; [auto|]. inversion H as [|? ? [Hc _] _]; subst.
  destruct c; [congruence|]. destruct cs; discriminate.
Qed.
Lemma join_peek cs : names cs -> is_slash (peek (join cs)) = false.
Proof.
  intros H. destruct cs as [|c cs]; [reflexivity|]. inversion H as [|? ? [Hc Hn] _]; subst.
  destruct c as [|a c]; [congruence|]. assert (a <> SLASH) by (intros ->; apply Hn; now left).
  apply is_slash_neq in H0. destruct cs; cbn; exact H0.
Qed.
Lemma join_last cs : names cs -> cs <> [] -> is_slash (last (join cs) NUL) = false.
Proof.
  intros H Hne. destruct (exists_last Hne) as (cs' & b & ->). unfold names in H. rewrite Forall_app in H. destruct H as [_ H].
  inversion H as [|? ? Hb _]; subst. apply name_no_slash in Hb as [Hb Hn].
  destruct cs' as [|c cs'].
  - cbn. now apply no_slash_last.
  - rewrite join_snoc by discriminate. change (SLASH :: b) with ([SLASH] ++ b). rewrite last_app_ne by discriminate. rewrite last_app_ne by exact Hb.
    now apply no_slash_last.
Qed.
Lemma split_join d b : names d -> name_ok b -> split_path (join (d ++ [b])) = (Some (join d), Str b).
Proof.
  intros Hd Hb. apply name_no_slash in Hb as [Hb Hn]. destruct d as [|c d].
  - pose proof (split_gen [] [] b [] eq_refl eq_refl Hb Hn (or_introl eq_refl) (fun h => False_ind _ (h eq_refl))) as E.
    cbn [app] in E. rewrite app_nil_r in E. exact E.
  - pose proof (split_gen (join (c :: d)) [SLASH] b [] eq_refl eq_refl Hb Hn (or_intror (join_last (c :: d) Hd ltac:(discriminate))) ltac:(discriminate)) as E.
    rewrite app_nil_r in E. rewrite join_snoc by discriminate. change (SLASH :: b) with ([SLASH] ++ b). rewrite E.
    destruct (join (c :: d)) eqn:J; [apply (join_nil (c :: d)) in J; [discriminate|exact Hd]|]. reflexivity.
Qed.
Lemma join_inj a : names a -> forall b, names b -> join a = join b -> a = b.
Proof.
  induction a as [|x a IH] using rev_ind; intros Ha b Hb E.
  - symmetry in E. apply join_nil in E; auto.
  - destruct b as [|y b _] using rev_ind; [apply join_nil in E; auto|].
    unfold names in Ha, Hb. apply Forall_app in Ha as [Ha Hx]. apply Forall_app in Hb as [Hb Hy].
    inversion Hx; inversion Hy; subst. pose proof (split_join a x Ha H1) as E1. pose proof (split_join b y Hb H5) as E2.
    rewrite E in E1. rewrite E1 in E2. injection E2 as E3 ->. f_equal. apply IH; auto.
Qed.
Lemma components_join cs : names cs -> components (join cs) = cs.
Proof.
  induction cs as [|b cs IH] using rev_ind; intros H; [reflexivity|]. unfold names in H. apply Forall_app in H as [H Hb].
  inversion Hb; subst. apply name_no_slash in H2 as [Hne Hn]. destruct cs as [|c cs].
  - cbn [app join]. rewrite <- (app_nil_r b) at 1. now apply components_name.
  - rewrite join_snoc by discriminate. rewrite components_slash_app by (right; reflexivity). rewrite IH by exact H. f_equal.
    change (SLASH :: b) with ([SLASH] ++ b). rewrite components_slashes by reflexivity. rewrite <- (app_nil_r b) at 1. now apply components_name.
Qed.

(** * relative_path *)
Lemma skip_multi_repeat k c r : is_slash c = false -> skip_multi (repeat SLASH k ++ SLASH :: c :: r) = SLASH :: c :: r.
Proof.
  intros H. induction k as [|k IH].
  - cbn [repeat app skip_multi]. rewrite H, andb_false_r. reflexivity.
  - cbn [repeat app]. destruct k.
    + cbn [repeat app]. cbn [skip_multi]. rewrite is_slash_SLASH, H. reflexivity.
    + cbn [repeat app] in *. change (skip_multi (SLASH :: SLASH :: repeat SLASH k ++ SLASH :: c :: r)) with (skip_multi (SLASH :: repeat SLASH k ++ SLASH :: c :: r)). exact IH.
Qed.
Lemma relative_join root cs : names cs -> relative_path root (join cs) = join cs.
Proof. intros H. unfold relative_path. now rewrite join_peek. Qed.
Lemma dropwhile_slash_join cs : names cs -> dropwhile is_slash (join cs) = join cs.
Proof. intros H. pose proof (join_peek cs H). destruct (join cs); [reflexivity|]. cbn in *. now rewrite H0. Qed.
Lemma relative_absolute_gen rcs k rest : names rcs -> rcs <> [] ->
  relative_path (absolute rcs) (repeat SLASH k ++ absolute rcs ++ rest) = dropwhile is_slash rest.
Proof.
  intros H Hne. unfold relative_path, absolute.
  assert (E : is_slash (peek (repeat SLASH k ++ (SLASH :: join rcs) ++ rest)) = true) by (destruct k; reflexivity). rewrite E.
  pose proof (join_peek rcs H) as P. destruct (join rcs) as [|c r] eqn:J; [apply join_nil in J; [congruence|exact H]|].
  cbn [peek] in P. cbn [app]. rewrite skip_multi_repeat by exact P. change (SLASH :: c :: r ++ rest) with ((SLASH :: c :: r) ++ rest).
  rewrite strip_prefix_app. reflexivity.
Qed.
Lemma relative_spells rcs f cs : names rcs -> rcs <> [] -> names cs -> spells (absolute rcs) f cs ->
  relative_path (absolute rcs) f = join cs.
Proof.
  intros Hr Hne Hc [->|(k & ->)]; [now apply relative_join|].
  rewrite relative_absolute_gen by assumption. cbn [dropwhile]. rewrite is_slash_SLASH. now apply dropwhile_slash_join.
Qed.
Lemma skip_multi_components p : components (skip_multi p) = components p.
Proof.
  induction p as [|a p IH]; [reflexivity|]. cbn [skip_multi]. destruct p as [|b p]; [reflexivity|].
  destruct (is_slash a && is_slash b) eqn:E; [|reflexivity]. apply andb_true_iff in E as [Ea _]. apply is_slash_eq in Ea. subst a.
  rewrite IH. reflexivity.
Qed.
Lemma dropwhile_components p : components (dropwhile is_slash p) = components p.
Proof.
  induction p as [|a p IH]; [reflexivity|]. cbn [dropwhile]. destruct (is_slash a) eqn:E; [|reflexivity].
  apply is_slash_eq in E. subst. rewrite IH. reflexivity.
Qed.
Lemma dropwhile_peek p : is_slash (peek (dropwhile is_slash p)) = false.
Proof. induction p as [|a p IH]; [reflexivity|]. cbn [dropwhile]. destruct (is_slash a) eqn:E; [exact IH|exact E]. Qed.
