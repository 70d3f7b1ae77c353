(** Proofs for C97. *)
From Verif Require Import Bytes Coolj CooljSpec.
From Coq Require Import List Arith Bool Ascii Lia.
Import ListNotations.
Local Open Scope nat_scope.

(** A space at this place. *)
Definition sp_at (l : bytes) (i : nat) : Prop := nth_error l i = Some " "%char.
Lemma is_sp_eq c : is_sp c = true <-> c = " "%char.
Proof. apply beq_eq. Qed.
Lemma nth_skipn {A} (l : list A) n i : nth_error (skipn n l) i = nth_error l (n + i).
Proof. revert n; induction l as [|x l IH]; intros [|n]; cbn; trivial. now destruct i. Qed.
Lemma nth_firstn {A} (l : list A) n i : i < n -> nth_error (firstn n l) i = nth_error l i.
Proof. revert n i; induction l as [|x l IH]; intros [|n] [|i] H; cbn; trivial; try lia. apply IH. lia. Qed.
Lemma nth_lt {A} (l : list A) i x : nth_error l i = Some x -> i < length l.
Proof. intros H. apply nth_error_Some. congruence. Qed.

Lemma blanks_le l : blanks l <= length l.
Proof. induction l as [|c l IH]; cbn; [lia|destruct (is_sp c); lia]. Qed.
Lemma blanks_sp l : forall i, i < blanks l -> sp_at l i.
Proof.
  induction l as [|c l IH]; cbn; [lia|]. destruct (is_sp c) eqn:E; [|lia]. apply is_sp_eq in E. subst.
  intros [|i] H; [reflexivity|]. apply IH. lia.
Qed.
Lemma blanks_end l : ~ sp_at l (blanks l).
Proof.
  induction l as [|c l IH]; cbn; [discriminate|]. destruct (is_sp c) eqn:E; [exact IH|].
  unfold sp_at. cbn. intros [= ->]. discriminate E.
Qed.
Lemma nonblanks_le l : nonblanks l <= length l.
Proof. induction l as [|c l IH]; cbn; [lia|destruct (is_sp c); lia]. Qed.
Lemma nonblanks_no l : forall i, i < nonblanks l -> ~ sp_at l i.
Proof.
  induction l as [|c l IH]; cbn; [lia|]. destruct (is_sp c) eqn:E; [lia|].
  intros [|i] H; [|apply IH; lia]. unfold sp_at. cbn. intros [= ->]. discriminate E.
Qed.
Lemma nonblanks_sp l : nonblanks l < length l -> sp_at l (nonblanks l).
Proof.
  induction l as [|c l IH]; cbn; [lia|]. destruct (is_sp c) eqn:E; intros H; [apply is_sp_eq in E; now subst|]. apply IH. lia.
Qed.
Lemma last_space_some l lo : forall hi i, last_space l lo hi = Some i -> lo <= i < hi /\ sp_at l i /\ forall j, i < j < hi -> ~ sp_at l j.
Proof.
  induction hi as [|h IH]; cbn [last_space]; [discriminate|]. intros i. destruct (h <? lo) eqn:E; [discriminate|]. apply Nat.ltb_ge in E.
  destruct (nth_error l h) as [c|] eqn:N.
  - destruct (is_sp c) eqn:S.
    + intros [= <-]. apply is_sp_eq in S. subst. repeat split; trivial; lia.
    + intros H. destruct (IH i H) as (A & B & C). repeat split; trivial; try lia. intros j J. destruct (Nat.eq_dec j h) as [->|]; [|apply C; lia].
      unfold sp_at. rewrite N. intros [= ->]. discriminate.
  - intros H. destruct (IH i H) as (A & B & C). repeat split; trivial; try lia. intros j J. destruct (Nat.eq_dec j h) as [->|]; [|apply C; lia].
    unfold sp_at. now rewrite N.
Qed.
Lemma last_space_none l lo : forall hi, last_space l lo hi = None -> forall j, lo <= j < hi -> ~ sp_at l j.
Proof.
  induction hi as [|h IH]; cbn [last_space]; [intros; lia|]. destruct (h <? lo) eqn:E; [apply Nat.ltb_lt in E; intros; lia|].
  destruct (match nth_error l h with Some c => is_sp c | None => false end) eqn:N; [discriminate|].
  intros H j J. destruct (Nat.eq_dec j h) as [->|]; [|apply IH; trivial; lia]. unfold sp_at. intros X. rewrite X in N. discriminate.
Qed.
Lemma split_sp l i : sp_at l i -> l = firstn i l ++ " "%char :: skipn (S i) l.
Proof. revert i; induction l as [|c l IH]; intros [|i] H; try discriminate; cbn. - injection H as ->. reflexivity. - f_equal. now apply IH. Qed.
Lemma blank_at a : (forall j, j < length a -> sp_at a j) -> blank a.
Proof. intros H c I. apply In_nth_error in I as (j & J). specialize (H j (nth_lt _ _ _ J)). congruence. Qed.

(** ** Marks *)
Lemma ll_mono l : leaders_len false l <= leaders_len true l.
Proof. destruct l as [|c l]; cbn; [lia|]. destruct (beq c ">"); cbn; [lia|]. lia. Qed.
Lemma ll_longest q : marks q -> forall r, length q <= leaders_len false (q ++ r).
Proof.
  induction 1 as [|p H IH|p H IH]; intros r; cbn -[leaders_len]; [lia| |].
  - change (S (length p) <= S (leaders_len true (p ++ r))). pose proof (IH r). pose proof (ll_mono (p ++ r)). lia.
  - change (S (S (length p)) <= S (S (leaders_len false (p ++ r)))). pose proof (IH r). lia.
Qed.
Lemma ll_marks l : marks (firstn (leaders_len false l) l) /\ marks (">"%char :: firstn (leaders_len true l) l).
Proof.
  induction l as [|c l [IH1 IH2]]; cbn; [repeat constructor|]. destruct (beq c ">") eqn:E.
  - apply beq_eq in E. subst. cbn. split; [exact IH2|]. now apply mark.
  - cbn. split; [constructor|]. destruct (is_sp c) eqn:S; [|repeat constructor]. apply is_sp_eq in S. subst. cbn. now apply mark_space.
Qed.
Lemma ll_le b l : leaders_len b l <= length l.
Proof. revert b; induction l as [|c l IH]; intros b; cbn; [lia|]. destruct (beq c ">"); [specialize (IH true); lia|]. destruct (b && is_sp c); [specialize (IH false)|]; lia. Qed.
Lemma prefix_length l : length (determine_prefix l) = leaders_len false l.
Proof. unfold determine_prefix. rewrite firstn_length. pose proof (ll_le false l). lia. Qed.
Lemma prefix_marks l : marks_of l (determine_prefix l).
Proof.
  split; [apply ll_marks|]. split.
  - exists (skipn (leaders_len false l) l). symmetry. apply firstn_skipn.
  - intros q r M ->. rewrite prefix_length. now apply ll_longest.
Qed.
Lemma marks_of_length l p : marks_of l p -> length p = leaders_len false l.
Proof.
  intros (A & (r & E) & C). destruct (prefix_marks l) as (A' & (r' & E') & C').
  pose proof (C _ _ A' E'). pose proof (C' _ _ A E). rewrite prefix_length in *. lia.
Qed.
Lemma ll_firstn n : forall b l, leaders_len b l <= n -> leaders_len b (firstn n l) = leaders_len b l.
Proof.
  induction n as [|n IH]; intros b [|c l] H; trivial.
  - cbn [firstn leaders_len]. cbn in *. lia.
  - cbn in *. destruct (beq c ">"); [rewrite IH; trivial; lia|]. destruct (b && is_sp c); [rewrite IH; trivial; lia|trivial].
Qed.
Lemma ll_arrows : forall l b, leaders_len b l <= 2 * arrows l + (if b then 1 else 0).
Proof.
  induction l as [|c l IH]; intros b; cbn -[Nat.mul]; [lia|]. destruct (beq c ">") eqn:E.
  - apply beq_eq in E. subst. destruct (ascii_dec ">" ">") as [_|N]; [|now contradict N]. specialize (IH true). cbn -[Nat.mul] in IH. lia.
  - destruct b; cbn -[Nat.mul]; [|lia]. destruct (is_sp c); [|lia]. specialize (IH false). cbn -[Nat.mul] in IH. destruct (ascii_dec c ">"); lia.
Qed.
Lemma arrows_app a b : arrows (a ++ b) = arrows a + arrows b.
Proof. induction a as [|c a IH]; cbn; [trivial|]. destruct (ascii_dec c ">"); lia. Qed.
Lemma skipn_plus {A} (l : list A) a b : skipn (a + b) l = skipn b (skipn a l).
Proof. revert l; induction a as [|a IH]; intros [|x l]; cbn; trivial. now rewrite skipn_nil. Qed.
Lemma arrows_rest l e k : e <= k -> arrows (firstn e l ++ skipn k l) <= arrows l.
Proof.
  intros H. rewrite <- (firstn_skipn e l) at 3. rewrite !arrows_app.
  assert (skipn k l = skipn (k - e) (skipn e l)) as -> by (rewrite <- skipn_plus; f_equal; lia).
  rewrite <- (firstn_skipn (k - e) (skipn e l)) at 2. rewrite arrows_app. lia.
Qed.

(** ** One line *)
Lemma forward_sp fc l k : find_break_forward fc l = Break k -> 1 <= k /\ sp_at l (k - 1) /\ k < length l
  /\ fc + nonblanks (skipn fc l) < k /\ forall j, fc + nonblanks (skipn fc l) <= j < k -> sp_at l j.
Proof.
  unfold find_break_forward. set (i := fc + nonblanks (skipn fc l)). destruct (_ <? length l) eqn:E; [|discriminate]. apply Nat.ltb_lt in E.
  intros [= <-].
  assert (HS : sp_at l i).
  { unfold i, sp_at. rewrite <- nth_skipn. apply nonblanks_sp. rewrite skipn_length. unfold i in E. lia. }
  assert (P : 0 < blanks (skipn i l)).
  { destruct (blanks (skipn i l)) eqn:Z; [|lia]. exfalso. apply (blanks_end (skipn i l)). rewrite Z. unfold sp_at. rewrite nth_skipn, Nat.add_0_r. exact HS. }
  assert (Q : forall j, i <= j < i + blanks (skipn i l) -> sp_at l j).
  { intros j J. pose proof (blanks_sp (skipn i l) (j - i) ltac:(lia)) as X. unfold sp_at in *. rewrite nth_skipn in X. now replace (i + (j - i)) with j in X by lia. }
  repeat split; try lia; trivial. apply Q. lia.
Qed.
(** Every break is at a space. *)
Lemma break_sp fc l k : set_breakpoint fc l = Break k -> 1 <= k /\ sp_at l (k - 1).
Proof.
  unfold set_breakpoint. destruct (_ <=? _); [discriminate|]. unfold find_break_backward. destruct (_ <? leaders_len false l); [discriminate|].
  destruct (last_space l _ _) as [i|] eqn:E.
  - destruct (_ && _).
    + intros H. apply forward_sp in H. tauto.
    + intros [= <-]. apply last_space_some in E. split; [lia|]. replace (S i - 1) with i by lia. tauto.
  - intros H. apply forward_sp in H. tauto.
Qed.
Lemma wrap_shape fc l a b : wrap_line fc l = Wrapped a b -> exists c, l = a ++ " "%char :: c /\ b = determine_prefix l ++ c.
Proof.
  unfold wrap_line. destruct (set_breakpoint fc l) eqn:E; try discriminate. intros [= <- <-]. apply break_sp in E as [K HS].
  exists (skipn k l). split; trivial. rewrite (split_sp l (k - 1) HS) at 1. now replace (S (k - 1)) with k by lia.
Qed.
(** The line is good as it is. *)
Definition good (fc : nat) (l : bytes) : Prop := fits fc l \/ unbreakable l.
Lemma unbreakable_at l :
  (forall i, sp_at l i -> leaders_len false l <= i -> (forall j, j < i -> sp_at l j) \/ (forall j, i < j < length l -> sp_at l j)) -> unbreakable l.
Proof.
  intros H p a b M E L. apply marks_of_length in M. rewrite M in L.
  assert (HS : sp_at l (length a)). { unfold sp_at. rewrite E, nth_error_app2, Nat.sub_diag by lia. reflexivity. }
  destruct (H _ HS L) as [X|X]; [left|right]; apply blank_at; intros j J.
  - specialize (X j J). unfold sp_at in *. rewrite E, nth_error_app1 in X by lia. exact X.
  - specialize (X (length a + S j)). unfold sp_at in *. rewrite E, app_length in X. cbn in X. rewrite nth_error_app2 in X by lia.
    replace (length a + S j - length a) with (S j) in X by lia. apply X. lia.
Qed.
Lemma fits_at fc l : (forall j, fc <= j < length l -> sp_at l j) -> fits fc l.
Proof.
  intros H. apply blank_at. intros j J. rewrite skipn_length in J. specialize (H (fc + j) ltac:(lia)). unfold sp_at in *. now rewrite nth_skipn.
Qed.
Lemma sp_firstn n l i : sp_at (firstn n l) i -> i < n /\ sp_at l i.
Proof.
  intros H. pose proof (nth_lt _ _ _ H) as L. rewrite firstn_length in L. split; [lia|]. unfold sp_at in *. now rewrite nth_firstn in H by lia.
Qed.
(** If the marks are not wider than the width, it works. *)
Lemma wrap_good fc l : leaders_len false l <= fc ->
  match wrap_line fc l with
  | Error => False
  | Left_alone => good fc l
  | Wrapped a b => good fc a /\ length b < length l /\ arrows b <= arrows l
  end.
Proof.
  intros HE. unfold wrap_line, set_breakpoint. set (e := leaders_len false l) in *. set (q := fc + blanks (skipn fc l)).
  assert (BQ : forall j, fc <= j < q -> sp_at l j).
  { intros j J. unfold sp_at. replace j with (fc + (j - fc)) by lia. rewrite <- nth_skipn. apply blanks_sp. unfold q in J. lia. }
  destruct (length l <=? q) eqn:Q.
  { apply Nat.leb_le in Q. left. apply fits_at. intros j J. apply BQ. lia. }
  apply Nat.leb_gt in Q. unfold find_break_backward.
  destruct (S q <? e) eqn:F; [apply Nat.ltb_lt in F; unfold q in F; lia|]. clear F.
  assert (G : forall k, e < k <= length l -> length (determine_prefix l ++ skipn k l) < length l /\ arrows (determine_prefix l ++ skipn k l) <= arrows l).
  { intros k K. split; [rewrite app_length, prefix_length, skipn_length; fold e; lia|]. apply arrows_rest. fold e. lia. }
  assert (FW : (forall j, e <= j < S q -> sp_at l j -> forall j', j' < j -> sp_at l j') ->
    match (match find_break_forward fc l with Nobreak => Left_alone | Break k => Wrapped (firstn (k - 1) l) (determine_prefix l ++ skipn k l) | Fails => Error end) with
    | Error => False | Left_alone => good fc l
    | Wrapped a b => good fc a /\ length b < length l /\ arrows b <= arrows l end).
  { intros A. set (i := fc + nonblanks (skipn fc l)).
    assert (NI : forall j, fc <= j < i -> ~ sp_at l j).
    { intros j J X. apply (nonblanks_no (skipn fc l) (j - fc)); [unfold i in J; lia|]. unfold sp_at in *. rewrite nth_skipn. now replace (fc + (j - fc)) with j by lia. }
    destruct (find_break_forward fc l) eqn:B.
    - right. apply unbreakable_at. intros x X L. destruct (le_lt_dec (S q) x) as [C|C]; [right|left; intros; eapply A; eauto].
      assert (i <= x) by (destruct (le_lt_dec i x); trivial; exfalso; apply (NI x); trivial; unfold q in C; lia).
      unfold find_break_forward in B. fold i in B. destruct (_ <? length l) eqn:Y; [discriminate|]. apply Nat.ltb_ge in Y.
      intros j J. pose proof (blanks_sp (skipn i l) (j - i) ltac:(lia)) as Z. unfold sp_at in *. rewrite nth_skipn in Z. now replace (i + (j - i)) with j in Z by lia.
    - apply forward_sp in B as (K1 & K2 & K3 & K4 & K5). fold i in K4, K5. split; [|apply G; unfold i in K4; lia].
      right. apply unbreakable_at. intros x X L. apply sp_firstn in X as [X1 X2].
      rewrite ll_firstn in L by (unfold i in K4; fold e; lia). fold e in L.
      destruct (le_lt_dec (S q) x) as [C|C].
      + right. assert (i <= x) by (destruct (le_lt_dec i x); trivial; exfalso; apply (NI x); trivial; unfold q in C; lia).
        intros j J. rewrite firstn_length in J. unfold sp_at. rewrite nth_firstn by lia. apply K5. lia.
      + left. intros j J. unfold sp_at. rewrite nth_firstn by lia. eapply A; eauto.
    - unfold find_break_forward in B. destruct (_ <? _); discriminate. }
  destruct (last_space l e (S q)) as [i|] eqn:LS.
  - apply last_space_some in LS as (I1 & I2 & I3). destruct ((e =? 0) && forallb is_sp (firstn (S i) l)) eqn:Z.
    + apply FW. apply andb_true_iff in Z as [_ Z]. rewrite forallb_forall in Z.
      intros j J X j' J'. assert (j <= i). { destruct (le_lt_dec j i); trivial. exfalso. apply (I3 j); trivial. lia. }
      assert (J2 : j' < length l) by (apply nth_lt in I2; lia).
      destruct (nth_error l j') as [c|] eqn:N; [|apply nth_error_None in N; lia].
      unfold sp_at. rewrite N. f_equal. apply is_sp_eq, Z. apply (nth_error_In _ j'). now rewrite nth_firstn by lia.
    + replace (S i - 1) with i by lia. split; [|apply G; apply nth_lt in I2; lia].
      left. apply fits_at. intros j J. rewrite firstn_length in J. unfold sp_at. rewrite nth_firstn by lia. apply BQ. lia.
  - apply FW. intros j J X. exfalso. eapply last_space_none; eauto.
Qed.

(** ** The text *)
Lemma broken_cons l a c out : l = a ++ " "%char :: c -> broken (determine_prefix l ++ c) out -> broken l (a :: out).
Proof. intros E H. eapply break; eauto using prefix_marks. Qed.
Lemma keep_all t : Forall2 broken t (map (fun l => [l]) t) /\ concat (map (fun l => [l]) t) = t.
Proof. induction t as [|l t [IH1 IH2]]; cbn; split; trivial; [constructor; trivial; constructor|now rewrite IH2]. Qed.
Lemma loop_broken : forall steps fc lst pos sec cur rest out,
  loop steps fc lst pos sec cur rest = Done out -> exists outs, Forall2 broken (cur :: rest) outs /\ out = concat outs.
Proof.
  induction steps as [|n IH]; intros fc lst pos sec cur rest out H; [discriminate|]. cbn [loop] in H.
  destruct (wrap_line fc cur) as [|a b|] eqn:W; [| |discriminate].
  - assert (KA : Done (cur :: rest) = Done out -> exists outs, Forall2 broken (cur :: rest) outs /\ out = concat outs).
    { intros [= <-]. destruct (keep_all (cur :: rest)) as [X Y]. eexists. split; [exact X|now symmetry]. }
    destruct rest as [|l rest]; [apply KA, H|]. destruct sec; [apply KA, H|].
    destruct (match l with [] => match rest with [] => true | _ => false end | _ => false end); [apply KA, H|].
    unfold cons_line in H. destruct (loop _ _ _ _ _ _ _) as [t| |] eqn:E; try discriminate. injection H as <-.
    apply IH in E as (outs & F & ->). exists ([cur] :: outs). split; [|reflexivity]. constructor; trivial. constructor.
  - unfold cons_line in H. destruct (loop _ _ _ _ _ _ _) as [t| |] eqn:E; try discriminate. injection H as <-.
    apply IH in E as (outs & F & ->). inversion F as [|? o ? outs' F1 F2]; subst.
    destruct (wrap_shape _ _ _ _ W) as (c & E1 & ->). exists ((a :: o) :: outs'). split; [|reflexivity]. constructor; trivial. eapply broken_cons; eauto.
Qed.
(** Steps that suffice. *)
Definition todo (cur : bytes) (rest : list bytes) : nat := length cur + fold_right (fun l n => length l + 1 + n) 0 rest.
Lemma loop_done : forall steps fc lst pos sec cur rest, todo cur rest < steps -> Forall (fun l => 2 * arrows l <= fc) (cur :: rest) ->
  exists out, loop steps fc lst pos sec cur rest = Done out.
Proof.
  induction steps as [|n IH]; intros fc lst pos sec cur rest T F; [lia|]. cbn [loop].
  inversion F as [|? ? F1 F2]; subst. pose proof (ll_arrows cur false) as LA. cbn -[Nat.mul] in LA.
  pose proof (wrap_good fc cur ltac:(lia)) as W. destruct (wrap_line fc cur) as [|a b|]; [| |contradiction].
  - destruct rest as [|l rest]; [eauto|]. destruct sec; [eauto|].
    destruct (match l with [] => match rest with [] => true | _ => false end | _ => false end); [eauto|].
    destruct (IH fc lst (pos + length cur + 1) (lst <=? pos + length cur + 1) l rest) as (o & ->); [unfold todo in *; cbn in T; lia|trivial|]. cbn. eauto.
  - destruct W as (_ & W1 & W2). destruct (IH fc lst (pos + length a + 1) false b rest) as (o & ->); [unfold todo in *; lia|constructor; trivial; lia|]. cbn. eauto.
Qed.
(** One line. *)
Lemma loop_line_good : forall steps fc lst pos sec cur out, 2 * arrows cur <= fc -> loop steps fc lst pos sec cur [] = Done out -> Forall (good fc) out.
Proof.
  induction steps as [|n IH]; intros fc lst pos sec cur out A H; [discriminate|]. cbn [loop] in H.
  pose proof (ll_arrows cur false) as LA. cbn -[Nat.mul] in LA.
  pose proof (wrap_good fc cur ltac:(lia)) as W. destruct (wrap_line fc cur) as [|a b|]; [| |contradiction].
  - injection H as <-. constructor; [exact W|constructor].
  - unfold cons_line in H. destruct (loop _ _ _ _ _ _ _) as [t| |] eqn:E; try discriminate. injection H as <-.
    destruct W as (W0 & _ & W2). constructor; trivial. eapply IH; [|exact E]. lia.
Qed.
(** A text without marks: the length does not change, so that the end is where it was. *)
Lemma loop_text_good : forall steps fc lst pos cur rest out,
  Forall (fun l => arrows l = 0) (cur :: rest) -> pos + todo cur rest = lst -> loop steps fc lst pos false cur rest = Done out -> Forall (good fc) out.
Proof.
  induction steps as [|n IH]; intros fc lst pos cur rest out F P H; [discriminate|]. cbn [loop] in H.
  inversion F as [|? ? F1 F2]; subst x l. pose proof (ll_arrows cur false) as LA. rewrite F1 in LA. cbn in LA.
  pose proof (wrap_good fc cur ltac:(lia)) as W. destruct (wrap_line fc cur) as [|a b|] eqn:WL; [| |contradiction].
  - destruct rest as [|l rest]; [injection H as <-; constructor; [exact W|constructor]|].
    destruct (match l with [] => match rest with [] => true | _ => false end | _ => false end) eqn:Z.
    + destruct l; [|discriminate]. destruct rest; [|discriminate]. injection H as <-. constructor; trivial. constructor; [|constructor].
      left. intros c I. rewrite skipn_nil in I. destruct I.
    + unfold cons_line in H. destruct (loop _ _ _ _ _ _ _) as [t| |] eqn:E; try discriminate. injection H as <-. constructor; trivial.
      replace (lst <=? pos + length cur + 1) with false in E.
      * eapply IH; [exact F2| |exact E]. unfold todo in *. cbn in P. lia.
      * symmetry. apply Nat.leb_gt. unfold todo in P. cbn in P. destruct l as [|x l]; [|cbn in P; lia].
        destruct rest as [|y rest]; [discriminate|]. cbn in P. lia.
  - unfold cons_line in H. destruct (loop _ _ _ _ _ _ _) as [t| |] eqn:E; try discriminate. injection H as <-.
    destruct W as (W0 & _ & W2). constructor; trivial.
    destruct (wrap_shape _ _ _ _ WL) as (c & E1 & E2). assert (Z : determine_prefix cur = []).
    { apply length_zero_iff_nil. rewrite prefix_length. lia. }
    rewrite Z in E2. cbn in E2. subst b. eapply IH; [| |exact E].
    + constructor; trivial. lia.
    + unfold todo in *. rewrite E1, app_length in P. cbn in P. lia.
Qed.
