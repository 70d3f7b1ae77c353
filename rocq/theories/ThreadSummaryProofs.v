From Verif Require Import Bytes XQuery Thread Query QuerySpec ThreadSummarySpec QueryProofs3.
Local Open Scope nat_scope.

Lemma strcasestr_spec h n : strcasestr h n = true <-> contains_nocase h n.
Proof.
  induction h as [|c h IH]; cbn [strcasestr]; rewrite orb_true_iff, ci_prefix_spec; unfold contains_nocase.
  - split.
    + intros [(q & t & E & H)|H]; [|discriminate]. exists [], q, t. auto.
    + intros (a & b & c & E & H). left. destruct a; [|discriminate]. exists b, c. auto.
  - rewrite IH. split.
    + intros [(q & t & E & H)|(a & b & d & -> & H)]; [exists [], q, t; auto|exists (c :: a), b, d; auto].
    + intros (a & b & d & E & H). destruct a as [|c' a]; [left; exists b, d; auto|right]. cbn [app] in E. injection E as <- ->. exists a, b, d. auto.
Qed.
Lemma last_first_unique raw l1 f1 l2 f2 : last_first raw l1 f1 -> last_first raw l2 f2 -> l1 = l2 /\ f1 = f2.
Proof.
  intros (b1 & -> & C1 & B1 & F1 & _) (b2 & E & C2 & B2 & F2 & _).
  assert (l1 = l2 /\ b1 ++ f1 = b2 ++ f2) as (-> & E2).
  { revert l2 C2 E. induction l1 as [|c l1 IH]; intros l2 C2 E; destruct l2 as [|c2 l2]; cbn [app lit] in E.
    - injection E as E. auto.
    - exfalso. injection E as <- _. apply C2. now left.
    - exfalso. injection E as -> _. apply C1. now left.
    - injection E as <- E. destruct (IH (fun H => C1 (or_intror H)) l2 (fun H => C2 (or_intror H)) E) as (-> & X). auto. }
  split; [reflexivity|]. clear E. revert b2 B2 E2. induction b1 as [|c b1 IH]; intros b2 B2 E2.
  - destruct b2 as [|c b2]; [exact E2|]. exfalso. cbn in E2. rewrite (B2 c (or_introl eq_refl)) in E2. now apply (F1 (b2 ++ f2)).
  - destruct b2 as [|c2 b2].
    + exfalso. cbn in E2. rewrite (B1 c (or_introl eq_refl)) in E2. symmetry in E2. now apply (F2 (b1 ++ f1)).
    + cbn in E2. injection E2 as _ E2. apply (IH (fun d H => B1 d (or_intror H)) b2 (fun d H => B2 d (or_intror H)) E2).
Qed.
Lemma takewhile_nocomma s : ~ In ","%char (takewhile (fun c => negb (is_comma c)) s).
Proof.
  induction s as [|c s IH]; cbn [takewhile]; [intros []|]. destruct (is_comma c) eqn:E; cbn [negb]; [intros []|].
  intros [->|H]; [discriminate|auto].
Qed.
Lemma cleanup_ok raw from : shown_as raw from (cleanup_author raw from).
Proof.
  unfold cleanup_author. pose proof (take_drop (fun c => negb (is_comma c)) raw) as T.
  pose proof (dropwhile_head (fun c => negb (is_comma c)) raw) as HD.
  pose proof (takewhile_nocomma raw) as NC.
  assert (SAME : forall l f r, last_first raw l f -> dropwhile (fun c => negb (is_comma c)) raw = r ->
             exists b, r = lit "," ++ b ++ f /\ b ++ f <> [] /\ takewhile (fun c => negb (is_comma c)) raw = l /\
                (forall c, In c b -> c = " "%char) /\ (forall r, f <> " "%char :: r)).
  { intros l f r (b & -> & C & B & F & N) <-. exists b.
    assert (FA : forallb (fun c => negb (is_comma c)) l = true).
    { apply forallb_forall. intros c Hc. unfold is_comma. apply negb_true_iff. rewrite <- not_true_iff_false, beq_eq. intros ->. contradiction. }
    rewrite dropwhile_app_stop, takewhile_app_stop by (exact FA || (left; reflexivity)). auto. }
  destruct (dropwhile (fun c => negb (is_comma c)) raw) as [|c after] eqn:ED.
  { right. split; [|reflexivity]. intros l f H. exfalso. destruct (SAME l f [] H eq_refl) as (b & E & _). discriminate. }
  apply negb_false_iff in HD. unfold is_comma in HD. apply beq_eq in HD. subst c.
  destruct after as [|c after].
  { right. split; [|reflexivity]. intros l f H. exfalso. destruct (SAME l f _ H eq_refl) as (b & E & N & _).
    cbn [lit app] in E. injection E as E. now apply N. }
  set (last := takewhile (fun c => negb (is_comma c)) raw) in *. set (first := dropwhile is_blank (c :: after)).
  assert (LF : last_first raw last first).
  { exists (takewhile is_blank (c :: after)). split; [rewrite <- T; unfold first; rewrite take_drop; reflexivity|]. split; [exact NC|]. split; [|split].
    - intros d Hd. pose proof (takewhile_all is_blank (c :: after)) as A. rewrite forallb_forall in A. apply A in Hd. now apply beq_eq in Hd.
    - intros r E. pose proof (dropwhile_head is_blank (c :: after)) as A. fold first in A. rewrite E in A. discriminate.
    - unfold first. rewrite take_drop. discriminate. }
  fold (dotted (first ++ lit " " ++ last)).
  destruct (strcasestr from (map (fun c0 => if is_blank c0 then "."%char else c0) (first ++ lit " " ++ last))) eqn:S.
  - left. exists last, first. split; [exact LF|]. split; [now apply strcasestr_spec|reflexivity].
  - right. split; [|reflexivity]. intros l f H. destruct (last_first_unique _ _ _ _ _ LF H) as (<- & <-).
    rewrite <- strcasestr_spec. unfold dotted, is_blank in *. congruence.
Qed.
Lemma cleanup_length raw from : length (cleanup_author raw from) <= length raw.
Proof.
  destruct (cleanup_ok raw from) as [(l & f & (b & -> & _ & _ & _ & N) & _ & ->)|(_ & ->)]; [|lia].
  rewrite !app_length. cbn. lia.
Qed.
