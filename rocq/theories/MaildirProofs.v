(** Proofs about maildir names (C15, C16). *)
From Verif Require Import Bytes Maildir MaildirSpec.
From Coq Require Import Sorting.Sorted.
Local Open Scope nat_scope.

Lemma skipn_S {A} n (l : list A) : skipn (S n) l = skipn 1 (skipn n l).
Proof. revert l. induction n as [|n IH]; intros [|x l]; try reflexivity. exact (IH l). Qed.
Lemma strrchr_app c a b : ~ In c b -> strrchr c (a ++ c :: b) = Some (length a).
Proof.
  intros Hb. assert (N : strrchr c b = None).
  { induction b as [|x b IH]; cbn; [reflexivity|]. rewrite IH; [|intros X; apply Hb; now right].
    destruct (beq_spec x c) as [->|]; [exfalso; apply Hb; now left|reflexivity]. }
  induction a as [|x a IH]; cbn.
  - rewrite N, beq_refl. reflexivity.
  - rewrite IH. reflexivity.
Qed.
Lemma strrchr_Some c s i : strrchr c s = Some i -> s = firstn i s ++ c :: skipn (S i) s /\ ~ In c (skipn (S i) s) /\ length (firstn i s) = i.
Proof.
  revert i. induction s as [|x s IH]; intros i; cbn; [discriminate|]. destruct (strrchr c s) as [j|] eqn:E.
  - intros [= <-]. destruct (IH j eq_refl) as (H1 & H2 & H3). cbn. split; [f_equal; exact H1|]. split; [exact H2|]. f_equal. exact H3.
  - destruct (beq_spec x c) as [->|]; [|discriminate]. intros [= <-]. cbn. split; [reflexivity|]. split; [|reflexivity].
    clear -E. induction s as [|x s IH]; cbn in *; [tauto|]. destruct (strrchr c s); [discriminate|]. destruct (beq_spec x c) as [->|Hne]; [discriminate|].
    intros [X|X]; [congruence|]. now apply IH.
Qed.

(** In a maildir exactly if the name has the form root/cur/base or root/new/base. *)
Lemma in_maildir_intro root sub base : (sub = lit "cur" \/ sub = lit "new") -> ~ In SLASH base ->
  filename_is_in_maildir (root ++ lit "/" ++ sub ++ lit "/" ++ base) = Some (S (length root)).
Proof.
  intros Hsub Hb. unfold filename_is_in_maildir.
  assert (L : length sub = 3) by (destruct Hsub as [->| ->]; reflexivity).
  assert (E : root ++ lit "/" ++ sub ++ lit "/" ++ base = (root ++ lit "/" ++ sub) ++ SLASH :: base).
  { rewrite <- !app_assoc. reflexivity. }
  assert (S1 : skipn (length root) (root ++ lit "/" ++ sub ++ lit "/" ++ base) = lit "/" ++ sub ++ lit "/" ++ base).
  { rewrite skipn_app, skipn_all, Nat.sub_diag. reflexivity. }
  assert (S2 : skipn (S (length root)) (root ++ lit "/" ++ sub ++ lit "/" ++ base) = sub ++ lit "/" ++ base).
  { rewrite skipn_app. replace (S (length root) - length root) with 1 by lia. rewrite skipn_all2 by lia. reflexivity. }
  assert (S0 : strrchr SLASH (root ++ lit "/" ++ sub ++ lit "/" ++ base) = Some (length root + 4)).
  { rewrite E, (strrchr_app SLASH _ base Hb), !app_length, L. reflexivity. }
  rewrite S0. destruct (Nat.ltb_spec (length root + 4) 4); [lia|].
  replace (length root + 4 - 4) with (length root) by lia. rewrite S1, S2. 
  destruct Hsub as [->| ->]; reflexivity.
Qed.
Lemma in_maildir_elim f i : filename_is_in_maildir f = Some i ->
  exists root sub base, f = root ++ lit "/" ++ sub ++ lit "/" ++ base /\ (sub = lit "cur" \/ sub = lit "new") /\ ~ In SLASH base /\ i = S (length root).
Proof.
  unfold filename_is_in_maildir. destruct (strrchr SLASH f) as [slash|] eqn:E; [|discriminate].
  apply strrchr_Some in E as (E & Hb & L). destruct (Nat.ltb_spec slash 4) as [|H4]; [discriminate|].
  destruct (beq_spec (peek (skipn (slash - 4) f)) SLASH) as [Hp|]; [|discriminate]. cbn [negb].
  intros H.
  assert (Hd : exists sub rest, (sub = lit "cur" \/ sub = lit "new") /\ skipn (S (slash - 4)) f = sub ++ lit "/" ++ rest /\ Some (S (slash - 4)) = Some i).
  { destruct (starts_with (lit "cur/") (skipn (S (slash - 4)) f)) eqn:E1.
    - apply starts_with_app in E1 as (r & E1). exists (lit "cur"), r. split; [auto|]. split; [exact E1|exact H].
    - destruct (starts_with (lit "new/") (skipn (S (slash - 4)) f)) eqn:E2; [|discriminate].
      apply starts_with_app in E2 as (r & E2). exists (lit "new"), r. split; [auto|]. split; [exact E2|exact H]. }
  destruct Hd as (sub & rest & Hsub & Ed & [= <-]).
  assert (Ls : length sub = 3) by (destruct Hsub as [->| ->]; reflexivity).
  exists (firstn (slash - 4) f), sub, rest.
  assert (E1 : skipn (slash - 4) f = SLASH :: skipn (S (slash - 4)) f).
  { destruct (skipn (slash - 4) f) as [|c r] eqn:Q; [discriminate|]. cbn in Hp. subst c. f_equal.
    rewrite skipn_S, Q. reflexivity. }
  assert (E2 : f = firstn (slash - 4) f ++ lit "/" ++ sub ++ lit "/" ++ rest).
  { rewrite <- (firstn_skipn (slash - 4) f) at 1. f_equal. rewrite E1, Ed. reflexivity. }
  split; [exact E2|]. split; [exact Hsub|].
  assert (Lf : length (firstn (slash - 4) f) = slash - 4).
  { apply firstn_length_le. rewrite E, app_length, L. lia. }
  split; [|now rewrite Lf].
  assert (Er : rest = skipn (S slash) f).
  { rewrite E2. rewrite !app_assoc. rewrite skipn_app. rewrite skipn_all2.
    2:{ rewrite !app_length, Lf, Ls. cbn. lia. }
    rewrite !app_length, Lf, Ls. cbn [length lit list_ascii_of_string]. replace (S slash - (slash - 4 + 1 + 3 + 1)) with 0 by lia. reflexivity. }
  rewrite Er. exact Hb.
Qed.

Definition INFO : bytes := lit ":2,".
Lemma strstr_None n s : strstr n s = None <-> ~ occurs n s.
Proof.
  split.
  - induction s as [|c s IH]; cbn.
    + destruct (starts_with n []) eqn:E; [discriminate|]. intros _ (a & b & X). symmetry in X. apply app_eq_nil in X as [-> X]. apply app_eq_nil in X as [-> ->]. discriminate.
    + destruct (starts_with n (c :: s)) eqn:E; [discriminate|]. destruct (strstr n s); [discriminate|]. intros _ (a & b & X).
      destruct a as [|x a]; cbn in X.
      * assert (starts_with n (c :: s) = true) by (apply starts_with_app; eauto). congruence.
      * injection X as -> X. apply (IH eq_refl). exists a, b. exact X.
  - intros H. assert (S : forall a b, s = a ++ b -> starts_with n b = false).
    { intros a b ->. destruct (starts_with n b) eqn:E; [|reflexivity]. apply starts_with_app in E as (r & ->). exfalso. apply H. exists a, r. reflexivity. }
    clear H. induction s as [|c s IH]; cbn.
    + rewrite (S [] [] eq_refl). reflexivity.
    + rewrite (S [] (c :: s) eq_refl). rewrite IH; [reflexivity|]. intros a b E. apply (S (c :: a) b). now rewrite E.
Qed.
Lemma starts_with_cut n x c b : ~ In c n -> starts_with n (x ++ c :: b) = starts_with n x.
Proof.
  revert x. induction n as [|k n IH]; intros x H; [reflexivity|]. destruct x as [|y x]; cbn.
  - destruct (beq_spec k c) as [->|]; [exfalso; apply H; now left|]. unfold starts_with. cbn. destruct (beq_spec k c); [congruence|reflexivity].
  - unfold starts_with in *. cbn. destruct (beq k y); [|reflexivity]. apply IH. intros X. apply H. now right.
Qed.
Lemma strstr_cut n x c b : ~ In c n -> n <> [] -> ~ occurs n x ->
  strstr n (x ++ c :: b) = match strstr n b with Some i => Some (length x + S i) | None => None end.
Proof.
  intros Hc Hn. induction x as [|y x IH]; intros Hx.
  - cbn [app]. change (strstr n (c :: b)) with (if starts_with n (c :: b) then Some 0 else match strstr n b with Some i => Some (S i) | None => None end).
    rewrite (starts_with_cut n [] c b Hc : starts_with n (c :: b) = _). destruct n; [congruence|]. reflexivity.
  - cbn [app]. change (strstr n (y :: x ++ c :: b)) with (if starts_with n (y :: x ++ c :: b) then Some 0 else match strstr n (x ++ c :: b) with Some i => Some (S i) | None => None end).
    rewrite (starts_with_cut n (y :: x) c b Hc : starts_with n (y :: x ++ c :: b) = _).
    destruct (starts_with n (y :: x)) eqn:E.
    { exfalso. apply Hx. apply starts_with_app in E as (r & E). exists [], r. exact E. }
    rewrite IH.
    + destruct (strstr n b); reflexivity.
    + intros (a & r & ->). apply Hx. exists (y :: a), r. reflexivity.
Qed.
Lemma strstr_info u f : ~ occurs INFO u -> strstr INFO (u ++ INFO ++ f) = Some (length u).
Proof.
  induction u as [|x u IH]; intros Hu; [reflexivity|].
  cbn [app]. change (strstr INFO (x :: u ++ INFO ++ f)) with (if starts_with INFO (x :: u ++ INFO ++ f) then Some 0 else match strstr INFO (u ++ INFO ++ f) with Some i => Some (S i) | None => None end).
  rewrite IH. 2:{ intros (a & b & ->). apply Hu. exists (x :: a), b. reflexivity. }
  destruct (starts_with INFO (x :: u ++ INFO ++ f)) eqn:E; [|reflexivity]. exfalso.
  apply starts_with_app in E as (r & E). unfold INFO in *. cbn in E. injection E as -> E.
  destruct u as [|y u]; cbn in E; [discriminate|]. injection E as -> E. destruct u as [|z u]; cbn in E; [discriminate|]. injection E as -> E.
  apply Hu. exists [], u. reflexivity.
Qed.
Lemma not_in_INFO : ~ In SLASH INFO.
Proof. cbn. intros [X|[X|[X|[]]]]; discriminate. Qed.
Lemma INFO_nil : INFO <> [].
Proof. discriminate. Qed.

(** Position of the information part of a name. *)
Definition pre (root sub unique : bytes) : bytes := root ++ lit "/" ++ sub ++ lit "/" ++ unique.
Lemma path_eq root sub unique info : maildir_path root sub unique info = pre root sub unique ++ match info with Some f => INFO ++ f | None => [] end.
Proof. unfold maildir_path, pre. rewrite <- !app_assoc. reflexivity. Qed.
Lemma sub_no_info sub : sub = lit "cur" \/ sub = lit "new" -> ~ occurs INFO sub.
Proof. intros [->| ->]; apply strstr_None; reflexivity. Qed.
Lemma strstr_path root sub unique info : maildir_name root sub unique info ->
  strstr INFO (maildir_path root sub unique info) = match info with Some _ => Some (length (pre root sub unique)) | None => None end.
Proof.
  intros (H1 & H2 & H3 & H4 & H5).
  change (maildir_path root sub unique info) with (root ++ SLASH :: sub ++ SLASH :: unique ++ match info with Some flags => lit ":2," ++ flags | None => [] end).
  rewrite (strstr_cut INFO root SLASH _ not_in_INFO INFO_nil H1).
  rewrite (strstr_cut INFO sub SLASH _ not_in_INFO INFO_nil (sub_no_info sub H2)).
  destruct info as [f|].
  - change (lit ":2," ++ f) with (INFO ++ f). rewrite (strstr_info unique f H4). unfold pre. rewrite !app_length. reflexivity.
  - rewrite app_nil_r. apply strstr_None in H4. unfold INFO. rewrite H4. reflexivity.
Qed.
Lemma path_in_maildir root sub unique info : maildir_name root sub unique info ->
  filename_is_in_maildir (maildir_path root sub unique info) = Some (S (length root)) /\
  skipn (S (length root)) (maildir_path root sub unique info) = sub ++ lit "/" ++ unique ++ match info with Some flags => lit ":2," ++ flags | None => [] end.
Proof.
  intros (H1 & H2 & H3 & H4 & H5). unfold maildir_path. split.
  - apply in_maildir_intro; [exact H2|]. destruct info as [f|].
    + intros X. apply in_app_iff in X as [X|X]; [contradiction|]. apply in_app_iff in X as [X|X]; [now apply not_in_INFO|contradiction].
    + rewrite app_nil_r. exact H3.
  - rewrite skipn_app. replace (S (length root) - length root) with 1 by lia. rewrite skipn_all2 by lia. reflexivity.
Qed.
(** Every name in a maildir either has this form or has maildir information in its
    directory. *)
Lemma strstr_Some n s i : strstr n s = Some i -> exists a b, s = a ++ n ++ b /\ length a = i /\ ((length n > 0)%nat -> ~ occurs n (a ++ removelast n)).
Proof.
  revert i. induction s as [|c s IH]; intros i Q.
  - cbn in Q. destruct (starts_with n []) eqn:S1; [|discriminate]. injection Q as <-. apply starts_with_app in S1 as (r & S1). exists [], r. split; [exact S1|]. split; [reflexivity|].
    symmetry in S1. apply app_eq_nil in S1 as [-> _]. cbn. lia.
  - change (strstr n (c :: s)) with (if starts_with n (c :: s) then Some 0 else match strstr n s with Some i => Some (S i) | None => None end) in Q.
    destruct (starts_with n (c :: s)) eqn:S1.
    + injection Q as <-. apply starts_with_app in S1 as (r & S1). exists [], r. split; [exact S1|]. split; [reflexivity|].
      intros Hn (a & b & X). apply (f_equal (@length ascii)) in X. cbn [app] in X. rewrite !app_length in X.
      assert (length (removelast n) < length n). { destruct n; [cbn in Hn; lia|]. rewrite removelast_firstn_len. rewrite firstn_length. cbn. lia. }
      lia.
    + destruct (strstr n s) as [m|] eqn:Q2; [|discriminate]. injection Q as <-. destruct (IH m eq_refl) as (a & b & E & L & N). subst s.
      exists (c :: a), b. split; [reflexivity|]. split; [cbn; now rewrite L|]. intros Hn (a' & b' & X).
      destruct a' as [|y a']; cbn in X.
      * assert (starts_with n (c :: a ++ n ++ b) = true).
        { assert (P : exists r, c :: a ++ removelast n = n ++ r) by (exists b'; exact X). destruct P as (r & P).
          assert (Q : c :: a ++ n ++ b = (c :: a ++ removelast n) ++ [last n NUL] ++ b).
          { assert (En : n = removelast n ++ [last n NUL]) by (apply app_removelast_last; destruct n; [cbn in Hn; lia|discriminate]).
            rewrite En at 1. rewrite <- app_assoc. cbn [app]. rewrite <- app_assoc. reflexivity. }
          rewrite Q, P, <- app_assoc. apply starts_with_app. eauto. }
        congruence.
      * injection X as -> X. apply (N Hn). exists a', b'. exact X.
Qed.
Lemma occurs_split_slash x b : occurs INFO (x ++ SLASH :: b) -> occurs INFO x \/ occurs INFO b.
Proof.
  intros H. destruct (strstr INFO x) as [i|] eqn:E.
  - left. apply strstr_Some in E as (a & r & -> & _). exists a, r. reflexivity.
  - right. apply strstr_None in E. destruct (strstr INFO b) as [j|] eqn:Q.
    + apply strstr_Some in Q as (a & r & -> & _). exists a, r. reflexivity.
    + pose proof (strstr_cut INFO x SLASH b not_in_INFO INFO_nil E) as Q2. rewrite Q in Q2. apply strstr_None in Q2. contradiction.
Qed.
Lemma parse_base base : ~ In SLASH base -> exists unique info, base = unique ++ match info with Some f => INFO ++ f | None => [] end /\
  ~ In SLASH unique /\ ~ occurs INFO unique /\ match info with Some flags => ~ In SLASH flags | None => True end.
Proof.
  intros Hb. destruct (strstr INFO base) as [i|] eqn:E.
  - apply strstr_Some in E as (a & b & -> & L & N). exists a, (Some b). split; [reflexivity|].
    rewrite !in_app_iff in Hb. split; [tauto|]. split; [|tauto]. intros (x & y & X). apply N; [cbn; lia|]. rewrite X. exists x, (y ++ removelast INFO). now rewrite <- !app_assoc.
  - apply strstr_None in E. exists base, None. rewrite app_nil_r. auto.
Qed.
