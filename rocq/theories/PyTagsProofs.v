(** Lemmas for C88. *)
From Coq Require Import Sorting.Sorted ZifyN.
From Verif Require Import Bytes PyTags PyTagsSpec.
Local Open Scope N_scope.

Ltac dm := zify; Z.to_euclidean_division_equations; lia.
Lemma cont_ok lo hi n s : lo <= n -> n <= hi -> 128 <= n -> n < 256 -> cont lo hi (chr n :: s) = Some (n - 128, s).
Proof.
  intros A B C D. cbn [cont]. rewrite code_chr by exact D.
  replace (lo <=? n) with true by (symmetry; now apply N.leb_le). replace (n <=? hi) with true by (symmetry; now apply N.leb_le). reflexivity.
Qed.
Ltac leb := repeat match goal with
  | |- context [?a <? ?b] => first [replace (a <? b) with true by (symmetry; apply N.ltb_lt; lia)|replace (a <? b) with false by (symmetry; apply N.ltb_ge; lia)]
  | |- context [?a <=? ?b] => first [replace (a <=? b) with true by (symmetry; apply N.leb_le; lia)|replace (a <=? b) with false by (symmetry; apply N.leb_gt; lia)]
  end; cbn [andb].
Lemma some_inj {A} (x y : A) : Some x = Some y -> y = x.
Proof. congruence. Qed.
Lemma cons_inj {A} (x y : A) l k : x :: l = y :: k -> x = y /\ l = k.
Proof. split; congruence. Qed.
Lemma decode1_encode1 c b r s : encode1 c = Some (b :: r) -> decode1 b (r ++ s) = inl (c, s).
Proof.
  unfold encode1. destruct (N.ltb_spec c 128).
  { intros E0. apply some_inj in E0. apply cons_inj in E0. destruct E0 as [-> ->]. unfold decode1. rewrite code_chr by lia. leb. reflexivity. }
  destruct (N.ltb_spec c 2048).
  { intros E0. apply some_inj in E0. apply cons_inj in E0. destruct E0 as [-> ->]. unfold decode1. assert (c / 64 < 32) by dm. assert (2 <= c / 64) by dm. rewrite code_chr by lia. leb.
    assert (c mod 64 < 64) by dm. cbn [app]. rewrite cont_ok by lia. f_equal. f_equal. dm. }
  destruct (N.ltb_spec c 65536).
  { destruct ((55296 <=? c) && (c <? 57344)) eqn:E; [discriminate|]. intros E0. apply some_inj in E0. apply cons_inj in E0. destruct E0 as [-> ->]. unfold decode1.
    assert (E' : c < 55296 \/ 57344 <= c).
    { apply andb_false_iff in E. rewrite N.leb_gt, N.ltb_ge in E. lia. } clear E.
    assert (c / 4096 < 16) by dm. rewrite code_chr by lia. leb. cbn [app].
    assert (c mod 64 < 64) by dm. assert (c / 64 mod 64 < 64) by dm.
    rewrite cont_ok; try lia.
    - rewrite cont_ok by lia. f_equal. f_equal. dm.
    - destruct (N.eqb_spec (224 + c / 4096) 224); [dm|lia].
    - destruct (N.eqb_spec (224 + c / 4096) 237); [dm|lia]. }
  destruct (N.ltb_spec c 1114112); [|discriminate]. intros E0. apply some_inj in E0. apply cons_inj in E0. destruct E0 as [-> ->]. unfold decode1.
  assert (c / 262144 < 5) by dm. rewrite code_chr by lia. leb. cbn [app].
  assert (c mod 64 < 64) by dm. assert (c / 64 mod 64 < 64) by dm. assert (c / 4096 mod 64 < 64) by dm.
  rewrite cont_ok; try lia.
  - rewrite !cont_ok by lia. f_equal. f_equal. dm.
  - destruct (N.eqb_spec (240 + c / 262144) 240); [dm|lia].
  - destruct (N.eqb_spec (240 + c / 262144) 244); [dm|lia].
Qed.
Lemma encode1_cons c r : encode1 c = Some r -> exists b r', r = b :: r'.
Proof.
  unfold encode1. repeat (match goal with |- context [if ?x then _ else _] => destruct x end); intros [= <-]; eauto.
Qed.
Lemma decode_encode s : forall b fuel, encode s = Some b -> (length b <= fuel)%nat -> decode_ignore_loop fuel b = s.
Proof.
  induction s as [|c s IH]; cbn [encode]; intros b fuel E L.
  - injection E as <-. destruct fuel; reflexivity.
  - destruct (encode1 c) as [a|] eqn:Ec; [|discriminate]. destruct (encode s) as [d|]; [|discriminate]. injection E as <-.
    destruct (encode1_cons _ _ Ec) as (x & r & ->). cbn [app length] in *. destruct fuel as [|f]; [lia|].
    cbn [decode_ignore_loop]. rewrite (decode1_encode1 _ _ _ _ Ec). f_equal. apply IH; [reflexivity|].
    rewrite app_length in L. lia.
Qed.
Lemma decode_ignore_encode s b : encode s = Some b -> decode_ignore b = s.
Proof. intros E. apply decode_encode; [exact E|reflexivity]. Qed.
Lemma encode_inj s s' b : encode s = Some b -> encode s' = Some b -> s = s'.
Proof. intros A B. apply decode_ignore_encode in A, B. congruence. Qed.

Lemma teq_eq a b : teq a b = true <-> a = b.
Proof. unfold teq. destruct (list_eq_dec N.eq_dec a b); split; congruence. Qed.
Lemma pyeq_eq a b : pyeq a b = true <-> a = b.
Proof.
  destruct a, b; cbn [pyeq]; try (split; discriminate).
  - rewrite teq_eq. split; [now intros ->|now intros [= ->]].
  - rewrite bseq_eq. split; [now intros ->|now intros [= ->]].
  - rewrite Nat.eqb_eq. split; [now intros ->|now intros [= ->]].
Qed.
Lemma in_pyeq v l : existsb (pyeq v) l = true <-> In v l.
Proof.
  rewrite existsb_exists. split; [intros (x & A & B); apply pyeq_eq in B; now subst|intros H; exists v; split; [exact H|now apply pyeq_eq]].
Qed.
Lemma in_bseq (b : bytes) l : existsb (bseq b) l = true <-> In b l.
Proof.
  rewrite existsb_exists. split; [intros (x & A & B); apply bseq_eq in B; now subst|intros H; exists b; split; [exact H|now apply bseq_eq]].
Qed.
Lemma py_set_in v l : In v (py_set l) <-> In v l.
Proof.
  induction l as [|x l IH]; [reflexivity|]. cbn [py_set]. destruct (existsb (pyeq x) l) eqn:E.
  - rewrite IH. cbn [In]. apply in_pyeq in E. split; [tauto|intros [-> |H]; assumption].
  - cbn [In]. now rewrite IH.
Qed.
Lemma py_set_nodup l : NoDup (py_set l).
Proof.
  induction l as [|x l IH]; [constructor|]. cbn [py_set]. destruct (existsb (pyeq x) l) eqn:E; [exact IH|].
  constructor; [|exact IH]. rewrite py_set_in. intros C. apply in_pyeq in C. congruence.
Qed.

(** ** Well tagged messages *)
Lemma iter_in l s : well_tagged l -> (In (Str s) (iter l) <-> has l s).
Proof.
  intros [_ F]. unfold iter. rewrite in_map_iff. rewrite Forall_forall in F. split.
  - intros (b & E & H). destruct (F b H) as (t & Et & _). rewrite (decode_ignore_encode t b Et) in E. injection E as ->. exists b. now split.
  - intros (b & E & H). exists b. split; [now rewrite (decode_ignore_encode s b E)|exact H].
Qed.
Lemma iter_str l v : In v (iter l) -> exists s, v = Str s.
Proof. unfold iter. rewrite in_map_iff. intros (b & <- & _). eauto. Qed.
Lemma iter_taggable l v : well_tagged l -> In v (iter l) -> exists s, v = Str s /\ taggable s.
Proof.
  intros [_ F] H. unfold iter in H. apply in_map_iff in H. destruct H as (b & <- & H). rewrite Forall_forall in F.
  destruct (F b H) as (t & Et & X). exists t. rewrite (decode_ignore_encode t b Et). split; [reflexivity|]. exists b. now split.
Qed.
Lemma iter_nodup l : well_tagged l -> NoDup (iter l).
Proof.
  intros [S F]. induction S as [|x l S IH H]; [constructor|]. inversion F as [|? ? Fx Fl]. subst. cbn [iter map]. constructor; [|now apply IH].
  intros C. apply in_map_iff in C. destruct C as (y & E & Hy). injection E as E.
  destruct Fx as (t & Et & _). rewrite Forall_forall in Fl, H. destruct (Fl y Hy) as (u & Eu & _).
  rewrite (decode_ignore_encode t x Et), (decode_ignore_encode u y Eu) in E. subst u. rewrite Et in Eu. injection Eu as ->.
  specialize (H y Hy). rewrite bcmp_refl in H. discriminate.
Qed.
Lemma contains_tells l s : encodable s -> tells (contains (Str s) l) (has l s).
Proof.
  intros (b & E). cbn [contains]. rewrite E. eexists. split; [reflexivity|]. unfold iter_bytes. rewrite in_bseq. unfold has. split.
  - intros H. exists b. now split.
  - intros (b' & E' & H). congruence.
Qed.
Lemma taggable_encodable s : taggable s -> encodable s.
Proof. intros (b & E & _). now exists b. Qed.
Lemma has_encodable l s : has l s -> encodable s.
Proof. intros (b & E & _). now exists b. Qed.
Lemma has_decide l s : {has l s} + {~ has l s}.
Proof.
  destruct (encode s) as [b|] eqn:E.
  - destruct (in_dec (list_eq_dec Ascii.ascii_dec) b l) as [H|H]; [left; now exists b|right; intros (b' & E' & H'); congruence].
  - right. intros (b & E' & _). congruence.
Qed.
