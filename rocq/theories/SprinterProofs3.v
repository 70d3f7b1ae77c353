(** The printers keep UTF-8. *)
From Verif Require Import Bytes Decimal Sprinter SprinterSpec SprinterProofs SprinterProofs2.
Local Open Scope N_scope.

Lemma utf8_nil : utf8 [].
Proof. exists []. auto. Qed.
Lemma utf8_app a b : utf8 a -> utf8 b -> utf8 (a ++ b).
Proof. intros (l & H & ->) (l' & H' & ->). exists (l ++ l'). split; [now apply Forall_app|]. now rewrite concat_app. Qed.
Lemma utf8_one x : utf8_char x -> utf8 x.
Proof. intros H. exists [x]. split; [auto|]. cbn. now rewrite app_nil_r. Qed.
Lemma utf8_ascii s : forallb (fun c => N.leb (code c) 127) s = true -> utf8 s.
Proof.
  induction s as [|c s IH]; cbn; intros H; [apply utf8_nil|]. apply andb_true_iff in H as [H1 H2]. apply (utf8_app [c]); [|auto]. apply utf8_one. constructor. apply N.leb_le in H1. unfold between. lia.
Qed.
Lemma jescape_high c : 128 <= code c -> json_escape c = [c].
Proof. destruct c as [[] [] [] [] [] [] [] []]; intros H; try reflexivity; exfalso; revert H; cbn; lia. Qed.
Lemma sescape_high c : 128 <= code c -> sexp_escape c = [c].
Proof. destruct c as [[] [] [] [] [] [] [] []]; intros H; try reflexivity; exfalso; revert H; cbn; lia. Qed.
Lemma jescape_low c : code c <= 127 -> forallb (fun c => N.leb (code c) 127) (json_escape c) = true.
Proof. destruct c as [[] [] [] [] [] [] [] []]; intros H; try reflexivity; exfalso; revert H; cbn; lia. Qed.
Lemma sescape_low c : code c <= 127 -> forallb (fun c => N.leb (code c) 127) (sexp_escape c) = true.
Proof. destruct c as [[] [] [] [] [] [] [] []]; intros H; try reflexivity; exfalso; revert H; cbn; lia. Qed.
Section Escape.
Variable esc : byte -> bytes.
Hypothesis high : forall c, 128 <= code c -> esc c = [c].
Hypothesis low : forall c, code c <= 127 -> forallb (fun c => N.leb (code c) 127) (esc c) = true.
Lemma escape_char x : utf8_char x -> utf8 (flat_map esc x).
Proof.
  intros H. assert (D : (exists a, x = [a] /\ between a 0 127) \/ Forall (fun c => 128 <= code c) x).
  { unfold tail, between in *. destruct H; unfold tail, between in *; [left; unfold between; eauto| | | | | | |]; right; repeat constructor; lia. }
  destruct D as [(a & -> & [_ Ha])|D].
  - cbn. rewrite app_nil_r. apply utf8_ascii, low, Ha.
  - assert (F : forall y, Forall (fun c => 128 <= code c) y -> flat_map esc y = y).
    { induction 1 as [|c y Hc _ IH]; [reflexivity|]. cbn. rewrite (high c Hc), IH. reflexivity. }
    rewrite (F x D). now apply utf8_one.
Qed.
Lemma escape_utf8 s : utf8 s -> utf8 (flat_map esc s).
Proof.
  intros (l & H & ->). induction H as [|x l Hx _ IH]; [apply utf8_nil|]. cbn. rewrite flat_map_app. apply utf8_app; [now apply escape_char|exact IH].
Qed.
End Escape.
Definition json_escape_utf8 := escape_utf8 json_escape jescape_high jescape_low.
Definition sexp_escape_utf8 := escape_utf8 sexp_escape sescape_high sescape_low.
Lemma decz_utf8 z : utf8 (decz z).
Proof.
  apply utf8_ascii. pose proof (decz_symbol z) as H. revert H. generalize (decz z). intros b. induction b as [|c b IH]; cbn; [reflexivity|]. intros H. apply andb_true_iff in H as [H1 H2]. rewrite (IH H2), andb_true_r.
  destruct c as [[] [] [] [] [] [] [] []]; try discriminate H1; reflexivity.
Qed.
Ltac asc := apply utf8_ascii; reflexivity.
Lemma utf8_cons c s : code c <= 127 -> utf8 s -> utf8 (c :: s).
Proof. intros H K. apply (utf8_app [c]); [|exact K]. apply utf8_one. constructor. unfold between. lia. Qed.
Lemma prints_utf8 : (forall v b, prints v b -> utf8_value v -> utf8 b) /\ (forall l b, prints_elems l b -> utf8_value (VList l) -> utf8 b) /\ (forall l b, prints_members l b -> utf8_value (VMap l) -> utf8 b).
Proof.
  assert (K : forall k b, utf8 k -> utf8 b -> utf8 ([chr 34] ++ flat_map json_escape k ++ [chr 34] ++ lit ": " ++ b)).
  { intros k b Hk Hb. apply utf8_app; [asc|]. apply utf8_app; [now apply json_escape_utf8|]. apply utf8_app; [asc|]. apply utf8_app; [asc|exact Hb]. }
  apply (prints_mut (fun v b _ => utf8_value v -> utf8 b) (fun l b _ => utf8_value (VList l) -> utf8 b) (fun l b _ => utf8_value (VMap l) -> utf8 b)).
  - intros s H. apply utf8_app; [asc|]. apply utf8_app; [now apply json_escape_utf8|asc].
  - intros z _. apply decz_utf8.
  - intros [] _; asc.
  - intros _; asc.
  - intros _; asc.
  - intros l b _ IH H. apply utf8_app; [asc|]. apply utf8_app; [exact (IH H)|asc].
  - intros _; asc.
  - intros l b _ IH H. apply utf8_app; [asc|]. apply utf8_app; [exact (IH H)|asc].
  - intros v b _ IH H. apply IH, H.
  - intros v b sp l b' _ IH Hsp _ IHl [H1 H2]. apply utf8_app; [now apply IH|]. apply utf8_app; [destruct Hsp; asc|]. now apply IHl.
  - intros k v b _ IH (Hk & H & _). apply K; auto.
  - intros k v b sp l b' _ IH Hsp _ IHl (Hk & H & Hl). apply utf8_app; [apply K; auto|]. apply utf8_app; [destruct Hsp; asc|]. now apply IHl.
Qed.
