(** C97: wrapping long lines of a message shown in Emacs. *)
From Verif Require Import Bytes Coolj CooljSpec CooljProofs CooljProofs2.
From Coq Require Import List Arith Bool Ascii Lia.
Import ListNotations.
Local Open Scope nat_scope.

(** Whatever the text and the width, when wrapping has finished nothing has changed but that spaces have
    become line breaks followed by the marks of citation of their line. *)
Theorem C97_only_breaks : forall steps fc t out,
  wrap_text steps fc t = Done out -> exists outs, Forall2 broken t outs /\ out = concat outs.
Proof.
  intros steps fc [|l t] out H; cbn in H.
  - injection H as <-. exists []. split; constructor.
  - eapply loop_broken; eauto.
Qed.

Lemma loop_more : forall n fc lst pos sec cur rest out, loop n fc lst pos sec cur rest = Done out ->
  forall m, n <= m -> loop m fc lst pos sec cur rest = Done out.
Proof.
  induction n as [|n IH]; intros fc lst pos sec cur rest out H m L; [discriminate|]. destruct m as [|m]; [lia|]. cbn [loop] in *.
  destruct (wrap_line fc cur) as [|a b|]; [| |discriminate].
  - destruct rest as [|l rest]; [trivial|]. destruct sec; [trivial|].
    destruct (match l with [] => match rest with [] => true | _ => false end | _ => false end); [trivial|].
    destruct (loop n _ _ _ _ _ _) eqn:E; try discriminate. rewrite (IH _ _ _ _ _ _ _ E m) by lia. exact H.
  - destruct (loop n _ _ _ _ _ _) eqn:E; try discriminate. rewrite (IH _ _ _ _ _ _ _ E m) by lia. exact H.
Qed.
(** It finishes, without an error, when no line has more ">" than half the width. *)
Theorem C97_terminates : forall fc t, Forall (fun l => 2 * arrows l <= fc) t ->
  exists n out, forall steps, n <= steps -> wrap_text steps fc t = Done out.
Proof.
  intros fc [|l t] F; cbn [wrap_text].
  - exists 0, []. trivial.
  - destruct (loop_done (S (todo l t)) fc (text_length (l :: t)) 0 false l t) as (out & E); [lia|trivial|].
    exists (S (todo l t)), out. intros steps L. eapply loop_more; eauto.
Qed.
(** A single line is then wrapped so that each part fits into the width or has no place to break. *)
Theorem C97_line : forall steps fc l out, 2 * arrows l <= fc -> wrap_text steps fc [l] = Done out ->
  Forall (fun x => fits fc x \/ unbreakable x) out.
Proof. intros steps fc l out A H. eapply loop_line_good; eauto. Qed.
(** So is every line of a text without ">". *)
Theorem C97_plain_text : forall steps fc t out, Forall (fun l => arrows l = 0) t -> wrap_text steps fc t = Done out ->
  Forall (fun x => fits fc x \/ unbreakable x) out.
Proof.
  intros steps fc [|l t] out F H; cbn [wrap_text] in H.
  - injection H as <-. constructor.
  - eapply loop_text_good; [exact F| |exact H]. unfold todo, text_length. cbn. lia.
Qed.

(** In any text, what may be left unwrapped are lines at its end, which together have no more characters than
    were added by repeating the marks. *)
Theorem C97_text : forall steps fc t out, Forall (fun l => 2 * arrows l <= fc) t -> wrap_text steps fc t = Done out ->
  exists front tail init, out = front ++ tail /\ t = init ++ tail /\
    Forall (fun x => fits fc x \/ unbreakable x) front /\ (tail = [] \/ chars tail <= chars out - chars t).
Proof.
  intros steps fc [|l t] out F H; cbn [wrap_text] in H.
  - injection H as <-. exists [], [], []. auto.
  - assert (N : false = true -> text_length (l :: t) <= 0) by discriminate.
    destruct (loop_left _ _ _ _ _ _ _ _ F N H) as (f & tl & i & -> & G & -> & T).
    exists f, tl, (l :: i). repeat split; auto. destruct T as [T|T]; [auto|right].
    assert (E : forall t, fold_right (fun l n => length l + 1 + n) 0 t = chars t) by (induction t as [|x t IHt]; cbn; [trivial|now rewrite IHt]).
    unfold text_length in T. rewrite E in T. cbn in T |- *. lia.
Qed.

(** ** What is false *)
(** 40 marks of citation, the first without a space, and a letter: 80 characters. *)
Definition deep_line : bytes := lit ">" ++ concat (repeat (lit "> ") 39) ++ lit "x".
(** In a window that is 80 wide (width 78) wrapping this never ends: Emacs hangs, adding lines. *)
Theorem C97_terminates_refuted : length deep_line = 80 /\ forall steps, wrap_text steps 78 [deep_line] = Running.
Proof.
  assert (W : exists a, wrap_line 78 deep_line = Wrapped a deep_line) by (eexists; vm_compute; reflexivity).
  split; [reflexivity|]. destruct W as [a W]. intros steps. assert (G : forall n lst pos, loop n 78 lst pos false deep_line [] = Running).
  { induction n as [|n IH]; intros lst pos; [reflexivity|]. cbn [loop]. rewrite W, IH. reflexivity. }
  apply G.
Qed.
(** Nor in a thread 70 messages deep, where the width is 8 (80 - 70 - 2), of ordinary citations. *)
Theorem C97_terminates_deep_refuted : forall steps, wrap_text steps 8 [lit ">> > > > x"] = Running.
Proof.
  assert (W : exists a, wrap_line 8 (lit ">> > > > x") = Wrapped a (lit ">> > > > x")) by (eexists; vm_compute; reflexivity).
  destruct W as [a W]. intros steps. assert (G : forall n lst pos, loop n 8 lst pos false (lit ">> > > > x") [] = Running).
  { induction n as [|n IH]; intros lst pos; [reflexivity|]. cbn [loop]. rewrite W, IH. reflexivity. }
  apply G.
Qed.
(** A line of 80 times ">" is an error: the bound of the search is on the wrong side of point. *)
Theorem C97_error_refuted : forall steps, wrap_text (S steps) 78 [repeat ">"%char 80] = Stopped.
Proof.
  intros steps. assert (W : wrap_line 78 (repeat ">"%char 80) = Error) by (vm_compute; reflexivity).
  change (loop (S steps) 78 (text_length [repeat ">"%char 80]) 0 false (repeat ">"%char 80) [] = Stopped). cbn [loop]. now rewrite W.
Qed.
(** Lines after a wrapped citation may be left as they are, although they are too long: what was inserted is not
    counted, so that the end seems to be reached. *)
Definition cited_text : list bytes :=
  [lit "> one two three four five six seven eight nine ten eleven twelve thirteen fourteen"; lit ""; lit "answer it now"].
Theorem C97_unfinished_refuted :
  exists out, wrap_text 100 9 cited_text = Done (out ++ [lit "answer it now"]) /\ Forall (fun l => 2 * arrows l <= 9) cited_text /\
  ~ fits 9 (lit "answer it now") /\ ~ unbreakable (lit "answer it now").
Proof.
  eexists (_ :: _ :: _ :: _ :: _ :: _ :: _ :: _ :: _ :: _ :: _ :: _ :: _ :: _ :: []). split; [vm_compute; reflexivity|]. split; [repeat constructor; cbn; lia|]. split.
  - intros H. specialize (H "n"%char ltac:(cbn; auto)). discriminate.
  - intros H. destruct (H [] (lit "answer") (lit "it now")) as [X|X]; trivial.
    + replace (@nil byte) with (determine_prefix (lit "answer it now")) by reflexivity. apply prefix_marks.
    + cbn. lia.
    + specialize (X "a"%char ltac:(cbn; auto)). discriminate.
    + specialize (X "i"%char ltac:(cbn; auto)). discriminate.
Qed.

(** ** The theorems are not vacuous *)
Example C97_example :
  wrap_text 50 20 [lit "> > some words that are cited, and more"; lit ""; lit "averyveryverylongwordthatdoesnotfit and"] =
  Done [lit "> > some words that"; lit "> > are cited, and"; lit "> > more"; lit ""; lit "averyveryverylongwordthatdoesnotfit"; lit "and"].
Proof. vm_compute; reflexivity. Qed.

Print Assumptions C97_only_breaks.
Print Assumptions C97_terminates.
Print Assumptions C97_line.
Print Assumptions C97_plain_text.
Print Assumptions C97_text.
Print Assumptions C97_terminates_refuted.
Print Assumptions C97_terminates_deep_refuted.
Print Assumptions C97_error_refuted.
Print Assumptions C97_unfinished_refuted.
