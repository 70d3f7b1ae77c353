(** Proofs for C97: how much may be left as it is. *)
From Verif Require Import Bytes Coolj CooljSpec CooljProofs.
From Coq Require Import List Arith Bool Ascii Lia.
Import ListNotations.
Local Open Scope nat_scope.

Lemma loop_left : forall steps fc lst pos sec cur rest out,
  Forall (fun l => 2 * arrows l <= fc) (cur :: rest) -> (sec = true -> lst <= pos) -> loop steps fc lst pos sec cur rest = Done out ->
  exists front tail init, out = front ++ tail /\ Forall (good fc) front /\ rest = init ++ tail /\
    (tail = [] \/ lst + 1 + chars tail <= pos + chars out).
Proof.
  induction steps as [|n IH]; intros fc lst pos sec cur rest out F S H; [discriminate|]. cbn [loop] in H.
  inversion F as [|? ? F1 F2]; subst x l. pose proof (ll_arrows cur false) as LA. cbn -[Nat.mul] in LA.
  pose proof (wrap_good fc cur ltac:(lia)) as W. destruct (wrap_line fc cur) as [|a b|] eqn:WL; [| |contradiction].
  - destruct rest as [|l rest].
    + injection H as <-. exists [cur], [], []. repeat split; auto.
    + destruct sec.
      * injection H as <-. specialize (S eq_refl). exists [cur], (l :: rest), []. repeat split; auto. right. cbn. lia.
      * destruct (match l with [] => match rest with [] => true | _ => false end | _ => false end) eqn:Z.
        { destruct l; [|discriminate]. destruct rest; [|discriminate]. injection H as <-. exists [cur; []], [], [[]]. repeat split; auto.
          constructor; trivial. constructor; [|constructor]. left. intros c I. rewrite skipn_nil in I. destruct I. }
        unfold cons_line in H. destruct (loop n _ _ _ _ _ _) as [t| |] eqn:E; try discriminate. injection H as <-.
        destruct (IH _ _ _ _ _ _ _ F2 (fun e => proj1 (Nat.leb_le _ _) e) E) as (f & tl & i & -> & G & -> & T).
        exists (cur :: f), tl, (l :: i). repeat split; auto. destruct T as [T|T]; [auto|right]. cbn. lia.
  - unfold cons_line in H. destruct (loop n _ _ _ _ _ _) as [t| |] eqn:E; try discriminate. injection H as <-.
    destruct W as (W0 & _ & W2).
    assert (FB : Forall (fun l => 2 * arrows l <= fc) (b :: rest)) by (constructor; trivial; lia).
    assert (SB : false = true -> lst <= pos + length a + 1) by discriminate.
    destruct (IH _ _ _ _ _ _ _ FB SB E) as (f & tl & i & -> & G & -> & T).
    exists (a :: f), tl, i. repeat split; auto. destruct T as [T|T]; [auto|right]. cbn. lia.
Qed.
