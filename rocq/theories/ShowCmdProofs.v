From Verif Require Import Bytes Terms XQuery DocSet Thread Query QuerySpec ThreadTree ThreadTreeSpec ThreadTreeProofs SearchCmd SearchCmdSpec ShowCmd ShowCmdSpec P_ThreadTree.
From Coq Require Import Sorted Permutation.
Local Open Scope nat_scope.

(** ** Trees of positions *)
Inductive ptree := PT (i : nat) (kids : list ptree).
Definition proot (t : ptree) : nat := match t with PT i _ => i end.
Definition pkids (t : ptree) : list ptree := match t with PT _ k => k end.
Fixpoint ppre (t : ptree) : list nat := match t with PT i kids => i :: concat (map ppre kids) end.
Inductive pwired (r : replies) : ptree -> Prop :=
| pw i kids : map proot kids = r i -> Forall (pwired r) kids -> pwired r (PT i kids).

Section show.
  Variable opens : xdoc -> bool.
  Variables omit entire : bool.
  Variable ms : list tmember.
  Let at_ (i : nat) := nth i ms no_member.
  Let shown (i : nat) := to_show omit entire (at_ i).
  Fixpoint pitem (n : nat) (t : ptree) : item :=
    match t with
    | PT i kids =>
        if shown i then IList ((if opens (mb_doc (at_ i)) then [IMsg (mb_doc (at_ i)) n] else []) ++ [IList (map (pitem (S n)) kids)])
        else IList [INull; IList (map (pitem n) kids)]
    end.
  Definition fine (i : nat) : bool := negb (shown i) || opens (mb_doc (at_ i)).
  Lemma forallb_concat {A B} (f : B -> bool) (g : A -> list B) l : forallb f (concat (map g l)) = forallb (fun a => forallb f (g a)) l.
  Proof. induction l as [|a l IH]; [reflexivity|]. cbn. now rewrite forallb_app, IH. Qed.
  Lemma show_list_ok fuel : forall r n l out, show_messages shown fuel r n l = Some out ->
    exists F, map proot F = l /\ concat (map ppre F) = map fst out /\ Forall (pwired r) F /\
      show_list opens omit entire ms fuel r n l = Some (IList (map (pitem n) F), forallb fine (concat (map ppre F))).
  Proof.
    induction fuel as [|fuel IH]; intros r n l out H; [discriminate H|]. cbn [show_messages show_list] in *.
    set (lp := fix loop (l : list nat) : option (list item * bool) := _).
    set (lo := fix loop (l : list nat) : option (list (nat * option nat)) := _) in H.
    assert (G : forall l out, lo l = Some out -> exists F, map proot F = l /\ concat (map ppre F) = map fst out /\ Forall (pwired r) F /\
                  lp l = Some (map (pitem n) F, forallb fine (concat (map ppre F)))).
    { clear l out H. induction l as [|i l IHl]; intros out H; cbn [lo lp] in *; fold lo in H; fold lp.
      - injection H as <-. exists []. repeat split. constructor.
      - fold (at_ i) in H |- *. change (to_show omit entire (at_ i)) with (shown i) in H |- *.
        destruct (show_messages shown fuel r (if shown i then S n else n) (r i)) as [sub|] eqn:ES; [|discriminate H].
        destruct (lo l) as [rest|] eqn:EL; [|discriminate H]. injection H as <-.
        destruct (IH _ _ _ _ ES) as (K & K1 & K2 & K3 & K4). destruct (IHl _ eq_refl) as (F & F1 & F2 & F3 & F4).
        exists (PT i K :: F). cbn [map proot ppre concat]. split; [now f_equal|]. split; [rewrite K2, F2; cbn; now rewrite map_app|].
        split; [constructor; [constructor; assumption|exact F3]|].
        cbn [app forallb]. rewrite forallb_app. rewrite K4, F4. unfold fine at 3. unfold show_message. cbn [pitem].
        destruct (shown i); cbn [negb orb]; [destruct (opens (mb_doc (at_ i)))|]; cbn [andb app]; reflexivity. }
    destruct (G l out H) as (F & F1 & F2 & F3 & F4). exists F. rewrite F4. auto.
  Qed.
End show.

(** ** From positions to messages *)
Section docs.
  Variable ms : list tmember.
  Let doc (i : nat) := mb_doc (nth i ms no_member).
  Fixpoint to_tree (t : ptree) : tree := match t with PT i kids => Tree (doc i) (map to_tree kids) end.
  Lemma ptree_ind' (P : ptree -> Prop) : (forall i kids, Forall P kids -> P (PT i kids)) -> forall t, P t.
  Proof.
    intros H. fix IH 1. intros [i kids]. apply H. induction kids as [|k kids IHk]; constructor; [apply IH|exact IHk].
  Qed.
  Lemma docs_of_to_tree t : docs_of (to_tree t) = map doc (ppre t).
  Proof.
    induction t as [i kids IH] using ptree_ind'. cbn [to_tree docs_of ppre map]. f_equal. rewrite map_map, concat_map, map_map. f_equal.
    apply map_ext_in. intros k K. rewrite Forall_forall in IH. now apply IH.
  Qed.
  Lemma docs_of_forest F : concat (map docs_of (map to_tree F)) = map doc (concat (map ppre F)).
  Proof. rewrite concat_map, !map_map. f_equal. apply map_ext. intros t. apply docs_of_to_tree. Qed.
  Lemma root_to_tree t : root (to_tree t) = doc (proot t).
  Proof. now destruct t. Qed.
  Lemma pitem_node opens omit entire (sh : xdoc -> bool) t : forall n,
    (forall i, In i (ppre t) -> sh (doc i) = to_show omit entire (nth i ms no_member)) -> (forall i, In i (ppre t) -> sh (doc i) = true -> opens (doc i) = true) ->
    pitem opens omit entire ms n t = node_item sh n (to_tree t).
  Proof.
    induction t as [i kids IH] using ptree_ind'. intros n H O. cbn [pitem to_tree node_item].
    rewrite <- (H i) by now left. unfold doc in *. rewrite Forall_forall in IH.
    assert (K : forall m, map (pitem opens omit entire ms m) kids = map (node_item sh m) (map to_tree kids)).
    { intros m. rewrite map_map. apply map_ext_in. intros k K. apply IH; [exact K| |]; intros j J; [apply H|apply O]; right; apply in_concat; exists (ppre k); split; auto; now apply in_map. }
    destruct (sh _) eqn:S; rewrite K; [|reflexivity]. now rewrite (O i (or_introl eq_refl) S).
  Qed.
End docs.

(** ** One thread *)
Lemma pwired_inv r i kids : pwired r (PT i kids) -> map proot kids = r i /\ Forall (pwired r) kids.
Proof. intros H. now inversion H. Qed.
Lemma reach_pwired r top F : map proot F = top -> Forall (pwired r) F -> forall i, In i (concat (map ppre F)) -> reachable r top i.
Proof.
  intros RT W. assert (G : forall t, pwired r t -> reachable r top (proot t) -> forall i, In i (ppre t) -> reachable r top i).
  { induction t as [j kids IH] using ptree_ind'. intros WT R i [<-|X]; [exact R|]. inversion WT as [? ? KR KW]; subst.
    apply in_concat in X as (p & P & X). apply in_map_iff in P as (k & <- & K). rewrite Forall_forall in IH, KW.
    apply (IH k K (KW k K)); [|exact X]. apply reach_reply with j; [exact R|]. rewrite <- KR. now apply in_map. }
  intros i X. apply in_concat in X as (p & P & X). apply in_map_iff in P as (k & <- & K). rewrite Forall_forall in W.
  apply (G k (W k K)); [|exact X]. apply reach_top. rewrite <- RT. now apply in_map.
Qed.
Lemma sorted_map {A B} (f : A -> B) (R : B -> B -> Prop) l : Sorted R (map f l) <-> Sorted (fun a b => R (f a) (f b)) l.
Proof.
  induction l as [|a l IH]; cbn; [split; constructor|]. split; intros H; inversion H as [|? ? S D]; subst; (constructor; [now apply IH|]).
  - destruct l; constructor. now inversion D.
  - destruct l; constructor. now inversion D.
Qed.
Definition sorts (qsort : list tmsg -> list nat -> list nat) : Prop := forall ms, sorts_by_date ms (qsort ms).
Section thread.
  Variable opens : xdoc -> bool.
  Variable qsort : list tmsg -> list nat -> list nat.
  Hypothesis Q : sorts qsort.
  Variables omit entire : bool.
  Variable th : thread.
  Let ms := th_messages th.
  Let docs := map (fun m => tmsg_of (mb_doc m)) ms.
  Let doc (i : nat) := mb_doc (nth i ms no_member).
  Lemma get_doc i : i < length ms -> get docs i = tmsg_of (doc i) /\ nth_error docs i = Some (tmsg_of (doc i)).
  Proof.
    intros L. unfold docs, doc, get. split.
    - rewrite nth_indep with (d' := tmsg_of (mb_doc no_member)) by now rewrite map_length. now rewrite map_nth with (f := fun m => tmsg_of (mb_doc m)).
    - rewrite nth_error_map, (nth_error_nth' ms no_member L). reflexivity.
  Qed.
  Lemma names_doc i j : names docs i j -> i < length ms /\ j < length ms /\ doc_names (doc i) (doc j).
  Proof.
    intros H.
    assert (E : exists mi mj, nth_error docs i = Some mi /\ nth_error docs j = Some mj /\
              ((tm_irt mi = Some (tm_mid mj) /\ tm_mid mj <> []) \/ In (tm_mid mj) (tm_refs mi))).
    { destruct H as [(mi & mj & A & B & C)|(mi & mj & A & B & C)]; exists mi, mj; tauto. }
    destruct E as (mi & mj & A & B & C).
    assert (LI : i < length ms) by (rewrite <- (map_length (fun m => tmsg_of (mb_doc m)) ms); apply nth_error_Some; fold docs; congruence).
    assert (LJ : j < length ms) by (rewrite <- (map_length (fun m => tmsg_of (mb_doc m)) ms); apply nth_error_Some; fold docs; congruence).
    split; [exact LI|]. split; [exact LJ|]. rewrite (proj2 (get_doc i LI)) in A. rewrite (proj2 (get_doc j LJ)) in B. injection A as <-. injection B as <-. exact C.
  Qed.
  Lemma all_docs : map doc (seq 0 (length ms)) = map mb_doc ms.
  Proof.
    unfold doc. clear. induction ms as [|m l IH]; [reflexivity|]. cbn [length seq map nth]. f_equal. rewrite <- seq_shift, map_map. exact IH.
  Qed.
  Lemma names_acyclic : no_cycle (map mb_doc ms) -> acyclic docs.
  Proof.
    intros (rank & H). exists (fun i => rank (doc i)). intros i j NM. apply names_doc in NM as (LI & LJ & D).
    apply H; [| |exact D]; unfold doc; apply in_map, nth_In; assumption.
  Qed.
  Lemma show_thread_ok : exists F, NoDup (concat (map ppre F)) /\ (forall i, In i (concat (map ppre F)) -> i < length ms) /\
    show_thread opens qsort omit entire th = Some (IList (map (pitem opens omit entire ms 0) F), forallb (fine opens omit entire ms) (concat (map ppre F))) /\
    Forall replies_below (map (to_tree ms) F) /\ Sorted older (map (to_tree ms) F) /\
    (ms <> [] -> F <> []) /\
    (no_cycle (map mb_doc ms) -> Permutation (concat (map ppre F)) (seq 0 (length ms))).
  Proof.
    assert (LD : length docs < S (length docs)) by lia. assert (LL : length docs = length ms) by apply map_length.
    destruct (C22_walk_terminates_without_repetition (qsort docs) docs (fun i => to_show omit entire (nth i ms no_member)) _ (Q docs) LD) as (r & top & vis & out & R & W & N & RG & S & M).
    destruct (show_list_ok opens omit entire ms _ r 0 top out S) as (F & F1 & F2 & F3 & F4).
    exists F. rewrite F2, M. split; [exact N|]. split; [intros i X; rewrite <- LL; now apply RG|]. split.
    { unfold show_thread. change (map (fun m => tmsg_of (mb_doc m)) (th_messages th)) with docs. rewrite R. fold ms. now rewrite F4, F2, M. }
    assert (RE : forall i, In i vis -> reachable r top i) by (intros i X; apply (reach_pwired r top F F1 F3); rewrite F2, M; exact X).
    assert (NA := C22_replies_are_replies (qsort docs) docs _ r top (Q docs) LD R).
    destruct (C22_siblings_oldest_first (qsort docs) docs _ r top (Q docs) LD R) as (ST & SR).
    assert (SD : forall l kids, map proot kids = l -> (forall i, In i l -> i < length ms) -> Sorted (fun i j => (tm_date (get docs i) <= tm_date (get docs j))%Z) l ->
                   Sorted older (map (to_tree ms) kids)).
    { intros l kids <- RN H. apply sorted_map in H. apply sorted_map. induction kids as [|k kids IH]; [constructor|].
      inversion H as [|? ? HS HD]; subst. constructor; [apply IH; [intros i X; apply RN; now right|exact HS]|]. destruct kids as [|k2 kids]; constructor. inversion HD as [|? ? HH]; subst.
      unfold older. rewrite !root_to_tree. rewrite (proj1 (get_doc _ (RN (proot k) (or_introl eq_refl)))), (proj1 (get_doc _ (RN (proot k2) (or_intror (or_introl eq_refl))))) in HH. exact HH. }
    split.
    { apply Forall_map, Forall_forall. intros t T.
      assert (IN : forall i, In i (ppre t) -> In i vis) by (intros i X; rewrite <- M, <- F2; apply in_concat; exists (ppre t); split; [now apply in_map|exact X]).
      rewrite Forall_forall in F3. specialize (F3 t T). clear T. induction t as [i kids IH] using ptree_ind'. apply pwired_inv in F3 as (KR & KW).
      assert (INK : forall k, In k kids -> forall j, In j (ppre k) -> In j vis) by (intros k K j J; apply IN; right; apply in_concat; exists (ppre k); split; [now apply in_map|exact J]).
      assert (PR : forall k, In k kids -> In (proot k) vis) by (intros k K; apply (INK k K); destruct k; now left).
      cbn [to_tree]. constructor.
      - apply Forall_map, Forall_forall. intros k K. rewrite root_to_tree. apply names_doc, NA. rewrite <- KR. now apply in_map.
      - apply (SD (r i) kids KR); [|apply SR, RE, IN; now left]. intros j J. rewrite <- KR in J. apply in_map_iff in J as (k & <- & K). rewrite <- LL. apply RG. now apply PR.
      - apply Forall_map. rewrite Forall_forall in IH, KW |- *. intros k K. apply (IH k K); [now apply KW|apply (INK k K)]. }
    split.
    { apply (SD top F F1); [|exact ST]. intros j J. rewrite <- F1 in J. apply in_map_iff in J as (k & <- & K). rewrite <- LL. apply RG. rewrite <- M, <- F2.
      apply in_concat. exists (ppre k). split; [now apply in_map|]. destruct k; now left. }
    split.
    { intros NE X. subst F. cbn in F1. apply (C23_something_shown (qsort docs) docs _ r top (Q docs) LD); [|exact R|now symmetry].
      unfold docs. intros Y. apply NE. now destruct ms. }
    intros AC. destruct (C23_every_message_shown_partial (qsort docs) docs (fun i => to_show omit entire (nth i ms no_member)) _ (Q docs) LD (names_acyclic AC)) as (r' & top' & out' & R' & _ & S' & P').
    rewrite R in R'. injection R' as <- <-. rewrite S in S'. injection S' as <-. rewrite M in P'. now rewrite <- LL.
  Qed.
End thread.
