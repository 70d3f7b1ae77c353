(** Proofs about the structured output of a message: parts by number. *)
From Verif Require Import Bytes StrUtil Reply Sprinter SprinterSpec Mime ShowPart ShowPartSpec ShowPartProofs ShowPartProofs2 ShowPartProofs3 ShowPartProofs4.
Local Open Scope nat_scope.

Fixpoint subs (t : otree) : list otree := t :: match t with OT _ _ kids => concat (map subs kids) end.
Definition top (t : otree) : option nat * node := match t with OT num n _ => (num, n) end.
Lemma subs_flat t : map top (subs t) = oflat t.
Proof.
  induction t as [num n kids IH] using otree_ind'. cbn [subs oflat map top]. f_equal. induction IH as [|t r H _ IHr]; [reflexivity|]. cbn [map concat]. now rewrite map_app, H, IHr.
Qed.
Lemma subs_cons t : subs t = t :: tl (subs t). Proof. now destruct t. Qed.
Lemma build_mono c : forall f num n st r, build f c num n st = Some r -> build (S f) c num n st = Some r.
Proof.
  induction f as [|f IH]; intros num n st r B; [discriminate|]. cbn [build] in B. cbn [build].
  destruct (build_children (build f c) c n 0 (length (n_children n)) st) as [(k, s')|] eqn:E; [|discriminate].
  assert (G : forall todo i st k s', build_children (build f c) c n i todo st = Some (k, s') -> build_children (build (S f) c) c n i todo st = Some (k, s')).
  { induction todo as [|todo IHt]; intros i s l s2 H; [exact H|]. cbn [build_children] in H |- *. destruct (mime_node_child c n i s) as [((nu, n'), s1)|]; [|discriminate].
    destruct (build f c nu n' s1) as [(t, (m, fs))|] eqn:B1; [|discriminate]. rewrite (IH _ _ _ _ B1).
    destruct (build_children (build f c) c n (S i) todo (m, tl fs)) as [(l', s3)|] eqn:B2; [|discriminate]. now rewrite (IHt _ _ _ _ B2). }
  apply G in E. cbn [build] in E. rewrite E. exact B.
Qed.
Lemma find_build c : forall f num n st t st', build f c num n st = Some (t, st') -> forall k,
  match nth_error (subs t) k with
  | Some s => exists st1 st2, find_dfs f c num n k st = Some (inl (fst (top s), snd (top s), st1)) /\ build f c (fst (top s)) (snd (top s)) st1 = Some (s, st2)
  | None => find_dfs f c num n k st = Some (inr (k - length (subs t), st'))
  end.
Proof.
  induction f as [|f IH]; intros num n st t st' B k; [discriminate|]. destruct k as [|k].
  { rewrite (subs_cons t). cbn [nth_error]. destruct (build_top _ _ _ _ _ _ _ B) as (kids & -> & _). cbn [top fst snd]. exists st, st'. split; [reflexivity|exact B]. }
  destruct (build_top _ _ _ _ _ _ _ B) as (kids & -> & _). cbn [build] in B. destruct (build_children _ _ _ _ _ _) as [(k0, s0)|] eqn:E; [|discriminate]. injection B as <- <-.
  cbn [subs nth_error length find_dfs]. cbn [Nat.sub].
  revert E. generalize (length (n_children n)) 0 st k0 s0 k. clear k. induction n0 as [|todo IHt]; intros i s l s2 k E.
  - injection E as <- <-. cbn [map concat length find_children]. rewrite Nat.sub_0_r. now destruct k.
  - cbn [build_children] in E. destruct (mime_node_child c n i s) as [((nu, n'), s1)|] eqn:M; [|discriminate]. destruct (build f c nu n' s1) as [(x, (m, fs))|] eqn:B; [|discriminate].
    destruct (build_children (build f c) c n (S i) todo (m, tl fs)) as [(r, s3)|] eqn:R; [|discriminate]. injection E as <- <-.
    cbn [find_children map concat]. rewrite M. specialize (IH _ _ _ _ _ B k).
    destruct (nth_error (subs x) k) as [y|] eqn:N.
    + rewrite nth_error_app1 by (apply nth_error_Some; congruence). rewrite N. destruct IH as (st1 & st2 & F & B2). exists st1, st2. rewrite F. split; [reflexivity|]. exact (build_mono _ _ _ _ _ _ B2).
    + apply nth_error_None in N. rewrite nth_error_app2 by exact N. rewrite IH. specialize (IHt (S i) (m, tl fs) r s3 (k - length (subs x)) R).
      destruct (nth_error (concat (map subs r)) (k - length (subs x))) as [y|]; [exact IHt|]. rewrite app_length, Nat.sub_add_distr. exact IHt.
Qed.

(** The value of a part is inside that of the part around it. *)
Section sub.
  Variables (e : gmime) (c : cctx) (try : bool) (o : sopts) (body : obj).
  Lemma sub_field k v fs x : In (k, Some v) fs -> In x (subvalues v) -> In x (subvalues (VMap (omap fs))).
  Proof.
    intros I J. cbn [subvalues]. right. apply in_concat. exists (subvalues v). split; [|exact J]. apply in_map_iff. exists (lit k, v). split; [reflexivity|]. apply in_omap. eauto.
  Qed.
  Lemma sub_list v l x : In v l -> In x (subvalues v) -> In x (subvalues (VList l)).
  Proof. intros I J. cbn [subvalues]. right. apply in_concat. exists (subvalues v). split; [now apply in_map|exact J]. Qed.
  Lemma sub_self v : In v (subvalues v). Proof. destruct v; now left. Qed.
  Lemma part_inside t : allt (well body) t -> forall s, In s (subs t) -> In (part_value e c try o s) (subvalues (part_value e c try o t)) /\ allt (well body) s.
  Proof.
    induction t as [num n kids IH] using otree_ind'. intros A s I. assert (A0 := A). cbn [allt] in A. destruct A as ((K & L) & W). apply fold_forall in W. cbn [subs] in I. destruct I as [<-|I].
    - split; [apply sub_self|exact A0].
    - apply in_concat in I as (l & J & I). apply in_map_iff in J as (t & <- & J). rewrite Forall_forall in IH, W. destruct (IH t J (W t J) s I) as (S1 & S2). split; [|exact S2].
      cbn [part_value]. destruct K as (KW & K). destruct (n_part n) as [p|]; [|contradiction].
      assert (V : In (part_value e c try o t) (map (part_value e c try o) kids)) by now apply in_map.
      assert (NE : n_children n <> []) by (intros Z; rewrite Z in L; destruct kids; [contradiction|discriminate]).
      assert (LL : In (part_value e c try o s) (subvalues (VList (map (part_value e c try o) kids)))) by (eapply sub_list; eauto).
      assert (C : match p with OMessage _ _ _ => exists h, In ("content"%string, Some (VList [VMap (omap [("headers"%string, h); ("body"%string, Some (VList (map (part_value e c try o) kids)))])])) (content_fields e o n p (map (part_value e c try o) kids))
        | _ => In ("content"%string, Some (VList (map (part_value e c try o) kids))) (content_fields e o n p (map (part_value e c try o) kids)) end).
      { destruct p as [inf tt | inf k ch sg d | inf sg b | inf tt v d]; cbn [content_fields].
        - contradiction.
        - now left.
        - eexists. left. reflexivity.
        - unfold text_shown, is_text. cbn [info_of]. rewrite K. cbn [andb]. destruct (n_children n); [contradiction|]. now left. }
      destruct p as [inf tt | inf k ch sg d | inf sg b | inf tt v d].
      + eapply sub_field; [apply in_or_app; right; exact C|exact LL].
      + eapply sub_field; [apply in_or_app; right; exact C|exact LL].
      + destruct C as (h & C). eapply sub_field; [apply in_or_app; right; exact C|]. eapply sub_list; [now left|]. eapply sub_field; [right; now left|exact LL].
      + eapply sub_field; [apply in_or_app; right; exact C|exact LL].
  Qed.
End sub.
