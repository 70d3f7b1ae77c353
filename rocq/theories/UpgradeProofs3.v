From Verif Require Import Bytes Terms Meta MetaProofs Db Decimal Features Paths PathsSpec PathsProofs PathsProofs2 PathsProofs3 Upgrade UpgradeSpec UpgradeProofs UpgradeProofs2.
From Coq Require Import ZArith Lia Sorted.
Local Open Scope nat_scope.

(** * Phase three: ghosts *)
Section Ghosts.
Variable compress : bytes -> bytes.
Variable lookup_fails : bytes -> bool.

Definition missing (db : udb) (p : bytes * bytes) : bool := match find_message compress (fst p) db with None => true | Some _ => false end.

Lemma ghost_terms id tid t : add_term thread_prefix tid (tadd ghost_term [id_term compress id]) = Some t ->
  forall y, In y t <-> y = lit "Tghost" \/ y = lit "G" ++ tid \/ y = id_term compress id.
Proof.
  intros E y. apply add_term_In in E. subst t. rewrite !tadd_In. cbn [In]. unfold thread_prefix, ghost_term. intuition congruence.
Qed.
Lemma find_app id ms db g : find_message compress id (with_msgs (ms ++ [g]) db) =
  match find (fun m => existsb (bseq (id_term compress id)) (um_terms m)) ms with
  | Some m => Some m
  | None => if existsb (bseq (id_term compress id)) (um_terms g) then Some g else None
  end.
Proof.
  unfold find_message. cbn [u_msgs with_msgs]. induction ms as [|m ms IH]; cbn [app find]; [reflexivity|]. destruct (existsb _ (um_terms m)); [reflexivity|exact IH].
Qed.
Lemma ghost_other id tid t id' : add_term thread_prefix tid (tadd ghost_term [id_term compress id]) = Some t ->
  existsb (bseq (id_term compress id')) t = true -> id_term compress id' = id_term compress id.
Proof.
  intros E H. apply existsb_exists in H as (y & Hy & H). apply bseq_eq in H. subst y. apply (ghost_terms id tid t E) in Hy.
  destruct Hy as [Hy|[Hy|Hy]]; [discriminate|discriminate|exact Hy].
Qed.

Lemma filter_ext_in' {A} (p q : A -> bool) l : (forall x, In x l -> p x = q x) -> filter p l = filter q l.
Proof. intros H. induction l as [|x l IH]; cbn; [reflexivity|]. rewrite (H x (or_introl eq_refl)), IH; [reflexivity|]. intros y Hy. apply H. now right. Qed.

Lemma ghosts_spec todo : forall s s', has (s_feat s) LAST_MOD = true -> u_tids (s_db s) = todo ->
  NoDup (map (fun p => id_term compress (fst p)) todo) ->
  ghosts_phase compress lookup_fails todo s = (U_ok, s') ->
  u_mtimes (s_db s') = u_mtimes (s_db s) /\ u_stamps (s_db s') = u_stamps (s_db s) /\ u_features (s_db s') = u_features (s_db s) /\
  u_version (s_db s') = u_version (s_db s) /\ u_tids (s_db s') = [] /\ dl (u_dirs (s_db s')) = dl (u_dirs (s_db s)) /\
  (next_id (u_dirs (s_db s)) <= next_id (u_dirs (s_db s')))%N /\
  exists gs, u_msgs (s_db s') = u_msgs (s_db s) ++ gs /\
    Forall2 (fun p g => ghost compress (fst p) (snd p) g /\ (s_rev s < um_lastmod g <= s_rev s')%N /\
                        (next_id (u_dirs (s_db s)) <= um_doc g < next_id (u_dirs (s_db s')))%N)
            (filter (missing (s_db s)) todo) gs /\
    StronglySorted N.lt (map um_doc gs) /\ StronglySorted N.lt (map um_lastmod gs).
Proof.
  induction todo as [|[id tid] todo IH]; intros s s' HL Ht Nd E; cbn [ghosts_phase] in E.
  - injection E as <-. repeat (split; [solve [auto|lia]|]). exists []. rewrite app_nil_r. split; [reflexivity|]. split; [constructor|split; constructor].
  - cbn [map fst] in Nd. inversion Nd as [|? ? Nin Nd']; subst.
    destruct (lookup_fails id); [discriminate|].
    destruct (find_message compress id (s_db s)) as [m0|] eqn:Ef.
    + apply IH in E; auto. destruct E as (A1 & A2 & A3 & A4 & A5 & A6 & A7 & gs & A8 & A9 & A10).
      cbn [put with_tids s_db u_mtimes u_stamps u_features u_version u_dirs u_msgs s_rev] in *.
      repeat (split; [assumption|]). exists gs. split; [exact A8|]. split; [|exact A10]. cbn [filter].
      unfold missing at 1. cbn [fst]. rewrite Ef. exact A9.
    + destruct (add_term thread_prefix tid (tadd ghost_term [id_term compress id])) as [t|] eqn:Et; [|discriminate].
      cbv zeta in E. destruct (msg_sync _ _ _ _) as [g s1] eqn:Es.
      apply sync_shape in Es; [|exact HL]. cbn [put with_dirs s_db s_rev s_feat u_msgs u_dirs um_doc um_terms um_data] in Es.
      destruct Es as (Fr & Sr & Sd & G1 & G2 & G3 & Sm & G4 & G5). destruct Sr as (R1 & R2 & R3 & R4 & R5).
      cbn [with_dirs s_db u_mtimes u_stamps u_tids u_features u_version put] in R1, R2, R3, R4, R5.
      pose proof (sf_rev _ _ (ghosts_frame _ _ _ _ _ _ E)) as Rv. cbn [put s_rev] in Rv.
      apply IH in E; auto.
      2:{ cbn [put s_feat]. rewrite (sf_feat _ _ Fr). exact HL. }
      destruct E as (A1 & A2 & A3 & A4 & A5 & A6 & A7 & gs & A8 & A9 & A10 & A11).
      cbn [put with_tids s_db u_mtimes u_stamps u_features u_version u_dirs u_msgs s_rev] in *.
      rewrite Sd in *. cbn [dl next_id] in *.
      repeat (split; [solve [congruence|lia]|]).
      exists (g :: gs). split; [rewrite A8, Sm, <- app_assoc; reflexivity|].
      assert (Hfil : filter (missing (with_tids todo (s_db s1))) todo = filter (missing (s_db s)) todo).
      { apply filter_ext_in'. intros [id' tid'] Hin. unfold missing, find_message. cbn [fst with_tids u_msgs]. rewrite Sm.
        pose proof (find_app id' (u_msgs (s_db s)) (s_db s) g) as Fa. unfold find_message in Fa. cbn [with_msgs u_msgs] in Fa. rewrite Fa.
        destruct (find _ (u_msgs (s_db s))); [reflexivity|]. destruct (existsb _ (um_terms g)) eqn:Eg; [|reflexivity]. exfalso.
        rewrite G2 in Eg. apply (ghost_other id tid t id' Et) in Eg. apply Nin. rewrite <- Eg.
        apply in_map_iff. exists (id', tid'). auto. }
      assert (Bnd : forall p h, ghost compress (fst p) (snd p) h /\ (s_rev s1 < um_lastmod h <= s_rev s')%N /\ (next_id (u_dirs (s_db s)) + 1 <= um_doc h < next_id (u_dirs (s_db s')))%N ->
         ghost compress (fst p) (snd p) h /\ (s_rev s < um_lastmod h <= s_rev s')%N /\ (next_id (u_dirs (s_db s)) <= um_doc h < next_id (u_dirs (s_db s')))%N)
        by (intros p h (B1 & B2 & B3); split; [exact B1|]; lia).
      split.
      * cbn [filter]. unfold missing at 1. cbn [fst]. rewrite Ef. constructor.
        -- cbn [fst snd]. split; [split; [exact G3|]|].
           ++ intros y. rewrite G2. rewrite (ghost_terms id tid t Et y). reflexivity.
           ++ lia.
        -- rewrite <- Hfil. eapply Forall2_imp; [|exact A9]. exact Bnd.
      * assert (Fa : Forall (fun h => (s_rev s1 < um_lastmod h)%N /\ (next_id (u_dirs (s_db s)) + 1 <= um_doc h)%N) gs).
        { clear - A9. revert A9. generalize (filter (missing (with_tids todo (s_db s1))) todo). intros l H.
          induction H as [|p h l gs (B1 & B2 & B3) _ IH]; constructor; [lia|exact IH]. }
        cbn [map]. split; constructor; auto; rewrite Forall_map; (eapply Forall_impl; [|exact Fa]); cbn; intros h [B1 B2]; lia.
Qed.
End Ghosts.
