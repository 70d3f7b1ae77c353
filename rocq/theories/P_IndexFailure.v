(** C71: adding a message fails. *)
From Verif Require Import Bytes DocMap MsgId MailStore MailStoreSpec MailStoreProofs MailStoreProofs2 MailStoreProofs3 P_Threads IndexFailure.
From Coq Require Import Relations Permutation.
Local Open Scope N_scope.

(** Specification. *)
Definition placeholder (d : mdoc) : Prop := m_ghost d = true /\ m_files d = [] /\ m_tags d = [] /\ m_props d = [] /\ m_refs d = [] /\ m_replyto d = [].
(** Every document is still there with the same id, files, tags, properties and references, in
    one thread; the others are placeholders. *)
Definition kept (s s' : mdb) : Prop :=
  (forall k d, has s k d -> exists d', has s' k d' /\ exists t, d' = set_threads [t] d) /\
  (forall k d', has s' k d' -> (exists d, has s k d /\ exists t, d' = set_threads [t] d) \/ (last_doc s < k /\ placeholder d')).

Section P.
Variable compressed : bytes -> bytes.
Hypothesis compressed_short : forall s, (length (compressed s) <= 189)%nat.
Notation inv := (inv compressed).
Notation canon := (canon compressed).

Lemma kept_refl s : inv s -> kept s s.
Proof.
  intros Hi. assert (X : forall k d, has s k d -> exists t, d = set_threads [t] d).
  { intros k d H. destruct (i_thread _ s Hi k d H) as (t & E & _). exists t. symmetry. now apply set_threads_same. }
  split; [|left]; eauto.
Qed.
Lemma kept_trans a b c : last_doc a <= last_doc b -> kept a b -> kept b c -> kept a c.
Proof.
  intros Hl [A1 A2] [B1 B2]. split.
  - intros k d H. apply A1 in H as (d' & H & t & ->). apply B1 in H as (d'' & H & t' & ->). eexists. split; [exact H|]. exists t'. reflexivity.
  - intros k d H. apply B2 in H as [(d' & H & t & ->)|[H1 H2]]; [|right; split; [lia|exact H2]].
    apply A2 in H as [(d'' & H & t' & ->)|[H1 H2]]; [left; exists d''; split; [exact H|]; exists t; reflexivity|].
    right. split; [exact H1|]. exact H2.
Qed.
Lemma kept_docs s s' : docs s' = docs s -> inv s -> kept s s'.
Proof. intros E Hi. destruct (kept_refl s Hi) as [A B]. unfold kept, has in *. rewrite E. split; auto. Qed.

Lemma dget_part (f : mdoc -> mdoc) k : forall m n,
  dget k (map (fun kd => (fst kd, f (snd kd))) (firstn n m) ++ skipn n m) = dget k m \/
  dget k (map (fun kd => (fst kd, f (snd kd))) (firstn n m) ++ skipn n m) = option_map f (dget k m).
Proof.
  induction m as [|[j d] m IH]; intros n; [destruct n; auto|]. destruct n; [left; reflexivity|]. cbn. destruct (N.eqb k j); [right; reflexivity|apply IH].
Qed.
Lemma has_part n w l s k : (forall d, has s k d -> exists d', has (merge_part n w l s) k d' /\ (d' = d \/ d' = merge_doc w l d)) /\
  (forall d', has (merge_part n w l s) k d' -> exists d, has s k d /\ (d' = d \/ d' = merge_doc w l d)).
Proof.
  unfold has, merge_part. cbn [docs set_docs]. destruct (dget_part (merge_doc w l) k (docs s) n) as [E|E]; rewrite E; split; intros d H.
  - eauto.
  - eauto.
  - rewrite H. cbn. eauto.
  - destruct (dget k (docs s)) as [e|]; [|discriminate H]. cbn in H. injection H as <-. eauto.
Qed.
Lemma part_doc w l s k d d' : inv s -> has s k d -> d' = d \/ d' = merge_doc w l d -> exists u t, m_threads d = [u] /\ d' = set_threads [t] d /\ (t = u \/ t = swap w l u).
Proof.
  intros Hi H [->| ->]; destruct (i_thread _ s Hi k d H) as (u & E & _); exists u.
  - exists u. split; [exact E|]. split; [symmetry; now apply set_threads_same|now left].
  - exists (swap w l u). split; [exact E|]. split; [|now right]. rewrite (merge_doc_eq w l d u E), E. reflexivity.
Qed.
Lemma kept_part n w l s : inv s -> kept s (merge_part n w l s).
Proof.
  intros Hi. split; intros k d H.
  - destruct (has_part n w l s k) as [P _]. destruct (P d H) as (d' & H' & D). destruct (part_doc w l s k d d' Hi H D) as (u & t & _ & E & _). eauto.
  - destruct (has_part n w l s k) as [_ P]. destruct (P d H) as (d' & H' & D). destruct (part_doc w l s k d' d Hi H' D) as (u & t & _ & E & _). left; eauto.
Qed.

Section Sound.
Variable R : bytes -> bytes -> Prop.
Hypothesis Rrefl : forall a, R a a.
Hypothesis Rsym : forall a b, R a b -> R b a.
Hypothesis Rtrans : forall a b c, R a b -> R b c -> R a c.
Lemma sound_part self n w l s : inv s -> sound R s -> all_in R self w s -> all_in R self l s -> sound R (merge_part n w l s).
Proof.
  intros Hi Hs Hw Hl.
  assert (P : forall k d t, has (merge_part n w l s) k d -> m_threads d = [t] -> exists e u, has s k e /\ m_id d = m_id e /\ m_threads e = [u] /\ (t = u \/ t = swap w l u)).
  { intros k d t H T. destruct (has_part n w l s k) as [_ P]. destruct (P d H) as (e & H' & D). destruct (part_doc w l s k e d Hi H' D) as (u & t' & U & -> & X).
    cbn in T. injection T as <-. exists e, u. auto. }
  intros k d k' d' t H H' T T'. destruct (P k d t H T) as (e & u & He & I1 & U & X), (P k' d' t H' T') as (e' & u' & He' & I1' & U' & X'). rewrite I1, I1'.
  destruct (N.eq_dec t w) as [->|Hne].
  - assert (Q : forall j x v, has s j x -> m_threads x = [v] -> w = v \/ w = swap w l v -> R self (m_id x)).
    { intros j x v Hx Hv Y. unfold swap in Y. destruct (N.eqb_spec v l) as [->|]; [now apply (Hl j x)|]. assert (v = w) as -> by (destruct Y; congruence). now apply (Hw j x). }
    apply (Rtrans _ self); [apply Rsym|]; eapply Q; eauto.
  - unfold swap in X, X'. destruct (N.eqb_spec u l), (N.eqb_spec u' l); destruct X, X'; try congruence; subst; now apply (Hs k e k' e' _ He He' U U').
Qed.

Definition good (s0 s : mdb) : Prop := kept s0 s /\ sound R s.
Lemma resolve_states_docs r s x : In x (resolve_states compressed r s) -> docs x = docs s.
Proof.
  unfold resolve_states, create_for_message_id. destruct (find_message compressed r s) as [[k d]|]; [intros []|]. cbn. intros [<- |[<- |[]]]; reflexivity.
Qed.
Lemma sound_docs s s' : docs s' = docs s -> sound R s -> sound R s'.
Proof. intros E H. unfold sound, has in *. rewrite E. exact H. Qed.

Lemma link_states_good self keys : forall tid s0 s, inv s -> sound R s -> last_doc s0 <= last_doc s -> kept s0 s ->
  (forall r, In r keys -> R self (canon r)) -> match tid with Some t => t <= last_thread s /\ all_in R self t s | None => True end ->
  forall x, In x (link_states compressed keys tid s) -> good s0 x.
Proof.
  induction keys as [|r keys IH]; intros tid s0 s Hi Hs Hl Hk Hr Ht x Hx; cbn [link_states] in Hx; (destruct Hx as [<- |Hx]; [now split|]).
  { destruct tid; [destruct Hx|]. destruct Hx as [<- |[]]. split; [|apply (sound_docs s); [reflexivity|exact Hs]].
    apply (kept_trans s0 s); [exact Hl|exact Hk|]. apply kept_docs; [reflexivity|exact Hi]. }
  apply in_app_or in Hx as [Hx|Hx].
  { apply resolve_states_docs in Hx. split; [|now apply (sound_docs s)]. apply (kept_trans s0 s); [exact Hl|exact Hk|]. now apply kept_docs. }
  destruct (resolve_spec compressed r s Hi) as (pt & s1 & Er & D). rewrite Er in Hx.
  assert (X : inv s1 /\ sound R s1 /\ all_in R self pt s1 /\ (match tid with Some t => all_in R self t s1 | None => True end) /\ kept s s1 /\ last_doc s <= last_doc s1 /\ last_thread s <= last_thread s1 /\ pt <= last_thread s1).
  { destruct D as [[-> (k & d & H & Ei & T)]|(Hn & -> & ->)].
    - split; [exact Hi|]. split; [exact Hs|]. split; [|split; [|split; [|split; [|split]]]].
      + intros j e He Te. apply (Rtrans _ (canon r)); [apply Hr; now left|]. rewrite <- Ei. now apply (Hs k d j e pt).
      + destruct tid; [apply Ht|exact I].
      + now apply kept_refl.
      + lia.
      + lia.
      + destruct (i_thread _ s Hi k d H) as (t & E & L). rewrite T in E. now injection E as ->.
    - destruct (sound_new_ghost compressed R Rrefl r s Hi Hs Hn) as (A & B & C). split; [now apply inv_new_ghost|]. split; [exact A|].
      split; [intros j e He Te; apply (Rtrans _ (canon r)); [apply Hr; now left|]; now apply (B j e)|].
      split; [destruct tid; [|exact I]; apply C; apply Ht|]. cbn [last_doc last_thread]. split; [|lia].
      assert (N : forall j e, has {| docs := dins (last_doc s + 1) (initialize_ghost (last_thread s + 1) (blank_doc (canon r))) (docs s); last_doc := last_doc s + 1; last_thread := last_thread s + 1 |} j e <-> (j = last_doc s + 1 /\ e = initialize_ghost (last_thread s + 1) (blank_doc (canon r))) \/ has s j e)
        by (apply has_new; [apply Hi|apply Hi|reflexivity]).
      destruct (kept_refl s Hi) as [K1 K2]. split.
      + intros k d H. destruct (K1 k d H) as (d' & H' & Y). exists d'. split; [apply N; now right|exact Y].
      + intros k d H. apply N in H as [[-> ->]|H]; [right; split; [lia|repeat split]|]. destruct (K2 k d H) as [Y|Y]; auto. }
  destruct X as (I1 & S1 & A1 & A2 & K1 & L1 & L2 & L3).
  assert (K0 : kept s0 s1) by (apply (kept_trans s0 s); assumption).
  destruct tid as [t|].
  - destruct Ht as [Ht1 Ht2]. destruct (N.eqb_spec t pt) as [->|Hne].
    + apply (IH (Some pt) s0 s1); try assumption; [lia|intros r' Y; apply Hr; now right|split; assumption].
    + apply in_app_or in Hx as [Hx|Hx].
      * apply in_map_iff in Hx as (n & <- & _). split; [|now apply (sound_part self)]. apply (kept_trans s0 s1); [lia|exact K0|now apply kept_part].
      * destruct (sound_merge compressed R Rsym Rtrans self t pt s1 I1 S1 A2 A1) as [S2 A3].
        apply (IH (Some t) s0 (merge_threads t pt s1)); try assumption.
        -- apply inv_merge; [exact I1|lia].
        -- cbn. lia.
        -- apply (kept_trans s0 s1); [lia|exact K0|].
           assert (E : merge_threads t pt s1 = merge_part (length (docs s1)) t pt s1).
           { unfold merge_threads, merge_part. rewrite firstn_all, skipn_all. now rewrite app_nil_r. }
           rewrite E. now apply kept_part.
        -- intros r' Y. apply Hr. now right.
        -- split; [cbn; lia|exact A3].
  - apply (IH (Some pt) s0 s1); try assumption; [lia|intros r' Y; apply Hr; now right|split; assumption].
Qed.
End Sound.

Lemma link_states_last keys : forall d tid s d' tid' s', link_keys compressed keys d tid s = Some (d', tid', s') ->
  last (link_states compressed keys tid s) empty_db = match tid' with Some _ => s' | None => snd (generate_thread_id s') end.
Proof.
  assert (NE : forall keys tid s, link_states compressed keys tid s <> []) by (intros [|? ?] ? ?; discriminate).
  assert (LA : forall (a b : list mdb), b <> [] -> last (a ++ b) empty_db = last b empty_db).
  { intros a b Hb. induction a as [|x a IH]; [reflexivity|]. cbn [app]. destruct (a ++ b) eqn:E; [destruct a; [contradiction|discriminate E]|]. exact IH. }
  induction keys as [|r keys IH]; intros d tid s d' tid' s' E; cbn [link_keys] in E.
  - injection E as <- <- <-. destruct tid; reflexivity.
  - cbn [link_states]. destruct (resolve compressed r s) as [[pt s1]|]; [|discriminate E].
    destruct tid as [t|].
    + destruct (N.eqb t pt); (rewrite <- (IH _ _ _ _ _ _ E)); [rewrite app_comm_cons; now apply LA|]. rewrite app_comm_cons, app_assoc. now apply LA.
    + rewrite <- (IH _ _ _ _ _ _ E). rewrite app_comm_cons. now apply LA.
Qed.
End P.

(** Wherever adding a file fails, in any state of the database that histories of calls lead to:
    all messages are still there, with the same files, tags, properties and references, and no
    message was added; messages share a thread only if they are connected through
    references (the file's included). *)
Theorem C71_failure_keeps_mail :
  forall compressed h s name f keys s', short_hash compressed -> Forall (legal compressed) h -> mrun compressed h empty_db = Some s ->
  legal compressed (OAdd name f keys false) -> In s' (index_states compressed f keys s) ->
  kept s s' /\ (forall id, is_mail s' id <-> is_mail s id) /\
  forall a b, same_thread s' a b -> connected compressed (h ++ [OAdd name f keys false]) a b.
Proof.
  intros c h s name f keys s' Hc Hl E Lg Hx.
  destruct (mrun_inv c Hc h empty_db (inv_empty c) Hl) as (s2 & E' & Hi & _). rewrite E in E'. injection E' as <-.
  set (R := connected c (h ++ [OAdd name f keys false])).
  assert (Rr : forall a, R a a) by (intros; apply rst_refl). assert (Rs : forall a b, R a b -> R b a) by (intros; now apply rst_sym). assert (Rt : forall a b d, R a b -> R b d -> R a d) by (intros a b d; apply rst_trans).
  assert (S0 : sound R s).
  { apply (mrun_sound c Hc R Rr Rs Rt) with (h := h) (s := empty_db); trivial; [apply inv_empty|intros k0 d0 k1 d1 t0 X; discriminate|].
    intros n g ks ok r H1 H2. apply rst_step. exists n, g, ks, ok, r. repeat split; trivial. apply in_or_app. now left. }
  assert (Hr : forall r, In r keys -> R (canon c (f_id f)) (canon c r)).
  { intros r H. apply rst_step. exists name, f, keys, false, r. repeat split; trivial. apply in_or_app. right. now left. }
  assert (G : good R s s').
  { unfold index_states, create_for_message_id in Hx. pose proof (find_message_spec c (f_id f) s (i_sorted _ s Hi)) as F.
    destruct (find_message c (f_id f) s) as [[k d]|].
    - destruct F as [F1 F2]. destruct (i_thread _ s Hi k d F1) as (t & T & L). destruct Hx as [<- |Hx]; [split; [now apply (kept_refl c)|exact S0]|].
      apply (link_states_good c Hc R Rr Rs Rt (canon c (f_id f)) keys (get_thread_id d) s s); trivial; [lia|now apply (kept_refl c)|].
      unfold get_thread_id. rewrite T. split; [exact L|]. intros j e H Te. rewrite <- F2. now apply (S0 k d j e t).
    - destruct Hx as [<- |Hx]; [split; [now apply (kept_refl c)|exact S0]|]. set (s0 := {| docs := docs s; last_doc := last_doc s + 1; last_thread := last_thread s |}) in Hx.
      apply (link_states_good c Hc R Rr Rs Rt (canon c (f_id f)) keys None s s0); trivial; [apply inv_bump; [exact Hi|lia|lia]|cbn; lia|now apply (kept_docs c)]. }
  destruct G as [[K1 K2] S1]. split; [now split|]. split.
  - intros id. split; intros (k & d & H & I1 & I2).
    + destruct (K2 k d H) as [(e & He & t & ->)|(_ & P & _)]; [exists k, e; auto|congruence].
    + destruct (K1 k d H) as (e & He & t & ->). exists k, (set_threads [t] d). auto.
  - intros a b (t & (k & d & H & <- & T) & (k' & d' & H' & <- & T')).
    assert (ONE : forall j e, has s' j e -> In t (m_threads e) -> m_threads e = [t] \/ False).
    { intros j e He Te. left. destruct (K2 j e He) as [(e0 & _ & u & ->)|(Hj & P)]; [cbn in *; destruct Te as [->|[]]; reflexivity|].
      (* a placeholder: it has one thread *)
      revert He Te. clear - Hi Hx Hc Hj Hr. intros He Te.
      assert (W : forall keys tid s, inv c s -> match tid with Some t => t <= last_thread s | None => True end -> forall x, In x (link_states c keys tid s) -> forall j e, has x j e -> exists u, m_threads e = [u]).
      { clear - Hc. induction keys as [|r keys IH]; intros tid s Hi Ht x Hx j e He; cbn [link_states] in Hx; (destruct Hx as [<- |Hx]; [destruct (i_thread _ s Hi j e He) as (u & U & _); eauto|]).
        { destruct tid; [destruct Hx|]. destruct Hx as [<- |[]]. destruct (i_thread _ s Hi j e He) as (u & U & _); eauto. }
        apply in_app_or in Hx as [Hx|Hx].
        { apply resolve_states_docs in Hx. unfold has in He. rewrite Hx in He. destruct (i_thread _ s Hi j e He) as (u & U & _); eauto. }
        destruct (link_one_spec c Hc r tid s Hi Ht) as (t1 & s2 & phi & E1 & I2 & _ & _ & _ & Lt & Hs0 & _).
        destruct (resolve_spec c r s Hi) as (pt & s1 & Er & D). unfold link_one in E1. rewrite Er in Hx, E1.
        assert (I1 : inv c s1) by (destruct D as [[-> _]|(Hn & -> & ->)]; [exact Hi|now apply inv_new_ghost]).
        destruct tid as [t|].
        - destruct (N.eqb t pt).
          + injection E1 as <- <-. apply (IH (Some t) s1 I2 Lt x Hx j e He).
          + injection E1 as <- <-. apply in_app_or in Hx as [Hx|Hx].
            * apply in_map_iff in Hx as (n & <- & _). destruct (has_part n t pt s1 j) as [_ Q]. destruct (Q e He) as (e0 & He0 & Y).
              destruct (part_doc c t pt s1 j e0 e I1 He0 Y) as (u & u' & _ & -> & _). exists u'. reflexivity.
            * apply (IH (Some t) _ I2 Lt x Hx j e He).
        - injection E1 as <- <-. apply (IH (Some pt) s1 I2 Lt x Hx j e He). }
      assert (exists u, m_threads e = [u]) as (u & U).
      { unfold index_states, create_for_message_id in Hx. pose proof (find_message_spec c (f_id f) s (i_sorted _ s Hi)) as F. destruct (find_message c (f_id f) s) as [[k0 d0]|].
        - destruct F as [F1 F2]. destruct (i_thread _ s Hi k0 d0 F1) as (t0 & T0 & L0). destruct Hx as [<- |Hx]; [destruct (i_thread _ s Hi j e He) as (u & U & _); eauto|].
          apply (W keys (get_thread_id d0) s Hi) with (x := s') (j := j); trivial. unfold get_thread_id. now rewrite T0.
        - destruct Hx as [<- |Hx]; [destruct (i_thread _ s Hi j e He) as (u & U & _); eauto|].
          apply (W keys None {| docs := docs s; last_doc := last_doc s + 1; last_thread := last_thread s |}) with (x := s') (j := j); trivial. apply inv_bump; [exact Hi|lia|lia]. }
      rewrite U in Te |- *. destruct Te as [->|[]]. reflexivity. }
    destruct (ONE k d H T) as [T1|[]], (ONE k' d' H' T') as [T2|[]]. exact (S1 k d k' d' t H H' T1 T2).
Qed.
Print Assumptions C71_failure_keeps_mail.

(** The last of these states is what a call returns with when the file's text cannot be indexed. *)
Theorem C71_index_error_state :
  forall compressed name f keys s st s', index_file compressed name f keys false s = Some (st, s') ->
  st = M_index_error /\ s' = last (index_states compressed f keys s) empty_db.
Proof.
  intros c name f keys s st s' E. unfold index_file, index_states in *. destruct (create_for_message_id c (f_id f) s) as [[[k d] found] s0].
  match type of E with match link_message c keys f found ?x s0 with _ => _ end = _ => set (d1 := x) in E end.
  assert (T : get_thread_id d1 = get_thread_id d) by (subst d1; destruct (negb found || found && m_ghost d); reflexivity).
  destruct (link_message c keys f found d1 s0) as [[d2 s2]|] eqn:L; [|discriminate E]. injection E as <- <-. split; [reflexivity|].
  unfold link_message in L. rewrite T in L. set (tid := if found then get_thread_id d else None) in *.
  destruct (found && match tid with None => true | _ => false end); [discriminate L|].
  unfold link_to_parents in L. destruct (link_keys c keys (add_replyto (snd (file_parents (m_id d1) f)) d1) tid s0) as [[[d3 tid3] s3]|] eqn:K; [|discriminate L].
  pose proof (link_states_last c keys _ _ _ _ _ _ K) as X.
  assert (Y : last (s :: link_states c keys tid s0) empty_db = last (link_states c keys tid s0) empty_db) by (destruct keys; reflexivity).
  rewrite Y, X. destruct tid3; [now injection L as _ ->|]. cbn in L |- *. now injection L as _ <-.
Qed.
Print Assumptions C71_index_error_state.

(** x@x; and b@x, a reply to a@x; then a reply to both x@x and a@x. *)
Definition fl (id refs : string) : mfile := {| f_id := lit id; f_references := lit refs; f_in_reply_to := []; f_auto_tags := [] |}.
Definition fl_hash (s : bytes) : bytes := firstn 40 s.
Definition fl_history : list mop :=
  [OAdd (lit "1") (fl "x@x" "") [] true; OAdd (lit "2") (fl "a@x" "") [] true; OAdd (lit "3") (fl "b@x" "<a@x>") [lit "a@x"] true].
Definition fl_file : mfile := fl "c@x" "<x@x> <a@x>".
Definition fl_keys : list bytes := [lit "x@x"; lit "a@x"].
Definition fl_db : mdb := match mrun fl_hash fl_history empty_db with Some s => s | None => empty_db end.
(** The failure comes when a@x was written to the thread of x@x, and b@x was not. *)
Definition fl_failed : mdb := merge_part 2 1 2 {| docs := docs fl_db; last_doc := 4; last_thread := 2 |}.

Lemma fl_legal : short_hash fl_hash /\ Forall (legal fl_hash) fl_history /\ legal fl_hash (OAdd (lit "4") fl_file fl_keys false) /\
  legal fl_hash (OAdd (lit "4") fl_file fl_keys true) /\ mrun fl_hash fl_history empty_db = Some fl_db.
Proof.
  split; [intros s; unfold fl_hash; pose proof (firstn_le_length 40 s); pose proof (firstn_length 40 s); lia|].
  split; [repeat constructor; cbn; try (apply Permutation_refl); try (intros X; exfalso; repeat apply le_S_n in X; now inversion X)|].
  split; [|split; [|vm_compute; reflexivity]].
  all: split; [vm_compute; apply Permutation_refl|repeat constructor; intros X; exfalso; cbn in X; repeat apply le_S_n in X; now inversion X].
Qed.
Lemma fl_reached : In fl_failed (index_states fl_hash fl_file fl_keys fl_db).
Proof.
  assert (L : nth 5 (index_states fl_hash fl_file fl_keys fl_db) empty_db = fl_failed) by (vm_compute; reflexivity).
  rewrite <- L. apply nth_In. vm_compute. repeat constructor.
Qed.

(** The failed file is not in the database, yet its references joined threads. *)
Theorem C71_failure_leaves_threads_refuted :
  ~ forall compressed h s name f keys s', short_hash compressed -> Forall (legal compressed) h -> mrun compressed h empty_db = Some s ->
    legal compressed (OAdd name f keys false) -> In s' (index_states compressed f keys s) ->
    forall a b, same_thread s' a b -> connected compressed h a b.
Proof.
  intros H. destruct fl_legal as (A & B & C & _ & E).
  assert (X : same_thread fl_failed (lit "x@x") (lit "a@x")).
  { exists 1. split; [exists 1|exists 2]; eexists; (split; [vm_compute; reflexivity|split; [reflexivity|left; reflexivity]]). }
  specialize (H fl_hash fl_history fl_db (lit "4") fl_file fl_keys fl_failed A B E C fl_reached _ _ X).
  assert (Y : forall a b, connected fl_hash fl_history a b -> (a = lit "x@x" <-> b = lit "x@x")).
  { intros a b Q. induction Q as [a b (n & f & ks & ok & r & I1 & -> & I2 & ->)|a|a b Q IH|a b c Q1 IH1 Q2 IH2].
    - destruct I1 as [I1|[I1|[I1|[]]]]; injection I1 as <- <- <- <-; try (destruct I2; fail). destruct I2 as [<- |[]]. split; intros Q; discriminate Q.
    - reflexivity.
    - now symmetry.
    - now rewrite IH1. }
  apply Y in H. destruct H as [H _]. specialize (H eq_refl). discriminate H.
Qed.
Print Assumptions C71_failure_leaves_threads_refuted.

(** A failure while threads are merged splits a thread. *)
Theorem C71_failure_splits_thread_refuted :
  ~ forall compressed h s name f keys s', short_hash compressed -> Forall (legal compressed) h -> mrun compressed h empty_db = Some s ->
    legal compressed (OAdd name f keys false) -> In s' (index_states compressed f keys s) ->
    forall a b, same_thread s a b -> same_thread s' a b.
Proof.
  intros H. destruct fl_legal as (A & B & C & _ & E).
  assert (X : same_thread fl_db (lit "a@x") (lit "b@x")).
  { exists 2. split; [exists 2|exists 3]; eexists; (split; [vm_compute; reflexivity|split; [reflexivity|left; reflexivity]]). }
  destruct (H fl_hash fl_history fl_db (lit "4") fl_file fl_keys fl_failed A B E C fl_reached _ _ X) as (t & (k & d & H1 & I1 & T1) & (k' & d' & H2 & I2 & T2)).
  unfold has in H1, H2. apply dget_In in H1, H2. cbn in H1, H2.
  repeat (destruct H1 as [H1|H1]; [injection H1 as <- <-; cbn in I1, T1; try discriminate I1|]); [|destruct H1].
  repeat (destruct H2 as [H2|H2]; [injection H2 as <- <-; cbn in I2, T2; try discriminate I2|]); [|destruct H2].
  destruct T1 as [<- |[]], T2 as [T2|[]]. discriminate T2.
Qed.
Print Assumptions C71_failure_splits_thread_refuted.

(** Adding the file again, with success, does not mend it: b@x, a reply to a@x, stays in
    a thread of its own. *)
Theorem C71_retry_mends_threads_refuted :
  ~ forall compressed h s name f keys s' st s'', short_hash compressed -> Forall (legal compressed) h -> mrun compressed h empty_db = Some s ->
    legal compressed (OAdd name f keys true) -> In s' (index_states compressed f keys s) ->
    index_file compressed name f keys true s' = Some (st, s'') ->
    forall a b, same_thread s a b -> same_thread s'' a b.
Proof.
  intros H. destruct fl_legal as (A & B & _ & C & E).
  assert (X : same_thread fl_db (lit "a@x") (lit "b@x")).
  { exists 2. split; [exists 2|exists 3]; eexists; (split; [vm_compute; reflexivity|split; [reflexivity|left; reflexivity]]). }
  assert (R : exists s'', index_file fl_hash (lit "4") fl_file fl_keys true fl_failed = Some (M_success, s'') /\ firstn 3 (docs s'') = docs fl_failed /\ map (fun kd => m_id (snd kd)) (skipn 3 (docs s'')) = [lit "c@x"])
    by (eexists; split; [vm_compute; reflexivity|split; vm_compute; reflexivity]).
  destruct R as (s'' & R & D & D').
  destruct (H fl_hash fl_history fl_db (lit "4") fl_file fl_keys fl_failed M_success s'' A B E C fl_reached R _ _ X) as (t & (k & d & H1 & I1 & T1) & (k' & d' & H2 & I2 & T2)).
  assert (P : forall k d, has s'' k d -> In (k, d) (docs fl_failed) \/ m_id d = lit "c@x").
  { intros j e He. unfold has in He. apply dget_In in He. rewrite <- (firstn_skipn 3 (docs s'')) in He. apply in_app_or in He as [He|He]; [left; now rewrite <- D|right].
    apply (in_map (fun kd => m_id (snd kd))) in He. rewrite D' in He. destruct He as [He|[]]. now rewrite He. }
  apply P in H1 as [H1|H1]; [|rewrite H1 in I1; discriminate I1]. apply P in H2 as [H2|H2]; [|rewrite H2 in I2; discriminate I2].
  cbn in H1, H2.
  repeat (destruct H1 as [H1|H1]; [injection H1 as <- <-; cbn in I1, T1; try discriminate I1|]); [|destruct H1].
  repeat (destruct H2 as [H2|H2]; [injection H2 as <- <-; cbn in I2, T2; try discriminate I2|]); [|destruct H2].
  destruct T1 as [<- |[]], T2 as [T2|[]]. discriminate T2.
Qed.
Print Assumptions C71_retry_mends_threads_refuted.

(** The hypotheses are met: the first file is in the middle of being added, and a
    placeholder was written. *)
Example C71_example : exists s', In s' (index_states fl_hash (fl "d@x" "<e@x> <b@x>") [lit "e@x"; lit "b@x"] fl_db) /\
  legal fl_hash (OAdd (lit "5") (fl "d@x" "<e@x> <b@x>") [lit "e@x"; lit "b@x"] false) /\
  thread_of s' (lit "e@x") 3 /\ ~ is_mail s' (lit "e@x") /\ thread_of s' (lit "b@x") 3.
Proof.
  exists (last (index_states fl_hash (fl "d@x" "<e@x> <b@x>") [lit "e@x"; lit "b@x"] fl_db) empty_db).
  set (s' := last _ _). assert (D : map (fun kd => (fst kd, m_id (snd kd), m_ghost (snd kd), m_threads (snd kd))) (docs s') =
     [(1, lit "x@x", false, [1]); (2, lit "a@x", false, [3]); (3, lit "b@x", false, [3]); (5, lit "e@x", true, [3])]) by (vm_compute; reflexivity).
  split; [|split; [|split; [|split]]].
  - apply (nth_error_In _ (length (index_states fl_hash (fl "d@x" "<e@x> <b@x>") [lit "e@x"; lit "b@x"] fl_db) - 1)). vm_compute. reflexivity.
  - split; [vm_compute; apply Permutation_refl|repeat constructor; intros X; exfalso; cbn in X; repeat apply le_S_n in X; now inversion X].
  - exists 5; eexists; (split; [vm_compute; reflexivity|split; [reflexivity|left; reflexivity]]).
  - intros (k & d & H & I1 & G). unfold has in H. apply dget_In in H. apply (in_map (fun kd => (fst kd, m_id (snd kd), m_ghost (snd kd), m_threads (snd kd)))) in H. rewrite D in H. cbn [fst snd] in H. rewrite I1, G in H.
    repeat (destruct H as [H|H]; [discriminate H|]). destruct H.
  - exists 3; eexists; (split; [vm_compute; reflexivity|split; [reflexivity|left; reflexivity]]).
Qed.
