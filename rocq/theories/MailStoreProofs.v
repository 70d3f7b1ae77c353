From Verif Require Import Bytes DocMap MsgId MsgIdProofs MailStore MailStoreSpec.
From Coq Require Import Relations Permutation.
Local Open Scope N_scope.

Section P.
Variable compressed : bytes -> bytes.
Hypothesis compressed_short : forall s, (length (compressed s) <= 189)%nat.
Notation canon := (canon compressed).

Lemma canon_short id : (length (canon id) <= 189)%nat.
Proof.
  unfold MailStore.canon, NOTMUCH_MESSAGE_ID_MAX. destruct (Nat.ltb_spec 189 (length id)); [apply compressed_short|lia].
Qed.
Lemma canon_id id : (length id <= 189)%nat -> canon id = id.
Proof. intros H. unfold MailStore.canon, NOTMUCH_MESSAGE_ID_MAX. destruct (Nat.ltb_spec 189 (length id)); [lia|reflexivity]. Qed.
Lemma canon_canon id : canon (canon id) = canon id.
Proof. apply canon_id, canon_short. Qed.

(** The invariant. *)
Record inv (s : mdb) : Prop := {
  i_sorted : ksorted (docs s);
  i_last : forall k d, has s k d -> k <= last_doc s;
  i_unique : forall k d k' d', has s k d -> has s k' d' -> m_id d = m_id d' -> k = k';
  i_thread : forall k d, has s k d -> exists t, m_threads d = [t] /\ t <= last_thread s;
  i_canon : forall k d, has s k d -> canon (m_id d) = m_id d;
  i_files : forall k d, has s k d -> if m_ghost d then m_files d = [] /\ m_refs d = [] else m_files d <> [];
  i_nodup : forall k d, has s k d -> NoDup (m_files d);
  i_refs : forall k d r, has s k d -> In r (m_refs d) -> exists k' d', has s k' d' /\ m_id d' = canon r /\ m_threads d' = m_threads d }.

Lemma inv_empty : inv empty_db.
Proof. constructor; try discriminate; try exact I; intros; discriminate. Qed.

Lemma find_spec {A} (p : A -> bool) l : match find p l with Some x => In x l /\ p x = true | None => forall x, In x l -> p x = false end.
Proof.
  induction l as [|a l IH]; cbn; [tauto|]. destruct (p a) eqn:E; [auto|]. destruct (find p l).
  - destruct IH; auto.
  - intros x [->|H]; auto.
Qed.
Lemma find_message_spec id s : ksorted (docs s) ->
  match find_message compressed id s with
  | Some (k, d) => has s k d /\ m_id d = canon id
  | None => forall k d, has s k d -> m_id d <> canon id
  end.
Proof.
  intros Hs. unfold find_message. pose proof (find_spec (fun kd => bseq (m_id (snd kd)) (canon id)) (docs s)) as F.
  destruct (find _ (docs s)) as [[k d]|].
  - destruct F as [F1 F2]. cbn in F2. apply bseq_eq in F2. split; [|exact F2]. now apply In_dget_sorted.
  - intros k d H E. apply dget_In in H. apply F in H. cbn in H. rewrite E, bseq_refl in H. discriminate.
Qed.

(** Extensional description of the effect of the linking loop on stored documents. *)
Definition moved (phi : N -> N) (s s' : mdb) : Prop :=
  forall k d, has s k d -> has s' k (set_threads (map phi (m_threads d)) d).
Lemma set_threads_same d t : m_threads d = t -> set_threads t d = d.
Proof. destruct d; cbn. now intros ->. Qed.
Lemma map_id_threads d : set_threads (map (fun t => t) (m_threads d)) d = d.
Proof. rewrite map_id. now apply set_threads_same. Qed.

Lemma resolve_spec id s : inv s ->
  exists t s', resolve compressed id s = Some (t, s') /\
  ((s' = s /\ exists k d, has s k d /\ m_id d = canon id /\ m_threads d = [t]) \/
   ((forall k d, has s k d -> m_id d <> canon id) /\ t = last_thread s + 1 /\
    s' = {| docs := dins (last_doc s + 1) (initialize_ghost t (blank_doc (canon id))) (docs s);
            last_doc := last_doc s + 1; last_thread := last_thread s + 1 |})).
Proof.
  intros Hi. unfold resolve, create_for_message_id. pose proof (find_message_spec id s (i_sorted s Hi)) as F.
  destruct (find_message compressed id s) as [[k d]|].
  - destruct F as [F1 F2]. destruct (i_thread s Hi k d F1) as (t & Et & _). unfold get_thread_id. rewrite Et.
    exists t, s. split; [reflexivity|]. left. split; [reflexivity|]. exists k, d. auto.
  - cbn. eexists _, _. split; [reflexivity|]. right. auto.
Qed.

Lemma has_new s k g n t : ksorted (docs s) -> (forall k d, has s k d -> k <= last_doc s) -> k = last_doc s + 1 ->
  forall j e, has {| docs := dins k g (docs s); last_doc := n; last_thread := t |} j e <-> (j = k /\ e = g) \/ has s j e.
Proof.
  intros Hs Hl -> j e. unfold has. cbn. rewrite dget_dins. destruct (N.eqb_spec j (last_doc s + 1)) as [->|Hne].
  - split; [intros [= ->]; auto|]. intros [[_ ->]|H]; [reflexivity|]. apply Hl in H. lia.
  - split; [auto|]. intros [[-> _]|H]; [congruence|exact H].
Qed.

Lemma inv_new_ghost id s : inv s -> (forall k d, has s k d -> m_id d <> canon id) ->
  inv {| docs := dins (last_doc s + 1) (initialize_ghost (last_thread s + 1) (blank_doc (canon id))) (docs s);
         last_doc := last_doc s + 1; last_thread := last_thread s + 1 |}.
Proof.
  intros Hi Hn. set (g := initialize_ghost _ _).
  assert (HH : forall j e, has {| docs := dins (last_doc s + 1) g (docs s); last_doc := last_doc s + 1; last_thread := last_thread s + 1 |} j e <->
                (j = last_doc s + 1 /\ e = g) \/ has s j e).
  { apply has_new; [apply Hi|apply Hi|reflexivity]. }
  constructor; cbn [last_doc last_thread].
  - apply dins_sorted, Hi.
  - intros k d H. apply HH in H as [[-> _]|H]; [lia|]. apply (i_last s Hi) in H. lia.
  - intros k d k' d' H H' E. apply HH in H as [[-> ->]|H], H' as [[-> ->]|H'].
    + reflexivity.
    + exfalso. now apply (Hn k' d' H').
    + exfalso. now apply (Hn k d H).
    + now apply (i_unique s Hi k d k' d').
  - intros k d H. apply HH in H as [[-> ->]|H].
    + exists (last_thread s + 1). split; [reflexivity|lia].
    + destruct (i_thread s Hi k d H) as (t & E & L). exists t. split; [exact E|lia].
  - intros k d H. apply HH in H as [[-> ->]|H]; [apply canon_canon|now apply (i_canon s Hi k)].
  - intros k d H. apply HH in H as [[-> ->]|H]; [split; reflexivity|now apply (i_files s Hi k)].
  - intros k d H. apply HH in H as [[-> ->]|H]; [constructor|now apply (i_nodup s Hi k)].
  - intros k d r H Hr. apply HH in H as [[-> ->]|H]; [destruct Hr|].
    destruct (i_refs s Hi k d r H Hr) as (k' & d' & H' & E). exists k', d'. split; [apply HH; auto|exact E].
Qed.

Definition swap (w l t : N) : N := if N.eqb t l then w else t.
Lemma merge_doc_eq w l d t : m_threads d = [t] -> merge_doc w l d = set_threads (map (swap w l) (m_threads d)) d.
Proof.
  intros E. unfold merge_doc, swap. rewrite E. cbn. rewrite N.eqb_sym. destruct (N.eqb_spec t l) as [->|].
  - reflexivity.
  - cbn. symmetry. now apply set_threads_same.
Qed.
Lemma dget_map (f : mdoc -> mdoc) k m : dget k (map (fun kd => (fst kd, f (snd kd))) m) = option_map f (dget k m).
Proof. induction m as [|[j w] m IH]; cbn; [reflexivity|]. destruct (N.eqb k j); [reflexivity|exact IH]. Qed.
Lemma map_sorted (f : mdoc -> mdoc) m : ksorted m -> ksorted (map (fun kd => (fst kd, f (snd kd))) m).
Proof.
  induction m as [|[j w] m IH]; cbn; [auto|]. intros [H1 H2]. split; [|auto]. intros i u. rewrite dget_map.
  destruct (dget i m) eqn:E; [|discriminate]. intros _. eapply H1; eauto.
Qed.
Lemma has_merge w l s k d' : has (merge_threads w l s) k d' <-> exists d, has s k d /\ d' = merge_doc w l d.
Proof.
  unfold has, merge_threads. cbn. rewrite dget_map. destruct (dget k (docs s)) as [d|]; cbn.
  - split; [intros [= <-]; eauto|]. intros (x & [= <-] & ->). reflexivity.
  - split; [discriminate|]. intros (x & H & _). discriminate.
Qed.
Lemma moved_merge w l s : inv s -> moved (swap w l) s (merge_threads w l s).
Proof.
  intros Hi k d H. apply has_merge. exists d. split; [exact H|]. destruct (i_thread s Hi k d H) as (t & E & _). symmetry. eapply merge_doc_eq; eauto.
Qed.
Lemma inv_merge w l s : inv s -> w <= last_thread s -> inv (merge_threads w l s).
Proof.
  intros Hi Hw.
  assert (HH : forall k d', has (merge_threads w l s) k d' <-> exists d, has s k d /\ d' = set_threads (map (swap w l) (m_threads d)) d).
  { intros k d'. rewrite has_merge. split; intros (d & H & ->); exists d; (split; [exact H|]);
    destruct (i_thread s Hi k d H) as (t & E & _); [eapply merge_doc_eq; eauto|symmetry; eapply merge_doc_eq; eauto]. }
  constructor; cbn [last_doc last_thread merge_threads set_docs].
  - apply map_sorted, Hi.
  - intros k d H. apply HH in H as (e & H & ->). now apply (i_last s Hi k e).
  - intros k d k' d' H H' E. apply HH in H as (e & H & ->), H' as (e' & H' & ->). now apply (i_unique s Hi k e k' e').
  - intros k d H. apply HH in H as (e & H & ->). destruct (i_thread s Hi k e H) as (t & E & L). cbn. rewrite E. cbn.
    exists (swap w l t). split; [reflexivity|]. unfold swap. destruct (N.eqb t l); lia.
  - intros k d H. apply HH in H as (e & H & ->). exact (i_canon s Hi k e H).
  - intros k d H. apply HH in H as (e & H & ->). exact (i_files s Hi k e H).
  - intros k d H. apply HH in H as (e & H & ->). exact (i_nodup s Hi k e H).
  - intros k d r H Hr. apply HH in H as (e & H & ->). destruct (i_refs s Hi k e r H Hr) as (k' & e' & H' & E1 & E2).
    exists k', (set_threads (map (swap w l) (m_threads e')) e'). split; [apply HH; eauto|]. cbn. split; [exact E1|]. now rewrite E2.
Qed.

(** The linking loop. *)
Definition fresh_in (keys : list bytes) (s s' : mdb) : Prop :=
  forall k d', has s' k d' -> (exists d, has s k d /\ exists t, d' = set_threads t d) \/
    (last_doc s < k /\ (forall k0 d0, has s k0 d0 -> m_id d0 <> m_id d') /\ exists r t, In r keys /\ d' = initialize_ghost t (blank_doc (canon r))).
(** Thread ids after a step: used before, newer than all before, or the chosen one. *)
Definition grows (tid : option N) (s s' : mdb) : Prop := last_doc s <= last_doc s' /\ last_thread s <= last_thread s' /\
  forall id t, thread_of s' id t -> (exists id', thread_of s id' t) \/ last_thread s < t \/ tid = Some t.

Lemma moved_same_thread phi s s' : moved phi s s' -> forall a b, same_thread s a b -> same_thread s' a b.
Proof.
  intros Hm a b (t & (k & d & H & E & T) & (k' & d' & H' & E' & T')). exists (phi t). split.
  - exists k, (set_threads (map phi (m_threads d)) d). split; [now apply Hm|]. split; [exact E|]. cbn. now apply in_map.
  - exists k', (set_threads (map phi (m_threads d')) d'). split; [now apply Hm|]. split; [exact E'|]. cbn. now apply in_map.
Qed.
Lemma moved_refl s : moved (fun t => t) s s.
Proof. intros k e H. now rewrite map_id_threads. Qed.
Lemma moved_trans f g s1 s2 s3 : moved f s1 s2 -> moved g s2 s3 -> moved (fun t => g (f t)) s1 s3.
Proof. intros H1 H2 k e H. apply H1, H2 in H. cbn in H. now rewrite map_map in H. Qed.
Lemma same_doc e : exists t, e = set_threads t e.
Proof. exists (m_threads e). symmetry. now apply set_threads_same. Qed.
Lemma fresh_refl keys s : fresh_in keys s s.
Proof. intros k e H. left. exists e. split; [exact H|apply same_doc]. Qed.
Lemma fresh_trans k1 k2 f s1 s2 s3 : inv s3 -> last_doc s1 <= last_doc s2 -> moved f s1 s2 ->
  fresh_in k1 s1 s2 -> fresh_in k2 s2 s3 -> fresh_in (k1 ++ k2) s1 s3.
Proof.
  intros Hi Hl Hm H1 H2 k e H. destruct (H2 k e H) as [(e2 & He2 & th & ->)|(Hk & Hn & r & t & Hr & ->)].
  - destruct (H1 k e2 He2) as [(e1 & He1 & th1 & ->)|(Hk & Hn & r & t & Hr & ->)].
    + left. exists e1. split; [exact He1|]. exists th. reflexivity.
    + right. split; [exact Hk|]. split; [exact Hn|]. destruct (i_thread s3 Hi k _ H) as (tt & Ett & _). cbn in Ett. subst th.
      exists r, tt. split; [apply in_or_app; auto|reflexivity].
  - right. split; [lia|]. split.
    + intros k0 d0 H0. apply Hm in H0. now apply Hn in H0.
    + exists r, t. split; [apply in_or_app; auto|reflexivity].
Qed.

(** One reference. *)
Definition link_one (r : bytes) (tid : option N) (s : mdb) : option (N * mdb) :=
  match resolve compressed r s with
  | None => None
  | Some (pt, s) => match tid with
                    | None => Some (pt, s)
                    | Some t => if N.eqb t pt then Some (t, s) else Some (t, merge_threads t pt s)
                    end
  end.
Lemma link_keys_cons r keys d tid s : link_keys compressed (r :: keys) d tid s =
  match link_one r tid s with
  | None => None
  | Some (t, s) => link_keys compressed keys (match tid with None => add_thread t (add_reference r d) | Some _ => add_reference r d end) (Some t) s
  end.
Proof.
  cbn. unfold link_one. destruct (resolve compressed r s) as [[pt s1]|]; [|reflexivity]. destruct tid as [t|]; [|reflexivity].
  destruct (N.eqb t pt); reflexivity.
Qed.
Lemma link_one_spec r tid s : inv s -> match tid with Some t => t <= last_thread s | None => True end ->
  exists t s' phi, link_one r tid s = Some (t, s') /\ inv s' /\ moved phi s s' /\ fresh_in [r] s s' /\ grows tid s s' /\
    t <= last_thread s' /\ (forall t0, tid = Some t0 -> t = t0 /\ phi t = t) /\
    (exists k e, has s' k e /\ m_id e = canon r /\ m_threads e = [t]) /\
    ((exists id, thread_of s id t) \/ last_thread s < t \/ tid = Some t).
Proof.
  intros Hi Ht. unfold link_one. destruct (resolve_spec r s Hi) as (pt & s1 & Er & Hr). rewrite Er.
  assert (Hi1 : inv s1). { destruct Hr as [[-> _]|(Hn & -> & ->)]; [exact Hi|now apply inv_new_ghost]. }
  assert (Hm1 : moved (fun t => t) s s1).
  { intros k e H. rewrite map_id_threads. destruct Hr as [[-> _]|(Hn & -> & ->)]; [exact H|].
    apply has_new; [apply Hi|apply Hi|reflexivity|auto]. }
  assert (Hf1 : fresh_in [r] s s1).
  { intros k e H. destruct Hr as [[-> _]|(Hn & -> & ->)]; [now apply fresh_refl|].
    apply has_new in H; [|apply Hi|apply Hi|reflexivity]. destruct H as [[-> ->]|H].
    + right. split; [lia|]. split; [exact Hn|]. exists r, (last_thread s + 1). split; [now left|reflexivity].
    + left. exists e. split; [exact H|apply same_doc]. }
  assert (Hg1 : forall tid, grows tid s s1).
  { intros tid'. destruct Hr as [[-> _]|(Hn & -> & ->)]; [split; [lia|split; [lia|eauto]]|]. cbn. split; [cbn; lia|split; [cbn; lia|]].
    intros id t (k & e & H & E & T). apply has_new in H; [|apply Hi|apply Hi|reflexivity]. destruct H as [[-> ->]|H].
    - right. left. cbn in T. destruct T as [<-|[]]. lia.
    - left. exists id, k, e. auto. }
  assert (Hp1 : exists k e, has s1 k e /\ m_id e = canon r /\ m_threads e = [pt]).
  { destruct Hr as [[-> H]|(Hn & -> & ->)]; [exact H|]. eexists _, _. split; [|split].
    - apply has_new; [apply Hi|apply Hi|reflexivity|left; split; reflexivity].
    - reflexivity.
    - reflexivity. }
  assert (Hpt : pt <= last_thread s1).
  { destruct Hp1 as (k & e & H & _ & T). destruct (i_thread s1 Hi1 k e H) as (t & T' & L). rewrite T in T'. now injection T' as ->. }
  assert (Hu : (exists id, thread_of s id pt) \/ last_thread s < pt).
  { destruct Hr as [[-> (k & e & H & E & T)]|(Hn & -> & _)]; [|right; lia]. left. exists (m_id e), k, e. rewrite T. cbn. auto. }
  assert (Lt1 : last_thread s <= last_thread s1) by apply (Hg1 None).
  destruct tid as [t|].
  2:{ exists pt, s1, (fun t => t). split; [reflexivity|]. split; [exact Hi1|]. split; [exact Hm1|]. split; [exact Hf1|].
      split; [apply Hg1|]. split; [exact Hpt|]. split; [discriminate|]. split; [exact Hp1|]. tauto. }
  destruct (N.eqb_spec t pt) as [->|Hne].
  - exists pt, s1, (fun t => t). split; [reflexivity|]. split; [exact Hi1|]. split; [exact Hm1|]. split; [exact Hf1|].
    split; [apply Hg1|]. split; [exact Hpt|]. split; [intros t0 [= <-]; auto|]. split; [exact Hp1|]. tauto.
  - exists t, (merge_threads t pt s1), (swap t pt). split; [reflexivity|]. split; [apply inv_merge; [exact Hi1|lia]|].
    pose proof (moved_merge t pt s1 Hi1) as Hm2.
    split; [apply (moved_trans (fun t => t) (swap t pt) s s1); assumption|]. split.
    { intros k e H. apply has_merge in H as (e0 & H & ->). destruct (i_thread s1 Hi1 k e0 H) as (t0 & T & _).
      rewrite (merge_doc_eq t pt e0 t0 T). destruct (Hf1 k e0 H) as [(e1 & H1 & th & ->)|(Hk & Hn & r' & t' & Hr' & ->)].
      - left. exists e1. split; [exact H1|]. eexists. reflexivity.
      - right. split; [exact Hk|]. split; [exact Hn|]. exists r', (swap t pt t'). split; [exact Hr'|reflexivity]. }
    split.
    { split; [apply (Hg1 None)|]. split; [apply (Hg1 None)|]. intros id t1 (k & e & H & E & T). apply has_merge in H as (e0 & H & ->).
      destruct (i_thread s1 Hi1 k e0 H) as (t0 & T0 & _). rewrite (merge_doc_eq t pt e0 t0 T0) in *. cbn in *. rewrite T0 in T. cbn in T.
      destruct T as [T|[]]. unfold swap in T. destruct (N.eqb_spec t0 pt); [right; right; congruence|]. subst t1.
      destruct (Hg1 None) as (_ & _ & G). destruct (G (m_id e0) t0) as [X|[X|X]]; [|auto|auto|discriminate].
      exists k, e0. rewrite T0. cbn. auto. }
    split; [cbn; lia|]. split. { intros t0 [= <-]. split; [reflexivity|]. unfold swap. now destruct (N.eqb_spec t pt). }
    split; [|auto].
    destruct Hp1 as (k & e & H & E & T). exists k, (merge_doc t pt e). split; [apply has_merge; eauto|].
    rewrite (merge_doc_eq t pt e pt T). cbn. rewrite T. cbn. unfold swap. rewrite N.eqb_refl. auto.
Qed.

Lemma add_reference_fields r d : m_id (add_reference r d) = m_id d /\ m_ghost (add_reference r d) = m_ghost d /\
  m_threads (add_reference r d) = m_threads d /\ m_tags (add_reference r d) = m_tags d /\ m_files (add_reference r d) = m_files d /\
  m_props (add_reference r d) = m_props d /\ m_replyto (add_reference r d) = m_replyto d.
Proof. unfold add_reference. destruct (Nat.leb _ _); cbn; auto 10. Qed.
Lemma badd_In x l y : In y (badd x l) <-> y = x \/ In y l.
Proof.
  unfold badd. destruct (existsb (bseq x) l) eqn:E.
  - apply existsb_bseq in E. split; [auto|]. intros [->|H]; assumption.
  - rewrite in_app_iff. cbn. intuition.
Qed.
Lemma badd_NoDup x l : NoDup l -> NoDup (badd x l).
Proof.
  intros H. unfold badd. destruct (existsb (bseq x) l) eqn:E; [exact H|].
  assert (N : ~ In x l) by (intros X; apply existsb_bseq in X; congruence). clear E.
  induction H as [|a l Ha H IH]; cbn; [repeat constructor; auto|]. cbn in N. constructor; [|apply IH; tauto].
  rewrite in_app_iff. cbn. intuition.
Qed.
Lemma badd_nonempty x l : badd x l <> [].
Proof. unfold badd. destruct (existsb (bseq x) l) eqn:E; [destruct l; [discriminate|discriminate]|]. destruct l; discriminate. Qed.
Lemma add_reference_refs r d x : In x (m_refs (add_reference r d)) <-> In x (m_refs d) \/ (x = r /\ (length r <= 235)%nat).
Proof.
  unfold add_reference. destruct (Nat.leb_spec (10 + length r) 245); cbn; [rewrite badd_In|]; intuition; lia.
Qed.

Lemma link_keys_spec keys : forall d tid s, inv s ->
  match tid with Some t => t <= last_thread s | None => True end ->
  exists d' tid' s' phi, link_keys compressed keys d tid s = Some (d', tid', s') /\
    inv s' /\ moved phi s s' /\ fresh_in keys s s' /\ grows tid s s' /\
    (forall t, tid = Some t -> tid' = Some t /\ phi t = t) /\
    (tid' = None -> keys = [] /\ tid = None /\ s' = s) /\
    m_threads d' = match tid, tid' with None, Some t => nadd t (m_threads d) | _, _ => m_threads d end /\
    (forall t', tid' = Some t' -> t' <= last_thread s' /\
        ((exists id, thread_of s id t') \/ last_thread s < t' \/ tid = Some t') /\
        (forall r, In r keys -> exists k e, has s' k e /\ m_id e = canon r /\ m_threads e = [t'])) /\
    m_id d' = m_id d /\ m_ghost d' = m_ghost d /\ m_tags d' = m_tags d /\ m_files d' = m_files d /\ m_props d' = m_props d /\
    m_replyto d' = m_replyto d /\
    (forall x, In x (m_refs d') <-> In x (m_refs d) \/ (In x keys /\ (length x <= 235)%nat)).
Proof.
  induction keys as [|r keys IH]; intros d tid s Hi Ht.
  - exists d, tid, s, (fun t => t). cbn. split; [reflexivity|]. split; [exact Hi|]. split; [apply moved_refl|]. split; [apply fresh_refl|].
    split. { split; [lia|]. split; [lia|]. eauto. }
    split; [auto|]. split; [auto|]. split. { destruct tid; reflexivity. }
    split. { intros t ->. split; [exact Ht|]. split; [auto|]. intros r []. }
    intuition.
  - rewrite link_keys_cons. destruct (link_one_spec r tid s Hi Ht) as (t & s1 & phi1 & E1 & Hi1 & Hm1 & Hf1 & Hg1 & Lt & Hp & Hl & Hu). rewrite E1.
    set (d1 := match tid with None => add_thread t (add_reference r d) | Some _ => add_reference r d end).
    destruct (IH d1 (Some t) s1 Hi1 Lt) as (d' & tid' & s' & phi & El & Hi' & Hm & Hf & Hg & P1 & P2 & P3 & P4 & Q1 & Q2 & Q3 & Q4 & Q5 & Q6 & Q7).
    destruct (P1 t eq_refl) as (-> & Hphi). clear P1 P2.
    destruct (add_reference_fields r d) as (F1 & F2 & F3 & F4 & F5 & F6 & F7).
    exists d', (Some t), s', (fun x => phi (phi1 x)). split; [exact El|]. split; [exact Hi'|].
    split; [apply (moved_trans phi1 phi s s1); assumption|].
    split; [apply (fresh_trans [r] keys phi1 s s1 s'); try assumption; apply Hg1|].
    destruct (P4 t eq_refl) as (P4a & P4b & P4c).
    split.
    { destruct Hg1 as (G1 & G2 & G3), Hg as (G4 & G5 & G6). split; [lia|]. split; [lia|]. intros id t1 H.
      apply G6 in H as [(id' & H)|[H|H]]; [now apply G3 in H|right; left; lia|]. injection H as <-. exact Hu. }
    split. { intros t0 E. destruct (Hp t0 E) as [-> X]. rewrite X. auto. }
    split; [discriminate|]. split.
    { rewrite P3. unfold d1. destruct tid; cbn; now rewrite F3. }
    split.
    { intros t' [= <-]. split; [exact P4a|]. split; [exact Hu|]. intros r' [<-|Hr']; [|now apply P4c].
      destruct Hl as (k & e & H1 & H2 & H3). exists k, (set_threads (map phi (m_threads e)) e). split; [now apply Hm|]. cbn. split; [exact H2|].
      rewrite H3. cbn. now rewrite Hphi. }
    assert (D : m_id d1 = m_id d /\ m_ghost d1 = m_ghost d /\ m_tags d1 = m_tags d /\ m_files d1 = m_files d /\ m_props d1 = m_props d /\
       m_replyto d1 = m_replyto d /\ m_refs d1 = m_refs (add_reference r d)).
    { unfold d1. destruct tid; cbn; auto 10. }
    destruct D as (D1 & D2 & D3 & D4 & D5 & D6 & D7). rewrite Q1, Q2, Q3, Q4, Q5, Q6, D1, D2, D3, D4, D5, D6.
    repeat (split; [reflexivity|]). intros x. rewrite Q7, D7, add_reference_refs. cbn. intuition (subst; auto).
Qed.

(** Writing a document. *)
Lemma has_sync k d s j e : has (sync k d s) j e <-> (j = k /\ e = d) \/ (j <> k /\ has s j e).
Proof.
  unfold has, sync. cbn. rewrite dget_dins. destruct (N.eqb_spec j k) as [->|Hne].
  - split; [intros [= ->]; auto|]. intros [[_ ->]|[H _]]; [reflexivity|congruence].
  - split; [auto|]. intros [[-> _]|[_ H]]; [congruence|exact H].
Qed.
Lemma inv_put k dn t s : inv s -> k <= last_doc s ->
  (forall k' d', has s k' d' -> m_id d' = m_id dn -> k' = k) ->
  (forall d0, has s k d0 -> m_id d0 = m_id dn /\ m_threads d0 = m_threads dn) ->
  m_threads dn = [t] -> t <= last_thread s -> canon (m_id dn) = m_id dn ->
  (if m_ghost dn then m_files dn = [] /\ m_refs dn = [] else m_files dn <> []) -> NoDup (m_files dn) ->
  (forall r, In r (m_refs dn) -> exists k' d', has s k' d' /\ m_id d' = canon r /\ m_threads d' = [t]) ->
  inv (sync k dn s).
Proof.
  intros Hi Hk Hu H0 Et Lt Hc Hf Hn Hr. constructor; cbn [sync set_docs docs last_doc last_thread].
  - apply dins_sorted, Hi.
  - intros j e H. apply has_sync in H as [[-> ->]|[_ H]]; [exact Hk|]. now apply (i_last s Hi j e).
  - intros j e j' e' H H' E. apply has_sync in H as [[-> ->]|[N1 H]], H' as [[-> ->]|[N2 H']].
    + reflexivity.
    + symmetry. now apply (Hu j' e').
    + now apply (Hu j e).
    + now apply (i_unique s Hi j e j' e').
  - intros j e H. apply has_sync in H as [[-> ->]|[_ H]]; [eauto|]. now apply (i_thread s Hi j e).
  - intros j e H. apply has_sync in H as [[-> ->]|[_ H]]; [exact Hc|]. exact (i_canon s Hi j e H).
  - intros j e H. apply has_sync in H as [[-> ->]|[_ H]]; [exact Hf|]. exact (i_files s Hi j e H).
  - intros j e H. apply has_sync in H as [[-> ->]|[_ H]]; [exact Hn|]. exact (i_nodup s Hi j e H).
  - intros j e r H Hin.
    assert (X : exists k' d', has s k' d' /\ m_id d' = canon r /\ m_threads d' = m_threads e).
    { apply has_sync in H as [[-> ->]|[_ H]]; [|now apply (i_refs s Hi j e)]. rewrite Et. now apply Hr. }
    destruct X as (k' & d' & H1 & H2 & H3). destruct (N.eq_dec k' k) as [->|Hne].
    + destruct (H0 d' H1) as [X1 X2]. exists k, dn. split; [apply has_sync; auto|]. split; congruence.
    + exists k', d'. split; [apply has_sync; auto|auto].
Qed.
Lemma inv_bump s a b : inv s -> last_doc s <= a -> last_thread s <= b -> inv {| docs := docs s; last_doc := a; last_thread := b |}.
Proof.
  intros Hi Ha Hb. constructor; cbn [docs last_doc last_thread]; try apply Hi.
  - intros k d H. apply (i_last s Hi) in H. lia.
  - intros k d H. destruct (i_thread s Hi k d H) as (t & E & L). exists t. split; [exact E|lia].
Qed.

(** Adding a file. *)
Definition evolve (self : bytes) (phi : N -> N) (s s' : mdb) : Prop :=
  forall k d, has s k d -> exists d', has s' k d' /\ m_id d' = m_id d /\ m_threads d' = map phi (m_threads d) /\
    (m_ghost d = false -> m_ghost d' = false) /\ (m_id d <> self -> d' = set_threads (map phi (m_threads d)) d) /\
    incl (m_tags d) (m_tags d') /\ incl (m_files d) (m_files d') /\ incl (m_refs d) (m_refs d') /\ m_props d' = m_props d.
Definition comes_from (self : bytes) (keys : list bytes) (ok : bool) (s s' : mdb) : Prop :=
  forall k d', has s' k d' -> (exists d, has s k d /\ m_id d = m_id d') \/
    (last_doc s < k /\ (forall k0 d0, has s k0 d0 -> m_id d0 <> m_id d') /\
      ((ok = true /\ m_id d' = self) \/ exists r t, In r keys /\ d' = initialize_ghost t (blank_doc (canon r)))).
Definition new_threads (s s' : mdb) : Prop := last_doc s <= last_doc s' /\ last_thread s <= last_thread s' /\
  forall id t, thread_of s' id t -> (exists id', thread_of s id' t) \/ last_thread s < t.

Lemma fold_badd_incl ts : forall l, incl l (fold_left (fun l t => badd t l) ts l).
Proof.
  induction ts as [|t ts IH]; intros l x H; [exact H|]. cbn. apply IH. apply badd_In. now right.
Qed.
Lemma fold_badd_In ts : forall l x, In x (fold_left (fun l t => badd t l) ts l) <-> In x l \/ In x ts.
Proof.
  induction ts as [|t ts IH]; intros l x; cbn; [tauto|]. rewrite IH, badd_In. intuition.
Qed.

Lemma index_file_spec name f keys ok s : inv s -> (forall r, In r keys -> canon r <> canon (f_id f)) ->
  let self := canon (f_id f) in
  exists st s' phi t, index_file compressed name f keys ok s = Some (st, s') /\ inv s' /\
    evolve self phi s s' /\ comes_from self keys ok s s' /\ new_threads s s' /\
    (ok = true -> exists k d', has s' k d' /\ m_id d' = self /\ m_ghost d' = false /\ m_threads d' = [t] /\
        In name (m_files d') /\ (forall r, In r keys -> (length r <= 235)%nat -> In r (m_refs d')) /\
        (forall n, In n (m_files d') -> n = name \/ exists d, has s k d /\ In n (m_files d)) /\
        (forall g, In g (m_tags d') -> In g (f_auto_tags f) \/ exists d, has s k d /\ In g (m_tags d)) /\
        (forall g, In g (f_auto_tags f) -> In g (m_tags d'))) /\
    (forall k d, has s k d -> m_id d = self -> phi (hd 0 (m_threads d)) = t) /\
    (keys <> [] \/ ok = true -> forall r, In r keys -> exists k e, has s' k e /\ m_id e = canon r /\ m_threads e = [t]) /\
    st = (if ok then if existsb (fun kd => bseq (m_id (snd kd)) self && negb (m_ghost (snd kd))) (docs s) then M_duplicate else M_success else M_index_error).
Proof.
  intros Hi Hself self. unfold index_file, create_for_message_id.
  pose proof (find_message_spec (f_id f) s (i_sorted s Hi)) as F. fold self in F.
  destruct (find_message compressed (f_id f) s) as [[k d0]|].
  - (* the document exists *)
    destruct F as [F1 F2]. destruct (i_thread s Hi k d0 F1) as (t0 & T0 & L0). cbn [andb negb orb].
    assert (Est : existsb (fun kd => bseq (m_id (snd kd)) self && negb (m_ghost (snd kd))) (docs s) = negb (m_ghost d0)).
    { destruct (m_ghost d0) eqn:Eg; cbn.
      - destruct (existsb _ _) eqn:Ex; [|reflexivity]. exfalso. apply existsb_exists in Ex as ([j e] & Hin & Hp). cbn in Hp.
        apply andb_true_iff in Hp as [Hp1 Hp2]. apply bseq_eq in Hp1. apply (In_dget_sorted _ _ _ (i_sorted s Hi)) in Hin.
        assert (j = k) by (apply (i_unique s Hi j e k d0 Hin F1); congruence). subst j. unfold has in F1. rewrite F1 in Hin. injection Hin as <-.
        rewrite Eg in Hp2. discriminate.
      - apply existsb_exists. exists (k, d0). split; [now apply dget_In|]. cbn. rewrite F2, bseq_refl, Eg. reflexivity. }
    rewrite Est. set (d1 := if m_ghost d0 then set_ghost false (set_files (badd name (m_files d0)) d0) else set_files (badd name (m_files d0)) d0).
    assert (D1 : m_id d1 = self /\ m_ghost d1 = false /\ m_threads d1 = [t0] /\ m_tags d1 = m_tags d0 /\ m_files d1 = badd name (m_files d0) /\
      m_props d1 = m_props d0 /\ m_refs d1 = m_refs d0).
    { unfold d1. destruct (m_ghost d0) eqn:Eg; cbn; rewrite ?Eg; auto 10. }
    destruct D1 as (A1 & A2 & A3 & A4 & A5 & A6 & A7).
    unfold link_message, get_thread_id. rewrite A3. cbn [andb]. unfold link_to_parents.
    set (d1' := add_replyto _ d1).
    assert (D1' : m_id d1' = m_id d1 /\ m_ghost d1' = m_ghost d1 /\ m_threads d1' = m_threads d1 /\ m_tags d1' = m_tags d1 /\ m_files d1' = m_files d1 /\
      m_props d1' = m_props d1 /\ m_refs d1' = m_refs d1).
    { unfold d1', add_replyto. destruct (snd _) as [x|]; [destruct (Nat.leb _ _)|]; cbn; auto 10. }
    destruct D1' as (B1 & B2 & B3 & B4 & B5 & B6 & B7).
    destruct (link_keys_spec keys d1' (Some t0) s Hi L0) as (d2 & tid' & s1 & phi & El & Hi1 & Hm & Hf & Hg & P1 & P2 & P3 & P4 & Q1 & Q2 & Q3 & Q4 & Q5 & Q6 & Q7).
    rewrite El. destruct (P1 t0 eq_refl) as (-> & Hphi). destruct (P4 t0 eq_refl) as (P4a & _ & P4c). clear P1 P2.
    assert (H1 : has s1 k d0). { apply Hm in F1. rewrite T0 in F1. cbn in F1. rewrite Hphi in F1. rewrite set_threads_same in F1; assumption. }
    assert (NT : new_threads s s1).
    { destruct Hg as (G1 & G2 & G3). split; [exact G1|]. split; [exact G2|]. intros id t H. apply G3 in H as [H|[H|[= <-]]]; auto.
      left. exists self, k, d0. rewrite T0. cbn. auto. }
    assert (CF : comes_from self keys ok s s1).
    { intros j e H. destruct (Hf j e H) as [(e0 & He0 & th & ->)|(X1 & X2 & X3)]; [left; exists e0; auto|right; auto]. }
    assert (HP : forall k1 d, has s k1 d -> m_id d = self -> phi (hd 0 (m_threads d)) = t0).
    { intros k1 d H E. assert (k1 = k) by (apply (i_unique s Hi k1 d k d0 H F1); congruence). subst k1. unfold has in *. rewrite F1 in H.
      injection H as <-. rewrite T0. exact Hphi. }
    destruct ok.
    + set (d3 := set_tags _ d2).
      exists (if m_ghost d0 then M_success else M_duplicate), (sync k d3 s1), phi, t0.
      split; [reflexivity|].
      assert (C1 : m_id d3 = self) by (unfold d3; cbn; congruence).
      assert (C2 : m_ghost d3 = false) by (unfold d3; cbn; congruence).
      assert (C3 : m_threads d3 = [t0]) by (unfold d3; cbn; congruence).
      assert (C5 : m_files d3 = badd name (m_files d0)) by (unfold d3; cbn; congruence).
      split.
      { apply (inv_put k d3 t0); auto.
        - apply (i_last s1 Hi1 k d0 H1).
        - intros k' d' H E. apply (i_unique s1 Hi1 k' d' k d0 H H1). congruence.
        - intros e H. unfold has in *. rewrite H1 in H. injection H as <-. split; congruence.
        - rewrite C1. apply canon_canon.
        - rewrite C2, C5. apply badd_nonempty.
        - rewrite C5. apply badd_NoDup. exact (i_nodup s Hi k d0 F1).
        - intros r Hr. unfold d3 in Hr. cbn in Hr. apply Q7 in Hr as [Hr|[Hr _]]; [|now apply P4c].
          rewrite B7, A7 in Hr. destruct (i_refs s1 Hi1 k d0 r H1 Hr) as (k' & d' & X1 & X2 & X3). exists k', d'. rewrite X3, T0. auto. }
      split.
      { intros j e H. destruct (N.eq_dec j k) as [->|Hne].
        - assert (e = d0) by (unfold has in *; congruence). subst e. exists d3. split; [apply has_sync; auto|]. split; [congruence|]. split; [rewrite C3, T0; cbn; congruence|].
          split; [intros _; exact C2|]. split; [congruence|]. split; [unfold d3; cbn; intros x Hx; apply fold_badd_incl; congruence|].
          split; [rewrite C5; intros x Hx; apply badd_In; now right|].
          split; [intros x Hx; unfold d3; cbn; apply Q7; left; congruence|unfold d3; cbn; congruence].
        - exists (set_threads (map phi (m_threads e)) e). split; [apply has_sync; right; split; [exact Hne|now apply Hm]|]. cbn.
          repeat (split; [reflexivity || auto using incl_refl|]). reflexivity. }
      split.
      { intros j e H. apply has_sync in H as [[-> ->]|[Hne H]]; [left; exists d0; split; [exact F1|congruence]|]. now apply CF. }
      split.
      { destruct NT as (N1 & N2 & N3). split; [exact N1|]. split; [exact N2|]. intros id t (j & e & H & E & T).
        apply has_sync in H as [[-> ->]|[Hne H]].
        - rewrite C3 in T. destruct T as [<-|[]]. left. exists self, k, d0. rewrite T0. cbn. auto.
        - apply (N3 id). exists j, e. auto. }
      split.
      { intros _. exists k, d3. split; [apply has_sync; auto|]. split; [exact C1|]. split; [exact C2|]. split; [exact C3|].
        split; [rewrite C5; apply badd_In; now left|]. split; [intros r Hr Hl; unfold d3; cbn; apply Q7; auto|].
        split; [intros n Hn; rewrite C5 in Hn; apply badd_In in Hn as [->|Hn]; [auto|right; eauto]|].
        split; unfold d3; cbn.
        - intros g Hgt. apply fold_badd_In in Hgt as [Hgt|Hgt]; [right|auto]. exists d0. split; [exact F1|congruence].
        - intros g Hgt. apply fold_badd_In. now right. }
      split; [exact HP|]. split; [|destruct (m_ghost d0); reflexivity].
      intros _ r Hr. destruct (P4c r Hr) as (k' & e & X1 & X2 & X3). exists k', e. split; [|auto]. apply has_sync. right. split; [|exact X1].
      intros ->. unfold has in *. rewrite H1 in X1. injection X1 as <-. apply (Hself r Hr). fold self. congruence.
    + exists M_index_error, s1, phi, t0. split; [reflexivity|]. split; [exact Hi1|]. split.
      { intros j e H. exists (set_threads (map phi (m_threads e)) e). split; [now apply Hm|]. cbn.
        repeat (split; [reflexivity || auto using incl_refl|]). reflexivity. }
      split; [exact CF|]. split; [exact NT|]. split; [discriminate|]. split; [exact HP|]. split; [intros _; exact P4c|reflexivity].
  - (* a new document *)
    cbn [andb negb orb].
    assert (Est : existsb (fun kd => bseq (m_id (snd kd)) self && negb (m_ghost (snd kd))) (docs s) = false).
    { destruct (existsb _ _) eqn:Ex; [|reflexivity]. exfalso. apply existsb_exists in Ex as ([j e] & Hin & Hp). cbn in Hp.
      apply andb_true_iff in Hp as [Hp1 _]. apply bseq_eq in Hp1. apply (In_dget_sorted _ _ _ (i_sorted s Hi)) in Hin. now apply (F j e Hin). }
    rewrite Est. set (s0 := {| docs := docs s; last_doc := last_doc s + 1; last_thread := last_thread s |}).
    assert (Hi0 : inv s0) by (apply inv_bump; [exact Hi|lia|lia]).
    fold self.
    set (d1 := set_ghost false (set_files (badd name (m_files (blank_doc self))) (blank_doc self))).
    unfold link_message. cbn [andb]. unfold link_to_parents. set (d1' := add_replyto _ d1).
    assert (D1' : m_id d1' = m_id d1 /\ m_ghost d1' = m_ghost d1 /\ m_threads d1' = m_threads d1 /\ m_tags d1' = m_tags d1 /\ m_files d1' = m_files d1 /\
      m_props d1' = m_props d1 /\ m_refs d1' = m_refs d1).
    { unfold d1', add_replyto. destruct (snd _) as [x|]; [destruct (Nat.leb _ _)|]; cbn; auto 10. }
    destruct D1' as (B1 & B2 & B3 & B4 & B5 & B6 & B7).
    destruct (link_keys_spec keys d1' None s0 Hi0 I) as (d2 & tid' & s1 & phi & El & Hi1 & Hm & Hf & Hg & P1 & P2 & P3 & P4 & Q1 & Q2 & Q3 & Q4 & Q5 & Q6 & Q7).
    rewrite El. clear P1.
    (* the state after linking and possibly generating an id *)
    assert (X : exists d2' s2 t, match tid' with Some _ => Some (d2, s1) | None => let '(t, s) := generate_thread_id s1 in Some (add_thread t d2, s) end = Some (d2', s2) /\
      inv s2 /\ docs s2 = docs s1 /\ last_doc s2 = last_doc s1 /\ last_thread s1 <= last_thread s2 /\ t <= last_thread s2 /\ m_threads d2' = [t] /\
      ((exists id, thread_of s id t) \/ last_thread s < t) /\
      (forall r, In r keys -> exists k e, has s1 k e /\ m_id e = canon r /\ m_threads e = [t]) /\
      m_id d2' = m_id d2 /\ m_ghost d2' = m_ghost d2 /\ m_tags d2' = m_tags d2 /\ m_files d2' = m_files d2 /\ m_props d2' = m_props d2 /\ m_refs d2' = m_refs d2).
    { destruct tid' as [t|].
      - destruct (P4 t eq_refl) as (X1 & X2 & X3). exists d2, s1, t. split; [reflexivity|]. split; [exact Hi1|]. split; [reflexivity|]. split; [reflexivity|].
        split; [lia|]. split; [exact X1|]. split; [rewrite P3, B3; reflexivity|]. split; [|split; [exact X3|auto 10]].
        destruct X2 as [X2|[X2|X2]]; [left; exact X2|right; exact X2|discriminate].
      - destruct (P2 eq_refl) as (-> & _ & ->). cbn. eexists _, _, (last_thread s + 1). split; [reflexivity|]. split; [apply (inv_bump s0); [exact Hi0|cbn; lia|cbn; lia]|]. cbn.
        split; [reflexivity|]. split; [reflexivity|]. split; [lia|]. split; [lia|]. split; [rewrite P3, B3; reflexivity|]. split; [right; lia|]. split; [intros r []|auto 10]. }
    destruct X as (d2' & s2 & t & EX & Hi2 & Hd2 & Ld2 & Lt2 & Lt & T2 & Hu & Hkeys & R1 & R2 & R3 & R4 & R5 & R6).
    assert (EQ : match match tid' with Some _ => Some (d2, s1) | None => let '(t, s) := generate_thread_id s1 in Some (add_thread t d2, s) end with
        | None => None
        | Some (d, s') => if ok then Some (M_success, sync (last_doc s + 1) (set_tags (fold_left (fun l t => badd t l) (f_auto_tags f) (m_tags d)) d) s') else Some (M_index_error, s')
        end = (if ok then Some (M_success, sync (last_doc s + 1) (set_tags (fold_left (fun l t => badd t l) (f_auto_tags f) (m_tags d2')) d2') s2) else Some (M_index_error, s2)))
      by now rewrite EX.
    assert (Hm2 : moved phi s s2). { intros j e H. apply (Hm j e) in H. unfold has in *. now rewrite Hd2. }
    assert (Hf2 : fresh_in keys s0 s2). { intros j e H. unfold has in H. rewrite Hd2 in H. exact (Hf j e H). }
    assert (NT : new_threads s s2).
    { destruct Hg as (G1 & G2 & G3). cbn in G1, G2. split; [lia|]. split; [lia|]. intros id t1 (j & e & H & E & T).
      unfold has in H. rewrite Hd2 in H. destruct (G3 id t1) as [Y|[Y|Y]]; [exists j, e; auto|left; exact Y|right; exact Y|discriminate]. }
    assert (CF : comes_from self keys ok s s2).
    { intros j e H. destruct (Hf2 j e H) as [(e0 & He0 & th & ->)|(X1 & X2 & X3)]; [left; exists e0; auto|]. right. cbn in X1. split; [lia|]. split; [exact X2|]. now right. }
    assert (Hno : forall j e, has s2 j e -> m_id e <> self /\ j <> last_doc s + 1).
    { intros j e H. destruct (Hf2 j e H) as [(e0 & He0 & th & ->)|(X1 & X2 & r & tt & Hr & ->)].
      - split; [exact (F j e0 He0)|]. apply (i_last s Hi j e0) in He0. lia.
      - cbn in X1. split; [cbn; apply Hself, Hr|lia]. }
    assert (Hk2 : forall r, In r keys -> exists k e, has s2 k e /\ m_id e = canon r /\ m_threads e = [t]).
    { intros r Hr. destruct (Hkeys r Hr) as (j & e & H & Y). exists j, e. split; [|exact Y]. unfold has. now rewrite Hd2. }
    assert (HP : forall k1 d, has s k1 d -> m_id d = self -> phi (hd 0 (m_threads d)) = t).
    { intros k1 d H E. exfalso. now apply (F k1 d H). }
    destruct ok.
    + set (d3 := set_tags (fold_left (fun l t => badd t l) (f_auto_tags f) (m_tags d2')) d2') in *.
      exists M_success, (sync (last_doc s + 1) d3 s2), phi, t. split.
      { rewrite <- EQ. destruct tid'; reflexivity. }
      assert (C1 : m_id d3 = self) by (unfold d3; cbn; rewrite R1, Q1, B1; reflexivity).
      assert (C2 : m_ghost d3 = false) by (unfold d3; cbn; rewrite R2, Q2, B2; reflexivity).
      assert (C3 : m_threads d3 = [t]) by (unfold d3; cbn; exact T2).
      assert (C5 : m_files d3 = badd name []) by (unfold d3; cbn; rewrite R4, Q4, B5; reflexivity).
      split.
      { apply (inv_put (last_doc s + 1) d3 t); auto.
        - rewrite Ld2. destruct Hg as (G1 & _). cbn in G1. lia.
        - intros k' d' H E. exfalso. apply (proj1 (Hno k' d' H)). congruence.
        - intros e H. exfalso. now apply (proj2 (Hno _ _ H)).
        - rewrite C1. apply canon_canon.
        - rewrite C2, C5. discriminate.
        - rewrite C5. apply badd_NoDup. constructor.
        - intros r Hr. unfold d3 in Hr. cbn in Hr. rewrite R6 in Hr. apply Q7 in Hr as [Hr|[Hr _]]; [|now apply Hk2].
          rewrite B7 in Hr. destruct Hr. }
      split.
      { intros j e H. exists (set_threads (map phi (m_threads e)) e). split.
        - apply has_sync. right. apply Hm2 in H. split; [now apply (proj2 (Hno _ _ H))|exact H].
        - cbn. repeat (split; [reflexivity || auto using incl_refl|]). reflexivity. }
      split.
      { intros j e H. apply has_sync in H as [[-> ->]|[Hne H]]; [|now apply CF]. right. split; [lia|]. split; [rewrite C1; exact F|]. left. auto. }
      split.
      { destruct NT as (N1 & N2 & N3). split; [exact N1|]. split; [exact N2|]. intros id t1 (j & e & H & E & T).
        apply has_sync in H as [[-> ->]|[Hne H]].
        - rewrite C3 in T. destruct T as [<-|[]]. exact Hu.
        - apply (N3 id). exists j, e. auto. }
      split.
      { intros _. exists (last_doc s + 1), d3. split; [apply has_sync; auto|]. split; [exact C1|]. split; [exact C2|]. split; [exact C3|].
        split; [rewrite C5; apply badd_In; now left|]. split; [intros r Hr Hl; unfold d3; cbn; rewrite R6; apply Q7; auto|].
        split; [intros n Hn; rewrite C5 in Hn; apply badd_In in Hn as [->|[]]; auto|].
        split; unfold d3; cbn; rewrite R3, Q3, B4; cbn.
        - intros g Hgt. apply fold_badd_In in Hgt as [[]|Hgt]. auto.
        - intros g Hgt. apply fold_badd_In. now right. }
      split; [exact HP|]. split; [|reflexivity].
      intros _ r Hr. destruct (Hk2 r Hr) as (k' & e & X1 & X2 & X3). exists k', e. split; [|auto]. apply has_sync. right. split; [|exact X1].
      now apply (proj2 (Hno _ _ X1)).
    + exists M_index_error, s2, phi, t. split.
      { rewrite <- EQ. destruct tid'; reflexivity. }
      split; [exact Hi2|]. split.
      { intros j e H. exists (set_threads (map phi (m_threads e)) e). split; [now apply Hm2|]. cbn.
        repeat (split; [reflexivity || auto using incl_refl|]). reflexivity. }
      split; [exact CF|]. split; [exact NT|]. split; [discriminate|]. split; [exact HP|]. split; [intros _; exact Hk2|reflexivity].
Qed.
End P.
