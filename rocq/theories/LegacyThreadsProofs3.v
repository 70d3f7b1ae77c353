(** Proofs for C93, continued: whole calls and histories. *)
From Verif Require Import Bytes Terms DocMap MsgId MsgIdProofs MailStore MailStoreSpec MailStoreProofs MailStoreProofs2 LegacyThreads LegacyThreadsProofs LegacyThreadsProofs2.
Local Open Scope N_scope.

Section P.
Variable compressed : bytes -> bytes.
Hypothesis compressed_short : forall s, (length (compressed s) <= 189)%nat.
Notation canon := (canon compressed).
Notation linv := (linv compressed).
Notation just := (just compressed).

Definition others (self : bytes) (d d' : mdoc) : Prop :=
  m_ghost d' = m_ghost d /\ m_files d' = m_files d /\ m_tags d' = m_tags d /\ m_props d' = m_props d.

(** Writing the document in hand. *)
Lemma linv_put k dn t s : linv s -> k <= last_doc (l_db s) ->
  (forall k' d', has (l_db s) k' d' -> m_id d' = m_id dn -> k' = k) ->
  m_threads dn = [t] -> t <= last_thread (l_db s) -> canon (m_id dn) = m_id dn -> linv (on_db (sync k dn) s).
Proof.
  intros Hi Hk Hu Ht Lt Hc. constructor; cbn [l_db l_meta on_db].
  - apply sync_sorted, Hi.
  - intros j d H. apply has_sync in H as [[-> ->]|[_ H]]; [exact Hk|exact (l_last _ s Hi j d H)].
  - intros j d j' d' H H' E. apply has_sync in H as [[-> ->]|[N1 H]], H' as [[-> ->]|[N2 H']]; auto.
    + symmetry. apply (Hu j' d' H'). auto.
    + exact (Hu j d H E).
    + exact (l_unique _ s Hi j d j' d' H H' E).
  - intros j d H. apply has_sync in H as [[-> ->]|[_ H]]; [exists t; auto|exact (l_thread _ s Hi j d H)].
  - intros j d H. apply has_sync in H as [[-> ->]|[_ H]]; [exact Hc|exact (l_canon _ s Hi j d H)].
  - exact (l_mbound _ s Hi).
Qed.

Lemma index_file_old_spec name f keys ok s : linv s -> let self := canon (f_id f) in
  exists st s' phi t, index_file_old compressed name f keys ok s = Some (st, s') /\ linv s' /\
    (forall k d, has (l_db s) k d -> exists d', has (l_db s') k d' /\ m_id d' = m_id d /\ m_threads d' = map phi (m_threads d) /\
       (forall x, x <> self -> In x (m_refs d) -> In x (m_refs d')) /\ (ok = false \/ m_id d <> self -> others self d d')) /\
    (forall k d', has (l_db s') k d' -> (exists d, has (l_db s) k d /\ m_id d' = m_id d) \/ (ok = true /\ m_id d' = self)) /\
    (ok = true -> (exists k d', has (l_db s') k d' /\ m_id d' = self /\ m_ghost d' = false /\ m_threads d' = [t] /\ In name (m_files d') /\
        (forall r, In r keys -> (length r <= 235)%nat -> In r (m_refs d'))) /\
      (forall r k e, In r keys -> has (l_db s') k e -> m_id e = canon r -> m_threads e = [t]) /\
      (forall k e e', has (l_db s) k e -> In self (m_refs e) -> has (l_db s') k e' -> m_threads e' = [t])) /\
    (forall R, equivalence R -> just R s -> (forall r, In r keys -> R self (canon r)) -> just R s').
Proof.
  intros Hi self. unfold index_file_old.
  assert (Hcc : canon self = self) by (apply canon_canon, compressed_short).
  pose proof (find_message_spec compressed (f_id f) (l_db s) (l_sorted _ s Hi)) as F. fold self in F.
  assert (St : exists k d found db, create_for_message_id compressed (f_id f) (l_db s) = (k, d, found, db) /\ docs db = docs (l_db s) /\ last_thread db = last_thread (l_db s) /\ last_doc (l_db s) <= last_doc db /\
        k <= last_doc db /\ m_id d = self /\ (m_ghost d = true -> found = true) /\
        (if found then has (l_db s) k d else m_threads d = [] /\ m_refs d = [] /\ m_ghost d = false /\ (forall j e, has (l_db s) j e -> m_id e <> self) /\ (forall e, ~ has (l_db s) k e))).
  { unfold create_for_message_id. destruct (find_message compressed (f_id f) (l_db s)) as [[k d]|].
    - destruct F as [F1 F2]. exists k, d, true, (l_db s). repeat (split; [first [reflexivity|lia|exact (l_last _ s Hi k d F1)|exact F2|solve [auto]]|]). exact F1.
    - cbn. eexists _, _, _, _. split; [reflexivity|]. cbn. repeat (split; [first [reflexivity|lia|discriminate]|]). split; [exact F|].
      intros e H. apply (l_last _ s Hi) in H. lia. }
  destruct St as (k & d & found & db & E & Db & Lt & Ld & Lk & Id & Hg & Hfd). rewrite E. clear E F.
  set (s0 := {| l_db := db; l_meta := l_meta s |}).
  assert (Hi0 : linv s0).
  { unfold s0. destruct db as [dd ll tt]; cbn in *. subst dd. rewrite Lt in *. apply linv_bump; auto; [lia|exact (l_mbound _ s Hi)]. }
  assert (H0 : forall j e, has (l_db s0) j e <-> has (l_db s) j e) by (intros; unfold has, s0; cbn; now rewrite Db).
  set (da := set_files (badd name (m_files d)) d).
  set (d1 := if negb found || (found && m_ghost d) then set_ghost false da else da).
  assert (I1 : m_id d1 = self /\ m_threads d1 = m_threads d /\ m_refs d1 = m_refs d /\ m_files d1 = badd name (m_files d) /\ m_tags d1 = m_tags d /\ m_props d1 = m_props d /\ m_ghost d1 = false).
  { unfold d1, da. destruct found; cbn; [destruct (m_ghost d) eqn:G|]; cbn; auto 10. }
  destruct I1 as (I1 & I2 & I3 & I4 & I5 & I6 & I7).
  destruct (link_message_old_spec compressed keys f found d1 s0 Hi0) as (d2 & s2 & phi & t & E & Hi2 & Ev & K & T & L & Fd & Rf & Pr & Ch & J).
  { destruct found; [|rewrite I2; tauto]. destruct (l_thread _ s Hi k d Hfd) as (u & U & Lu). exists u. rewrite I2. unfold s0. cbn. rewrite Lt. auto. }
  rewrite E. rewrite I1 in *. destruct K as (K1 & K2 & K3 & K4 & K5).
  assert (HJ : forall R, equivalence R -> just R s -> (forall r, In r keys -> R self (canon r)) -> just R s2 /\ (forall a, lmem s2 a t -> R a self)).
  { intros R Req J0 Hr. apply J; auto.
    - constructor; [intros a b u Ha Hb|].
      + apply (j_thread _ R s J0 a b u); [destruct Ha as [(x1 & x2 & Ha & x3)|Ha]; [left; exists x1, x2; split; [now apply H0|exact x3]|right; exact Ha]|
          destruct Hb as [(x1 & x2 & Hb & x3)|Hb]; [left; exists x1, x2; split; [now apply H0|exact x3]|right; exact Hb]].
      + intros j e x H. apply H0 in H. exact (j_ref _ R s J0 j e x H).
    - intros F a Ha. subst found. destruct (Fd eq_refl) as [Q _]. rewrite I2 in Q. apply (j_thread _ R s J0 a self t).
      + destruct Ha as [(x1 & x2 & Ha & x3)|Ha]; [left; exists x1, x2; split; [now apply H0|exact x3]|right; exact Ha].
      + left. exists k, d. split; [exact Hfd|]. split; [exact Id|]. rewrite Q. now left. }
  pose proof Ev as (Ev1 & Ev2 & Ev3 & Ev4).
  assert (FW : forall j e, has (l_db s) j e -> exists e', has (l_db s2) j e' /\ same_but self phi e e').
  { intros j e H. apply H0 in H. exact (Ev1 j e H). }
  assert (BW : forall j e', has (l_db s2) j e' -> exists e, has (l_db s) j e /\ same_but self phi e e').
  { intros j e' H. destruct (Ev2 j e' H) as (e & H1 & H2). exists e. split; [now apply H0|exact H2]. }
  assert (Huniq : forall j e, has (l_db s2) j e -> m_id e = self -> j = k).
  { intros j e H Ee. destruct (BW j e H) as (e0 & H1 & S1). destruct S1 as (S1 & _). destruct found.
    - apply (l_unique _ s Hi j e0 k d H1 Hfd). congruence.
    - destruct Hfd as (_ & _ & _ & Hno & _). exfalso. apply (Hno j e0 H1). congruence. }
  destruct ok.
  - set (d3 := set_tags _ d2). set (s3 := on_db (sync k d3) s2).
    assert (B1 : m_id d3 = self) by exact (eq_trans K1 I1).
    assert (Hi3 : linv s3).
    { apply (linv_put k d3 t); auto.
      - rewrite Ev3. exact Lk.
      - intros j e H Ee. apply (Huniq j e H). congruence.
      - rewrite B1. exact Hcc. }
    exists (if negb found || (found && m_ghost d) then M_success else M_duplicate), s3, phi, t. split; [reflexivity|]. split; [exact Hi3|].
    split.
    { intros j e H. destruct (N.eq_dec j k) as [->|Hne].
      - destruct found; [|destruct Hfd as (_ & _ & _ & _ & Hno); exfalso; exact (Hno e H)].
        assert (e = d) by (unfold has in *; congruence). subst e. exists d3. split; [apply has_sync; auto|]. split; [congruence|].
        destruct (Fd eq_refl) as [Q P]. rewrite I2 in Q. split; [unfold d3; cbn; rewrite T, Q; cbn; now rewrite P|]. split; [|intros [X|X]; congruence].
        intros x _ Hx. unfold d3. cbn. apply Rf. left. now rewrite I3.
      - destruct (FW j e H) as (e' & H' & S'). exists e'. split; [apply has_sync; auto|].
        destruct S' as (S1 & S2 & S3 & S4 & S5 & S6 & S7 & S8 & S9). split; [exact S1|]. split; [exact S7|]. split; [exact S9|]. intros _. unfold others. auto. }
    split.
    { intros j e H. apply has_sync in H as [[-> ->]|[Hne H]]; [right; auto|]. left. destruct (BW j e H) as (e0 & H1 & S1). exists e0. split; [exact H1|exact (proj1 S1)]. }
    split.
    { intros _. split; [|split].
      - exists k, d3. split; [apply has_sync; auto|]. split; [exact B1|]. unfold d3. cbn. split; [congruence|]. split; [exact T|].
        split; [rewrite K3, I4; apply badd_In; auto|]. intros r Hr Hl. apply Rf. auto.
      - intros r j e Hr H Ee. apply has_sync in H as [[-> ->]|[Hne H]]; [exact T|]. exact (Pr r j e Hr H Ee).
      - intros j e e' H Hr H'. apply has_sync in H' as [[-> ->]|[Hne H']]; [exact T|]. apply (Ch j e e'); auto. now apply H0. }
    intros R Req J0 Hr. destruct (HJ R Req J0 Hr) as [J2 TJ2]. pose proof Req as (R1 & R2 & R3).
    assert (Q : forall a u, lmem s3 a u -> lmem s2 a u \/ (a = self /\ u = t)).
    { intros a u [(j & e & H & Ee & Hu)|H]; [|left; right; exact H]. apply has_sync in H as [[-> ->]|[Hne H]].
      - right. unfold d3 in Hu. cbn in Hu. rewrite T in Hu. destruct Hu as [<-|[]]. split; [congruence|reflexivity].
      - left. left. exists j, e. auto. }
    constructor.
    + intros a b u Ha Hb. destruct (Q a u Ha) as [A|[A1 A2]], (Q b u Hb) as [B|[B2 B3]].
      * exact (j_thread _ R s2 J2 a b u A B).
      * subst b u. exact (TJ2 a A).
      * subst a u. apply R2. exact (TJ2 b B).
      * subst a b. apply R1.
    + intros j e x H Hx. apply has_sync in H as [[-> ->]|[Hne H]]; [|exact (j_ref _ R s2 J2 j e x H Hx)].
      rewrite B1. unfold d3 in Hx. cbn in Hx. apply Rf in Hx as [Hx|[Hx _]]; [|exact (Hr x Hx)]. rewrite I3 in Hx.
      destruct found; [|destruct Hfd as (_ & Q0 & _); rewrite Q0 in Hx; destruct Hx]. rewrite <- Id. exact (j_ref _ R s J0 k d x Hfd Hx).
  - exists M_index_error, s2, phi, t. split; [reflexivity|]. split; [exact Hi2|]. split.
    { intros j e H. destruct (FW j e H) as (e' & H' & S'). exists e'. split; [exact H'|].
      destruct S' as (S1 & S2 & S3 & S4 & S5 & S6 & S7 & S8 & S9). split; [exact S1|]. split; [exact S7|]. split; [exact S9|]. intros _. unfold others. auto. }
    split.
    { intros j e H. left. destruct (BW j e H) as (e0 & H1 & S1). exists e0. split; [exact H1|exact (proj1 S1)]. }
    split; [discriminate|]. intros R Req J0 Hr. exact (proj1 (HJ R Req J0 Hr)).
Qed.

(** ** Removals. *)
Lemma linv_sub s db : linv s -> (forall k d, has db k d -> has (l_db s) k d) -> ksorted (docs db) -> last_doc db = last_doc (l_db s) ->
  last_thread db = last_thread (l_db s) -> linv {| l_db := db; l_meta := l_meta s |}.
Proof.
  intros Hi Hs Hk L1 L2. constructor; cbn; rewrite ?L1, ?L2; auto.
  - intros k d H. exact (l_last _ s Hi k d (Hs _ _ H)).
  - intros k d k' d' H H'. exact (l_unique _ s Hi k d k' d' (Hs _ _ H) (Hs _ _ H')).
  - intros k d H. exact (l_thread _ s Hi k d (Hs _ _ H)).
  - intros k d H. exact (l_canon _ s Hi k d (Hs _ _ H)).
  - exact (l_mbound _ s Hi).
Qed.
Definition from (s : ldb) (e' : mdoc) : Prop := exists j e, has (l_db s) j e /\ m_id e' = m_id e /\ m_threads e' = m_threads e /\ incl (m_refs e') (m_refs e).
Lemma from_same s j e : has (l_db s) j e -> from s e.
Proof. intros H. exists j, e. auto using incl_refl. Qed.

Lemma message_delete_old k d0 d s : linv s -> has (l_db s) k d0 -> m_id d = m_id d0 -> m_threads d = m_threads d0 ->
  exists db, message_delete compressed k d (l_db s) = Some db /\ linv {| l_db := db; l_meta := l_meta s |} /\
    forall j e', has db j e' -> from s e'.
Proof.
  intros Hi H0 Eid Et. destruct (l_thread _ s Hi k d0 H0) as (t & T & Lt). unfold message_delete, get_thread_id. rewrite Et, T.
  set (s1 := set_docs (ddel k (docs (l_db s))) (l_db s)).
  assert (H1 : forall j e, has s1 j e <-> j <> k /\ has (l_db s) j e).
  { intros j e. unfold has, s1. cbn. rewrite dget_ddel. destruct (N.eqb_spec j k); [split; [discriminate|tauto]|tauto]. }
  assert (Hs1 : ksorted (docs s1)) by (apply ddel_sorted, Hi).
  assert (Hi1 : linv {| l_db := s1; l_meta := l_meta s |}) by (apply linv_sub; auto; intros j e H; now apply H1 in H).
  assert (Fs : forall j e, has s1 j e -> from s e) by (intros j e H; apply H1 in H as [_ H]; exact (from_same s j e H)).
  destruct (m_ghost d); [exists s1; auto|].
  set (td := doc_ids (in_thread t) s1). set (md := doc_ids (fun d => negb (m_ghost d)) s1).
  destruct (common_doc_spec (S (length td)) td md (doc_ids_sorted _ _ Hs1) (doc_ids_sorted _ _ Hs1)) as (r & Er & _); [left; lia|].
  rewrite Er. destruct r.
  - unfold create_for_message_id. pose proof (find_message_spec compressed (m_id d) s1 Hs1) as F.
    assert (Hc : canon (m_id d) = m_id d) by (rewrite Eid; exact (l_canon _ s Hi k d0 H0)). rewrite Hc in *.
    destruct (find_message compressed (m_id d) s1) as [[k2 d2]|]; [exists s1; auto|].
    cbn [last_doc docs last_thread s1 set_docs]. set (g := initialize_ghost t (blank_doc (m_id d))).
    set (s2 := {| docs := ddel k (docs (l_db s)); last_doc := last_doc (l_db s) + 1; last_thread := last_thread (l_db s) |}).
    exists (sync (last_doc (l_db s) + 1) g s2). split; [reflexivity|].
    assert (Hi2 : linv {| l_db := s2; l_meta := l_meta s |}).
    { apply (linv_bump compressed {| l_db := s1; l_meta := l_meta s |} (last_doc (l_db s) + 1) (last_thread (l_db s)) (l_meta s) Hi1); cbn; [lia|lia|exact (l_mbound _ s Hi)]. }
    split.
    + apply (linv_put (last_doc (l_db s) + 1) g t {| l_db := s2; l_meta := l_meta s |} Hi2); auto; cbn; [lia|].
      intros j e H Ee. exfalso. exact (F j e H Ee).
    + intros j e H. apply has_sync in H as [[-> ->]|[_ H]]; [|exact (Fs j e H)].
      exists k, d0. split; [exact H0|]. split; [exact Eid|]. split; [cbn; now rewrite T|]. intros x [].
  - set (s2 := set_docs _ s1). exists s2. split; [reflexivity|].
    assert (H2 : forall j e, has s2 j e -> has s1 j e).
    { intros j e. unfold s2, has. cbn. rewrite fold_ddel_get. destruct (existsb _ _); [discriminate|auto]. }
    split; [|intros j e H; exact (Fs j e (H2 _ _ H))].
    apply linv_sub; auto; [intros j e H; apply H2, H1 in H as [_ H]; exact H|]. cbn. apply fold_ddel_sorted, ddel_sorted, Hi.
Qed.
Lemma remove_old_spec name s : linv s -> exists st db, remove_message compressed name (l_db s) = Some (st, db) /\ linv {| l_db := db; l_meta := l_meta s |} /\
    forall j e', has db j e' -> from s e'.
Proof.
  intros Hi. unfold remove_message, find_by_filename. pose proof (find_spec (fun kd => existsb (bseq name) (m_files (snd kd))) (docs (l_db s))) as F.
  destruct (find _ (docs (l_db s))) as [[k d]|].
  - destruct F as [F1 _]. apply (In_dget_sorted _ _ _ (l_sorted _ s Hi)) in F1. fold (has (l_db s) k d) in F1.
    destruct (l_thread _ s Hi k d F1) as (t & T & Lt).
    destruct (Nat.ltb 1 (length (m_files d))).
    + set (d1 := set_files (brem name (m_files d)) d). destruct (m_files d1).
      * destruct (message_delete_old k d d1 s Hi F1 eq_refl eq_refl) as (db & E & A & B). rewrite E. eexists _, db. split; [reflexivity|]. auto.
      * eexists _, _. split; [reflexivity|]. split.
        -- change (linv (on_db (sync k d1) s)). apply (linv_put k d1 t); auto.
           ++ exact (l_last _ s Hi k d F1).
           ++ intros j e H Ee. exact (l_unique _ s Hi j e k d H F1 Ee).
           ++ exact (l_canon _ s Hi k d F1).
        -- intros j e H. apply has_sync in H as [[-> ->]|[_ H]]; [|exact (from_same s j e H)]. exists k, d. split; [exact F1|]. cbn. auto using incl_refl.
    + destruct (message_delete_old k d d s Hi F1 eq_refl eq_refl) as (db & E & A & B). rewrite E. eexists _, db. split; [reflexivity|]. auto.
  - exists M_success, (l_db s). split; [reflexivity|]. split; [destruct s; exact Hi|]. intros j e H. exact (from_same s j e H).
Qed.

(** ** Tag changes. *)
Lemma retag_old_spec id tags s : linv s -> linv (on_db (retag compressed id tags) s) /\
  forall j e', has (retag compressed id tags (l_db s)) j e' <-> exists e, has (l_db s) j e /\ e' = if bseq (m_id e) (canon id) then set_tags tags e else e.
Proof.
  intros Hi. unfold retag, on_db. pose proof (find_message_spec compressed id (l_db s) (l_sorted _ s Hi)) as F.
  destruct (find_message compressed id (l_db s)) as [[k d]|].
  - destruct F as [F1 F2]. destruct (l_thread _ s Hi k d F1) as (t & T & Lt). split.
    + change (linv (on_db (sync k (set_tags tags d)) s)). apply (linv_put k (set_tags tags d) t); auto.
      * exact (l_last _ s Hi k d F1).
      * intros j e H Ee. exact (l_unique _ s Hi j e k d H F1 Ee).
      * exact (l_canon _ s Hi k d F1).
    + intros j e'. rewrite has_sync. split.
      * intros [[-> ->]|[Hne H]].
        -- exists d. split; [exact F1|]. now rewrite F2, bseq_refl.
        -- exists e'. split; [exact H|]. destruct (bseq_spec (m_id e') (canon id)) as [E|]; [|reflexivity].
           exfalso. apply Hne. apply (l_unique _ s Hi j e' k d H F1). congruence.
      * intros (e & H & ->). destruct (bseq_spec (m_id e) (canon id)) as [E|E].
        -- left. assert (j = k) by (apply (l_unique _ s Hi j e k d H F1); congruence). subst j. assert (e = d) by (unfold has in *; congruence). subst e. auto.
        -- right. split; [|exact H]. intros ->. apply E. unfold has in *. congruence.
  - split; [destruct s; exact Hi|]. intros j e'. split.
    + intros H. exists e'. split; [exact H|]. destruct (bseq_spec (m_id e') (canon id)) as [E|]; [|reflexivity]. exfalso. exact (F j e' H E).
    + intros (e & H & ->). destruct (bseq_spec (m_id e) (canon id)) as [E|]; [|exact H]. exfalso. exact (F j e H E).
Qed.

(** ** Histories. *)
Lemma lstep_inv o s : linv s -> exists st s', lstep compressed o s = Some (st, s') /\ linv s' /\
  (forall R, equivalence R -> just R s -> (forall name f keys ok r, o = OAdd name f keys ok -> In r keys -> R (canon (f_id f)) (canon r)) -> just R s').
Proof.
  intros Hi. destruct o as [name f keys ok|name|id tags]; cbn [lstep].
  - destruct (index_file_old_spec name f keys ok s Hi) as (st & s' & phi & t & E & Hi' & _ & _ & _ & J). exists st, s'. split; [exact E|]. split; [exact Hi'|].
    intros R Req J0 Hr. apply (J R Req J0). intros r Hin. exact (Hr name f keys ok r eq_refl Hin).
  - destruct (remove_old_spec name s Hi) as (st & db & E & Hi' & F). rewrite E. eexists _, _. split; [reflexivity|]. split; [exact Hi'|].
    intros R Req J0 _.
    assert (Q : forall a u, lmem {| l_db := db; l_meta := l_meta s |} a u -> lmem s a u).
    { intros a u [(j & e & H & Ee & Hu)|H]; [|right; exact H]. destruct (F j e H) as (j0 & e0 & H0 & A & B & _). left. exists j0, e0. split; [exact H0|]. split; congruence. }
    constructor.
    + intros a b u Ha Hb. exact (j_thread _ R s J0 a b u (Q _ _ Ha) (Q _ _ Hb)).
    + intros j e x H Hx. destruct (F j e H) as (j0 & e0 & H0 & A & _ & B). rewrite A. apply (j_ref _ R s J0 j0 e0 x H0). now apply B.
  - destruct (retag_old_spec id tags s Hi) as [Hi' F]. eexists _, _. split; [reflexivity|]. split; [exact Hi'|]. intros R Req J0 _.
    assert (Q : forall a u, lmem (on_db (retag compressed id tags) s) a u -> lmem s a u).
    { intros a u [(j & e & H & Ee & Hu)|H]; [|right; exact H]. apply F in H as (e0 & H0 & ->). left. exists j, e0. split; [exact H0|].
      destruct (bseq (m_id e0) (canon id)); auto. }
    constructor.
    + intros a b u Ha Hb. exact (j_thread _ R s J0 a b u (Q _ _ Ha) (Q _ _ Hb)).
    + intros j e x H Hx. apply F in H as (e0 & H0 & ->). destruct (bseq (m_id e0) (canon id)); exact (j_ref _ R s J0 j e0 x H0 Hx).
Qed.
Lemma lrun_inv h : forall s, linv s -> exists s', lrun compressed h s = Some s' /\ linv s' /\
  (forall R, equivalence R -> just R s -> (forall name f keys ok r, In (OAdd name f keys ok) h -> In r keys -> R (canon (f_id f)) (canon r)) -> just R s').
Proof.
  induction h as [|o h IH]; intros s Hi; [exists s; auto|]. cbn [lrun]. destruct (lstep_inv o s Hi) as (st & s1 & E & Hi1 & J1). rewrite E.
  destruct (IH s1 Hi1) as (s2 & E2 & Hi2 & J2). exists s2. split; [exact E2|]. split; [exact Hi2|]. intros R Req J Hr. apply (J2 R Req).
  - apply (J1 R Req J). intros name f keys ok r -> Hin. apply (Hr name f keys ok r); [now left|exact Hin].
  - intros name f keys ok r Hin. intros Hk. apply (Hr name f keys ok r); [now right|exact Hk].
Qed.

(** The relation between a message and one its file refers to. *)
Definition linked (s : ldb) (a r : bytes) : Prop :=
  exists k d, has (l_db s) k d /\ m_id d = a /\
    ((exists k' d', has (l_db s) k' d' /\ m_id d' = r /\ m_threads d' = m_threads d) \/
     ((forall k' d', has (l_db s) k' d' -> m_id d' <> r) /\ In r (m_refs d))).

Lemma linked_add name f keys s st s' r : linv s -> lstep compressed (OAdd name f keys true) s = Some (st, s') -> In r keys -> (length r <= 189)%nat ->
  linked s' (canon (f_id f)) r.
Proof.
  intros Hi E Hr Hl. cbn [lstep] in E. destruct (index_file_old_spec name f keys true s Hi) as (st1 & s1 & phi & t & E1 & Hi1 & _ & BW & A & _).
  rewrite E in E1. injection E1 as <- <-. destruct (A eq_refl) as ((k & d & H & Id & _ & T & _ & Rf) & Pr & _).
  exists k, d. split; [exact H|]. split; [exact Id|].
  pose proof (find_message_spec compressed r (l_db s') (l_sorted _ s' Hi1)) as F. rewrite (canon_id compressed r Hl) in F.
  destruct (find_message compressed r (l_db s')) as [[k' d']|].
  - destruct F as [F1 F2]. left. exists k', d'. split; [exact F1|]. split; [exact F2|]. rewrite T. apply (Pr r k' d' Hr F1). now rewrite (canon_id compressed r Hl).
  - right. split; [exact F|]. apply Rf; [exact Hr|lia].
Qed.

Lemma linked_step o s st s' a r : linv s -> lstep compressed o s = Some (st, s') ->
  match o with OAdd _ _ _ ok => ok = true | ORemove _ => False | OTags _ _ => True end -> linked s a r -> linked s' a r.
Proof.
  intros Hi E Ho (k & d & H & Id & L). destruct o as [name f keys ok|name|id tags]; [|destruct Ho|]; cbn [lstep] in E.
  - subst ok. destruct (index_file_old_spec name f keys true s Hi) as (st1 & s1 & phi & t & E1 & Hi1 & FW & BW & A & _).
    rewrite E in E1. injection E1 as <- <-. destruct (A eq_refl) as ((kn & dn & Hn & In_ & _ & Tn & _ & _) & _ & Ch). clear A.
    set (self := canon (f_id f)) in *.
    destruct (FW k d H) as (d1 & H1 & I1 & T1 & R1 & _). exists k, d1. split; [exact H1|]. split; [congruence|].
    destruct L as [(k' & d' & H' & Ir & Tr)|[Hno Hr]].
    + left. destruct (FW k' d' H') as (d2 & H2 & I2 & T2 & _). exists k', d2. split; [exact H2|]. split; [congruence|]. now rewrite T1, T2, Tr.
    + destruct (bseq_spec r self) as [->|Hne].
      * left. exists kn, dn. split; [exact Hn|]. split; [exact In_|]. rewrite Tn. symmetry. exact (Ch k d d1 H Hr H1).
      * right. split; [|now apply R1]. intros k' d' H' Ed. destruct (BW k' d' H') as [(d0 & H0 & I0)|[_ I0]]; [|congruence].
        apply (Hno k' d0 H0). congruence.
  - injection E as <- <-. destruct (retag_old_spec id tags s Hi) as [_ F].
    assert (G : forall j e, has (l_db s) j e -> exists e', has (l_db (on_db (retag compressed id tags) s)) j e' /\ m_id e' = m_id e /\ m_threads e' = m_threads e /\ m_refs e' = m_refs e).
    { intros j e He. eexists. split; [apply F; exists e; split; [exact He|reflexivity]|]. destruct (bseq (m_id e) (canon id)); auto. }
    destruct (G k d H) as (d1 & H1 & I1 & T1 & R1). exists k, d1. split; [exact H1|]. split; [congruence|].
    destruct L as [(k' & d' & H' & Ir & Tr)|[Hno Hr]].
    + left. destruct (G k' d' H') as (d2 & H2 & I2 & T2 & _). exists k', d2. split; [exact H2|]. split; congruence.
    + right. split; [|now rewrite R1]. intros k' d' H' Ed. apply F in H' as (e & He & ->). apply (Hno k' e He). destruct (bseq (m_id e) (canon id)); exact Ed.
Qed.
Lemma linked_run h : forall s s' a r, linv s -> lrun compressed h s = Some s' -> adds_only h -> linked s a r -> linked s' a r.
Proof.
  induction h as [|o h IH]; intros s s' a r Hi E Ha L; [injection E as <-; exact L|]. cbn [lrun] in E. destruct (lstep_inv o s Hi) as (st & s1 & E1 & Hi1 & _). rewrite E1 in E.
  apply Forall_cons_iff in Ha as [Ho Ha]. apply (IH s1 s' a r Hi1 E Ha). exact (linked_step o s st s1 a r Hi E1 Ho L).
Qed.
Lemma lrun_app h1 : forall h2 s, lrun compressed (h1 ++ h2) s = match lrun compressed h1 s with Some s' => lrun compressed h2 s' | None => None end.
Proof. induction h1 as [|o h1 IH]; intros h2 s; [reflexivity|]. cbn. destruct (lstep compressed o s) as [[st s1]|]; [apply IH|reflexivity]. Qed.

(** Every addition of a history of successful additions. *)
Lemma linked_history h s name f keys ok r : lrun compressed h empty_ldb = Some s -> adds_only h ->
  In (OAdd name f keys ok) h -> In r keys -> (length r <= 189)%nat -> linked s (canon (f_id f)) r.
Proof.
  intros E Ha Hin Hr Hl. apply in_split in Hin as (h1 & h2 & ->). apply Forall_app in Ha as [_ Ha]. apply Forall_cons_iff in Ha as [Ho Ha]. cbn in Ho. subst ok.
  rewrite lrun_app in E. destruct (lrun_inv h1 empty_ldb (linv_empty compressed)) as (s1 & E1 & Hi1 & _). rewrite E1 in E. cbn [lrun] in E.
  destruct (lstep_inv (OAdd name f keys true) s1 Hi1) as (st & s2 & E2 & Hi2 & _). rewrite E2 in E.
  apply (linked_run h2 s2 s _ r Hi2 E Ha). exact (linked_add name f keys s1 st s2 r Hi1 E2 Hr Hl).
Qed.
(** An added message is in the database. *)
Definition known (s : ldb) (a : bytes) : Prop := exists k d, has (l_db s) k d /\ m_id d = a /\ m_ghost d = false.
End P.
