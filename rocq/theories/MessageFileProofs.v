(** Proofs about headers of message files. *)
From Verif Require Import Bytes StrUtil MsgId Reply ReplySpec ReplyProofs MessageFile MessageFileSpec.
From Coq Require Import Lia.
Local Open Scope nat_scope.

Lemma same_refl a : same_but_case a a. Proof. reflexivity. Qed.
Lemma same_sym a b : same_but_case a b -> same_but_case b a. Proof. unfold same_but_case. congruence. Qed.
Lemma same_trans a b c : same_but_case a b -> same_but_case b c -> same_but_case a c.
Proof. unfold same_but_case. congruence. Qed.
Lemma strcaseeq_false a b : strcaseeq a b = false <-> ~ same_but_case a b.
Proof.
  split.
  - intros E H. apply strcaseeq_spec in H. congruence.
  - intros H. destruct (strcaseeq a b) eqn:E; auto. apply strcaseeq_spec in E. contradiction.
Qed.
Lemma strcaseeq_comm a b : strcaseeq a b = strcaseeq b a.
Proof.
  destruct (strcaseeq a b) eqn:E; symmetry; [apply strcaseeq_spec in E|apply strcaseeq_false in E].
  - apply strcaseeq_spec. now apply same_sym.
  - apply strcaseeq_false. intros H. apply E. now apply same_sym.
Qed.
Lemma strcaseeq_cong n a b : same_but_case a b -> strcaseeq n a = strcaseeq n b.
Proof.
  intros H. destruct (strcaseeq n a) eqn:E; symmetry; [apply strcaseeq_spec in E|apply strcaseeq_false in E].
  - apply strcaseeq_spec. eapply same_trans; eauto.
  - apply strcaseeq_false. intros X. apply E. eapply same_trans; [exact X|now apply same_sym].
Qed.

Section P.
Variable decode : bytes -> option bytes.
Notation hdrs := (list (bytes * bytes)).
Implicit Types hs : hdrs.

Definition inst (h : bytes) hs : list bytes := map snd (filter (fun x => strcaseeq (fst x) h) hs).
Lemma inst_spec h hs vs : instances h hs vs <-> vs = inst h hs.
Proof.
  split.
  - induction 1; unfold inst in *; cbn; auto.
    + apply strcaseeq_spec in H. rewrite H. cbn. now f_equal.
    + apply strcaseeq_false in H. now rewrite H.
  - intros ->. induction hs as [|[n v] hs IH]; [constructor|]. unfold inst in *. cbn.
    destruct (strcaseeq n h) eqn:E; cbn.
    + constructor; auto. now apply strcaseeq_spec.
    + constructor; auto. now apply strcaseeq_false.
Qed.
Lemma combined_inst hs h c : combined_loop decode hs h c = fold_left (extend_header decode) (inst h hs) c.
Proof.
  revert c. induction hs as [|[n v] hs IH]; intros c; cbn; auto. unfold inst. cbn.
  destruct (strcaseeq n h); cbn; apply IH.
Qed.
Lemma first_inst hs h : first_header h hs = hd_error (inst h hs).
Proof. induction hs as [|[n v] hs IH]; cbn; auto. unfold inst. cbn. destruct (strcaseeq n h); cbn; auto. Qed.

Lemma spaced_two a b l : spaced (a :: b :: l) = spaced ((a ++ lit " " ++ b) :: l).
Proof. destruct l as [|c l]; cbn -[lit]; [reflexivity|now rewrite <- !app_assoc]. Qed.
Lemma fold_some vs : forall ds a, map decode vs = map Some ds -> fold_left (extend_header decode) vs (Some a) = Some (spaced (a :: ds)).
Proof.
  induction vs as [|v vs IH]; intros [|d ds] a E; try discriminate E; [reflexivity|].
  cbn [map] in E. injection E as E1 E2. cbn [fold_left]. unfold extend_header at 2. rewrite E1. rewrite (IH _ _ E2). now rewrite spaced_two.
Qed.
Lemma fold_none vs ds : map decode vs = map Some ds ->
  fold_left (extend_header decode) vs None = match ds with [] => None | _ => Some (spaced ds) end.
Proof.
  destruct vs as [|v vs], ds as [|d ds]; intros E; try discriminate E; [reflexivity|].
  cbn [map] in E. injection E as E1 E2. cbn [fold_left]. unfold extend_header at 2. rewrite E1. now apply fold_some.
Qed.
Lemma fold_bad pre v post c : decode v = None ->
  fold_left (extend_header decode) (pre ++ v :: post) c = fold_left (extend_header decode) post None.
Proof. intros E. rewrite fold_left_app. cbn [fold_left]. unfold extend_header at 2. now rewrite E. Qed.
Lemma decode_cases vs : (exists ds, map decode vs = map Some ds) \/
  exists pre v post ds, vs = pre ++ v :: post /\ decode v = None /\ map decode post = map Some ds.
Proof.
  induction vs as [|v vs IH]; [left; now exists []|].
  destruct IH as [(ds & E)|(pre & w & post & ds & -> & E & F)].
  - destruct (decode v) as [d|] eqn:D.
    + left. exists (d :: ds). cbn. now rewrite D, E.
    + right. exists [], v, vs, ds. auto.
  - right. exists (v :: pre), w, post, ds. auto.
Qed.

(** The value without a cache. *)
Definition plain hs h : option bytes :=
  if strcaseeq h (lit "received") || strcaseeq h (lit "delivered-to") then get_combined_header decode hs h
  else match first_header h hs with Some v => decode v | None => Some [] end.
Lemma concatenated_spec h : strcaseeq h (lit "received") || strcaseeq h (lit "delivered-to") = true <-> concatenated h.
Proof. rewrite orb_true_iff. unfold concatenated. now rewrite !strcaseeq_spec. Qed.
Lemma plain_spec hs h r : header_value decode hs h r <-> r = plain hs h.
Proof.
  unfold plain. split.
  - intros H. destruct H as [I|v vs N I|v vs ds N I E|pre v post ds N I E F]; apply inst_spec in I.
    + unfold get_combined_header. rewrite combined_inst, first_inst, <- I. cbn. now destruct (_ || _).
    + destruct (_ || _) eqn:X; [apply concatenated_spec in X; contradiction|]. now rewrite first_inst, <- I.
    + apply concatenated_spec in N. rewrite N. unfold get_combined_header. rewrite combined_inst, <- I, (fold_none _ _ E).
      destruct ds; [discriminate E|reflexivity].
    + apply concatenated_spec in N. rewrite N. unfold get_combined_header. rewrite combined_inst, <- I, (fold_bad _ _ _ _ E), (fold_none _ _ F).
      now destruct ds.
  - intros ->. destruct (_ || _) eqn:X.
    + apply concatenated_spec in X. unfold get_combined_header. rewrite combined_inst.
      destruct (decode_cases (inst h hs)) as [(ds & E)|(pre & v & post & ds & E1 & E2 & E3)].
      * rewrite (fold_none _ _ E). destruct (inst h hs) as [|v vs] eqn:I.
        -- destruct ds; [|discriminate E]. apply hv_absent. now apply inst_spec.
        -- destruct ds as [|d ds]; [discriminate E|]. eapply hv_all; eauto. now apply inst_spec.
      * rewrite E1, (fold_bad _ _ _ _ E2), (fold_none _ _ E3).
        assert (header_value decode hs h (Some (spaced ds))) as HV by (apply (hv_after_bad decode hs h pre v post ds); [exact X|apply inst_spec; now rewrite E1|exact E2|exact E3]).
        now destruct ds.
    + rewrite first_inst. destruct (inst h hs) as [|v vs] eqn:I; cbn.
      * apply hv_absent. now apply inst_spec.
      * eapply hv_first; [|apply inst_spec; now rewrite I]. intros Y. apply concatenated_spec in Y. congruence.
Qed.
Lemma inst_cong hs a b : same_but_case a b -> inst a hs = inst b hs.
Proof.
  intros H. unfold inst. f_equal. apply filter_ext. intros x. now apply strcaseeq_cong.
Qed.
Lemma plain_cong hs a b : same_but_case a b -> plain hs a = plain hs b.
Proof.
  intros H. unfold plain, get_combined_header. rewrite !combined_inst, !first_inst, (inst_cong _ _ _ H).
  rewrite !(strcaseeq_comm a), !(strcaseeq_comm b), !(strcaseeq_cong _ _ _ H). reflexivity.
Qed.

(** Every cached value is the one the file gives. *)
Definition cache_good (f : mail) (c : cache) : Prop :=
  match f with
  | None => c = []
  | Some hs => Forall (fun x => plain hs (fst x) = Some (snd x)) c
  end.
Lemma lookup_good hs c h v : cache_good (Some hs) c -> cache_lookup h c = Some v -> plain hs h = Some v.
Proof.
  cbn. intros G. induction c as [|[n w] c IH]; cbn; [discriminate|]. inversion G as [|x l G1 G2]; subst. cbn in G1.
  destruct (strcaseeq n h) eqn:E; auto. intros [= <-]. apply strcaseeq_spec in E. rewrite <- G1. apply plain_cong. now apply same_sym.
Qed.
Definition pure_value (f : mail) (h : bytes) : option bytes := match f with None => None | Some hs => plain hs h end.
Lemma pure_value_spec f h r : file_value decode f h r <-> r = pure_value f h.
Proof. destruct f; cbn; [apply plain_spec|reflexivity]. Qed.
Lemma get_header_good f c h : cache_good f c ->
  exists c', file_get_header decode f c h = (pure_value f h, c') /\ cache_good f c'.
Proof.
  intros G. destruct f as [hs|]; [|cbn; eauto].
  unfold file_get_header, pure_value. destruct (cache_lookup h c) as [v|] eqn:L.
  - rewrite (lookup_good hs c h v G L). eauto.
  - fold (plain hs h). destruct (plain hs h) eqn:P; [|eauto]. eexists. split; [reflexivity|]. cbn. constructor; auto.
Qed.
Lemma get_many_good f ns : forall c, cache_good f c ->
  exists c', file_get_many decode f c ns = (map (pure_value f) ns, c') /\ cache_good f c'.
Proof.
  induction ns as [|n ns IH]; intros c G; cbn [file_get_many map]; [eauto|].
  destruct (get_header_good f c n G) as (c1 & -> & G1). destruct (IH c1 G1) as (c2 & -> & G2). eauto.
Qed.

Definition pure_id sha1 (f : mail) : option bytes :=
  match (match pure_value f (lit "message-id") with None => None | Some h => header_message_id h end) with
  | Some i => Some i
  | None => match sha1 with None => None | Some h => Some (lit "notmuch-sha1-" ++ h) end
  end.
Definition pure_headers sha1 (f : mail) : fstatus * option headers_out :=
  match f with
  | None => (FNotEmail, None)
  | Some _ =>
      if null_or_empty (pure_value f (lit "from")) && null_or_empty (pure_value f (lit "subject")) && null_or_empty (pure_value f (lit "to"))
      then (FNotEmail, None)
      else match pure_id sha1 f with
           | None => (FFileError, None)
           | Some i => (FSuccess, Some {| ho_from := pure_value f (lit "from"); ho_subject := pure_value f (lit "subject");
                                          ho_to := pure_value f (lit "to"); ho_date := pure_value f (lit "date"); ho_id := i |})
           end
  end.
Lemma get_headers_pure sha1 f c : cache_good f c ->
  exists c', file_get_headers decode sha1 f c = (pure_headers sha1 f, c') /\ cache_good f c'.
Proof.
  intros G. unfold file_get_headers, pure_headers. destruct f as [hs|]; [|eauto].
  destruct (get_header_good _ c (lit "from") G) as (c1 & -> & G1).
  destruct (get_header_good _ c1 (lit "subject") G1) as (c2 & -> & G2).
  destruct (get_header_good _ c2 (lit "to") G2) as (c3 & -> & G3).
  destruct (get_header_good _ c3 (lit "date") G3) as (c4 & -> & G4).
  destruct (_ && _ && _); [eauto|].
  destruct (get_header_good _ c4 (lit "message-id") G4) as (c5 & -> & G5).
  fold (pure_id sha1 (Some hs)). destruct (pure_id sha1 (Some hs)); eauto.
Qed.
End P.
