(** Property C12 (lib/message-property.cc, lib/string-map.c, lib/message.cc). *)
From Verif Require Import Bytes Terms Meta MetaProofs StringMap StringMapProofs DocMap Db DbSpec DbProofs Props PropsSpec PropsProofs.
From Coq Require Import Sorting.Sorted.
Local Open Scope nat_scope.

(** Modifications act on the set of pairs, and on nothing else. *)
Theorem C12_add_property :
  forall h k d s key v, handle_on s h k d -> key_ok key -> length (property_term key v) <= 245 ->
  exists s', step (OpAddProp h key v) s = (St_success, s') /\
    changes_props s s' h k d (fun k' v' => (k' = key /\ v' = v) \/ props (d_terms d) k' v').
Proof. exact add_property_spec. Qed.
Print Assumptions C12_add_property.

Theorem C12_remove_property :
  forall h k d s key v, handle_on s h k d -> key_ok key -> length (property_term key v) <= 245 ->
  exists s', step (OpRemProp h key v) s = (St_success, s') /\
    changes_props s s' h k d (fun k' v' => props (d_terms d) k' v' /\ ~ (k' = key /\ v' = v)).
Proof. exact remove_property_spec. Qed.
Print Assumptions C12_remove_property.

Theorem C12_remove_all_of_key :
  forall h k d s key, handle_on s h k d -> key_ok key ->
  exists s', step (OpRemProps h (Some key) false) s = (St_success, s') /\
    changes_props s s' h k d (fun k' v' => props (d_terms d) k' v' /\ k' <> key).
Proof.
  intros h k d s key H Hk. apply (remove_properties_spec h k d s (Some key) false (fun k' => k' = key)); [exact H|].
  intros k' v' Hk'. now apply key_eq_prefix.
Qed.
Print Assumptions C12_remove_all_of_key.

Theorem C12_remove_all_with_prefix :
  forall h k d s key, handle_on s h k d -> key_ok key ->
  exists s', step (OpRemProps h (Some key) true) s = (St_success, s') /\
    changes_props s s' h k d (fun k' v' => props (d_terms d) k' v' /\ ~ exists r, k' = key ++ r).
Proof.
  intros h k d s key H Hk. apply (remove_properties_spec h k d s (Some key) true (fun k' => exists r, k' = key ++ r)); [exact H|].
  intros k' v' Hk'. now apply key_prefix.
Qed.
Print Assumptions C12_remove_all_with_prefix.

Theorem C12_remove_all :
  forall h k d s, handle_on s h k d ->
  exists s', step (OpRemProps h None false) s = (St_success, s') /\
    changes_props s s' h k d (fun _ _ => False).
Proof.
  intros h k d s H. destruct (remove_properties_spec h k d s None false (fun _ => True) H) as (s' & A & d' & B & C & D).
  { intros k' v' _. cbn. tauto. }
  exists s'. split; [exact A|]. exists d'. split; [exact B|]. split; [|exact D]. intros k' v'. rewrite C. tauto.
Qed.
Print Assumptions C12_remove_all.

(** A key containing '=' is refused and nothing changes. *)
Theorem C12_bad_key_refused :
  forall h s hd key v, dget h (handles s) = Some hd -> writable s = true -> isopen s = true -> In "="%char key ->
  step (OpAddProp h key v) s = (St_illegal_argument, s) /\ step (OpRemProp h key v) s = (St_illegal_argument, s).
Proof.
  intros h s hd key v Hh Hw Ho Hk. cbn [step]. unfold on_handle. rewrite Hh. unfold modify_property.
  rewrite (proj2 (ensure_writable_success s) (conj Hw Ho)), (proj2 (mem_In _ _) Hk).
  rewrite dput_same by exact Hh. now destruct s.
Qed.
Print Assumptions C12_bad_key_refused.

(** Iterating (exact key or key prefix) yields exactly the matching pairs, sorted by
    key then value, each once. *)
Theorem C12_iteration :
  forall terms key exact, tsorted terms -> props_wf terms ->
  exists l, get_properties terms key exact = Some l /\ lists l (props terms) (key_matches key exact).
Proof. exact get_properties_spec. Qed.
Print Assumptions C12_iteration.

(** get returns a value stored under the key (the smallest), or NULL iff there is none. *)
Theorem C12_get :
  forall terms key, tsorted terms -> props_wf terms ->
  (exists v, get_property terms key = Some (Some v) /\ props terms key v /\
     forall w, props terms key w -> w = v \/ bcmp v w = Lt) \/
  (get_property terms key = Some None /\ forall v, ~ props terms key v).
Proof.
  intros terms key Hs Hw. destruct (get_property_spec terms key Hs Hw) as (l & A & B).
  destruct (get_properties_spec terms key true Hs Hw) as (l' & A' & C & D). rewrite A in A'. injection A' as <-.
  destruct l as [|[k v] l].
  - right. split; [exact B|]. intros v Hv. assert (X : In (key, v) []); [|destruct X]. apply C. split; [exact Hv|reflexivity].
  - left. exists v. split; [exact B|]. assert (H : props terms k v /\ key_matches key true k) by (apply C; now left).
    destruct H as [H1 H2]. cbn in H2. subst k. split; [exact H1|]. intros w Hw'.
    assert (Hin : In (key, w) ((key, v) :: l)) by (apply C; split; [exact Hw'|reflexivity]).
    destruct Hin as [E|Hin]; [left; congruence|right]. inversion D as [|? ? _ F]; subst. rewrite Forall_forall in F.
    destruct (F _ Hin) as [E|[_ E]]; [cbn in E; rewrite bcmp_refl in E; discriminate|exact E].
Qed.
Print Assumptions C12_get.

(** count is the number of values under the key. *)
Theorem C12_count :
  forall terms key, tsorted terms -> props_wf terms ->
  exists l, count_properties terms key = Some (length l) /\ NoDup l /\ (forall v, In v l <-> props terms key v).
Proof.
  intros terms key Hs Hw. destruct (count_properties_spec terms key Hs Hw) as (l & A & B).
  destruct (get_properties_spec terms key true Hs Hw) as (l' & A' & C & D). rewrite A in A'. injection A' as <-.
  exists (map snd l). rewrite map_length. split; [exact B|].
  assert (K : forall p, In p l -> fst p = key).
  { intros [k v] H. apply C in H as [_ H]. exact H. }
  split.
  - clear - D K. induction D as [|p l _ IH Hp]; [constructor|]. cbn. constructor; [|apply IH; intros; apply K; now right].
    intros Hin. apply in_map_iff in Hin as (q & E & Hq). rewrite Forall_forall in Hp. destruct (Hp q Hq) as [L|[_ L]].
    + rewrite (K p), (K q) in L by (cbn; auto). rewrite bcmp_refl in L. discriminate.
    + rewrite E, bcmp_refl in L. discriminate.
  - intros v. rewrite in_map_iff. split.
    + intros ([k w] & <- & H). pose proof (K _ H) as E. cbn in E. subst k. now apply C in H.
    + intros H. exists (key, v). split; [reflexivity|]. apply C. split; [exact H|reflexivity].
Qed.
Print Assumptions C12_count.

(** Different pairs are different terms: no pair can be confused with another, nor
    with a term of another kind. *)
Theorem C12_pairs_not_confused :
  forall k v k' v', key_ok k -> key_ok k' -> property_term k v = property_term k' v' -> k = k' /\ v = v'.
Proof. exact property_term_inj. Qed.
Print Assumptions C12_pairs_not_confused.

Definition ex_doc : doc :=
  {| d_terms := map lit ["Kinbox"; "Qa@b"; "XPROPERTYa=1"; "XPROPERTYa=2=3"; "XPROPERTYab=x"; "XPROPERTYindex.x=y"]%string; d_lastmod := 3 |}.
Definition ex_db : db := snd (step (OpOpenMsg 1 7) (open_db {| st_docs := [(7%N, ex_doc)]; st_ub := 3 |} 0 true)).
Example C12_nontrivial :
  handle_on ex_db 1 7 ex_doc /\
  get_properties (d_terms ex_doc) (lit "a") false = Some [(lit "a", lit "1"); (lit "a", lit "2=3"); (lit "ab", lit "x")] /\
  count_properties (d_terms ex_doc) (lit "a") = Some 2 /\ get_property (d_terms ex_doc) (lit "a") = Some (Some (lit "1")) /\
  let s' := run [OpRemProps 1 (Some (lit "a")) false; OpAddProp 1 (lit "k") (lit "v=w")] ex_db in
  option_map d_terms (dget 7 (st_docs (vis s'))) =
    Some (map lit ["Kinbox"; "Qa@b"; "XPROPERTYab=x"; "XPROPERTYindex.x=y"; "XPROPERTYk=v=w"]%string).
Proof.
  split; [|now vm_compute]. unfold handle_on. repeat split; try reflexivity.
  - cbn. repeat constructor.
  - intros s H. cbn in H. repeat (destruct H as [H|H]; [try discriminate; injection H as <-; cbn; tauto|]). contradiction.
Qed.

(** remove_all_properties does not check the key: with a '=' in it, values of another
    key are removed. *)
Theorem C12_remove_all_checks_key_refuted :
  ~ (forall h k d s key, handle_on s h k d ->
     exists s', snd (step (OpRemProps h (Some key) false) s) = s' /\
       changes_props s s' h k d (fun k' v' => props (d_terms d) k' v' /\ k' <> key)).
Proof.
  intros H. destruct (H 1%N 7%N ex_doc ex_db (lit "a=2") (proj1 C12_nontrivial)) as (s' & <- & d' & (_ & _ & A & _) & B & _).
  assert (L : option_map d_terms (dget 7 (st_docs (vis (snd (step (OpRemProps 1 (Some (lit "a=2")) false) ex_db))))) =
    Some (map lit ["Kinbox"; "Qa@b"; "XPROPERTYa=1"; "XPROPERTYab=x"; "XPROPERTYindex.x=y"]%string)) by (vm_compute; reflexivity).
  rewrite A in L. injection L as L. destruct (B (lit "a") (lit "2=3")) as [_ B2]. rewrite L in B2.
  assert (X : props (map lit ["Kinbox"; "Qa@b"; "XPROPERTYa=1"; "XPROPERTYab=x"; "XPROPERTYindex.x=y"]%string) (lit "a") (lit "2=3")).
  { apply B2. split; [|discriminate]. split; [cbn; intros [X|X]; [discriminate|exact X]|cbn; tauto]. }
  destruct X as [_ X]. cbn in X. repeat (destruct X as [X|X]; [discriminate|]). exact X.
Qed.
Print Assumptions C12_remove_all_checks_key_refuted.

(** A key and value of together more than 235 bytes abort the process instead of
    returning an error. *)
Theorem C12_long_value_returns_error_refuted :
  ~ (forall h k d s key v, handle_on s h k d -> key_ok key ->
       fst (step (OpAddProp h key v) s) <> St_internal_error).
Proof.
  intros H. apply (H 1%N 7%N ex_doc ex_db (lit "k") (repeat "v"%char 300) (proj1 C12_nontrivial)).
  - cbn. intros [X|X]; [discriminate|exact X].
  - vm_compute. reflexivity.
Qed.
Print Assumptions C12_long_value_returns_error_refuted.
