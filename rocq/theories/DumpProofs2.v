From Verif Require Import Bytes Hex HexSpec HexProofs StrUtil StrUtilSpec StrUtilProofs Terms Meta MetaProofs StringMap DocMap
  Db DbSpec DbProofs Props PropsSpec PropsProofs TagOps TagOpsSpec TagOpsProofs TagLine TagLineSpec TagLineProofs Dump DumpSpec DumpProofs.
Local Open Scope nat_scope.

Section R.
Variable compressed : bytes -> bytes.
Variable h : N.

Lemma find_message_Some s id k d : db_wf s -> length id <= 189 ->
  dget k (st_docs (vis s)) = Some d -> has_id d id -> find_message compressed id s = Some k.
Proof.
  intros [_ Hu] Hl Hd Hi. unfold find_message. destruct (Nat.ltb_spec NOTMUCH_MESSAGE_ID_MAX (length id));
    [unfold NOTMUCH_MESSAGE_ID_MAX in *; lia|]. unfold find_doc. destruct (find _ _) as [k'|] eqn:E.
  - apply find_some in E as [_ E]. destruct (dget k' _) as [d'|] eqn:Hd'; [|discriminate]. apply tmem_In in E.
    f_equal. eapply Hu; eauto.
  - exfalso. assert (Hk : In k (map fst (st_docs (vis s)))) by (apply dget_keys; congruence).
    apply (find_none _ _ E k) in Hk. rewrite Hd in Hk. apply tmem_false in Hk. now apply Hk.
Qed.
Lemma find_message_None s id : length id <= 189 ->
  (forall k d, dget k (st_docs (vis s)) = Some d -> ~ has_id d id) -> find_message compressed id s = None.
Proof.
  intros Hl Hn. unfold find_message. destruct (Nat.ltb_spec NOTMUCH_MESSAGE_ID_MAX (length id));
    [unfold NOTMUCH_MESSAGE_ID_MAX in *; lia|]. unfold find_doc. destruct (find _ _) as [k'|] eqn:E; [|reflexivity].
  apply find_some in E as [_ E]. destruct (dget k' _) as [d'|] eqn:Hd'; [|discriminate]. apply tmem_In in E.
  exfalso. eapply Hn; eauto.
Qed.

(** Open, writable and well-formed. *)
Definition ready (s : db) : Prop := writable s = true /\ isopen s = true /\ db_wf s.
(** [s'] differs from [s] at most in document [k], whose identity is kept. *)
Definition only_doc (s s' : db) (k : N) (d d' : doc) : Prop :=
  dget k (st_docs (vis s')) = Some d' /\ (forall j, j <> k -> dget j (st_docs (vis s')) = dget j (st_docs (vis s))) /\
  writable s' = true /\ isopen s' = true /\ tsorted (d_terms d') /\ props_wf (d_terms d') /\
  (forall t, (forall x, t <> lit "K" ++ x) -> ~ is_property t -> (In t (d_terms d') <-> In t (d_terms d))).
Lemma id_plain id : (forall x, lit "Q" ++ id <> lit "K" ++ x) /\ ~ is_property (lit "Q" ++ id).
Proof. split; [intros x [=]|intros (s & [=])]. Qed.
Lemma only_doc_ready s s' k d d' : ready s -> dget k (st_docs (vis s)) = Some d -> only_doc s s' k d d' -> ready s' /\ (forall id, has_id d' id <-> has_id d id).
Proof.
  intros (Hw & Ho & Hwf & Hu) Hd (A & B & C & D & E & F & G).
  assert (I : forall id, has_id d' id <-> has_id d id).
  { intros id. unfold has_id. apply G; apply id_plain. }
  split; [|exact I]. split; [exact C|]. split; [exact D|].
  assert (J : forall j e, dget j (st_docs (vis s')) = Some e -> exists e0, dget j (st_docs (vis s)) = Some e0 /\ forall id, has_id e id <-> has_id e0 id).
  { intros j e He. destruct (N.eq_dec j k) as [->|Hne].
    - exists d. split; [exact Hd|]. rewrite A in He. injection He as <-. exact I.
    - rewrite B in He by exact Hne. exists e. split; [exact He|tauto]. }
  split.
  - intros j e He. destruct (N.eq_dec j k) as [->|Hne].
    + rewrite A in He. injection He as <-. split; [exact E|]. split; [exact F|]. destruct (Hwf k d Hd) as (_ & _ & X).
      intros a b Ha Hb. apply I in Ha, Hb. auto.
    + rewrite B in He by exact Hne. eauto.
  - intros id k1 d1 k2 d2 H1 H2 I1 I2. destruct (J _ _ H1) as (e1 & E1 & F1), (J _ _ H2) as (e2 & E2 & F2).
    apply F1 in I1. apply F2 in I2. eapply Hu; eauto.
Qed.

(** *** Tag line *)
Lemma edits_add tags P t : edits_effect (edits_of true (map add_op tags)) P t <-> In t tags.
Proof.
  rewrite edits_of_effect. unfold tag_after. split.
  - intros [H|(_ & H & _)]; [|discriminate]. apply last_op_In in H. apply in_map_iff in H as (x & [= ->] & Hx). exact Hx.
  - intros H. left. induction tags as [|x tags IH] using rev_ind; [destruct H|].
    rewrite map_app. cbn [map]. apply last_op_snoc. apply in_app_or in H as [H|[->|[]]]; [|now left].
    destruct (bytes_eq_dec x t) as [->|Hne]; [now left|]. right. split; [exact Hne|]. now apply IH.
Qed.
Lemma restore_tags_ok id tags s k d : ready s -> length id <= 189 -> Forall (fun t => length t <= 200) tags ->
  dget k (st_docs (vis s)) = Some d -> has_id d id ->
  exists s' d', restore_tag_message compressed h id (map add_op tags) true s = (St_success, s') /\
    only_doc s s' k d d' /\ (forall t, tagged d' t <-> In t tags) /\
    (forall a b, props (d_terms d') a b <-> props (d_terms d) a b).
Proof.
  intros (Hw & Ho & Hwf) Hl Ht Hd Hi. unfold restore_tag_message. rewrite (find_message_Some s id k d Hwf Hl Hd Hi).
  cbn [orb]. destruct Hwf as [Hwf _]. destruct (Hwf k d Hd) as (S1 & S2 & _).
  assert (V : Forall tagop_valid (map add_op tags)) by (apply Forall_map; exact Ht).
  assert (T : dterms k s = Some (d_terms d)) by (unfold dterms; now rewrite Hd).
  destruct (tag_message_spec h (map add_op tags) true false k s (d_terms d) V Hw Ho T S1) as (s' & A & B & C & D & E).
  unfold tag_message in A.
  assert (A' : (let (s0, s1) := step (OpOpenMsg h k) s in match s0 with St_success => tag_op_list_apply h (map add_op tags) true false s1 | _ => (s0, s1) end) = (St_success, s')).
  { destruct (step (OpOpenMsg h k) s) as [[] s1]; exact A. }
  clear A. unfold dterms in D. destruct (dget k (st_docs (vis s'))) as [d'|] eqn:Hd'; [|discriminate].
  assert (D' : d_terms d' = edits_terms (edits_of true (map add_op tags)) (d_terms d)) by (cbn [option_map] in D; congruence).
  destruct (edits_terms_tags (edits_of true (map add_op tags)) (d_terms d) S1) as (X1 & X2 & X3). rewrite <- D' in X1, X2, X3.
  assert (P : forall t, is_property t -> (In t (d_terms d') <-> In t (d_terms d))).
  { intros t (u & ->). apply X3. intros x. discriminate. }
  exists s', d'. split; [destruct (step (OpOpenMsg h k) s) as [[] s1]; exact A'|]. split.
  - split; [exact Hd'|]. split; [exact E|]. split; [exact B|]. split; [exact C|]. split; [exact X1|]. split.
    + intros u Hu. apply (S2 u), P; [now exists u|exact Hu].
    + intros t Ht1 _. now apply X3.
  - split.
    + intros t. unfold tagged. rewrite <- (edits_add tags (fun t => In t (tags_of (d_terms d))) t), <- X2.
      symmetry. now apply tags_of_In.
    + intros a b. unfold props. rewrite P by (eexists; reflexivity). tauto.
Qed.

(** *** Tokens *)
Definition is_delim (c : byte) : bool := mem c delim.
Lemma strtok_delim sp w rest : forallb is_delim sp = true -> w <> [] -> forallb (fun c => negb (is_delim c)) w = true ->
  rest = [] \/ is_delim (peek rest) = true -> strtok_len delim (sp ++ w ++ rest) = Some (w, rest).
Proof.
  intros Hsp Hw Hn Hr. unfold strtok_len. change (fun c => mem c delim) with is_delim.
  rewrite dropwhile_app_stop; [|exact Hsp|].
  - change (fun c => negb (mem c delim)) with (fun c => negb (is_delim c)). rewrite span_eq.
    assert (St : negb (is_delim (peek rest)) = false \/ rest = []) by (destruct Hr as [->|Hr]; [now right|left; now rewrite Hr]).
    rewrite takewhile_app_stop, dropwhile_app_stop by assumption. destruct w; [contradiction|reflexivity].
  - left. destruct w as [|c w]; [contradiction|]. cbn [peek app forallb] in *. apply andb_true_iff in Hn as [Hn _]. now apply negb_true_iff.
Qed.
Lemma strtok_delim_none s : forallb is_delim s = true -> strtok_len delim s = None.
Proof. intros H. unfold strtok_len. change (fun c => mem c delim) with is_delim. rewrite dropwhile_forall by exact H. reflexivity. Qed.
Lemma isspace_delim c : isspace c = false -> is_delim c = false.
Proof.
  assert (H : forall c, implb (negb (isspace c)) (negb (is_delim c)) = true) by (apply byte_sweep; vm_compute; reflexivity).
  intros E. specialize (H c). rewrite E in H. cbn in H. now apply negb_true_iff in H.
Qed.
Lemma encode_nodelim s : cstr s -> forallb (fun c => negb (is_delim c)) (hex_encode s) = true.
Proof.
  intros H. apply encode_safe in H. apply forallb_forall. intros c Hc. rewrite Forall_forall in H. apply H in Hc.
  apply safe_char_facts in Hc. now rewrite isspace_delim.
Qed.
Lemma encode_no_nl s : cstr s -> ~ In NL (hex_encode s).
Proof.
  intros H Hc. apply encode_safe in H. rewrite Forall_forall in H. apply H in Hc. apply safe_char_facts in Hc. destruct Hc as (_ & X & _). vm_compute in X. discriminate.
Qed.

(** *** Properties line *)
Definition prop_ok (p : bytes * bytes) : Prop :=
  cstr (fst p) /\ cstr (snd p) /\ key_ok (fst p) /\ length (fst p) + length (snd p) <= 235.
Lemma token_off k v rest : key_ok k ->
  fst (span (fun c => negb (beq c "="%char)) ((hex_encode k ++ "="%char :: hex_encode v) ++ rest)) = hex_encode k.
Proof.
  intros Hk. rewrite <- app_assoc. cbn [app]. rewrite span_first; [reflexivity|]. now apply encode_no_eq.
Qed.
Lemma restore_properties_ok l : forall fuel tail r k d,
  handle_on (rs_db r) h k d -> Forall prop_ok l -> tail = [] \/ forallb is_delim tail = true ->
  length (concat (map dump_property l) ++ tail) < fuel ->
  exists r', restore_properties h fuel (concat (map dump_property l) ++ tail) r = R_ok r' /\ rs_cfg r' = rs_cfg r /\
    changes_props (rs_db r) (rs_db r') h k d (fun a b => In (a, b) l \/ props (d_terms d) a b).
Proof.
  induction l as [|[a b] l IH]; intros fuel tail r k d Hh Hl Ht Hf; (destruct fuel as [|f]; [lia|]); cbn [restore_properties].
  - cbn [map concat app]. rewrite strtok_delim_none by (destruct Ht as [->|Ht]; [reflexivity|exact Ht]).
    exists r. split; [reflexivity|]. split; [reflexivity|]. exists d. split; [exact Hh|]. split; [cbn; tauto|]. tauto.
  - inversion Hl as [|? ? H1 H2]; subst. destruct H1 as (C1 & C2 & C3 & C4). cbn [fst snd] in *.
    cbn [map concat]. unfold dump_property at 1. cbn [fst snd].
    set (rest := concat (map dump_property l) ++ tail).
    replace (((" "%char :: hex_encode a ++ "="%char :: hex_encode b) ++ concat (map dump_property l)) ++ tail)
      with ([" "%char] ++ (hex_encode a ++ "="%char :: hex_encode b) ++ rest) by (unfold rest; cbn; now rewrite <- !app_assoc).
    rewrite strtok_delim.
    + cbv zeta. rewrite (token_off a b rest C3).
      destruct (Nat.ltb_spec (length (hex_encode a ++ "="%char :: hex_encode b)) (length (hex_encode a))) as [X|_];
        [exfalso; rewrite app_length in X; lia|].
      destruct (Nat.eqb_spec (length (hex_encode a)) (length (hex_encode a ++ "="%char :: hex_encode b))) as [X|_];
        [exfalso; rewrite app_length in X; cbn in X; lia|].
      replace (firstn (length (hex_encode a)) (hex_encode a ++ "="%char :: hex_encode b)) with (hex_encode a)
        by (rewrite firstn_app, Nat.sub_diag, firstn_all; cbn; now rewrite app_nil_r).
      replace (skipn (S (length (hex_encode a))) (hex_encode a ++ "="%char :: hex_encode b)) with (hex_encode b).
      2:{ rewrite skipn_app. replace (S (length (hex_encode a)) - length (hex_encode a)) with 1 by lia.
          rewrite skipn_all2 by lia. reflexivity. }
      rewrite !decode_c_encode by assumption.
      destruct (add_property_spec h k d (rs_db r) a b Hh C3) as (s1 & E1 & d1 & Hh1 & P1 & N1 & O1).
      { rewrite property_term_is, !app_length. cbn [length lit list_ascii_of_string]. lia. }
      rewrite E1. destruct (IH f tail {| rs_db := s1; rs_cfg := rs_cfg r |} k d1 Hh1 H2 Ht) as (r' & A & B & d' & D1 & D2 & D3 & D4).
      { fold rest. cbn [map concat] in Hf. fold rest in Hf. revert Hf. unfold dump_property at 1. cbn [fst snd]. unfold rest. len. }
      exists r'. split; [exact A|]. split; [exact B|]. cbn [rs_db] in *. exists d'. split; [exact D1|]. split; [|split].
      * intros x y. rewrite D2, P1. cbn [In]. split.
        -- intros [X|[[-> ->]|X]]; auto.
        -- intros [[X|X]|X]; auto. injection X as -> ->. auto.
      * intros t Ht'. rewrite D3, N1 by exact Ht'. tauto.
      * intros j Hj. rewrite D4, O1 by exact Hj. reflexivity.
    + reflexivity.
    + destruct (hex_encode a); discriminate.
    + rewrite forallb_app. cbn [forallb]. now rewrite !encode_nodelim by assumption.
    + unfold rest. destruct l as [|[a' b'] l]; [|right; reflexivity]. cbn [map concat app].
      destruct Ht as [->|Ht]; [now left|]. destruct tail as [|c tail]; [now left|]. right. cbn in Ht |- *. now apply andb_true_iff in Ht.
Qed.

Definition prop_line (id : bytes) (l : list (bytes * bytes)) : bytes :=
  " "%char :: hex_encode id ++ concat (map dump_property l) ++ [NL].
Lemma process_properties_ok r id l k d : ready (rs_db r) -> length id <= 189 -> cstr id -> id <> [] -> Forall prop_ok l ->
  dget k (st_docs (vis (rs_db r))) = Some d -> has_id d id ->
  exists r' d', process_properties_line compressed h (prop_line id l) r = R_ok r' /\ rs_cfg r' = rs_cfg r /\
    only_doc (rs_db r) (rs_db r') k d d' /\
    (forall t, tagged d' t <-> tagged d t) /\ (forall a b, props (d_terms d') a b <-> In (a, b) l).
Proof.
  intros (Hw & Ho & Hwf) Hl Hc Hne Hp Hd Hi. unfold process_properties_line, prop_line.
  change (" "%char :: hex_encode id ++ concat (map dump_property l) ++ [NL]) with ([" "%char] ++ hex_encode id ++ concat (map dump_property l) ++ [NL]).
  rewrite strtok_delim.
  2: reflexivity. 2:{ intros E. now apply encode_nil in E. } 2: now apply encode_nodelim.
  2:{ right. destruct l; reflexivity. }
  rewrite decode_c_encode by exact Hc. rewrite (find_message_Some (rs_db r) id k d Hwf Hl Hd Hi).
  destruct Hwf as [Hwf _]. destruct (Hwf k d Hd) as (S1 & S2 & _).
  cbn [step]. unfold open_message. rewrite Hd.
  set (s1 := set_handles _ (rs_db r)).
  assert (H1 : handle_on s1 h k d).
  { unfold handle_on, s1. cbn. repeat split; auto. apply dget_dput_same. }
  destruct (remove_properties_spec h k d s1 None false (fun _ => True) H1) as (s2 & E2 & d2 & Hh2 & P2 & N2 & O2).
  { intros k' v' _. cbn. tauto. }
  change (on_handle h (remove_all_properties None false) s1) with (step (OpRemProps h None false) s1). rewrite E2.
  destruct (restore_properties_ok l (S (length (concat (map dump_property l) ++ [NL]))) [NL] {| rs_db := s2; rs_cfg := rs_cfg r |} k d2 Hh2 Hp)
    as (r' & A & B & d' & Hh' & P' & N' & O'); [right; reflexivity|lia|].
  cbn [rs_db rs_cfg] in *. exists r', d'. split; [exact A|]. split; [exact B|].
  assert (NP : forall t, ~ is_property t -> In t (d_terms d') <-> In t (d_terms d)).
  { intros t Ht. rewrite N', N2 by exact Ht. tauto. }
  destruct Hh' as (W & O & G1 & G2 & G3 & _). split; [|split].
  - split; [exact G1|]. split; [intros j Hj; rewrite O', O2 by exact Hj; reflexivity|]. repeat split; auto; apply NP; auto.
  - intros t. unfold tagged. apply NP. intros (u & X). discriminate.
  - intros a b. rewrite P', P2. tauto.
Qed.
End R.
