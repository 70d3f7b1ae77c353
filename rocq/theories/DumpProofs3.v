From Verif Require Import Bytes Hex HexSpec HexProofs StrUtil StrUtilSpec StrUtilProofs Terms Meta MetaProofs StringMap DocMap
  Db DbSpec DbProofs Props PropsSpec PropsProofs TagOps TagOpsSpec TagOpsProofs TagLine TagLineSpec TagLineProofs Dump DumpSpec DumpProofs DumpProofs2.
Local Open Scope nat_scope.

Definition msg_ok (m : dumped) : Prop :=
  cstr (dm_id m) /\ dm_id m <> [] /\ length (dm_id m) <= 189 /\
  Forall (fun t => cstr t /\ length t <= 200) (dm_tags m) /\ Forall prop_ok (dm_props m).

Lemma read_message_spec id d : storable id d -> exists m, read_message d = Some m /\ dm_id m = id /\
  (forall t, In t (dm_tags m) <-> tagged d t) /\ (forall a b, In (a, b) (dm_props m) <-> props (d_terms d) a b) /\ msg_ok m.
Proof.
  intros ((S1 & S2 & S3) & Hi & Hc & Hne & Hl & Ht & Hp). unfold read_message.
  destruct (get_term_spec id_prefix (d_terms d) S1) as (_ & _ & G & G').
  destruct (get_properties_spec (d_terms d) [] false S1 S2) as (l & E & L1 & _). rewrite E.
  destruct (fst (get_term id_prefix (d_terms d))) as [i|] eqn:Ei.
  - destruct (G i eq_refl) as [Gi _]. assert (i = id) by (apply S3; [exact Gi|exact Hi]). subst i.
    eexists. split; [reflexivity|]. cbn [dm_id dm_tags dm_props].
    assert (T : forall t, In t (tags_of (d_terms d)) <-> tagged d t) by (intros t; now apply tags_of_In).
    assert (P : forall a b, In (a, b) l <-> props (d_terms d) a b).
    { intros a b. rewrite L1. cbn. split; [tauto|]. intros H. split; [exact H|]. now exists a. }
    split; [reflexivity|]. split; [exact T|]. split; [exact P|]. repeat split; auto; cbn.
    + apply Forall_forall. intros t X. apply Ht. now apply T.
    + apply Forall_forall. intros [a b] X. apply P in X. pose proof X as [X1 _]. destruct (Hp a b X) as (A & B & C).
      repeat split; auto.
  - exfalso. eapply G'; [reflexivity|exact Hi].
Qed.

Definition msg_lines (m : dumped) : list bytes :=
  if mem NL (dm_id m) then []
  else (tag_line_body (dm_id m) (dm_tags m) ++ [NL]) ::
       match dm_props m with [] => [] | l => [lit "#=" ++ prop_line (dm_id m) l] end.
Lemma dump_message_lines m : dump_message false everything m = concat (msg_lines m).
Proof.
  unfold dump_message, msg_lines, dump_tags_message, dump_properties_message, everything. cbn [inc_tags inc_properties].
  destruct (mem NL (dm_id m)); [reflexivity|]. unfold tag_line_body, id_query. cbn [concat]. rewrite <- !app_assoc.
  do 4 f_equal. destruct (dm_props m) as [|p l]; [reflexivity|]. cbn [concat]. rewrite app_nil_r. reflexivity.
Qed.

Lemma tag_line_full m : msg_ok m -> ~ In NL (dm_id m) -> full_line (tag_line_body (dm_id m) (dm_tags m) ++ [NL]).
Proof.
  intros (Hc & _ & _ & Ht & _) Hn. eexists. split; [reflexivity|]. unfold tag_line_body. intros H.
  apply in_app_or in H as [H|H].
  - revert H. generalize true. assert (Hcs : Forall cstr (dm_tags m)) by (eapply Forall_impl; [|exact Ht]; intros ? [? ?]; assumption).
    clear Ht Hn. induction Hcs as [|t l C _ IH]; intros f; cbn [dump_tags]; [intros []|].
    intros H. apply in_app_or in H as [H|[H|H]]; [destruct f; [destruct H|destruct H as [H|[]]; discriminate]|discriminate|].
    apply in_app_or in H as [H|H]; [now apply encode_no_nl in H|eauto].
  - apply in_app_or in H as [H|H]; [cbn in H; intuition discriminate|].
    apply id_query_In in H as [H|H]; [cbn in H; intuition discriminate|contradiction].
Qed.
Lemma prop_line_full m : msg_ok m -> full_line (lit "#=" ++ prop_line (dm_id m) (dm_props m)).
Proof.
  intros (Hc & _ & _ & _ & Hp). unfold prop_line.
  exists (lit "#= " ++ hex_encode (dm_id m) ++ concat (map dump_property (dm_props m))). split; [cbn; now rewrite <- !app_assoc|].
  intros H. apply in_app_or in H as [H|H]; [cbn in H; intuition discriminate|].
  apply in_app_or in H as [H|H]; [now apply encode_no_nl in H|].
  apply in_concat in H as (x & Hx & H). apply in_map_iff in Hx as ([a b] & <- & Hx).
  rewrite Forall_forall in Hp. destruct (Hp _ Hx) as (C1 & C2 & _). unfold dump_property in H. cbn [fst snd] in *.
  destruct H as [H|H]; [discriminate|]. apply in_app_or in H as [H|[H|H]]; [now apply encode_no_nl in H|discriminate|now apply encode_no_nl in H].
Qed.
Lemma msg_lines_full m : msg_ok m -> Forall full_line (msg_lines m).
Proof.
  intros H. unfold msg_lines. destruct (mem NL (dm_id m)) eqn:E; [constructor|]. apply mem_not_In in E.
  constructor; [now apply tag_line_full|]. destruct (dm_props m) as [|p l] eqn:Ep; [constructor|]. constructor; [|constructor].
  rewrite <- Ep. now apply prop_line_full.
Qed.

Section R.
Variable compressed : bytes -> bytes.
Variable h : N.

Definition restored_m (m : dumped) (d d' : doc) : Prop :=
  (forall t, tagged d' t <-> In t (dm_tags m)) /\
  (dm_props m <> [] -> forall a b, props (d_terms d') a b <-> In (a, b) (dm_props m)) /\
  (dm_props m = [] -> forall a b, props (d_terms d') a b <-> props (d_terms d) a b) /\
  (forall t, plain_term t -> (In t (d_terms d') <-> In t (d_terms d))).
Definition applies (m : dumped) (d : doc) : Prop := ~ In NL (dm_id m) /\ has_id d (dm_id m).
Definition rel (ms : list dumped) (s s' : db) : Prop :=
  ready s' /\ (forall k, dget k (st_docs (vis s)) = None -> dget k (st_docs (vis s')) = None) /\
  forall k d, dget k (st_docs (vis s)) = Some d -> exists d', dget k (st_docs (vis s')) = Some d' /\
    (forall id, has_id d' id <-> has_id d id) /\
    ((exists m, In m ms /\ applies m d /\ restored_m m d d') \/ ((forall m, In m ms -> ~ applies m d) /\ d' = d)).

Lemma tag_line_step m r : msg_ok m -> ~ In NL (dm_id m) ->
  restore_tag_line compressed h false true (tag_line_body (dm_id m) (dm_tags m) ++ [NL]) r =
  match restore_tag_message compressed h (dm_id m) (map add_op (dm_tags m)) true (rs_db r) with
  | (St_success, s') => R_ok {| rs_db := s'; rs_cfg := rs_cfg r |}
  | (_, s') => R_fail {| rs_db := s'; rs_cfg := rs_cfg r |}
  end.
Proof.
  intros (Hc & _ & _ & Ht & _) Hn. unfold restore_tag_line.
  assert (P : parse_tag_line true (tag_line_body (dm_id m) (dm_tags m) ++ [NL]) = P_ok (map add_op (dm_tags m)) (id_query (dm_id m))).
  { apply (proj2 (proj2 (parse_tag_line_spec true _ (tag_line_body (dm_id m) (dm_tags m)) (or_introl eq_refl) ltac:(intros X; now apply app_eq_nil in X)))).
    apply tag_line_batch; [|discriminate]. eapply Forall_impl; [|exact Ht]. intros ? [? ?]; assumption. }
  rewrite P, id_query_parse. reflexivity.
Qed.
Lemma tag_line_not_prop m i : is_properties_line i (tag_line_body (dm_id m) (dm_tags m) ++ [NL]) = false.
Proof. unfold is_properties_line, tag_line_body. destruct (dm_tags m); cbn; apply andb_false_r. Qed.
Lemma comment_skipped l r sup : sup = false -> restore_tag_line compressed h sup true ("#"%char :: l) r = R_ok r.
Proof.
  intros ->. unfold restore_tag_line.
  assert (P : parse_tag_line true ("#"%char :: l) = P_skipped); [|now rewrite P].
  destruct (chomp_spec ("#"%char :: l)) as (b & E & Hu); [discriminate|].
  apply (proj2 (proj1 (proj2 (parse_tag_line_spec true _ b Hu ltac:(discriminate))))).
  right. exists []. destruct Hu as [Hu|[Hu _]].
  - destruct b as [|c b]; [discriminate|]. injection Hu as <- _. exists b. split; [reflexivity|]. intros c [].
  - subst b. exists l. split; [reflexivity|]. intros c [].
Qed.

Lemma one_message m r : msg_ok m -> ready (rs_db r) ->
  (dm_props m <> [] -> ~ In NL (dm_id m) -> exists k d, dget k (st_docs (vis (rs_db r))) = Some d /\ has_id d (dm_id m)) ->
  forall rest, exists r', rs_cfg r' = rs_cfg r /\ rel [m] (rs_db r) (rs_db r') /\
    second_loop compressed h everything false true (msg_lines m ++ rest) r = second_loop compressed h everything false true rest r'.
Proof.
  intros Hm Hr Hpres rest. unfold msg_lines. destruct (mem NL (dm_id m)) eqn:Em.
  { apply mem_In in Em. exists r. split; [reflexivity|]. split; [|reflexivity]. split; [exact Hr|]. split; [auto|].
    intros k d Hd. exists d. split; [exact Hd|]. split; [tauto|]. right. split; [|reflexivity]. intros m' [<-|[]] [X _]. contradiction. }
  apply mem_not_In in Em. pose proof Hm as (Hc & Hne & Hl & Ht & Hp). cbn [app second_loop].
  rewrite tag_line_not_prop, tag_line_step by assumption.
  destruct (find_message compressed (dm_id m) (rs_db r)) as [k0|] eqn:Ef.
  - (* the message is there *)
    assert (X : exists k d, dget k (st_docs (vis (rs_db r))) = Some d /\ has_id d (dm_id m)).
    { unfold find_message, find_doc in Ef. destruct (Nat.ltb_spec NOTMUCH_MESSAGE_ID_MAX (length (dm_id m)));
        [unfold NOTMUCH_MESSAGE_ID_MAX in *; lia|]. apply find_some in Ef as [_ Ef].
      destruct (dget k0 _) as [d|] eqn:Hd; [|discriminate]. exists k0, d. split; [exact Hd|]. now apply tmem_In in Ef. }
    destruct X as (k & d & Hd & Hi).
    destruct (restore_tags_ok compressed h (dm_id m) (dm_tags m) (rs_db r) k d Hr Hl) as (s1 & d1 & E1 & O1 & T1 & P1); auto.
    { eapply Forall_impl; [|exact Ht]. intros ? [? ?]; assumption. }
    rewrite E1. destruct (only_doc_ready compressed _ _ _ _ _ Hr Hd O1) as [R1 I1].
    assert (U : forall k' d', dget k' (st_docs (vis (rs_db r))) = Some d' -> has_id d' (dm_id m) -> k' = k).
    { intros k' d' A B. destruct Hr as (_ & _ & _ & Hu). eapply Hu; eauto. }
    destruct (dm_props m) as [|p l] eqn:Ep.
    + cbn [app]. exists {| rs_db := s1; rs_cfg := rs_cfg r |}. split; [reflexivity|]. split; [|reflexivity]. cbn [rs_db].
      split; [exact R1|]. destruct O1 as (A & B & _ & _ & _ & _ & G). split.
      * intros j Hj. destruct (N.eq_dec j k) as [->|Hjk]; [congruence|]. now rewrite B.
      * intros j e He. destruct (N.eq_dec j k) as [->|Hjk].
        -- rewrite Hd in He. injection He as <-. exists d1. split; [exact A|]. split; [exact I1|]. left. exists m. split; [now left|].
           split; [split; auto|]. split; [exact T1|]. rewrite Ep. split; [congruence|]. split; [intros _; exact P1|].
           intros t [Hp1 Hp2]. now apply G.
        -- exists e. rewrite B by exact Hjk. split; [exact He|]. split; [tauto|]. right. split; [|reflexivity].
           intros m' [<-|[]] [_ X]. apply Hjk. eauto.
    + cbn [app second_loop].
      assert (PL : is_properties_line everything (lit "#=" ++ prop_line (dm_id m) (p :: l)) = true) by reflexivity.
      rewrite PL. change (skipn 2 (lit "#=" ++ prop_line (dm_id m) (p :: l))) with (prop_line (dm_id m) (p :: l)).
      destruct O1 as (A & B & _ & _ & _ & _ & G).
      destruct (process_properties_ok compressed h {| rs_db := s1; rs_cfg := rs_cfg r |} (dm_id m) (p :: l) k d1) as (r2 & d2 & E2 & C2 & O2 & T2 & P2); auto.
      { now apply I1. }
      rewrite E2. change (lit "#=" ++ prop_line (dm_id m) (p :: l)) with ("#"%char :: lit "=" ++ prop_line (dm_id m) (p :: l)).
      rewrite comment_skipped by reflexivity. cbn [rs_db rs_cfg] in *.
      destruct (only_doc_ready compressed _ _ _ _ _ R1 A O2) as [R2 I2]. destruct O2 as (A2 & B2 & _ & _ & _ & _ & G2).
      exists r2. split; [exact C2|]. split; [|reflexivity]. split; [exact R2|]. split.
      * intros j Hj. destruct (N.eq_dec j k) as [->|Hjk]; [congruence|]. now rewrite B2, B.
      * intros j e He. destruct (N.eq_dec j k) as [->|Hjk].
        -- rewrite Hd in He. injection He as <-. exists d2. split; [exact A2|]. split; [intros id; now rewrite I2, I1|]. left. exists m. split; [now left|].
           split; [split; auto|]. split; [intros t; now rewrite T2, T1|]. rewrite Ep. split; [intros _; exact P2|]. split; [discriminate|].
           intros t [Hp1 Hp2]. now rewrite G2, G.
        -- exists e. rewrite B2, B by exact Hjk. split; [exact He|]. split; [tauto|]. right. split; [|reflexivity].
           intros m' [<-|[]] [_ X]. apply Hjk. eauto.
  - (* no such message *)
    assert (NI : forall k d, dget k (st_docs (vis (rs_db r))) = Some d -> ~ has_id d (dm_id m)).
    { intros k d Hd Hi. destruct Hr as (_ & _ & Hwf). rewrite (find_message_Some compressed _ _ k d Hwf Hl Hd Hi) in Ef. discriminate. }
    unfold restore_tag_message. rewrite Ef. cbn [app].
    assert (Ep : dm_props m = []).
    { destruct (dm_props m) eqn:Ep; [reflexivity|]. exfalso. destruct Hpres as (k & d & A & B); [discriminate|exact Em|]. now apply (NI k d). }
    rewrite Ep. exists r. split; [reflexivity|]. destruct r as [s c]. split; [|reflexivity]. cbn [rs_db] in *. split; [exact Hr|]. split; [auto|].
    intros k d Hd. exists d. split; [exact Hd|]. split; [tauto|]. right. split; [|reflexivity]. intros m' [<-|[]] [_ X]. now apply (NI k d).
Qed.

Lemma all_messages ms : forall r, Forall msg_ok ms -> NoDup (map dm_id ms) -> ready (rs_db r) ->
  (forall m, In m ms -> dm_props m <> [] -> ~ In NL (dm_id m) -> exists k d, dget k (st_docs (vis (rs_db r))) = Some d /\ has_id d (dm_id m)) ->
  exists r', second_loop compressed h everything false true (concat (map msg_lines ms)) r = R_ok r' /\
    rs_cfg r' = rs_cfg r /\ rel ms (rs_db r) (rs_db r').
Proof.
  induction ms as [|m ms IH]; intros r Hm Hn Hr Hp.
  - exists r. split; [reflexivity|]. split; [reflexivity|]. split; [exact Hr|]. split; [auto|]. intros k d Hd. exists d.
    split; [exact Hd|]. split; [tauto|]. right. split; [intros m []|reflexivity].
  - inversion Hm as [|? ? M1 M2]; subst. inversion Hn as [|? ? N1 N2]; subst. cbn [map concat].
    destruct (one_message m r M1 Hr) with (rest := concat (map msg_lines ms)) as (r1 & C1 & (R1 & Z1 & D1) & E1).
    { intros X Y. apply (Hp m); auto. now left. }
    destruct (IH r1 M2 N2 R1) as (r2 & E2 & C2 & R2 & Z2 & D2).
    { intros m' Hin X Y. destruct (Hp m' (or_intror Hin) X Y) as (k & d & A & B). destruct (D1 k d A) as (d' & A' & I' & _).
      exists k, d'. split; [exact A'|]. now apply I'. }
    exists r2. rewrite E1. split; [exact E2|]. split; [congruence|]. split; [exact R2|]. split; [auto|].
    intros k d Hd. destruct (D1 k d Hd) as (d1 & A1 & I1 & X1). destruct (D2 k d1 A1) as (d2 & A2 & I2 & X2).
    exists d2. split; [exact A2|]. split; [intros id; now rewrite I2, I1|].
    destruct X1 as [(m1 & [<-|[]] & Ha & Hres)|(X1 & ->)].
    + destruct X2 as [(m2 & Hin & [Hb1 Hb2] & _)|(_ & ->)]; [|left; exists m; split; [now left|auto]].
      exfalso. destruct Hr as (_ & _ & Hwf & _). destruct (Hwf k d Hd) as (_ & _ & U). apply I1 in Hb2.
      rewrite (U _ _ (proj2 Ha) Hb2) in N1. apply N1. now apply in_map.
    + destruct X2 as [(m2 & Hin & Hb & Hres)|(X2 & ->)].
      * left. exists m2. split; [now right|]. auto.
      * right. split; [|reflexivity]. intros m' [<-|Hin]; [apply X1; now left|now apply X2].
Qed.

(** *** Configuration *)
Lemma cfg_get_set k v c k' : v <> [] -> cfg_get k' (cfg_set k v c) = if bseq k' k then v else cfg_get k' c.
Proof.
  intros Hv. induction c as [|[a b] c IH]; cbn.
  - destruct v; [contradiction|]. cbn. reflexivity.
  - destruct (bseq_spec k a) as [<-|Hne].
    + destruct v; [contradiction|]. cbn. destruct (bseq k' k); reflexivity.
    + cbn. rewrite IH. destruct (bseq_spec k' a) as [->|]; [|reflexivity]. destruct (bseq_spec a k); [congruence|reflexivity].
Qed.
Definition cfg_line (p : bytes * bytes) : bytes := dump_config_item p.
Lemma cfg_line_full p : cfg_item_ok p -> full_line (cfg_line p).
Proof.
  destruct p as [k v]. intros (C1 & C2 & _). cbn [fst snd] in *. exists (lit "#@ " ++ hex_encode k ++ [" "%char] ++ hex_encode v).
  split; [unfold cfg_line, dump_config_item; cbn [fst snd]; now rewrite <- !app_assoc|].
  intros H. apply in_app_or in H as [H|H]; [cbn in H; intuition discriminate|].
  apply in_app_or in H as [H|H]; [now apply encode_no_nl in H|]. apply in_app_or in H as [H|H]; [cbn in H; intuition discriminate|now apply encode_no_nl in H].
Qed.
Lemma process_config_ok p r : cfg_item_ok p -> ready (rs_db r) ->
  process_config_line (skipn 2 (cfg_line p)) r = R_ok {| rs_db := rs_db r; rs_cfg := cfg_set (fst p) (snd p) (rs_cfg r) |}.
Proof.
  destruct p as [k v]. intros (C1 & C2 & N1 & N2) (Hw & Ho & _). cbn [fst snd] in *. unfold cfg_line, dump_config_item.
  cbn [fst snd]. change (skipn 2 (lit "#@ " ++ ?x)) with ([" "%char] ++ x). unfold process_config_line.
  change ([" "%char] ++ hex_encode k ++ [" "%char] ++ hex_encode v ++ [NL]) with ([" "%char] ++ hex_encode k ++ ([" "%char] ++ hex_encode v ++ [NL])).
  rewrite strtok_delim; try reflexivity; [| |now apply encode_nodelim|now right].
  - rewrite strtok_delim; try reflexivity; [| |now apply encode_nodelim|now right].
    + rewrite !decode_c_encode by assumption. rewrite (proj2 (ensure_writable_success (rs_db r)) (conj Hw Ho)). reflexivity.
    + intros E. now apply encode_nil in E.
  - intros E. now apply encode_nil in E.
Qed.
Definition cfg_apply (cfg : list (bytes * bytes)) (c : list (bytes * bytes)) : list (bytes * bytes) :=
  fold_left (fun c p => cfg_set (fst p) (snd p) c) cfg c.
Lemma cfg_apply_spec cfg : Forall cfg_item_ok cfg -> NoDup (map fst cfg) -> forall c,
  (forall k v, In (k, v) cfg -> cfg_get k (cfg_apply cfg c) = v) /\
  (forall k, ~ In k (map fst cfg) -> cfg_get k (cfg_apply cfg c) = cfg_get k c).
Proof.
  induction 1 as [|[a b] cfg (C1 & C2 & C3 & C4) H IH]; intros Hn c.
  - split; [intros k v []|auto].
  - cbn [map fst] in Hn. inversion Hn as [|? ? N1 N2]; subst. cbn [fst snd] in *. unfold cfg_apply. cbn [fold_left fst snd].
    destruct (IH N2 (cfg_set a b c)) as [A B]. split.
    + intros k v [[= -> ->]|Hin]; [|now apply A]. unfold cfg_apply in B. rewrite B by exact N1. rewrite cfg_get_set by exact C4. now rewrite bseq_refl.
    + intros k Hk. cbn in Hk. unfold cfg_apply in B. rewrite B by tauto. rewrite cfg_get_set by exact C4.
      destruct (bseq_spec k a); [subst; tauto|reflexivity].
Qed.

Lemma first_loop_cfg cfg rest : Forall cfg_item_ok cfg -> forall r, ready (rs_db r) ->
  first_loop compressed h everything (map cfg_line cfg ++ rest) r =
  first_loop compressed h everything rest {| rs_db := rs_db r; rs_cfg := cfg_apply cfg (rs_cfg r) |}.
Proof.
  induction 1 as [|p cfg Hp H IH]; intros r Hr; [destruct r; reflexivity|].
  cbn [map app first_loop].
  assert (A : is_config_line everything (cfg_line p) = true) by reflexivity.
  assert (B : is_properties_line everything (cfg_line p) = false) by reflexivity.
  assert (C : blank_or_comment (cfg_line p) = true) by reflexivity.
  rewrite A, B, C, process_config_ok by assumption. rewrite IH by exact Hr. reflexivity.
Qed.

Lemma first_loop_stop ms r : Forall msg_ok ms -> first_loop compressed h everything (concat (map msg_lines ms)) r = (R_ok r, concat (map msg_lines ms)).
Proof.
  induction 1 as [|m ms Hm H IH]; [reflexivity|]. cbn [map concat]. unfold msg_lines at 1 3.
  destruct (mem NL (dm_id m)); [exact IH|]. cbn [app first_loop]. 
  assert (A : is_config_line everything (tag_line_body (dm_id m) (dm_tags m) ++ [NL]) = false) by (unfold tag_line_body; destruct (dm_tags m); reflexivity).
  assert (B : blank_or_comment (tag_line_body (dm_id m) (dm_tags m) ++ [NL]) = false).
  { unfold tag_line_body. destruct (dm_tags m); reflexivity. }
  rewrite A, tag_line_not_prop, B. reflexivity.
Qed.

Lemma header_line i : exists b, dump_header false i = b ++ [NL] /\ ~ In NL b /\ exists r, b = "#"%char :: "n"%char :: r.
Proof.
  destruct i as [[] [] []]; eexists; (split; [cbn; match goal with |- ?l = _ => instantiate (1 := removelast l); vm_compute; reflexivity end|]);
   (split; [vm_compute; intuition discriminate|eexists; vm_compute; reflexivity]).
Qed.

Lemma dump_lines cfg ms : exists hl, full_line hl /\ (exists r, hl = "#"%char :: "n"%char :: r) /\
  dump false everything cfg ms = concat (hl :: map cfg_line cfg ++ concat (map msg_lines ms)).
Proof.
  destruct (header_line everything) as (b & E & Hb & r & Er). exists (b ++ [NL]). split; [exists b; auto|].
  split; [exists (r ++ [NL]); now rewrite Er|]. unfold dump. rewrite E. cbn [everything inc_config concat]. f_equal.
  rewrite concat_app. f_equal. induction ms as [|m ms IH]; [reflexivity|]. cbn [map concat]. rewrite concat_app, <- IH, dump_message_lines. reflexivity.
Qed.

Lemma tag_line_paren m : msg_ok m -> ~ In "("%char (dm_id m) -> mem "("%char (tag_line_body (dm_id m) (dm_tags m) ++ [NL]) = false.
Proof.
  intros (Hc & _ & _ & Ht & _) Hn. apply mem_not_In. unfold tag_line_body. intros H. apply in_app_or in H as [H|[H|[]]]; [|discriminate].
  apply in_app_or in H as [H|H].
  - assert (H' : exists f, In "("%char (dump_tags f (dm_tags m))) by (eexists; exact H). clear H. destruct H' as [f H]. revert f H. assert (Hcs : Forall cstr (dm_tags m)) by (eapply Forall_impl; [|exact Ht]; intros ? [? ?]; assumption).
    clear Ht Hn. induction Hcs as [|t l C _ IH]; intros f; cbn [dump_tags]; [intros []|].
    intros H. apply in_app_or in H as [H|[H|H]]; [destruct f; [destruct H|destruct H as [H|[]]; discriminate]|discriminate|].
    apply in_app_or in H as [H|H]; [|eapply IH; exact H]. apply encode_safe in C. rewrite Forall_forall in C. apply C in H. apply safe_char_facts in H. destruct H as (_ & _ & _ & _ & _ & X & _). apply X; reflexivity.
  - apply in_app_or in H as [H|H]; [cbn in H; intuition discriminate|].
    apply id_query_In in H as [H|H]; [cbn in H; intuition discriminate|contradiction].
Qed.

(** The first message that is written has no '(' in its id. *)
Fixpoint first_plain (ms : list dumped) : Prop :=
  match ms with
  | [] => True
  | m :: ms' => if mem NL (dm_id m) then first_plain ms' else ~ In "("%char (dm_id m)
  end.

Lemma dump_restore cfg ms fmt r : Forall cfg_item_ok cfg -> NoDup (map fst cfg) -> Forall msg_ok ms -> NoDup (map dm_id ms) ->
  ready (rs_db r) ->
  (forall m, In m ms -> dm_props m <> [] -> ~ In NL (dm_id m) -> exists k d, dget k (st_docs (vis (rs_db r))) = Some d /\ has_id d (dm_id m)) ->
  fmt = F_batch \/ (fmt = F_auto /\ first_plain ms) ->
  exists r', restore compressed h fmt everything false (dump false everything cfg ms) r = R_ok r' /\
    rs_cfg r' = cfg_apply cfg (rs_cfg r) /\ rel ms (rs_db r) (rs_db r').
Proof.
  intros Hc Hcn Hm Hn Hr Hp Hf. destruct (dump_lines cfg ms) as (hl & Hhl & (hr & Ehl) & E). unfold restore. rewrite E.
  rewrite split_lines_concat.
  2:{ constructor; [exact Hhl|]. apply Forall_app. split.
      - apply Forall_map. eapply Forall_impl; [|exact Hc]. apply cfg_line_full.
      - apply Forall_forall. intros l Hl. apply in_concat in Hl as (x & Hx & Hl). apply in_map_iff in Hx as (m & <- & Hin).
        rewrite Forall_forall in Hm. specialize (Hm m Hin). apply msg_lines_full in Hm. rewrite Forall_forall in Hm. auto. }
  cbn [first_loop].
  assert (A1 : is_config_line everything hl = false) by (rewrite Ehl; reflexivity).
  assert (A2 : is_properties_line everything hl = false) by (rewrite Ehl; reflexivity).
  assert (A3 : blank_or_comment hl = true) by (rewrite Ehl; reflexivity).
  rewrite A1, A2, A3, first_loop_cfg by assumption. set (r1 := {| rs_db := rs_db r; rs_cfg := _ |}).
  rewrite first_loop_stop by exact Hm.
  destruct (all_messages ms r1 Hm Hn) as (r' & E' & C' & R'); [exact Hr|exact Hp|].
  destruct (concat (map msg_lines ms)) as [|l ls] eqn:El.
  - exists r1. cbn [second_loop] in E'. injection E' as <-. split; [reflexivity|]. split; [reflexivity|exact R'].
  - cbn [everything inc_tags inc_properties negb andb].
    assert (S : match fmt with F_auto => mem "("%char l | F_batch => false | F_sup => true end = false).
    { destruct Hf as [->|[-> Hf]]; [reflexivity|]. clear - Hf El Hm. induction Hm as [|m ms Hm _ IH]; [discriminate|].
      cbn [map concat first_plain] in *. unfold msg_lines in El at 1. destruct (mem NL (dm_id m)); [now apply IH|].
      cbn in El. injection El as <- _. now apply tag_line_paren. }
    rewrite S. exists r'. cbn [rs_cfg r1] in C'. auto.
Qed.
End R.

(** Checkable forms of the hypotheses, for the examples. *)
Fixpoint sorted_b (l : list bytes) : bool :=
  match l with [] => true | a :: l' => forallb (bltb a) l' && sorted_b l' end.
Lemma sorted_b_sound l : sorted_b l = true -> tsorted l.
Proof.
  induction l as [|a l IH]; cbn; [constructor|]. intros H. apply andb_prop in H as [H1 H2]. constructor; [now apply IH|].
  apply Forall_forall. intros b Hb. rewrite forallb_forall in H1. exact (H1 b Hb).
Qed.
Definition ids_of (l : list bytes) : list bytes := map (skipn 1) (filter (starts_with (lit "Q")) l).
Definition doc_wf_b (d : doc) : bool :=
  sorted_b (d_terms d) && forallb (fun t => negb (starts_with (lit "XPROPERTY") t) || mem "="%char (skipn 9 t)) (d_terms d) &&
  match ids_of (d_terms d) with [] | [_] => true | _ => false end.
Lemma ids_of_In d id : has_id d id <-> In id (ids_of (d_terms d)).
Proof.
  unfold has_id, ids_of. rewrite in_map_iff. split.
  - intros H. exists (lit "Q" ++ id). split; [reflexivity|]. apply filter_In. split; [exact H|reflexivity].
  - intros (t & E & H). apply filter_In in H as [H1 H2]. apply starts_with_app in H2 as (r & ->). cbn in E. now subst r.
Qed.
Lemma doc_wf_b_sound d : doc_wf_b d = true -> doc_wf d.
Proof.
  unfold doc_wf_b. intros H. apply andb_prop in H as [H H3]. apply andb_prop in H as [H1 H2]. split; [now apply sorted_b_sound|]. split.
  - intros s Hs. rewrite forallb_forall in H2. specialize (H2 _ Hs).
    rewrite (proj2 (starts_with_app (lit "XPROPERTY") _)) in H2 by (now exists s). now apply mem_In in H2.
  - intros a b Ha Hb. apply ids_of_In in Ha, Hb. destruct (ids_of (d_terms d)) as [|x [|y l]]; [destruct Ha| |discriminate].
    destruct Ha as [<-|[]], Hb as [<-|[]]. reflexivity.
Qed.
Definition storable_b (id : bytes) (d : doc) : bool :=
  doc_wf_b d && tmem (lit "Q" ++ id) (d_terms d) && negb (Nat.eqb (length id) 0) &&
  forallb (fun t => forallb nonul t && Nat.leb (length t) 190) (d_terms d).
Lemma storable_b_sound id d : storable_b id d = true -> storable id d.
Proof.
  unfold storable_b. intros H. apply andb_prop in H as [H H4]. apply andb_prop in H as [H H3]. apply andb_prop in H as [H1 H2].
  apply doc_wf_b_sound in H1. apply tmem_In in H2. rewrite forallb_forall in H4.
  assert (G : forall t, In t (d_terms d) -> cstr t /\ length t <= 190).
  { intros t Ht. specialize (H4 t Ht). apply andb_prop in H4 as [A B]. apply Nat.leb_le in B. split; assumption. }
  assert (P : forall a b, cstr (a ++ b) -> cstr a /\ cstr b).
  { intros a b X. unfold cstr in *. rewrite forallb_app in X. now apply andb_prop in X. }
  split; [exact H1|]. split; [exact H2|]. destruct (G _ H2) as [A B]. rewrite app_length in B. cbn [length lit list_ascii_of_string] in B.
  split; [now apply P in A|]. split; [intros ->; discriminate|]. split; [lia|]. split.
  - intros t Ht. destruct (G _ Ht) as [C D]. rewrite app_length in D. split; [now apply P in C|lia].
  - intros k v [_ Ht]. destruct (G _ Ht) as [C D]. rewrite !app_length in D. cbn [length] in D.
    apply P in C as [_ C]. apply P in C as [C1 C2]. split; [exact C1|]. split; [|lia].
    change ("="%char :: v) with (["="%char] ++ v) in C2. now apply P in C2.
Qed.
Definition ready_b (s : db) : bool :=
  writable s && isopen s && forallb (fun e => doc_wf_b (snd e)) (st_docs (vis s)) &&
  forallb (fun e1 => forallb (fun e2 => N.eqb (fst e1) (fst e2) ||
     negb (existsb (fun i => existsb (bseq i) (ids_of (d_terms (snd e2)))) (ids_of (d_terms (snd e1))))) (st_docs (vis s))) (st_docs (vis s)).
Lemma dget_In {A} k (m : docmap A) d : dget k m = Some d -> In (k, d) m.
Proof.
  induction m as [|[k0 e] m IH]; cbn; [discriminate|]. destruct (N.eqb_spec k k0) as [->|Hk].
  - intros [= ->]. left. congruence.
  - intros X. right. auto.
Qed.
Lemma ready_b_sound s : ready_b s = true -> ready s.
Proof.
  unfold ready_b. intros H. apply andb_prop in H as [H H4]. apply andb_prop in H as [H H3]. apply andb_prop in H as [H1 H2].
  rewrite forallb_forall in H3, H4. split; [exact H1|]. split; [exact H2|]. split.
  - intros k d Hd. apply dget_In in Hd. now apply doc_wf_b_sound, (H3 (k, d)).
  - intros id k1 d1 k2 d2 D1 D2 I1 I2. apply dget_In in D1, D2. specialize (H4 _ D1). rewrite forallb_forall in H4.
    specialize (H4 _ D2). apply orb_prop in H4 as [H4|H4]; [now apply N.eqb_eq|]. exfalso.
    apply ids_of_In in I1, I2. rewrite negb_true_iff in H4. cbn [snd] in H4.
    assert (X : existsb (fun i => existsb (bseq i) (ids_of (d_terms d2))) (ids_of (d_terms d1)) = true); [|congruence].
    apply existsb_exists. exists id. split; [exact I1|]. apply existsb_exists. exists id. split; [exact I2|]. apply bseq_refl.
Qed.
