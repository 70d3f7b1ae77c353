(** Properties C05, C06, C07 (notmuch-dump.c, notmuch-restore.c, notmuch-tag.c, tag-util.c). *)
From Verif Require Import Bytes Hex HexSpec HexProofs StrUtil StrUtilSpec StrUtilProofs Terms Meta MetaProofs StringMap DocMap
  Db DbSpec DbProofs Props PropsSpec PropsProofs TagOps TagOpsSpec TagOpsProofs TagLine TagLineSpec TagLineProofs Dump DumpSpec
  DumpProofs DumpProofs2 DumpProofs3.
Local Open Scope nat_scope.

(** ** C05 *)

(** The line written for a message is one newline-terminated line, and restore's
    parser reads back the additions of exactly the tags, in order, with a query that
    parses to the message id. *)
Theorem C05_restore_reads_back :
  forall m, Forall cstr (dm_tags m) -> cstr (dm_id m) -> one_line (dm_id m) ->
  exists body q, dump_tags_message m = body ++ [ascii_of_N 10] /\ ~ In (ascii_of_N 10) body /\
    parse_tag_line true (dump_tags_message m) =
      P_ok (map (fun t => {| to_tag := t; to_remove := false |}) (dm_tags m)) q /\
    parse_boolean_term q = Some (lit "id", dm_id m).
Proof.
  intros m Ht Hc Hn. exists (tag_line_body (dm_id m) (dm_tags m)), (id_query (dm_id m)).
  assert (E : dump_tags_message m = tag_line_body (dm_id m) (dm_tags m) ++ [NL]).
  { unfold dump_tags_message, tag_line_body, id_query. rewrite (proj2 (mem_not_In NL _) Hn). now rewrite <- !app_assoc. }
  split; [exact E|]. split.
  - unfold tag_line_body. intros H. apply in_app_or in H as [H|H].
    + assert (H' : exists f, In NL (dump_tags f (dm_tags m))) by (eexists; exact H). clear H. destruct H' as [f H]. revert f H. clear E.
      induction Ht as [|t l C _ IH]; intros f; cbn [dump_tags]; [intros []|].
      intros H. apply in_app_or in H as [H|[H|H]]; [destruct f; [destruct H|destruct H as [H|[]]; discriminate]|discriminate|].
      apply in_app_or in H as [H|H]; [now apply encode_no_nl in H|eapply IH; exact H].
    + apply in_app_or in H as [H|H]; [cbn in H; intuition discriminate|].
      apply id_query_In in H as [H|H]; [cbn in H; intuition discriminate|contradiction].
  - split; [|apply id_query_parse]. rewrite E.
    apply (proj2 (proj2 (parse_tag_line_spec true _ (tag_line_body (dm_id m) (dm_tags m)) (or_introl eq_refl) ltac:(intros X; now apply app_eq_nil in X)))).
    apply tag_line_batch; [exact Ht|discriminate].
Qed.
Print Assumptions C05_restore_reads_back.

(** The same line fed to 'notmuch tag --batch', when the tags are legal. *)
Theorem C05_tag_batch_reads_back :
  forall m, Forall cstr (dm_tags m) -> one_line (dm_id m) ->
  Forall (fun t => t <> [] /\ forall r, t <> "-"%char :: r) (dm_tags m) ->
  exists q, parse_tag_line false (dump_tags_message m) =
      P_ok (map (fun t => {| to_tag := t; to_remove := false |}) (dm_tags m)) q /\
    parse_boolean_term q = Some (lit "id", dm_id m).
Proof.
  intros m Ht Hn Hl. exists (id_query (dm_id m)).
  assert (E : dump_tags_message m = tag_line_body (dm_id m) (dm_tags m) ++ [NL]).
  { unfold dump_tags_message, tag_line_body, id_query. rewrite (proj2 (mem_not_In NL _) Hn). now rewrite <- !app_assoc. }
  split; [|apply id_query_parse]. rewrite E.
  apply (proj2 (proj2 (parse_tag_line_spec false _ (tag_line_body (dm_id m) (dm_tags m)) (or_introl eq_refl) ltac:(intros X; now apply app_eq_nil in X)))).
  apply tag_line_batch; [exact Ht|]. intros _. eapply Forall_impl; [|exact Hl]. intros t H _. exact H.
Qed.
Print Assumptions C05_tag_batch_reads_back.

Definition ex_dumped : dumped :=
  {| dm_id := lit "a b""c)@x"; dm_tags := [lit "in box"; lit "-x"; [chr 195; chr 169]; lit "a%b"]; dm_props := [] |}.
Example C05_nontrivial :
  dump_tags_message ex_dumped = lit "+in%20box +-x +%c3%a9 +a%25b -- id:""a b""""c)@x""" ++ [chr 10] /\
  parse_tag_line true (dump_tags_message ex_dumped) =
    P_ok (map (fun t => {| to_tag := t; to_remove := false |}) (dm_tags ex_dumped)) (lit "id:""a b""""c)@x""") /\
  parse_tag_line false (dump_tags_message ex_dumped) = P_invalid.
Proof. now vm_compute. Qed.

(** A message whose id contains a newline is not dumped at all. *)
Theorem C05_every_message_dumped_refuted : ~ forall m, dump_tags_message m <> [].
Proof. intros H. apply (H {| dm_id := lit "a" ++ [chr 10] ++ lit "b"; dm_tags := [lit "x"]; dm_props := [] |}). reflexivity. Qed.
Print Assumptions C05_every_message_dumped_refuted.

(** ** C06 *)

(** [src] are the dumped messages; [r] is any database and configuration to restore
    into (tags and properties may be anything) that still holds the messages that had
    properties. *)
Theorem C06_dump_restore :
  forall compressed h src cfg fmt r,
  Forall (fun p => storable (fst p) (snd p)) src -> NoDup (map fst src) ->
  Forall cfg_item_ok cfg -> NoDup (map fst cfg) ->
  ready (rs_db r) ->
  (forall id d, In (id, d) src -> one_line id -> (exists a b, props (d_terms d) a b) ->
     exists k e, dget k (st_docs (vis (rs_db r))) = Some e /\ has_id e id) ->
  fmt = F_batch \/ (fmt = F_auto /\ forall id d, In (id, d) src -> ~ In "("%char id) ->
  exists ms r', Forall2 (fun p m => read_message (snd p) = Some m) src ms /\
    restore compressed h fmt everything false (dump false everything cfg ms) r = R_ok r' /\
    (forall a b, In (a, b) cfg -> cfg_get a (rs_cfg r') = b) /\
    (forall a, ~ In a (map fst cfg) -> cfg_get a (rs_cfg r') = cfg_get a (rs_cfg r)) /\
    (forall k, dget k (st_docs (vis (rs_db r))) = None -> dget k (st_docs (vis (rs_db r'))) = None) /\
    forall k e, dget k (st_docs (vis (rs_db r))) = Some e ->
      exists e', dget k (st_docs (vis (rs_db r'))) = Some e' /\
        (forall id d, In (id, d) src -> one_line id -> has_id e id -> restored_from d e e') /\
        ((forall id d, In (id, d) src -> one_line id -> ~ has_id e id) -> e' = e).
Proof.
  intros compressed h src cfg fmt r Hs Hn Hc Hcn Hr Hp Hf.
  assert (X : exists ms, Forall2 (fun p m => read_message (snd p) = Some m /\ dm_id m = fst p /\
     (forall t, In t (dm_tags m) <-> tagged (snd p) t) /\ (forall a b, In (a, b) (dm_props m) <-> props (d_terms (snd p)) a b) /\ msg_ok m) src ms).
  { clear - Hs. induction Hs as [|[id d] src H _ (ms & IH)]; [exists []; constructor|].
    destruct (read_message_spec id d H) as (m & Hm). exists (m :: ms). constructor; [exact Hm|exact IH]. }
  destruct X as (ms & F).
  assert (Eids : map dm_id ms = map fst src).
  { clear - F. induction F as [|p m src ms (_ & E & _) _ IH]; cbn; congruence. }
  assert (Fin : forall m, In m ms -> exists id d, In (id, d) src /\ dm_id m = id /\ (forall t, In t (dm_tags m) <-> tagged d t) /\
    (forall a b, In (a, b) (dm_props m) <-> props (d_terms d) a b) /\ msg_ok m).
  { clear - F. induction F as [|[id d] m src ms (_ & H) _ IH]; intros m' Hin; [destruct Hin|].
    destruct Hin as [<-|Hin]; [exists id, d; split; [now left|exact H]|].
    destruct (IH m' Hin) as (i & e & Hi & He). exists i, e. split; [now right|exact He]. }
  assert (Fsrc : forall id d, In (id, d) src -> exists m, In m ms /\ dm_id m = id /\ (forall t, In t (dm_tags m) <-> tagged d t) /\
    (forall a b, In (a, b) (dm_props m) <-> props (d_terms d) a b)).
  { clear - F. induction F as [|[id d] m src ms (_ & H) _ IH]; intros i e Hin; [destruct Hin|].
    destruct Hin as [[= <- <-]|Hin]; [exists m; split; [now left|tauto]|].
    destruct (IH i e Hin) as (m' & Hi & He). exists m'. split; [now right|exact He]. }
  destruct (dump_restore compressed h cfg ms fmt r) as (r' & E & Ec & Hr' & Hz & Hd); auto.
  - apply Forall_forall. intros m Hin. destruct (Fin m Hin) as (? & ? & _ & _ & _ & _ & H). exact H.
  - now rewrite Eids.
  - intros m Hin Hpr Hnl. destruct (Fin m Hin) as (id & d & H1 & H2 & _ & H3 & _). rewrite H2 in *.
    apply (Hp id d H1 Hnl). destruct (dm_props m) as [|[a b] l]; [congruence|]. exists a, b. apply H3. now left.
  - destruct Hf as [Hf|[Hf Hg]]; [now left|right]. split; [exact Hf|]. clear - Fin Hg.
    induction ms as [|m ms IH]; cbn [first_plain]; [exact I|]. destruct (mem NL (dm_id m)).
    + apply IH. intros m' H. apply Fin. now right.
    + destruct (Fin m (or_introl eq_refl)) as (id & d & H1 & -> & _). eauto.
  - exists ms, r'. split; [clear - F; induction F as [|p m src ms [Y _] _ IH]; constructor; assumption|]. split; [exact E|]. rewrite Ec.
    destruct (cfg_apply_spec compressed cfg Hc Hcn (rs_cfg r)) as [C1 C2]. split; [exact C1|]. split; [exact C2|]. split; [exact Hz|].
    intros k e He. destruct (Hd k e He) as (e' & He' & Hid & Hcase). exists e'. split; [exact He'|].
    assert (U : forall a b, has_id e a -> has_id e b -> a = b).
    { destruct Hr as (_ & _ & Hwf & _). apply (Hwf k e He). }
    destruct Hcase as [(m & Hin & [A1 A2] & R1 & R2 & R3 & R4)|[Hno ->]].
    + destruct (Fin m Hin) as (id0 & d0 & H1 & H2 & H3 & H4 & _). split.
      * intros id d Hin' Ho Hi. assert (id = id0) by (rewrite <- H2; apply U; assumption). subst id.
        assert (d = d0).
        { clear - Hin' H1 Hn. induction src as [|[a b] src IH]; [destruct H1|]. cbn in Hn. inversion Hn as [|? ? N1 N2]; subst.
          destruct Hin' as [E1|Hin'], H1 as [E2|H1]; [congruence| | |auto]; exfalso; apply N1; apply in_map_iff.
          - exists (id0, d0). split; [cbn; congruence|exact H1].
          - exists (id0, d). split; [cbn; congruence|exact Hin']. }
        subst d. split; [intros t; now rewrite R1, H3|]. split; [|split].
        -- intros (a & b & Hab) k' v'. rewrite R2; [apply H4|]. intros Enil. apply H4 in Hab. rewrite Enil in Hab. destruct Hab.
        -- intros Hnone. apply R3. destruct (dm_props m) as [|[a b] l]; [reflexivity|]. exfalso. apply (Hnone a b), H4. now left.
        -- exact R4.
      * intros Hno. exfalso. apply (Hno id0 d0 H1); rewrite <- H2; assumption.
    + split; [|reflexivity]. intros id d Hin Ho Hi. exfalso. destruct (Fsrc id d Hin) as (m & Hm & Em & _).
      apply (Hno m Hm). split; rewrite Em; assumption.
Qed.
Print Assumptions C06_dump_restore.

(** In particular, restoring the dump of a database into that database itself changes
    no tag, no property and no other term of any message, and no config item. *)
Theorem C06_restore_own_dump :
  forall compressed h src cfg r,
  Forall (fun p => storable (fst p) (snd p)) src -> NoDup (map fst src) ->
  Forall cfg_item_ok cfg -> NoDup (map fst cfg) -> rs_cfg r = cfg ->
  ready (rs_db r) ->
  (forall id d, In (id, d) src -> exists k, dget k (st_docs (vis (rs_db r))) = Some d) ->
  exists ms r', Forall2 (fun p m => read_message (snd p) = Some m) src ms /\
    restore compressed h F_batch everything false (dump false everything cfg ms) r = R_ok r' /\
    (forall a, cfg_get a (rs_cfg r') = cfg_get a cfg) /\
    forall k e, dget k (st_docs (vis (rs_db r))) = Some e ->
      exists e', dget k (st_docs (vis (rs_db r'))) = Some e' /\
        (forall t, tagged e' t <-> tagged e t) /\ (forall a b, props (d_terms e') a b <-> props (d_terms e) a b) /\
        (forall t, plain_term t -> (In t (d_terms e') <-> In t (d_terms e))).
Proof.
  intros compressed h src cfg r Hs Hn Hc Hcn Ecfg Hr Hin.
  destruct (C06_dump_restore compressed h src cfg F_batch r Hs Hn Hc Hcn Hr) as (ms & r' & A & B & C & D & _ & F).
  - intros id d H _ _. destruct (Hin id d H) as (k & Hk). exists k, d. split; [exact Hk|]. rewrite Forall_forall in Hs. apply (Hs _ H).
  - now left.
  - exists ms, r'. split; [exact A|]. split; [exact B|]. split.
    + intros a. rewrite Ecfg in *. destruct (in_dec (list_eq_dec Ascii.ascii_dec) a (map fst cfg)) as [X|X]; [|now apply D].
      apply in_map_iff in X as ([a' b] & E & X). cbn in E. subst a'. rewrite (C _ _ X).
      clear - X Hcn. induction cfg as [|[x y] cfg IH]; [destruct X|]. cbn in Hcn. inversion Hcn as [|? ? N1 N2]; subst. cbn.
      destruct X as [[= -> ->]|X]; [now rewrite bseq_refl|]. destruct (bseq_spec a x) as [->|_]; [|auto].
      exfalso. apply N1. apply in_map_iff. now exists (x, b).
    + intros k e He. destruct (F k e He) as (e' & He' & R & Z). exists e'. split; [exact He'|].
      assert (Dec : (exists id d, In (id, d) src /\ one_line id /\ has_id e id) \/ (forall id d, In (id, d) src -> one_line id -> ~ has_id e id)).
      { clear. induction src as [|[id d] src IH]; [right; intros ? ? []|].
        destruct IH as [(i & x & H1 & H2)|IH]; [left; exists i, x; split; [now right|exact H2]|].
        destruct (in_dec Ascii.ascii_dec (ascii_of_N 10) id) as [Y|Y].
        - right. intros i x [[= <- <-]|H] Ho; [contradiction|eauto].
        - destruct (in_dec (list_eq_dec Ascii.ascii_dec) (lit "Q" ++ id) (d_terms e)) as [Z|Z].
          + left. exists id, d. split; [now left|]. split; assumption.
          + right. intros i x [[= <- <-]|H] Ho; [exact Z|eauto]. }
      destruct Dec as [(id & d & H1 & H2 & H3)|Dec].
      * destruct (R id d H1 H2 H3) as (T & P1 & P2 & Q). destruct (Hin id d H1) as (k' & Hk').
        assert (k' = k).
        { destruct Hr as (_ & _ & _ & Hu). eapply Hu; eauto. rewrite Forall_forall in Hs. apply (Hs _ H1). }
        subst k'. rewrite He in Hk'. injection Hk' as <-. split; [exact T|]. split; [|exact Q].
        assert (Y : (exists a b, props (d_terms e) a b) \/ (forall a b, ~ props (d_terms e) a b)); [|destruct Y as [Y|Y]; auto].
        destruct Hr as (_ & _ & Hwf & _). destruct (Hwf k e He) as (S1 & S2 & _).
        destruct (get_properties_spec (d_terms e) [] false S1 S2) as (l & _ & L & _). destruct l as [|[a b] l].
        -- right. intros a b Hab. assert (X : In (a, b) []); [|destruct X]. apply L. split; [exact Hab|]. now exists a.
        -- left. exists a, b. apply L. now left.
      * rewrite (Z Dec). split; [tauto|]. split; tauto.
Qed.
Print Assumptions C06_restore_own_dump.
