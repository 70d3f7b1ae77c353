(** Lemmas about tagging from Emacs. *)
From Verif Require Import Bytes Terms Meta MetaProofs Hex HexSpec HexProofs StrUtil StrUtilSpec StrUtilProofs DocMap Db DbSpec DbProofs TagOps TagOpsSpec TagOpsProofs TagLine TagLineSpec TagLineProofs Dump GzLineProofs EmacsTag EmacsTagSpec.
From Verif Require P_TagOps.
Local Open Scope nat_scope.

(** ** Encoding *)
Lemma is_digit_hexdigit n : (n < 16)%N -> is_digit_of (hexdigit n) n.
Proof.
  intros H. assert (C : forallb (fun m => existsb (fun p => beq (fst p) (hexdigit m) && N.eqb (snd p) m) digit_table)
     [0;1;2;3;4;5;6;7;8;9;10;11;12;13;14;15]%N = true) by (vm_compute; reflexivity).
  rewrite forallb_forall in C. specialize (C n).
  assert (I : In n [0;1;2;3;4;5;6;7;8;9;10;11;12;13;14;15]%N) by (cbn; lia).
  apply C in I. apply existsb_exists in I as ((c, v) & I & E). cbn in E. apply andb_true_iff in E as [E1 E2].
  apply beq_eq in E1. apply N.eqb_eq in E2. subst. exact I.
Qed.
Lemma el_hex_denotes s : denotes (el_hex_encode s) s.
Proof.
  unfold el_hex_encode. induction s as [|c s IH]; [constructor|]. cbn [map concat].
  destruct (beq c " " || beq c "%" || beq c """") eqn:E.
  - unfold escape_byte. cbn [app]. rewrite <- (ascii_N_embedding c) at 3.
    assert (B : (code c < 256)%N) by apply N_ascii_bounded.
    assert (D : code c = (16 * (code c / 16) + code c mod 16)%N) by (apply N.div_mod; lia).
    change (N_of_ascii c) with (code c). rewrite D at 3. apply den_escape; [| |exact IH]; apply is_digit_hexdigit.
    + apply N.div_lt_upper_bound; lia.
    + apply N.mod_lt. lia.
  - cbn [app]. apply orb_false_iff in E as [E _]. apply orb_false_iff in E as [_ E]. constructor; [now apply beq_neq|exact IH].
Qed.
Lemma escape_chars c x : In x (escape_byte c) -> x <> " "%char /\ x <> NL /\ x <> NUL.
Proof.
  assert (H : forall c, forallb (fun x => negb (beq x " "%char) && negb (beq x NL) && negb (beq x NUL)) (escape_byte c) = true)
    by (apply byte_sweep; vm_compute; reflexivity).
  specialize (H c). rewrite forallb_forall in H. intros I. apply H in I.
  apply andb_true_iff in I as [I I3]. apply andb_true_iff in I as [I1 I2].
  apply negb_true_iff, beq_neq in I1. apply negb_true_iff, beq_neq in I2. apply negb_true_iff, beq_neq in I3. auto.
Qed.
Lemma el_hex_In x s : In x (el_hex_encode s) -> x <> " "%char /\ (x = NL \/ x = NUL -> In x s).
Proof.
  unfold el_hex_encode. intros H. apply in_concat in H as (l & Hl & Hx). apply in_map_iff in Hl as (c & <- & Hc).
  destruct (beq c " " || beq c "%" || beq c """") eqn:E.
  - apply escape_chars in Hx as (A & B & C). split; [exact A|]. intros [D|D]; contradiction.
  - destruct Hx as [<-|[]]. apply orb_false_iff in E as [E _]. apply orb_false_iff in E as [E _]. split; [now apply beq_neq|auto].
Qed.
Lemma el_hex_cons c s : beq c " " || beq c "%" || beq c """" = false -> el_hex_encode (c :: s) = c :: el_hex_encode s.
Proof. intros E. unfold el_hex_encode. cbn [map concat]. now rewrite E. Qed.
Lemma el_hex_nil s : el_hex_encode s = [] -> s = [].
Proof. destruct s as [|c s]; [reflexivity|]. unfold el_hex_encode. cbn. destruct (_ || _); discriminate. Qed.
Lemma el_hex_minus s r : el_hex_encode s = "-"%char :: r -> exists r', s = "-"%char :: r' /\ r = el_hex_encode r'.
Proof.
  destruct s as [|c s]; [discriminate|]. unfold el_hex_encode at 1. cbn [map concat].
  destruct (beq c " " || beq c "%" || beq c """") eqn:E; cbn [app escape_byte].
  - unfold escape_char. discriminate.
  - intros [= -> <-]. eauto.
Qed.

(** ** The command *)
Lemma sign_plain (b : bool) : let c := if b then "-"%char else "+"%char in beq c " " || beq c "%" || beq c """" = false.
Proof. now destruct b. Qed.
Lemma white_NL : white NL. Proof. unfold white. cbn. auto. Qed.
Lemma plain_chars o c x : plain_op o -> says c o -> In x (el_hex_encode c) -> x <> NL /\ x <> NUL.
Proof.
  intros (_ & P & _) -> H. apply el_hex_In in H as [_ H].
  assert (K : x = NL \/ x = NUL -> False).
  { intros N. specialize (H N). destruct H as [E|E].
    - destruct N as [-> | ->]; destruct (to_remove o); discriminate E.
    - destruct (P x E) as [W Z]. destruct N as [-> | ->]; [apply W, white_NL|now apply Z]. }
  tauto.
Qed.
Lemma join_items changes ops q body : Forall2 says changes ops -> Forall plain_op ops -> line_query q body -> changes <> [] ->
  items false (el_batch_text q changes) ops body /\
  (exists c r, el_batch_text q changes = c :: r /\ (c = "+"%char \/ c = "-"%char)) /\
  forall x, In x (el_batch_text q changes) -> x <> NL /\ x <> NUL.
Proof.
  intros F P (Q1 & sp & c & r & -> & Hsp & -> & Hc) Hne. unfold el_batch_text.
  assert (QI : items false (lit "-- " ++ sp ++ c :: r) [] (c :: r)).
  { apply (it_dashes false [] sp (c :: r) c r); auto. intros x []. }
  assert (QC : forall x, In x (lit " -- " ++ sp ++ c :: r) -> x <> NL /\ x <> NUL).
  { intros x Hx. apply in_app_or in Hx as [Hx|Hx]; [|now apply Q1]. cbn in Hx.
    destruct Hx as [<-|[<-|[<-|[<-|[]]]]]; split; discriminate. }
  assert (OP : forall c1 o rest l, says c1 o -> plain_op o -> items false rest l (c :: r) ->
     items false (el_hex_encode c1 ++ " "%char :: rest) (o :: l) (c :: r)).
  { intros c1 o rest l -> Po I. rewrite el_hex_cons by apply sign_plain.
    destruct Po as (P1 & P2 & P3 & P4).
    assert (E : o = {| to_tag := until_nul (to_tag o); to_remove := to_remove o |}).
    { rewrite until_nul_cstr; [now destruct o|]. unfold cstr. apply forallb_forall. intros x Hx. apply P2 in Hx as [_ Hx].
      unfold nonul. now apply negb_true_iff, beq_neq. }
    rewrite E at 3. change ((if to_remove o then "-"%char else "+"%char) :: el_hex_encode (to_tag o)) with
      ([(if to_remove o then "-"%char else "+"%char)] ++ el_hex_encode (to_tag o)). rewrite <- app_assoc. cbn [app].
    apply (it_op false [] (to_remove o) (el_hex_encode (to_tag o)) (to_tag o)); auto.
    - intros x [].
    - intros Hx. apply el_hex_In in Hx as [Hx _]. now apply Hx.
    - intros R X. change (lit "-") with ["-"%char] in X. apply el_hex_minus in X as (r' & X & Y). symmetry in Y. apply el_hex_nil in Y. subst r'.
      now apply P3.
    - intros _ R. split; [intros X; now apply el_hex_nil in X|]. intros r' X. apply el_hex_minus in X as (r1 & X & _). now apply (P4 R r1).
    - apply el_hex_denotes. }
  induction F as [|c1 o changes ops S1 F IH]; [contradiction|]. inversion P as [|? ? Po P']; subst.
  assert (HD : exists x y, el_hex_encode c1 = x :: y /\ (x = "+"%char \/ x = "-"%char)).
  { rewrite S1, el_hex_cons by apply sign_plain. eexists _, _. split; [reflexivity|]. destruct (to_remove o); auto. }
  destruct changes as [|c2 changes].
  - inversion F; subst. cbn [map el_join]. split; [|split].
    + change (lit " -- ") with (" "%char :: lit "-- "). cbn [app]. apply OP; auto. 
    + destruct HD as (x & y & -> & Hx). eexists _, _. split; [reflexivity|exact Hx].
    + intros x Hx. apply in_app_or in Hx as [Hx|Hx]; [|now apply QC]. eapply plain_chars; eauto.
  - destruct (IH P' ltac:(discriminate)) as (I1 & I2 & I3). cbn [map el_join] in *. rewrite <- app_assoc. cbn [app]. split; [|split].
    + now apply OP.
    + destruct HD as (x & y & -> & Hx). eexists _, _. split; [reflexivity|exact Hx].
    + intros x Hx. apply in_app_or in Hx as [Hx|[<-|Hx]]; [eapply plain_chars; eauto|split; discriminate|now apply I3].
Qed.
Lemma batch_text_parsed changes ops q body : Forall2 says changes ops -> Forall plain_op ops -> line_query q body -> changes <> [] ->
  split_lines (el_batch_text q changes) = [el_batch_text q changes] /\
  parse_tag_line false (c_string_of (el_batch_text q changes)) = P_ok ops body.
Proof.
  intros F P Q Hne. destruct (join_items changes ops q body F P Q Hne) as (I & (c & r & E & Hc) & Ch).
  assert (N1 : ~ In NL (el_batch_text q changes)) by (intros X; now apply Ch in X).
  split.
  - unfold split_lines. rewrite split_acc_end by exact N1. cbn [app]. now rewrite E.
  - assert (C : c_string_of (el_batch_text q changes) = el_batch_text q changes).
    { apply takewhile_forall. apply forallb_forall. intros x Hx. apply Ch in Hx as [_ Hx]. unfold nonul. now apply negb_true_iff, beq_neq. }
    rewrite C. assert (U : unterminated (el_batch_text q changes) (el_batch_text q changes)).
    { right. split; [reflexivity|]. intros X. apply N1. change NL with (ascii_of_N 10). rewrite <- X.
      rewrite E. destruct (exists_last (l := c :: r)) as (l & x & EE); [discriminate|]. rewrite EE, last_last. apply in_or_app. right. now left. }
    apply (parse_tag_line_spec false _ _ U); [rewrite E; discriminate|].
    exists [], c, r. split; [exact E|]. split; [intros x []|]. rewrite <- E.
    destruct Hc as [-> | ->]; repeat split; auto; discriminate.
Qed.

(** ** Effect on the database *)
Definition calm (s : db) : Prop :=
  writable s = true /\ isopen s = true /\ in_txn s = false /\ NoDup (map fst (st_docs (vis s))).
Lemma touch_calm s s' : touch s s' -> calm s -> calm s'.
Proof.
  intros [T|(_ & _ & k & t & T)] (A & B & C & D); apply core_fields in T as (T1 & _ & T2 & _ & _ & _ & T3 & T4 & _);
    unfold calm; rewrite T1, T2, T3, T4; [auto|].
  unfold written. cbn. destruct (nesting s); cbn; repeat split; auto; now apply dput_keys.
Qed.
Lemma step_calm h o s : handle_op o = Some h -> calm s -> calm (snd (step o s)).
Proof. intros H. apply touch_calm. eapply step_touch; eauto. Qed.
Lemma apply_ops_calm h ops : forall s, calm s -> calm (snd (apply_ops h ops s)).
Proof.
  induction ops as [|o ops IH]; intros s H; [exact H|]. cbn [apply_ops].
  assert (K : calm (snd (step (tagop_call h o) s))) by (apply (step_calm h); [unfold tagop_call; now destruct (to_remove o)|exact H]).
  destruct (step _ s) as [st s']. cbn [snd] in K. destruct st; auto.
Qed.
Lemma apply_list_calm h ops ra po s : calm s -> calm (snd (tag_op_list_apply h ops ra po s)).
Proof.
  intros H. unfold tag_op_list_apply. destruct (dget h (handles s)); [|exact H]. destruct (_ && _); [exact H|].
  assert (K : calm (snd (step (OpFreeze h) s))) by now apply (step_calm h).
  destruct (step (OpFreeze h) s) as [st s1]. cbn [snd] in K. destruct st; auto.
  assert (K2 : calm (snd (if ra then step (OpRemAll h) s1 else (St_success, s1)))) by (destruct ra; [now apply (step_calm h)|exact K]).
  destruct (if ra then _ else _) as [st s2]. cbn [snd] in K2. destruct st; auto.
  pose proof (apply_ops_calm h ops s2 K2) as K3. destruct (apply_ops h ops s2) as [st s3]. cbn [snd] in K3. destruct st; auto.
  now apply (step_calm h).
Qed.
Lemma tag_message_calm h ops ra po k s : calm s -> calm (snd (tag_message h ops ra po k s)).
Proof.
  intros H. unfold tag_message. cbn [step]. unfold open_message. destruct (dget k _); [|exact H]. now apply apply_list_calm.
Qed.
Lemma tag_messages_calm h ops ra po ks : forall s, calm s -> calm (snd (tag_messages h ops ra po ks s)).
Proof.
  induction ks as [|k ks IH]; intros s H; [exact H|]. cbn [tag_messages].
  pose proof (tag_message_calm h ops ra po k s H) as K. destruct (tag_message h ops ra po k s) as [st s']. cbn [snd] in K.
  destruct st; auto.
Qed.
Lemma tag_query_calm opt h q ops ra s : calm s -> calm (snd (tag_query opt h q ops ra s)).
Proof. intros H. unfold tag_query. destruct ra; now apply tag_messages_calm. Qed.

(** Sortedness is kept, and no message appears or disappears. *)
Lemma tag_query_terms h q ops s : Forall tagop_valid ops -> writable s = true -> isopen s = true ->
  NoDup (map fst (st_docs (vis s))) -> (forall k d, dget k (st_docs (vis s)) = Some d -> tsorted (d_terms d)) ->
  exists s', tag_query optimize_infix h q ops false s = (St_success, s') /\
  forall k, dget k (st_docs (vis s)) = None -> dget k (st_docs (vis s')) = None.
Proof.
  intros Hv Hw Ho Hn Hs. unfold tag_query. destruct (search_spec (optimize_infix q ops) s Hn) as [N1 S1].
  destruct (tag_messages_spec h ops false true Hv (search (optimize_infix q ops) s) s N1 Hw Ho) as (s' & A & B).
  { intros k Hk. apply S1 in Hk as (d & Hd & _). exists (d_terms d). unfold dterms. rewrite Hd. eauto. }
  exists s'. split; [exact A|]. intros k Hk. specialize (B k). unfold dterms in B. rewrite Hk in B. cbn in B.
  destruct (dget k (st_docs (vis s'))); [|reflexivity]. destruct (existsb _ _); discriminate.
Qed.
Lemma tag_query_sorted h q ops s : Forall tagop_valid ops -> writable s = true -> isopen s = true ->
  NoDup (map fst (st_docs (vis s))) -> (forall k d, dget k (st_docs (vis s)) = Some d -> tsorted (d_terms d)) ->
  forall s' st, tag_query optimize_infix h q ops false s = (st, s') ->
  forall k d, dget k (st_docs (vis s')) = Some d -> tsorted (d_terms d).
Proof.
  intros Hv Hw Ho Hn Hs s' st. unfold tag_query. destruct (search_spec (optimize_infix q ops) s Hn) as [N1 S1].
  destruct (tag_messages_spec h ops false true Hv (search (optimize_infix q ops) s) s N1 Hw Ho) as (s1 & A & B).
  { intros k Hk. apply S1 in Hk as (d & Hd & _). exists (d_terms d). unfold dterms. rewrite Hd. eauto. }
  rewrite A. intros [= _ <-] k d Hd. specialize (B k). unfold dterms in B. rewrite Hd in B. cbn in B.
  destruct (dget k (st_docs (vis s))) as [d0|] eqn:E0; [|destruct (existsb _ _); discriminate].
  destruct (existsb _ _); injection B as ->; [|eauto]. now apply (edits_terms_tags _ _ (Hs k d0 E0)).
Qed.

Lemma run_batch_effect eval thr changes ops q body qq st :
  Forall2 says changes ops -> Forall plain_op ops -> Forall tagop_valid ops -> line_query q body -> changes <> [] ->
  eval body = Some qq -> sound st ->
  exists st', run_batch eval thr (el_batch_text q changes) st = (O_return false, st') /\ sound st' /\
    (forall k, dget k (st_docs st') = None <-> dget k (st_docs st) = None) /\
    forall k d, dget k (st_docs st) = Some d -> exists d', dget k (st_docs st') = Some d' /\
      forall t, In t (tags_of (d_terms d')) <->
        (if qq d then tag_after false ops (fun t => In t (tags_of (d_terms d))) t else In t (tags_of (d_terms d))).
Proof.
  intros F P V Q Hne Ev (N0 & S0). destruct (batch_text_parsed changes ops q body F P Q Hne) as (L & Pl).
  unfold run_batch. rewrite L. unfold tag_file. cbn [tag_file_loop]. rewrite Pl, Ev.
  set (s := open_db st thr true).
  assert (C0 : calm s) by (repeat split; auto).
  destruct (P_TagOps.C09_tag_query_effect 1%N qq ops false s V eq_refl eq_refl N0 S0) as (s' & A & B).
  destruct (tag_query_terms 1%N qq ops s V eq_refl eq_refl N0 S0) as (s2 & A2 & B2). rewrite A in A2. injection A2 as <-.
  pose proof (tag_query_sorted 1%N qq ops s V eq_refl eq_refl N0 S0 s' _ A) as S1.
  pose proof (tag_query_calm optimize_infix 1%N qq ops false s C0) as C1. rewrite A in C1 |- *. cbn [snd] in C1.
  destruct C1 as (W & O & T & N1).
  assert (D : durable (close s') = vis s') by (unfold close; now rewrite O, W, T).
  rewrite D. exists (vis s'). split; [reflexivity|]. split; [split; assumption|]. split; [|exact B].
  intros k. split; [|apply B2]. intros X. destruct (dget k (st_docs st)) as [d|] eqn:E; [|reflexivity].
  destruct (B k d E) as (d' & E' & _). congruence.
Qed.
