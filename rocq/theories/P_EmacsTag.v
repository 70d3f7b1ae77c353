(** C79: tagging from Emacs: the batch command it sends means what the user asked, the
    tags shown afterwards are the tags in the database, and undo restores them. *)
From Verif Require Import Bytes Terms Meta DocMap Db StrUtil TagOps TagOpsSpec TagOpsProofs TagLine TagLineSpec Dump EmacsTag EmacsTagSpec EmacsTagProofs EmacsTagProofs2.
Local Open Scope nat_scope.

(** One line is sent, which 'notmuch tag --batch' reads as exactly the operations asked
    for and the query. *)
Theorem C79_command :
  forall changes ops q body,
  Forall2 says changes ops -> Forall plain_op ops -> line_query q body -> changes <> [] ->
  split_lines (el_batch_text q changes) = [el_batch_text q changes] /\
  parse_tag_line false (until_nul (el_batch_text q changes)) = P_ok ops body.
Proof. intros. rewrite TagLineProofs.until_nul_c. now apply batch_text_parsed. Qed.
Print Assumptions C79_command.

(** Which strings the validation lets through: some line of it is a sign followed by one
    or more characters that are not whitespace. *)
Theorem C79_validation :
  forall s, el_change_ok s = true <->
  exists before sign tag after, s = before ++ (sign :: tag) ++ after /\
    (before = [] \/ exists b, before = b ++ [chr 10]) /\ (after = [] \/ exists a, after = chr 10 :: a) /\
    (sign = "+"%char \/ sign = "-"%char) /\ tag <> [] /\ forall x, In x tag -> ~ white x.
Proof.
  intros s. rewrite el_change_ok_spec. split.
  - intros (c & t & (a & b & E & _ & Ha & Hb) & Hc & Ht & Hw). exists a, c, t, b. repeat split; auto.
  - intros (a & c & t & b & E & Ha & Hb & Hc & Ht & Hw). exists c, t. repeat split; auto. exists a, b. repeat split; auto.
    intros [X|X]; [destruct Hc as [-> | ->]; discriminate X|]. apply (Hw _ X). apply white_NL.
Qed.
Print Assumptions C79_validation.

(** A change that does not pass, or no query: nothing is run. *)
Theorem C79_refused :
  forall eval thr q changes omit e, Exists (fun c => el_change_ok c = false) changes \/ q = None ->
  el_tag eval thr q changes omit e = (E_refused, e).
Proof.
  intros eval thr q changes omit e H. unfold el_tag. destruct (forallb el_change_ok changes) eqn:F; cbn [negb]; [|reflexivity].
  destruct H as [H| ->]; [|reflexivity]. exfalso. apply Exists_exists in H as (c & Hc & E). rewrite forallb_forall in F.
  apply F in Hc. congruence.
Qed.
Print Assumptions C79_refused.

(** Tagging succeeds, is recorded for undo, and gives the matching messages the
    operations, the others nothing. *)
Theorem C79_tag_effect :
  forall eval thr changes ops q body qq omit e,
  Forall2 says changes ops -> Forall plain_op ops -> Forall tagop_valid ops -> line_query q body -> changes <> [] ->
  eval body = Some qq -> sound (e_store e) ->
  exists e', el_tag eval thr (Some q) changes omit e = (E_ok, e') /\ sound (e_store e') /\
    e_history e' = (if omit then e_history e else (q, changes) :: e_history e) /\
    (forall k, dget k (st_docs (e_store e')) = None <-> dget k (st_docs (e_store e)) = None) /\
    (forall k t, selected qq (e_store e) k -> (tagged (e_store e') k t <-> tag_after false ops (tagged (e_store e) k) t)) /\
    (forall k t, ~ selected qq (e_store e) k -> (tagged (e_store e') k t <-> tagged (e_store e) k t)).
Proof.
  intros eval thr changes ops q body qq omit e F P V Q Hne Ev St.
  destruct (run_batch_effect eval thr changes ops q body qq (e_store e) F P V Q Hne Ev St) as (st' & A & B & C & D).
  unfold el_tag. rewrite (forall2_ok changes ops F P). cbn [negb]. destruct changes as [|c changes]; [contradiction|].
  rewrite A. eexists. split; [reflexivity|]. cbn [e_store e_history]. split; [exact B|]. split; [reflexivity|]. split; [exact C|].
  assert (K : forall k t, tagged (e_store e) k t <-> match dget k (st_docs (e_store e)) with Some d => In t (tags_of (d_terms d)) | None => False end).
  { intros k t. unfold tagged. destruct (dget k _) as [d|]; split; [intros (d' & [= <-] & H); exact H|eauto|intros (d' & X & _); discriminate X|intros []]. }
  split; intros k t.
  - intros (d & Hd & Hq). destruct (D k d Hd) as (d' & Hd' & T). rewrite Hq in T. unfold tagged at 1. rewrite Hd'.
    assert (X : (exists d0, Some d' = Some d0 /\ In t (tags_of (d_terms d0))) <-> In t (tags_of (d_terms d')))
      by (split; [intros (d0 & [= <-] & H); exact H|eauto]).
    rewrite X, T. apply tag_after_ext. intros u. rewrite K, Hd. reflexivity.
  - intros Hq. destruct (dget k (st_docs (e_store e))) as [d|] eqn:Hd.
    + destruct (D k d Hd) as (d' & Hd' & T). assert (Eq : qq d = false).
      { destruct (qq d) eqn:Eq; [|reflexivity]. elim Hq. exists d. auto. }
      rewrite Eq in T. rewrite K, Hd. rewrite <- T. unfold tagged. rewrite Hd'. split; [intros (d0 & [= <-] & H); exact H|eauto].
    + rewrite K, Hd. unfold tagged. rewrite (proj2 (C k) Hd). split; [intros (d0 & X & _); discriminate X|intros []].
Qed.
Print Assumptions C79_tag_effect.

(** The query for a message id is read back as that id, whatever its bytes. *)
Theorem C79_id_query :
  forall id, parse_boolean_term (el_id_to_query id) = Some (lit "id", id).
Proof. intros id. apply StrUtilProofs.parse_boolean_term_complete, id_query_text. Qed.
Print Assumptions C79_id_query.

(** The tags shown after tagging the current message are its tags in the database, in
    order and without repetition, and no other message has changed. *)
Theorem C79_display :
  forall eval thr id changes ops qq k shown e,
  Forall2 says changes ops -> Forall plain_op ops -> Forall tagop_valid ops -> changes <> [] ->
  (forall c, In c id -> c <> ascii_of_N 10 /\ c <> ascii_of_N 0) ->
  eval (el_id_to_query id) = Some qq -> (forall j, selected qq (e_store e) j <-> j = k) -> sound (e_store e) ->
  NoDup shown -> (forall t, In t shown <-> tagged (e_store e) k t) ->
  exists e' shown', el_show_tag eval thr id shown changes e = (E_ok, e', shown') /\
    tsorted shown' /\ (forall t, In t shown' <-> tagged (e_store e') k t) /\
    (forall j t, j <> k -> (tagged (e_store e') j t <-> tagged (e_store e) j t)).
Proof.
  intros eval thr id changes ops qq k shown e F P V Hne Hid Ev Sel St N Sh.
  assert (Q : line_query (el_id_to_query id) (el_id_to_query id)).
  { split.
    - intros x Hx. unfold el_id_to_query in Hx. apply in_app_or in Hx as [Hx|Hx].
      { cbn in Hx. destruct Hx as [<-|[<-|[<-|[]]]]; split; discriminate. }
      unfold el_escape_term in Hx. destruct id as [|c id']; [cbn in Hx; destruct Hx as [<-|[<-|[]]]; split; discriminate|].
      destruct (forallb el_plain (c :: id')); [now apply Hid|]. destruct Hx as [<-|Hx]; [split; discriminate|].
      apply in_app_or in Hx as [Hx|[<-|[]]]; [|split; discriminate]. apply in_concat in Hx as (l & Hl & Hx). apply in_map_iff in Hl as (y & <- & Hy).
      destruct (beq y """"%char); cbn in Hx; destruct Hx as [<-|Hx]; auto; destruct Hx as [<-|[]]; auto.
    - exists [], "i"%char, (lit "d:" ++ el_escape_term id). repeat split; [intros x []|discriminate]. }
  destruct (C79_tag_effect eval thr changes ops _ _ qq false e F P V Q Hne Ev St) as (e' & A & B & _ & C & D & E).
  destruct (el_update_spec changes ops F shown N) as (l & L1 & L2 & L3). destruct (el_sort_spec l L2) as [S1 S2].
  unfold el_show_tag. rewrite A. unfold el_update_tags. rewrite L1. cbn [option_map].
  exists e', (el_sort l). split; [reflexivity|]. split; [exact S1|]. split.
  - intros t. rewrite S2, L3, (D k t) by now apply Sel. now apply tag_after_ext.
  - intros j t Hj. apply E. intros X. apply Sel in X. contradiction.
Qed.
Print Assumptions C79_display.

(** Undo restores the tags of every message, provided each operation changed each of
    the messages selected, no tag was named twice, and the query still selects the same
    messages. *)
Theorem C79_undo :
  forall eval thr changes ops q body qq e e1,
  Forall2 says changes ops -> Forall plain_op ops -> Forall plain_op (map opposite ops) -> Forall tagop_valid ops ->
  line_query q body -> changes <> [] -> eval body = Some qq -> sound (e_store e) ->
  el_tag eval thr (Some q) changes false e = (E_ok, e1) ->
  (forall k, selected qq (e_store e) k -> effective ops (tagged (e_store e) k)) ->
  (forall k, selected qq (e_store e1) k <-> selected qq (e_store e) k) ->
  exists e2, el_undo eval thr e1 = (E_ok, e2) /\ e_history e2 = e_history e /\
    forall k t, tagged (e_store e2) k t <-> tagged (e_store e) k t.
Proof.
  intros eval thr changes ops q body qq e e1 F P P' V Q Hne Ev St R Eff Same.
  destruct (C79_tag_effect eval thr changes ops q body qq false e F P V Q Hne Ev St) as (e1' & A & B & H & C & D & E).
  rewrite R in A. injection A as <-. unfold el_undo. rewrite H.
  set (e0 := {| e_store := e_store e1; e_history := e_history e |}).
  assert (V' : Forall tagop_valid (map opposite ops)) by (apply Forall_map; eapply Forall_impl; [|exact V]; intros o Ho; exact Ho).
  assert (Hne' : el_change_list changes true <> []) by (destruct changes; [contradiction|discriminate]).
  destruct (C79_tag_effect eval thr _ _ q body qq true e0 (change_list_reverse changes ops F P) P' V' Q Hne' Ev B) as (e2 & A2 & B2 & H2 & C2 & D2 & E2).
  exists e2. split; [exact A2|]. split; [exact H2|]. cbn [e0 e_store] in D2, E2. intros k t.
  destruct (dget k (st_docs (e_store e))) as [d|] eqn:Hd.
  - destruct (qq d) eqn:Hq.
    + assert (Sk : selected qq (e_store e) k) by (exists d; auto).
      rewrite D2 by now apply Same. rewrite (tag_after_ext (map opposite ops) _ (tag_after false ops (tagged (e_store e) k)) t).
      * apply undo_tags. now apply Eff.
      * intros u. now apply D.
    + assert (Sk : ~ selected qq (e_store e) k) by (intros (d0 & X & Y); congruence).
      rewrite E2 by (intros X; apply Sk; now apply Same). now apply E.
  - assert (Sk : ~ selected qq (e_store e) k) by (intros (d0 & X & Y); congruence).
    rewrite E2 by (intros X; apply Sk; now apply Same). now apply E.
Qed.
Print Assumptions C79_undo.

(** ** Examples *)
Definition ex_st : store :=
  {| st_docs := [(1%N, {| d_terms := map lit ["Ka"; "Kinbox"; "Qm1"]%string; d_lastmod := 1%N |});
                 (2%N, {| d_terms := map lit ["Kb"; "Qm 2"]%string; d_lastmod := 2%N |})]; st_ub := 2%N |}.
Definition ex_eval (b : bytes) : option query :=
  if bseq b (lit "id:m1") then Some (fun d => tmem (lit "Qm1") (d_terms d))
  else if bseq b (lit "tag:inbox") then Some (has_tag (lit "inbox"))
  else if bseq b (lit "*" ++ chr 10 :: lit "and tag:b") then Some (has_tag (lit "b"))
  else if bseq b (lit "*") then Some (fun _ => true) else Some (fun _ => false).
Definition ex_e : editor := {| e_store := ex_st; e_history := [] |}.
Definition ex_changes : list bytes := map lit ["-inbox"; "+x%y"]%string.
Definition ex_ops : list tagop := [ {| to_tag := lit "inbox"; to_remove := true |}; {| to_tag := lit "x%y"; to_remove := false |} ].
Definition ex_tags (e : editor) (k : N) : list bytes :=
  match dget k (st_docs (e_store e)) with Some d => tags_of (d_terms d) | None => [] end.
Lemma ex_plain : Forall plain_op ex_ops /\ Forall plain_op (map opposite ex_ops) /\ Forall2 says ex_changes ex_ops.
Proof.
  assert (W : forall o, forallb (fun c => negb (el_white c) && negb (beq c (ascii_of_N 0))) (to_tag o) = true -> (match to_tag o with [] => false | c :: _ => negb (beq c "-"%char) end) = true -> plain_op o).
  { intros o H1 H2. rewrite forallb_forall in H1. repeat split.
    - intros E. now rewrite E in H2.
    - intros X. apply el_white_spec in X. specialize (H1 _ H). now rewrite X in H1.
    - intros ->. specialize (H1 _ H). now vm_compute in H1.
    - intros _ E. now rewrite E in H2.
    - intros _ r E. now rewrite E in H2. }
  split; [|split].
  - apply Forall_cons; [apply W; reflexivity|]. apply Forall_cons; [apply W; reflexivity|apply Forall_nil].
  - apply Forall_cons; [apply W; reflexivity|]. apply Forall_cons; [apply W; reflexivity|apply Forall_nil].
  - repeat (apply Forall2_cons; [reflexivity|]). apply Forall2_nil.
Qed.
Lemma ex_query : line_query (lit "tag:inbox") (lit "tag:inbox").
Proof.
  split; [|exists [], "t"%char, (lit "ag:inbox"); repeat split; [intros x []|discriminate]].
  intros c H. assert (F : forallb (fun c => negb (beq c (ascii_of_N 10)) && negb (beq c (ascii_of_N 0))) (lit "tag:inbox") = true) by reflexivity.
  rewrite forallb_forall in F. apply F, andb_true_iff in H as [H1 H2]. apply negb_true_iff, beq_neq in H1. apply negb_true_iff, beq_neq in H2. auto.
Qed.
Lemma ex_sound : sound ex_st.
Proof.
  split; [repeat constructor; cbn; intuition discriminate|]. intros k d H. cbn in H.
  destruct (N.eqb k 1); [injection H as <-; repeat constructor|]. destruct (N.eqb k 2); [injection H as <-; repeat constructor|discriminate].
Qed.
Example C79_nontrivial :
  el_batch_text (lit "tag:inbox") ex_changes = lit "-inbox +x%25y -- tag:inbox" /\
  line_query (lit "tag:inbox") (lit "tag:inbox") /\ sound ex_st /\
  (let '(r, e1, shown) := el_show_tag ex_eval 0 (lit "m1") (map lit ["a"; "inbox"]%string) ex_changes ex_e in
   r = E_ok /\ shown = map lit ["a"; "x%y"]%string /\ ex_tags e1 1%N = shown /\ ex_tags e1 2%N = [lit "b"] /\
   e_history e1 = [(lit "id:m1", ex_changes)] /\
   let '(r2, e2) := el_undo ex_eval 0 e1 in r2 = E_ok /\ ex_tags e2 1%N = map lit ["a"; "inbox"]%string /\ e_history e2 = []) /\
  el_id_to_query (lit "m 2""") = lit "id:""m 2""""""" /\
  (forall k, selected (fun d => tmem (lit "Qm1") (d_terms d)) ex_st k -> effective ex_ops (tagged ex_st k)).
Proof.
  split; [reflexivity|]. split; [exact ex_query|]. split; [exact ex_sound|].
  split; [vm_compute; repeat split|]. split; [reflexivity|].
  intros k (d & Hd & Hq). cbn in Hd. destruct (N.eqb_spec k 1) as [->|_].
  - split; [repeat constructor; cbn; intuition discriminate|]. intros o [<-|[<-|[]]]; cbn [to_tag to_remove].
    + split; [reflexivity|]. intros _. eexists. split; [reflexivity|]. vm_compute. auto.
    + split; [|discriminate]. intros (d' & [= <-] & X). vm_compute in X. intuition discriminate.
  - destruct (N.eqb k 2); [|discriminate]. injection Hd as <-. discriminate Hq.
Qed.

(** ** What is not true *)

(** Undoing does not always restore: "+inbox" on messages of which one had the tag. *)
Theorem C79_undo_refuted :
  ~ (forall eval thr q changes e e1 e2, sound (e_store e) ->
       el_tag eval thr (Some q) changes false e = (E_ok, e1) -> el_undo eval thr e1 = (E_ok, e2) ->
       forall k t, tagged (e_store e) k t -> tagged (e_store e2) k t).
Proof.
  intros H.
  destruct (el_tag ex_eval 0 (Some (lit "*")) [lit "+inbox"] false ex_e) as [r e1] eqn:E1.
  destruct (el_undo ex_eval 0 e1) as [r2 e2] eqn:E2.
  assert (X : r = E_ok /\ r2 = E_ok /\ ex_tags e2 1%N = [lit "a"]).
  { pose proof (f_equal fst E1) as A. pose proof (f_equal snd E1) as B. cbn [fst snd] in A, B. subst r e1.
    pose proof (f_equal fst E2) as A. pose proof (f_equal snd E2) as B. cbn [fst snd] in A, B. subst r2 e2. vm_compute. auto. }
  destruct X as (-> & -> & X).
  assert (T : tagged (e_store e2) 1%N (lit "inbox")).
  { refine (H ex_eval 0 (lit "*") [lit "+inbox"] ex_e e1 e2 _ E1 E2 1%N (lit "inbox") _); [exact ex_sound|].
    eexists. split; [reflexivity|]. vm_compute. auto. }
  destruct T as (d & Hd & T). unfold ex_tags in X. rewrite Hd in X. rewrite X in T. vm_compute in T. intuition discriminate.
Qed.
Print Assumptions C79_undo_refuted.

(** The same when the operation takes the messages out of the query: "-inbox" on
    "tag:inbox" is never undone. *)
Theorem C79_undo_selection_refuted :
  ~ (forall eval thr q changes ops body qq e e1 e2, sound (e_store e) ->
       Forall2 says changes ops -> Forall plain_op ops -> line_query q body -> eval body = Some qq ->
       (forall k, selected qq (e_store e) k -> effective ops (tagged (e_store e) k)) ->
       el_tag eval thr (Some q) changes false e = (E_ok, e1) -> el_undo eval thr e1 = (E_ok, e2) ->
       forall k t, tagged (e_store e) k t -> tagged (e_store e2) k t).
Proof.
  intros H.
  destruct (el_tag ex_eval 0 (Some (lit "tag:inbox")) [lit "-inbox"] false ex_e) as [r e1] eqn:E1.
  destruct (el_undo ex_eval 0 e1) as [r2 e2] eqn:E2.
  assert (X : r = E_ok /\ r2 = E_ok /\ ex_tags e2 1%N = [lit "a"]).
  { pose proof (f_equal fst E1) as A. pose proof (f_equal snd E1) as B. cbn [fst snd] in A, B. subst r e1.
    pose proof (f_equal fst E2) as A. pose proof (f_equal snd E2) as B. cbn [fst snd] in A, B. subst r2 e2. vm_compute. auto. }
  destruct X as (-> & -> & X). destruct ex_plain as (P & _ & F).
  assert (P1 : plain_op {| to_tag := lit "inbox"; to_remove := true |}) by (rewrite Forall_forall in P; apply P; now left).
  assert (F1 : says (lit "-inbox") {| to_tag := lit "inbox"; to_remove := true |}) by reflexivity.
  assert (T : tagged (e_store e2) 1%N (lit "inbox")).
  { refine (H ex_eval 0 (lit "tag:inbox") [lit "-inbox"] [{| to_tag := lit "inbox"; to_remove := true |}] (lit "tag:inbox") (has_tag (lit "inbox")) ex_e e1 e2
      _ (Forall2_cons _ _ F1 (Forall2_nil _)) (Forall_cons _ P1 (Forall_nil _)) _ eq_refl _ E1 E2 1%N (lit "inbox") _).
    - exact ex_sound.
    - exact ex_query.
    - intros k (d & Hd & Hq). cbn in Hd. destruct (N.eqb_spec k 1) as [->|_].
      + split; [repeat constructor; cbn; intuition discriminate|]. intros o [<-|[]]; cbn [to_tag to_remove].
        split; [reflexivity|]. intros _. eexists. split; [reflexivity|]. vm_compute. auto.
      + destruct (N.eqb k 2); [|discriminate]. injection Hd as <-. discriminate Hq.
    - eexists. split; [reflexivity|]. vm_compute. auto. }
  destruct T as (d & Hd & T). unfold ex_tags in X. rewrite Hd in X. rewrite X in T. vm_compute in T. intuition discriminate.
Qed.
Print Assumptions C79_undo_selection_refuted.

(** A query containing a newline: only its first line is used, and messages the query
    does not select are tagged. *)
Theorem C79_newline_query_refuted :
  ~ (forall eval thr q c qq e e1, sound (e_store e) -> el_change_ok c = true -> eval q = Some qq ->
       el_tag eval thr (Some q) [c] false e = (E_ok, e1) ->
       forall k t, ~ selected qq (e_store e) k -> tagged (e_store e1) k t -> tagged (e_store e) k t).
Proof.
  intros H. set (q := lit "*" ++ chr 10 :: lit "and tag:b").
  destruct (el_tag ex_eval 0 (Some q) [lit "+x"] false ex_e) as [r e1] eqn:E1.
  assert (X : r = E_ok /\ ex_tags e1 1%N = map lit ["a"; "inbox"; "x"]%string).
  { pose proof (f_equal fst E1) as A. pose proof (f_equal snd E1) as B. cbn [fst snd] in A, B. subst r e1. vm_compute. auto. }
  destruct X as (-> & X).
  assert (T : tagged ex_st 1%N (lit "x")).
  { refine (H ex_eval 0 q (lit "+x") (has_tag (lit "b")) ex_e e1 _ eq_refl eq_refl E1 1%N (lit "x") _ _); [exact ex_sound| |].
    - intros (d & [= <-] & Y). discriminate Y.
    - unfold tagged. unfold ex_tags in X. destruct (dget 1%N (st_docs (e_store e1))) as [d|]; [|discriminate X].
      exists d. split; [reflexivity|]. rewrite X. vm_compute. auto. }
  destruct T as (d & [= <-] & T). vm_compute in T. intuition discriminate.
Qed.
Print Assumptions C79_newline_query_refuted.

(** Strings that pass the validation and are read as something else: "--", meant to
    remove the tag "-", and a string of two lines. *)
Theorem C79_validated_refuted :
  ~ (forall c o q body, el_change_ok c = true -> says c o -> line_query q body ->
       exists q', parse_tag_line false (until_nul (el_batch_text q [c])) = P_ok [o] q').
Proof.
  intros H. destruct (H (lit "--") {| to_tag := lit "-"; to_remove := true |} (lit "tag:inbox") (lit "tag:inbox") eq_refl eq_refl) as (q' & E).
  - exact ex_query.
  - vm_compute in E. discriminate E.
Qed.
Print Assumptions C79_validated_refuted.
Theorem C79_validated_newline_refuted :
  ~ (forall c q body, el_change_ok c = true -> line_query q body -> length (split_lines (el_batch_text q [c])) = 1).
Proof.
  intros H. specialize (H (lit "+a" ++ chr 10 :: lit "b") (lit "tag:inbox") (lit "tag:inbox") eq_refl).
  assert (Q : line_query (lit "tag:inbox") (lit "tag:inbox")) by exact ex_query. apply H in Q. vm_compute in Q. discriminate Q.
Qed.
Print Assumptions C79_validated_newline_refuted.
