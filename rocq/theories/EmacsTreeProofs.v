(** Lemmas for C94. *)
From Verif Require Import Bytes Terms Meta DocMap Db DbProofs StrUtil TagOps TagOpsSpec TagOpsProofs TagLine TagLineSpec EmacsTag EmacsTagSpec EmacsTagProofs EmacsTagProofs2 P_EmacsTag EmacsSearch EmacsSearchSpec EmacsSearchProofs EmacsSearchProofs2 EmacsTree EmacsTreeSpec.
Local Open Scope nat_scope.

(** ** Tagging leaves the ids alone *)
Lemma Q_not_tag id t : lit "Q" ++ id <> tag_term t. Proof. discriminate. Qed.
Lemma run_batch_ids eval thr changes ops q body qq st st' o :
  Forall2 says changes ops -> Forall plain_op ops -> Forall tagop_valid ops -> line_query q body -> changes <> [] ->
  eval body = Some qq -> sound st -> run_batch eval thr (el_batch_text q changes) st = (o, st') ->
  forall k d d', dget k (st_docs st) = Some d -> dget k (st_docs st') = Some d' -> forall id, has_id id d' <-> has_id id d.
Proof.
  intros F P V Q Hne Ev (N0 & S0). destruct (batch_text_parsed changes ops q body F P Q Hne) as (L & Pl).
  unfold run_batch. rewrite L. unfold tag_file. cbn [tag_file_loop]. rewrite Pl, Ev.
  set (s := open_db st thr true).
  assert (C0 : calm s) by (repeat split; auto).
  pose proof (tag_query_calm optimize_infix 1%N qq ops false s C0) as C1.
  destruct (search_spec (optimize_infix qq ops) s N0) as [N1 S1].
  destruct (tag_messages_spec 1%N ops false true V (search (optimize_infix qq ops) s) s N1 eq_refl eq_refl) as (s1 & A & B).
  { intros k Hk. apply S1 in Hk as (d & Hd & _). exists (d_terms d). unfold dterms. rewrite Hd. eauto. }
  unfold tag_query in *. rewrite A in *. cbn [snd] in C1. destruct C1 as (W & O & T & _).
  assert (D : durable (close s1) = vis s1) by (unfold close; now rewrite O, W, T).
  rewrite D. intros [= _ <-] k d d' Hd Hd' id. specialize (B k). unfold dterms in B. rewrite Hd' in B. change (st_docs (vis s)) with (st_docs st) in B. rewrite Hd in B. cbn in B.
  unfold has_id. destruct (existsb _ _); injection B as ->; [|reflexivity].
  apply (proj2 (proj2 (edits_terms_tags _ _ (S0 k d Hd)))). intros t. apply Q_not_tag.
Qed.

Lemma has_idb_spec id d : has_idb id d = true <-> has_id id d.
Proof.
  unfold has_idb, has_id. rewrite existsb_exists. split; [intros (x & I & E); apply bseq_eq in E; now rewrite E|intros I; exists (lit "Q" ++ id); split; [exact I|now apply bseq_eq]].
Qed.
Lemma tag_ids eval thr changes ops q ids e :
  asked changes ops -> reads_alternatives eval -> alternatives q = Some ids -> line_query q q -> sound (e_store e) ->
  exists e', el_tag eval thr (Some q) changes false e = (E_ok, e') /\ retagged ids ops (e_store e) (e_store e') /\ e_history e' = (q, changes) :: e_history e.
Proof.
  intros (Ne & F & P & V) Rd Al Lq St. destruct (Rd q ids Al) as (qq & Ev & Qq).
  destruct (C79_tag_effect eval thr changes ops q q qq false e F P V Lq Ne Ev St) as (e' & A & B & H & C & D1 & D2).
  exists e'. split; [exact A|]. split; [|exact H]. split; [exact B|]. intros k.
  assert (R : exists o, run_batch eval thr (el_batch_text q changes) (e_store e) = (o, e_store e')).
  { revert A. unfold el_tag. rewrite (forall2_ok changes ops F P). cbn [negb]. destruct changes as [|c changes]; [contradiction|].
    destruct (run_batch _ _ _ _) as [o st]. intros X. exists o. f_equal. destruct o; try discriminate X; destruct failed; [discriminate X|injection X as <-; reflexivity]. }
  destruct R as (o & R). pose proof (run_batch_ids eval thr changes ops q q qq (e_store e) (e_store e') o F P V Lq Ne Ev St R) as Ids.
  specialize (C k). specialize (Ids k). destruct (dget k (st_docs (e_store e))) as [d|] eqn:Ed.
  - destruct (dget k (st_docs (e_store e'))) as [d'|] eqn:Ed'; [|destruct C as [C _]; specialize (C eq_refl); discriminate].
    split; [now apply Ids|].
    assert (K : forall t, tagged (e_store e) k t <-> In t (tags_of (d_terms d))) by (intros t; unfold tagged; rewrite Ed; split; [intros (x & [= <-] & I); exact I|eauto]).
    assert (K' : forall t, tagged (e_store e') k t <-> In t (tags_of (d_terms d'))) by (intros t; unfold tagged; rewrite Ed'; split; [intros (x & [= <-] & I); exact I|eauto]).
    assert (Sel : selected qq (e_store e) k <-> exists id, In id ids /\ has_id id d).
    { unfold selected. rewrite Ed. split.
      - intros (x & [= <-] & X). rewrite Qq in X. apply existsb_exists in X. destruct X as (id & I & X). exists id. split; [exact I|now apply has_idb_spec].
      - intros (id & I & X). exists d. split; [reflexivity|]. rewrite Qq. apply existsb_exists. exists id. split; [exact I|now apply has_idb_spec]. }
    split; intros X t; rewrite <- K'.
    + rewrite D1 by now apply Sel. apply tag_after_ext. exact K.
    + rewrite D2 by now rewrite Sel. apply K.
  - rewrite (proj2 C eq_refl). exact I.
Qed.

(** ** Reading the queries *)
Definition over (r : bytes) : Prop := r = [] \/ exists r', r = " "%char :: r'.
Lemma el_quoted_back id : forall r, over r -> quoted (concat (map (fun c => if beq c """"%char then [c; c] else [c]) id) ++ QUOTE :: r) = Some (id, r).
Proof.
  induction id as [|c id IH]; intros r Hr.
  - cbn [map concat app quoted]. replace (beq QUOTE QUOTE) with true by reflexivity. destruct Hr as [-> |(r' & ->)]; reflexivity.
  - cbn [map concat]. fold QUOTE in *. destruct (beq c QUOTE) eqn:E.
    + apply beq_eq in E. subst c. cbn [app quoted]. replace (beq QUOTE QUOTE) with true by reflexivity. now rewrite IH.
    + cbn [app quoted]. now rewrite E, IH.
Qed.
Lemma el_term_back id r : over r -> term (el_escape_term id ++ r) = Some (id, r).
Proof.
  intros Hr. unfold el_escape_term. destruct id as [|c t].
  - destruct Hr as [-> |(r' & ->)]; reflexivity.
  - destruct (forallb el_plain (c :: t)) eqn:P.
    + rewrite forallb_forall in P. assert (Sp : span (fun c => (32 <? N_of_ascii c)%N && negb (beq c ")"%char)) ((c :: t) ++ r) = (c :: t, r)).
      { clear -P Hr. induction (c :: t) as [|x l IH].
        - destruct Hr as [-> |(r' & ->)]; reflexivity.
        - cbn [app span]. destruct (el_plain_spec x (P x (or_introl eq_refl))) as (A & B & _).
          replace ((32 <? N_of_ascii x)%N && negb (beq x ")"%char)) with true.
          + rewrite IH; [reflexivity|]. intros y I. apply P. now right.
          + symmetry. apply andb_true_iff. split; [now apply N.ltb_lt|]. apply negb_true_iff. now apply beq_neq. }
      destruct (el_plain_spec c (P c (or_introl eq_refl))) as (_ & _ & B).
      unfold term. cbn [app] in *. assert (beq c QUOTE = false) as -> by now apply beq_neq. now rewrite Sp.
    + cbn [app]. unfold term. fold QUOTE. replace (beq QUOTE QUOTE) with true by reflexivity. rewrite <- app_assoc. cbn [app]. now apply el_quoted_back.
Qed.
Definition orq (ids : list bytes) : bytes := mapconcat (lit " or ") (map el_id_to_query ids).
Lemma orq_cons id ids : orq (id :: ids) = lit "id:" ++ el_escape_term id ++ match ids with [] => [] | _ => lit " or " ++ orq ids end.
Proof.
  unfold orq. cbn [map]. rewrite mapconcat_cons. destruct ids as [|a ids]; cbn [map].
  - cbn [flat_map]. rewrite app_nil_r. unfold el_id_to_query. now rewrite app_nil_r.
  - rewrite mapconcat_cons. cbn [flat_map]. unfold el_id_to_query at 1. now rewrite <- !app_assoc.
Qed.
Lemma alternatives_back ids : ids <> [] -> forall fuel, length ids < fuel -> alternatives_in fuel (orq ids) = Some ids.
Proof.
  induction ids as [|id ids IH]; [congruence|]. intros _ [|fuel] L; [lia|]. cbn [alternatives_in]. rewrite orq_cons, blanks_id, strip_prefix_app. rewrite el_term_back.
  - destruct ids as [|a ids]; [reflexivity|]. change (lit " or " ++ orq (a :: ids)) with (" "%char :: lit "or " ++ orq (a :: ids)).
    replace (blanks (" "%char :: lit "or " ++ orq (a :: ids))) with (lit "or " ++ orq (a :: ids)) by reflexivity.
    assert (E : strip_prefix (lit "or ") (lit "or " ++ orq (a :: ids)) = Some (orq (a :: ids))) by apply strip_prefix_app.
    change (match lit "or " ++ orq (a :: ids) with [] => Some [id] | _ :: _ =>
      match strip_prefix (lit "or ") (lit "or " ++ orq (a :: ids)) with Some r => option_map (cons id) (alternatives_in fuel r) | None => None end end = Some (id :: a :: ids)).
    rewrite E. cbn [app lit list_ascii_of_string]. rewrite IH; [reflexivity|discriminate|cbn in *; lia].
  - destruct ids; [now left|]. right. eexists. reflexivity.
Qed.
Lemma orq_length ids : length ids <= length (orq ids).
Proof.
  induction ids as [|id ids IH]; [cbn; lia|]. rewrite orq_cons, !app_length. change (length (lit "id:")) with 3. destruct ids; [cbn; lia|]. rewrite app_length in *. cbn [length] in *. lia.
Qed.
Lemma alternatives_orq ids : ids <> [] -> alternatives (orq ids) = Some ids.
Proof. intros H. unfold alternatives. apply alternatives_back; [exact H|]. pose proof (orq_length ids). lia. Qed.
Lemma id_fine id c : plain_id id -> In c (el_id_to_query id) -> fine c.
Proof.
  intros Hid Hx. unfold el_id_to_query in Hx. apply in_app_or in Hx as [Hx|Hx].
  { cbn in Hx. destruct Hx as [<-|[<-|[<-|[]]]]; split; discriminate. }
  unfold el_escape_term in Hx. destruct id as [|c0 id']; [cbn in Hx; destruct Hx as [<-|[<-|[]]]; split; discriminate|].
  destruct (forallb el_plain (c0 :: id')); [now apply Hid|]. destruct Hx as [<-|Hx]; [split; discriminate|].
  apply in_app_or in Hx as [Hx|[<-|[]]]; [|split; discriminate]. apply in_concat in Hx as (l & Hl & Hx). apply in_map_iff in Hl as (y & <- & Hy).
  destruct (beq y """"%char); cbn in Hx; destruct Hx as [<-|Hx]; try (now apply Hid); destruct Hx as [<-|[]]; now apply Hid.
Qed.
Lemma orq_line ids : ids <> [] -> (forall id, In id ids -> plain_id id) -> line_query (orq ids) (orq ids).
Proof.
  intros Ne H. split.
  - intros c I. unfold orq in I. apply mapconcat_in in I. destruct I as [I|(x & I & J)].
    + revert c I. apply lit_fine. reflexivity.
    + apply in_map_iff in I. destruct I as (id & <- & I). now apply (id_fine id c (H id I)).
  - destruct ids as [|id ids]; [congruence|]. rewrite orq_cons. eexists [], "i"%char, _. split; [reflexivity|]. split; [intros x []|]. split; [reflexivity|discriminate].
Qed.
