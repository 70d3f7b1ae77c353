(** C26 (paths identify files) and C27 (folder: and path: terms). *)
From Verif Require Import Bytes Terms Meta MetaProofs Db Decimal Paths PathsSpec PathsProofs PathsProofs2 PathsProofs3.
Local Open Scope nat_scope.

(** ** C26: relative paths *)
(** An absolute path below the root names, relative to the root, the same file. *)
Theorem C26_relative_path_below_root rcs k rest : names rcs -> rcs <> [] -> (rest = [] \/ is_slash (peek rest) = true) ->
  let p := repeat SLASH k ++ absolute rcs ++ rest in
  components p = rcs ++ components (relative_path (absolute rcs) p) /\
  is_slash (peek (relative_path (absolute rcs) p)) = false.
Proof.
  intros Hr Hne Hrest p. unfold p. rewrite relative_absolute_gen by assumption. split; [|apply dropwhile_peek].
  rewrite dropwhile_components, components_slashes by apply repeat_all_slash. rewrite components_slash_app by exact Hrest.
  f_equal. unfold absolute. change (SLASH :: join rcs) with ([SLASH] ++ join rcs). rewrite components_slashes by reflexivity.
  now apply components_join.
Qed.
Print Assumptions C26_relative_path_below_root.
(** A relative path is returned as it is; an absolute path that does not begin with
    the root keeps its meaning (only extra leading slashes are dropped). *)
Theorem C26_relative_path_elsewhere root p :
  (is_slash (peek p) = false -> relative_path root p = p) /\
  (forall k c q, p = repeat SLASH k ++ SLASH :: c :: q -> is_slash c = false -> starts_with root (SLASH :: c :: q) = false ->
     relative_path root p = SLASH :: c :: q).
Proof.
  split.
  - intros H. unfold relative_path. now rewrite H.
  - intros k c q -> Hc Hs. unfold relative_path. replace (is_slash (peek (repeat SLASH k ++ SLASH :: c :: q))) with true by (destruct k; reflexivity).
    rewrite skip_multi_repeat by exact Hc. unfold starts_with in Hs. destruct (strip_prefix root (SLASH :: c :: q)); [discriminate|reflexivity].
Qed.
Print Assumptions C26_relative_path_elsewhere.
(** But a sibling whose name merely begins with the root's name is taken to be below
    the root: the path of a file outside becomes the path of another file inside. *)
Theorem C26_paths_outside_left_alone_refuted :
  exists rcs p q, names rcs /\ rcs <> [] /\ names p /\ (forall suf, p <> rcs ++ suf) /\
    relative_path (absolute rcs) (absolute p) = join q /\ p <> q /\ p <> rcs ++ q.
Proof.
  exists [lit "mail"], [lit "mailbox"; lit "f"], [lit "box"; lit "f"].
  assert (N : names [lit "mail"; lit "mailbox"; lit "f"]).
  { repeat constructor; try discriminate; cbn; intuition discriminate. }
  inversion N; subst. split; [constructor; auto|]. split; [discriminate|]. split; [auto|].
  split; [intros suf E; discriminate|]. split; [reflexivity|]. split; discriminate.
Qed.
Print Assumptions C26_paths_outside_left_alone_refuted.
(** A repeated slash inside the root part hides that the file is below the root. *)
Theorem C26_repeated_slash_below_root_refuted :
  exists root p, components p = components root ++ [lit "f"] /\ relative_path root p = p /\ is_slash (peek p) = true.
Proof. exists (lit "/m/inbox"), (lit "/m//inbox/f"). repeat split; reflexivity. Qed.
Print Assumptions C26_repeated_slash_below_root_refuted.

(** ** C26: splitting *)
(** For every path, directory part and base name together have the names of the
    path, and the base name has just one. *)
Theorem C26_split_path p : p <> [] ->
  exists d b, split_path p = (Some d, Str b) /\ components d ++ components b = components p /\
    (components p <> [] -> exists c, components b = [c]).
Proof. apply split_components. Qed.
Print Assumptions C26_split_path.
Theorem C26_split_path_canonical d b : names d -> name_ok b -> split_path (join (d ++ [b])) = (Some (join d), Str b).
Proof. apply split_join. Qed.
Print Assumptions C26_split_path_canonical.
(** The base name keeps trailing slashes although they are documented as ignored. *)
Theorem C26_trailing_slash_ignored_refuted : exists p b, name_ok b /\ components p = [lit "a"; b] /\ split_path p = (Some (lit "a"), Str (b ++ [SLASH])).
Proof. exists (lit "a/f/"), (lit "f"). split; [split; [discriminate|cbn; intuition discriminate]|]. split; reflexivity. Qed.
Print Assumptions C26_trailing_slash_ignored_refuted.

(** ** C26: files of a message after any history *)
Lemma D_names sops : Forall sop_ok sops -> forall cs, mentioned_dir sops cs -> names cs.
Proof.
  intros H cs (o & fd & fb & rest & Hin & Ho & ->). rewrite Forall_forall in H. specialize (H o Hin).
  destruct o; cbn in *; try discriminate; injection Ho as -> ->; destruct H as [H _]; apply Forall_app in H; tauto.
Qed.
Lemma D_parent sops : forall cs b, mentioned_dir sops (cs ++ [b]) -> mentioned_dir sops cs.
Proof. intros cs b (o & fd & fb & rest & Hin & Ho & E). exists o, fd, fb, (b :: rest). split; [exact Hin|]. split; [exact Ho|]. rewrite E, <- app_assoc. reflexivity. Qed.
Lemma D_file sops : forall o d b, In o sops -> sop_file o = Some (d, b) -> mentioned_dir sops d.
Proof. intros o d b Hin Ho. exists o, d, b, []. split; [exact Hin|]. split; [exact Ho|]. now rewrite app_nil_r. Qed.
Section Histories.
Variable sha1 : bytes -> bytes.
Variable rcs : list bytes.
Variable sops : list sop.
Variable ops : list fop.
Variable t0 : list bytes.
Variable n : N.
Notation root := (absolute rcs).
Notation D := (mentioned_dir sops).
Definition setting : Prop :=
  names rcs /\ rcs <> [] /\ Forall2 (spelled root) sops ops /\ Forall sop_ok sops /\ no_collision sha1 D /\ tsorted t0 /\
  (forall x, ~ In (lit "P" ++ x) t0 /\ ~ In (lit "XFOLDER:" ++ x) t0 /\ ~ In (lit "XFDIRENTRY" ++ x) t0).
Lemma setting_inv sts t ds : setting -> frun sha1 root ops t0 {| dl := []; next_id := n |} = Some (sts, t, ds) ->
  length sts = length sops /\ inv sha1 D t0 (files_after (combine sops sts) []) t ds.
Proof.
  intros (H1 & H2 & H3 & H4 & H5 & H6 & H7) E.
  eapply (history_inv sha1 rcs D H1 H2 (D_names sops H4) (D_parent sops) H5 t0 H7); eauto.
  - exact (D_file sops).
  - now apply inv_start.
Qed.
End Histories.

(** The files reported for a message are exactly those added and not removed since,
    each once and under its full name; all other terms of the message are untouched. *)
Theorem C26_filenames_after_history sha1 rcs sops ops t0 n sts t ds :
  setting sha1 rcs sops ops t0 ->
  frun sha1 (absolute rcs) ops t0 {| dl := []; next_id := n |} = Some (sts, t, ds) ->
  NoDup (get_filenames (absolute rcs) ds t) /\
  (forall x, In x (get_filenames (absolute rcs) ds t) <->
     exists f, In f (files_after (combine sops sts) []) /\ x = Some (full_name (absolute rcs) f)) /\
  (forall y, starts_with (lit "P") y = false -> starts_with (lit "XFOLDER:") y = false -> starts_with (lit "XFDIRENTRY") y = false ->
     (In y t <-> In y t0)).
Proof.
  intros S E. destruct (setting_inv sha1 rcs sops ops t0 n sts t ds S E) as [_ I]. destruct S as (H1 & H2 & H3 & H4 & H5 & H6 & H7).
  destruct (inv_filenames sha1 rcs (mentioned_dir sops) (D_names sops H4) H5 t0 H7 _ t ds I) as [A B]. split; [exact A|]. split; [exact B|].
  exact (inv_frame sha1 (mentioned_dir sops) t0 _ t ds I).
Qed.
Print Assumptions C26_filenames_after_history.

Lemma sw_inj rcs f g : names (fst f ++ [snd f]) -> names (fst g ++ [snd g]) -> full_name (absolute rcs) f = full_name (absolute rcs) g -> f = g.
Proof.
  intros Hf Hg E. unfold full_name in E. apply app_inv_head in E. injection E as E. apply join_inj in E; auto.
  apply app_inj_tail in E as [E1 E2]. destruct f, g. cbn in *. congruence.
Qed.
(** Directory documents form the tree of directories: a known directory other than
    the top has a known parent, and a directory lists exactly its known children. *)
Theorem C26_directory_tree sha1 rcs sops ops t0 n sts t ds :
  setting sha1 rcs sops ops t0 ->
  frun sha1 (absolute rcs) ops t0 {| dl := []; next_id := n |} = Some (sts, t, ds) ->
  (forall f, In f (files_after (combine sops sts) []) -> get_directory sha1 (absolute rcs) (join (fst f)) ds <> None) /\
  (forall cs b, mentioned_dir sops (cs ++ [b]) -> get_directory sha1 (absolute rcs) (join (cs ++ [b])) ds <> None ->
     get_directory sha1 (absolute rcs) (join cs) ds <> None) /\
  (forall cs b i, mentioned_dir sops (cs ++ [b]) -> get_directory sha1 (absolute rcs) (join cs) ds = Some i ->
     (In b (child_directories i ds) <-> get_directory sha1 (absolute rcs) (join (cs ++ [b])) ds <> None)).
Proof.
  intros S E. destruct (setting_inv sha1 rcs sops ops t0 n sts t ds S E) as [_ I]. destruct S as (H1 & H2 & H3 & H4 & H5 & H6 & H7).
  set (D := mentioned_dir sops) in *. pose proof (D_names sops H4) as DN. pose proof (D_parent sops) as DP. pose proof (iv_ds _ _ _ _ _ _ I) as K.
  assert (G : forall cs, D cs -> get_directory sha1 (absolute rcs) (join cs) ds = dirid sha1 ds cs).
  { intros cs Hc. unfold get_directory, find_directory_id. rewrite (find_lookup sha1 (absolute rcs) D DN) by exact Hc. reflexivity. }
  assert (P : forall cs b j, D (cs ++ [b]) -> dirid sha1 ds (cs ++ [b]) = Some j -> exists i d, dirid sha1 ds cs = Some i /\ In d (dl ds) /\ dd_entry d = Some (i, b)).
  { intros cs b j Hc Hj. unfold dirid in Hj. destruct (find_dir _ ds) as [d|] eqn:F; [|discriminate]. unfold find_dir in F. apply find_some in F as [Hin Ht].
    apply bseq_eq in Ht. destruct (dk_data _ _ _ K d Hin) as (cs' & Dc & _ & Ht' & _ & Hp). rewrite Ht in Ht'. apply H5 in Ht'; auto.
    apply join_inj in Ht'; auto. destruct (Hp cs b (eq_sym Ht')) as (i & Hi & He). exists i, d. auto. }
  split; [|split].
  - intros f Hf. destruct (iv_files _ _ _ _ _ _ I f Hf) as (Df & _ & i & Hi). rewrite G by exact Df. congruence.
  - intros cs b Hc Hg. rewrite G in Hg by exact Hc. rewrite G by (eapply DP; exact Hc). destruct (dirid sha1 ds (cs ++ [b])) as [j|] eqn:Hj; [|congruence].
    destruct (P cs b j Hc Hj) as (i & d & Hi & _). congruence.
  - intros cs b i Hc Hi. rewrite G in Hi by (eapply DP; exact Hc). rewrite G by exact Hc. unfold child_directories. rewrite in_flat_map. split.
    + intros (d & Hin & Hb). destruct (dd_entry d) as [[p b']|] eqn:He; [|destruct Hb]. destruct (N.eqb_spec p i) as [->|]; [|destruct Hb].
      destruct Hb as [->|[]]. destruct (dk_data _ _ _ K d Hin) as (cs' & Dc & _ & Ht' & Hn0 & Hp).
      destruct cs' as [|b2 cs' _] using rev_ind; [rewrite Hn0 in He by reflexivity; discriminate|].
      destruct (Hp cs' b2 eq_refl) as (i' & Hi' & He'). rewrite He in He'. injection He' as <- <-.
      assert (cs' = cs) by (apply (dirid_inj sha1 D DN H5 ds cs' cs i); [exact K|eapply DP; exact Dc|eapply DP; exact Hc|exact Hi'|exact Hi]). subst cs'. unfold dirid.
      unfold find_dir. destruct (find _ (dl ds)) eqn:F; [discriminate|]. exfalso.
      apply (find_none _ _ F) in Hin. rewrite Ht', bseq_refl in Hin. discriminate.
    + intros Hne. destruct (dirid sha1 ds (cs ++ [b])) as [j|] eqn:Hj; [|congruence]. destruct (P cs b j Hc Hj) as (i' & d & Hi' & Hin & He).
      exists d. split; [exact Hin|]. rewrite He. rewrite Hi in Hi'. injection Hi' as <-. rewrite N.eqb_refl. now left.
Qed.
Print Assumptions C26_directory_tree.

(** Without canonical spelling the same file can be recorded twice. *)
Theorem C26_other_spellings_same_file_refuted :
  exists f g, components f = components g /\ exists sts t ds,
    frun (fun x => x) (lit "/m") [FAdd f; FAdd g] [] {| dl := []; next_id := 1 |} = Some (sts, t, ds) /\
    length (get_filenames (lit "/m") ds t) = 2.
Proof.
  exists (lit "a/b/f"), (lit "a//b/f"). split; [reflexivity|].
  assert (L : match frun (fun x => x) (lit "/m") [FAdd (lit "a/b/f"); FAdd (lit "a//b/f")] [] {| dl := []; next_id := 1 |} with
              | Some (_, t, ds) => length (get_filenames (lit "/m") ds t) | None => 0 end = 2) by (vm_compute; reflexivity).
  destruct (frun _ _ _ _ _) as [[[sts t] ds]|]; [|discriminate]. eauto.
Qed.
Print Assumptions C26_other_spellings_same_file_refuted.

(** ** C27 *)
(** The term that "path:DIR" or "folder:DIR" asks for, with or without a final slash. *)
Theorem C27_query_term d : names d -> d <> [] -> forall prefix,
  boolean_query_term prefix (join d) = Some (prefix ++ join d) /\ boolean_query_term prefix (join d ++ [SLASH]) = Some (prefix ++ join d) /\
  boolean_query_term prefix (join d ++ lit "/**") = Some (prefix ++ join d ++ lit "/**") /\
  boolean_query_term prefix [] = Some prefix /\ boolean_query_term prefix (lit "**") = Some (prefix ++ lit "**").
Proof.
  intros H Hne prefix. pose proof (join_peek d H) as P. pose proof (join_last d H Hne) as L.
  destruct (join d) as [|c r] eqn:J; [apply join_nil in J; [congruence|exact H]|]. cbn [peek] in P.
  assert (L2 : is_slash (last ((c :: r) ++ lit "/**") NUL) = false) by (rewrite last_app_ne by discriminate; reflexivity).
  split; [|split; [|split; [|split]]].
  - unfold boolean_query_term. rewrite P, L, andb_false_r. reflexivity.
  - unfold boolean_query_term. change ((c :: r) ++ [SLASH]) with (c :: (r ++ [SLASH])). cbv iota. rewrite P. change (c :: (r ++ [SLASH])) with ((c :: r) ++ [SLASH]).
    rewrite last_last, removelast_last, app_length. replace (1 <? length (c :: r) + length [SLASH]) with true by (symmetry; apply Nat.ltb_lt; cbn; lia). reflexivity.
  - unfold boolean_query_term. change ((c :: r) ++ lit "/**") with (c :: (r ++ lit "/**")) at 1. cbv iota. rewrite P, L2, andb_false_r. reflexivity.
  - reflexivity.
  - reflexivity.
Qed.
Print Assumptions C27_query_term.

(** path:DIR finds the message iff one of its files is directly in DIR (DIR itself
    not being named "**"). *)
Theorem C27_path_exact sha1 rcs sops ops t0 n sts t ds d :
  setting sha1 rcs sops ops t0 ->
  frun sha1 (absolute rcs) ops t0 {| dl := []; next_id := n |} = Some (sts, t, ds) ->
  names d -> leaf d <> lit "**" ->
  (In (lit "P" ++ join d) t <-> exists b, In (d, b) (files_after (combine sops sts) [])).
Proof.
  intros S E Hd Hl. destruct (setting_inv sha1 rcs sops ops t0 n sts t ds S E) as [_ I]. destruct S as (H1 & H2 & H3 & H4 & H5 & H6 & H7).
  change (lit "P") with path_prefix. rewrite (inv_path sha1 (mentioned_dir sops) t0 H7 _ t ds I). split.
  - intros ([gd gb] & Hg & Hp). destruct (iv_files _ _ _ _ _ _ I _ Hg) as (Dg & _). apply (D_names sops H4) in Dg. cbn [fst] in *.
    assert (Star : forall pre, names pre -> join d = join (pre ++ [lit "**"]) -> False).
    { intros pre Hp' Ej. apply join_inj in Ej; [|exact Hd|]. { subst d. apply Hl. unfold leaf. now rewrite last_last. }
      apply Forall_app. split; [exact Hp'|]. constructor; [|constructor]. split; [discriminate|cbn; intuition discriminate]. }
    destruct Hp as [Ej|[Ej|(pre & suf & -> & Hne & Ej)]].
    + apply join_inj in Ej; auto. subst. eauto.
    + exfalso. apply (Star []); [constructor|exact Ej].
    + exfalso. apply (Star pre); [apply Forall_app in Dg; tauto|]. rewrite join_snoc by exact Hne. exact Ej.
  - intros (b & Hb). exists (d, b). split; [exact Hb|]. now left.
Qed.
Print Assumptions C27_path_exact.

(** path:DIR/** finds it iff one of its files is in DIR or anywhere below. *)
Theorem C27_path_recursive sha1 rcs sops ops t0 n sts t ds d :
  setting sha1 rcs sops ops t0 ->
  frun sha1 (absolute rcs) ops t0 {| dl := []; next_id := n |} = Some (sts, t, ds) ->
  names d ->
  (In (lit "P" ++ match d with [] => lit "**" | _ => join d ++ lit "/**" end) t <->
   exists below b, In (d ++ below, b) (files_after (combine sops sts) [])).
Proof.
  intros S E Hd. destruct (setting_inv sha1 rcs sops ops t0 n sts t ds S E) as [_ I]. destruct S as (H1 & H2 & H3 & H4 & H5 & H6 & H7).
  change (lit "P") with path_prefix. rewrite (inv_path sha1 (mentioned_dir sops) t0 H7 _ t ds I).
  assert (NS : forall l, names l -> names (l ++ [lit "**"])).
  { intros l Hl. apply Forall_app. split; [exact Hl|]. constructor; [|constructor]. split; [discriminate|cbn; intuition discriminate]. }
  assert (X : match d with [] => lit "**" | _ => join d ++ lit "/**" end = join (d ++ [lit "**"])).
  { destruct d as [|c d]; [reflexivity|]. rewrite join_snoc by discriminate. reflexivity. }
  split.
  - intros ([gd gb] & Hg & Hp). destruct (iv_files _ _ _ _ _ _ I _ Hg) as (Dg & _). apply (D_names sops H4) in Dg. cbn [fst] in *.
    destruct d as [|c d]; [exists gd, gb; exact Hg|]. destruct Hp as [Ej|[Ej|(pre & suf & -> & Hne & Ej)]]; rewrite X in Ej.
    + apply join_inj in Ej; auto. subst gd. exists [lit "**"], gb. exact Hg.
    + assert (Ej' : join ((c :: d) ++ [lit "**"]) = join [lit "**"]) by exact Ej.
      apply join_inj in Ej'; [destruct d; discriminate|now apply NS|apply (NS []); constructor].
    + change (lit "/**") with (SLASH :: lit "**") in Ej. rewrite <- join_snoc in Ej by exact Hne.
      apply Forall_app in Dg as [Dg _]. apply join_inj in Ej; [|now apply NS|now apply NS]. apply app_inj_tail in Ej as [<- _]. exists suf, gb. exact Hg.
  - intros (below & b & Hg). exists (d ++ below, b). split; [exact Hg|]. destruct d as [|c d]; [right; now left|]. right. right.
    exists (c :: d), below. split; [reflexivity|]. split; [discriminate|reflexivity].
Qed.
Print Assumptions C27_path_recursive.

(** folder:DIR finds it iff one of its files is in DIR/cur, in DIR/new, or in DIR
    itself when DIR is not itself named "cur" or "new". *)
Theorem C27_folder sha1 rcs sops ops t0 n sts t ds d :
  setting sha1 rcs sops ops t0 ->
  frun sha1 (absolute rcs) ops t0 {| dl := []; next_id := n |} = Some (sts, t, ds) ->
  names d ->
  (In (lit "XFOLDER:" ++ join d) t <->
   exists e b, In (e, b) (files_after (combine sops sts) []) /\
     (e = d /\ leaf d <> lit "cur" /\ leaf d <> lit "new" \/ e = d ++ [lit "cur"] \/ e = d ++ [lit "new"])).
Proof.
  intros S E Hd. destruct (setting_inv sha1 rcs sops ops t0 n sts t ds S E) as [_ I]. destruct S as (H1 & H2 & H3 & H4 & H5 & H6 & H7).
  change (lit "XFOLDER:") with folder_prefix. rewrite (inv_folder sha1 (mentioned_dir sops) t0 H7 _ t ds I).
  assert (M : forall x, is_maildir x = true <-> x = lit "cur" \/ x = lit "new").
  { intros x. unfold is_maildir. rewrite orb_true_iff, !bseq_eq. reflexivity. }
  split.
  - intros ([gd gb] & Hg & Hp). destruct (iv_files _ _ _ _ _ _ I _ Hg) as (Dg & _). apply (D_names sops H4) in Dg. cbn [fst] in *.
    rewrite folder_join in Hp by exact Dg. exists gd, gb. split; [exact Hg|]. destruct (is_maildir (leaf gd)) eqn:El.
    + apply M in El. destruct gd as [|x gd _] using rev_ind; [cbn in El; destruct El; discriminate|].
      unfold leaf in El. rewrite last_last in El. rewrite removelast_last in Hp. apply Forall_app in Dg as [Dg _]. apply join_inj in Hp; auto. subst gd.
      destruct El as [->| ->]; auto.
    + apply join_inj in Hp; auto. subst gd. left. split; [reflexivity|]. split; intros X; rewrite X in El; discriminate.
  - intros (e & b & Hg & H). exists (e, b). split; [exact Hg|]. cbn [fst].
    destruct (iv_files _ _ _ _ _ _ I _ Hg) as (Dg & _). apply (D_names sops H4) in Dg. cbn [fst] in Dg. rewrite folder_join by exact Dg.
    destruct H as [(-> & N1 & N2)|[->| ->]].
    + destruct (is_maildir (leaf d)) eqn:El; [|reflexivity]. apply M in El. tauto.
    + unfold leaf. rewrite last_last, removelast_last. reflexivity.
    + unfold leaf. rewrite last_last, removelast_last. reflexivity.
Qed.
Print Assumptions C27_folder.

(** The plain claims fail for directories named "**", "cur" and "new". *)
Theorem C27_path_exact_refuted : exists t ds,
  frun (fun x => x) (lit "/m") [FAdd (lit "a/b/f")] [] {| dl := []; next_id := 1 |} = Some ([F_ok], t, ds) /\
  In (lit "P" ++ join [lit "a"; lit "**"]) t.
Proof.
  assert (L : match frun (fun x => x) (lit "/m") [FAdd (lit "a/b/f")] [] {| dl := []; next_id := 1 |} with
              | Some ([F_ok], t, ds) => tmem (lit "P" ++ join [lit "a"; lit "**"]) t | _ => false end = true) by (vm_compute; reflexivity).
  destruct (frun _ _ _ _ _) as [[[[|[] []] t] ds]|]; try discriminate. apply tmem_In in L. eauto.
Qed.
Print Assumptions C27_path_exact_refuted.
Theorem C27_folder_refuted : exists t ds,
  frun (fun x => x) (lit "/m") [FAdd (lit "a/cur/f")] [] {| dl := []; next_id := 1 |} = Some ([F_ok], t, ds) /\
  ~ In (lit "XFOLDER:" ++ join [lit "a"; lit "cur"]) t.
Proof.
  assert (L : match frun (fun x => x) (lit "/m") [FAdd (lit "a/cur/f")] [] {| dl := []; next_id := 1 |} with
              | Some ([F_ok], t, ds) => negb (tmem (lit "XFOLDER:" ++ join [lit "a"; lit "cur"]) t) | _ => false end = true) by (vm_compute; reflexivity).
  destruct (frun _ _ _ _ _) as [[[[|[] []] t] ds]|]; try discriminate. apply negb_true_iff, tmem_false in L. eauto.
Qed.
Print Assumptions C27_folder_refuted.
(** A file in a directory with a long path cannot be recorded at all: the library
    aborts (INTERNAL_ERROR) instead of returning an error. *)
Theorem C27_long_directory_reported_refuted :
  let dir := repeat "d"%char 200 ++ SLASH :: repeat "e"%char 45 in
  fst (fst (add_filename (fun _ => lit "0123456789012345678901234567890123456789") (lit "/m") (dir ++ lit "/f") [] {| dl := []; next_id := 1 |})) = F_abort.
Proof. vm_compute. reflexivity. Qed.
Print Assumptions C27_long_directory_reported_refuted.

(** ** A concrete case meeting the hypotheses *)
Definition ex_rcs := [lit "home"; lit "mail"].
Definition ex_sops := [SAdd [lit "inbox"; lit "cur"] (lit "m1"); SOther [lit "lists"] (lit "x:y"); SAdd [] (lit "m2");
                       SAdd [lit "inbox"] (lit "m3"); SRemove [lit "inbox"; lit "cur"] (lit "m1"); SRemove [lit "none"] (lit "z"); SDoc].
Definition ex_ops := [FAdd (lit "/home/mail/inbox/cur/m1"); FOther (lit "lists/x:y"); FAdd (lit "//home/mail/m2"); FAdd (lit "inbox/m3");
                      FRemove (lit "inbox/cur/m1"); FRemove (lit "none/z"); FDoc].
Example C26_C27_nontrivial :
  setting (fun x => x) ex_rcs ex_sops ex_ops [lit "Ktag"; lit "Tmail"] /\
  exists t ds, frun (fun x => x) (absolute ex_rcs) ex_ops [lit "Ktag"; lit "Tmail"] {| dl := []; next_id := 1 |} =
    Some ([F_ok; F_ok; F_ok; F_ok; F_duplicate; F_ok; F_ok], t, ds) /\
  get_filenames (absolute ex_rcs) ds t = [Some (lit "/home/mail/m2"); Some (lit "/home/mail/inbox/m3")] /\
  files_after (combine ex_sops [F_ok; F_ok; F_ok; F_ok; F_duplicate; F_ok; F_ok]) [] = [([lit "inbox"], lit "m3"); ([], lit "m2")].
Proof.
  assert (N : forall s, match s with EmptyString => False | _ => True end -> mem SLASH (lit s) = false -> name_ok (lit s)).
  { intros s H1 H2. split; [destruct s; [contradiction|discriminate]|]. now apply mem_not_In. }
  split.
  - split; [|split; [discriminate|split; [|split; [|split; [|split]]]]].
    + repeat constructor; apply N; auto.
    + repeat (apply Forall2_cons; [constructor|]); try apply Forall2_nil; try (left; reflexivity); right; [exists 0|exists 1]; reflexivity.
    + repeat (apply Forall_cons; [cbn [sop_ok]; repeat constructor; apply N; auto|]). apply Forall_nil.
    + intros a b Ha Hb E. unfold directory_db_path in E. destruct (Nat.ltb _ _) in E; destruct (Nat.ltb _ _) in E; exact E.
    + repeat constructor; reflexivity.
    + intros x. repeat split; cbn; intros [H|[H|[]]]; discriminate.
  - assert (L : match frun (fun x => x) (absolute ex_rcs) ex_ops [lit "Ktag"; lit "Tmail"] {| dl := []; next_id := 1 |} with
                | Some (sts, t, ds) => (sts, get_filenames (absolute ex_rcs) ds t) | None => ([], []) end
              = ([F_ok; F_ok; F_ok; F_ok; F_duplicate; F_ok; F_ok], [Some (lit "/home/mail/m2"); Some (lit "/home/mail/inbox/m3")])) by (vm_compute; reflexivity).
    destruct (frun _ _ _ _ _) as [[[sts t] ds]|]; [|discriminate]. injection L as -> L. exists t, ds. split; [reflexivity|]. split; [exact L|]. vm_compute. reflexivity.
Qed.
