(** Property C61: searching a field with a regular expression (lib/regexp-fields.cc). *)
From Verif Require Import Bytes Terms Meta MetaProofs Regexp RegexpSpec RegexpProofs.
From Coq Require Import Sorted.
Local Open Scope N_scope.

Lemma place_at_obeys_snoc re M : asc M -> forall cs pl s l c, stands re M pl s -> do_calls re cs s = Some l -> obeys pl cs l ->
  allowed (place_at pl cs l) c -> exists a, do_calls re (cs ++ [c]) s = Some (l ++ [a]).
Proof.
  intros A. induction cs as [|c0 cs IH]; intros pl s l c Hs E Ho Ha.
  - injection E as <-. destruct (call_correct re M pl s c A Hs Ha) as (a & s' & D & _). exists a. cbn. now rewrite D.
  - cbn in E. destruct (do_call re c0 s) as [[a s']|] eqn:D; [|discriminate].
    destruct (do_calls re cs s') as [l'|] eqn:E2; [|discriminate]. injection E as <-. destruct Ho as [Ha0 Ho].
    destruct (call_correct re M pl s c0 A Hs Ha0) as (a' & s'' & D' & _ & S'). rewrite D in D'. injection D' as <- <-.
    destruct (IH _ _ _ _ S' E2 Ho Ha) as (b & Eb). exists b. cbn. now rewrite D, Eb.
Qed.

(** Xapian's matcher may call next, skip_to and check in any order (check being lazy or
    not each time): the answers are those of the set of the documents whose value matches. *)
Theorem C61_source_stands_for_matching_documents :
  forall re slot db calls answers, ascending db ->
  do_calls re calls (init slot db) = Some answers -> obeys Before calls answers ->
  steps (value_matches re slot db) Before calls answers.
Proof.
  intros re slot db cs l A E Ho.
  assert (H : steps (PM re (valuestream slot db)) Before cs l).
  { apply (calls_answered re _ (stream_asc slot db A) cs Before (init slot db)); [reflexivity|exact E|exact Ho]. }
  assert (T : forall P Q : N -> Prop, (forall x, P x <-> Q x) -> forall pl cs l, steps P pl cs l -> steps Q pl cs l).
  { clear. intros P Q EQ.
    assert (TL : forall lo a, least P lo a -> least Q lo a).
    { intros lo [d| |] H; cbn in *; [|intros d'; rewrite <- EQ; apply H|contradiction].
      destruct H as (H1 & H2 & H3). split; [now apply EQ|]. split; [exact H2|]. intros d'. rewrite <- EQ. apply H3. }
    intros pl cs l H. induction H as [|pl c a pl' cs l S _ IH]; [constructor|]. econstructor; [|exact IH].
    destruct S; constructor; auto. intros X. apply EQ in X. contradiction. }
  exact (T _ _ (PM_stream re slot db) _ _ _ H).
Qed.
Print Assumptions C61_source_stands_for_matching_documents.
(** A caller that keeps to the rules never meets an undefined operation. *)
Theorem C61_source_always_answers :
  forall re slot db calls answers c, ascending db ->
  do_calls re calls (init slot db) = Some answers -> obeys Before calls answers -> allowed (place_at Before calls answers) c ->
  exists a, do_calls re (calls ++ [c]) (init slot db) = Some (answers ++ [a]).
Proof.
  intros re slot db cs l c A E Ho Ha.
  exact (place_at_obeys_snoc re _ (stream_asc slot db A) cs Before (init slot db) l c eq_refl E Ho Ha).
Qed.
Print Assumptions C61_source_always_answers.
(** Calling next until the end gives exactly the matching documents, in order, each once. *)
Theorem C61_all_matching_documents :
  forall re slot db, ascending db -> exists l, source_docids re slot db = Some l /\ StronglySorted N.lt l /\
  forall did, In did l <-> value_matches re slot db did.
Proof.
  intros re slot db A. destruct (source_In re slot db 0 A) as (l & E & _). exists l. split; [exact E|]. split; [now apply (source_sorted re slot db)|].
  intros did. destruct (source_In re slot db did A) as (l' & E' & H). rewrite E in E'. injection E' as <-. exact H.
Qed.
Print Assumptions C61_all_matching_documents.

(** subject:/re/, from:/re/, mid:/re/ match exactly the messages with a (non-empty) subject,
    sender, id that the expression matches. *)
Theorem C61_value_fields :
  forall regcomp parsed db field slot o re regexec d, ascending db -> In d db ->
  (forall d', In d' db -> rd_id d' = rd_id d -> d' = d) ->
  In (field, slot) [(lit "from", VALUE_FROM); (lit "subject", VALUE_SUBJECT); (lit "mid", VALUE_MESSAGE_ID)] ->
  regcomp re = Some regexec -> ~ In NUL re -> ~ In NUL (rd_value d slot) ->
  exists q, processor regcomp db field o (lit "/" ++ re ++ lit "/") = Some q /\
  (rmatch parsed db q d = true <-> rd_value d slot <> [] /\ regexec (rd_value d slot) = true).
Proof.
  intros rc parsed db field slot o re rx d A Hd Huniq Hf Hc Hn1 Hn2.
  assert (CS : forall s, ~ In NUL s -> c_str s = s).
  { induction s as [|c s IH]; [reflexivity|]. intros H. cbn. destruct (beq c NUL) eqn:E.
    - apply Ascii.eqb_eq in E. subst c. destruct H. now left.
    - f_equal. apply IH. intros X. apply H. now right. }
  assert (SHAPE : forall p, find_prefix field = Some p -> processor rc db field o (lit "/" ++ re ++ lit "/") = regexp_to_query rc db field re).
  { intros p Hp. unfold processor. rewrite Hp. cbn [app lit list_ascii_of_string beq].
    replace (1 <? N.of_nat (length ("/"%char :: re ++ ["/"%char]))) with true by (symmetry; apply N.ltb_lt; cbn; rewrite app_length; cbn; lia).
    replace (last_char ("/"%char :: re ++ ["/"%char])) with "/"%char by (unfold last_char; change ("/"%char :: re ++ ["/"%char]) with (("/"%char :: re) ++ ["/"%char]); now rewrite last_last).
    cbn [beq andb Ascii.eqb]. change (beq "/" "/") with true. cbn [andb skipn].
    replace (length ("/"%char :: re ++ ["/"%char]) - 2)%nat with (length re) by (cbn; rewrite app_length; cbn; lia).
    now rewrite firstn_app, firstn_all, Nat.sub_diag, app_nil_r. }
  assert (P : exists p, find_prefix field = Some p).
  { destruct Hf as [E|[E|[E|[]]]]; injection E as <- <-; eexists; vm_compute; reflexivity. }
  destruct P as (p & Hp). rewrite (SHAPE p Hp). unfold regexp_to_query. rewrite (CS re Hn1), Hc.
  assert (S : find_slot field = Some slot) by (destruct Hf as [E|[E|[E|[]]]]; injection E as <- <-; reflexivity). rewrite S.
  eexists. split; [reflexivity|]. cbn [rmatch]. destruct (source_In rx slot db (rd_id d) A) as (l & E & H). rewrite E.
  rewrite existsb_exists. split.
  - intros (x & Hx & Hx2). apply N.eqb_eq in Hx2. subst x. apply H in Hx as (d' & H1 & H2 & H3 & H4). apply Huniq in H2; [|exact H1]. subst d'.
    rewrite (CS _ Hn2) in H4. now split.
  - intros [H1 H2]. exists (rd_id d). split; [|apply N.eqb_refl]. apply H. exists d. rewrite (CS _ Hn2). repeat split; trivial.
Qed.
Print Assumptions C61_value_fields.

(** tag:/re/, is:/re/, path:/re/, folder:/re/ match exactly the messages with a tag, path or
    folder that the expression matches. *)
Theorem C61_term_fields :
  forall regcomp parsed db field p o re regexec d, In d db ->
  In (field, p) [(lit "tag", lit "K"); (lit "is", lit "K"); (lit "path", lit "P"); (lit "folder", lit "XFOLDER:")] ->
  regcomp re = Some regexec -> ~ In NUL re -> (forall t, In t (rd_terms d) -> ~ In NUL t) ->
  exists q, processor regcomp db field o (lit "/" ++ re ++ lit "/") = Some q /\
  (rmatch parsed db q d = true <-> exists v, has p v d /\ regexec v = true).
Proof.
  intros rc parsed db field p o re rx d Hd Hf Hc Hn1 Hn2.
  assert (CS : forall s, ~ In NUL s -> c_str s = s).
  { induction s as [|c s IH]; [reflexivity|]. intros H. cbn. destruct (beq c NUL) eqn:E.
    - apply Ascii.eqb_eq in E. subst c. destruct H. now left.
    - f_equal. apply IH. intros X. apply H. now right. }
  assert (Hp : find_prefix field = Some p).
  { destruct Hf as [E|[E|[E|[E|[]]]]]; injection E as <- <-; vm_compute; reflexivity. }
  assert (S : find_slot field = None) by (destruct Hf as [E|[E|[E|[E|[]]]]]; injection E as <- <-; reflexivity).
  assert (SHAPE : processor rc db field o (lit "/" ++ re ++ lit "/") = regexp_to_query rc db field re).
  { unfold processor. rewrite Hp. cbn [app lit list_ascii_of_string beq].
    replace (1 <? N.of_nat (length ("/"%char :: re ++ ["/"%char]))) with true by (symmetry; apply N.ltb_lt; cbn; rewrite app_length; cbn; lia).
    replace (last_char ("/"%char :: re ++ ["/"%char])) with "/"%char by (unfold last_char; change ("/"%char :: re ++ ["/"%char]) with (("/"%char :: re) ++ ["/"%char]); now rewrite last_last).
    change (beq "/" "/") with true. cbn [andb skipn].
    replace (length ("/"%char :: re ++ ["/"%char]) - 2)%nat with (length re) by (cbn; rewrite app_length; cbn; lia).
    now rewrite firstn_app, firstn_all, Nat.sub_diag, app_nil_r. }
  rewrite SHAPE. unfold regexp_to_query. rewrite (CS re Hn1), Hc, S, Hp. eexists. split; [reflexivity|]. cbn [rmatch].
  rewrite existsb_exists. unfold has. split.
  - intros (t & Ht & Hm). apply filter_In in Ht as [Ht Hr]. unfold allterms in Ht. apply filter_In in Ht as [_ Hs]. apply starts_with_app in Hs as (v & ->).
    apply tmem_In in Hm. exists v. split; [exact Hm|]. rewrite skipn_app, skipn_all, Nat.sub_diag in Hr. cbn in Hr. rewrite CS in Hr; [exact Hr|].
    intros X. apply (Hn2 _ Hm). apply in_or_app; now right.
  - intros (v & Hv & Hr). exists (p ++ v). split; [|now apply tmem_In]. apply filter_In. split.
    + unfold allterms. apply filter_In. split; [apply in_flat_map; now exists d|]. apply starts_with_app. now exists v.
    + rewrite skipn_app, skipn_all, Nat.sub_diag. cbn. rewrite CS; [exact Hr|]. intros X. apply (Hn2 _ Hv). apply in_or_app; now right.
Qed.
Print Assumptions C61_term_fields.

(** A value that is not between slashes: tag:x, is:x, path:x, folder:x, mid:x match exactly
    the messages with that value (a slash at the end of a path or folder does not matter). *)
Theorem C61_literal_value :
  forall regcomp parsed db field p v d,
  In (field, p) [(lit "tag", lit "K"); (lit "is", lit "K"); (lit "mid", lit "Q"); (lit "path", lit "P"); (lit "folder", lit "XFOLDER:")] ->
  v <> [] -> hd NUL v <> "/"%char ->
  (last v NUL <> "/"%char -> exists q, processor regcomp db field (mk_options false) v = Some q /\ (rmatch parsed db q d = true <-> has p v d)) /\
  (exists q, processor regcomp db field (mk_options false) (v ++ lit "/") = Some q /\ (rmatch parsed db q d = true <-> has p v d)).
Proof.
  intros rc parsed db field p v d Hf Hv H1.
  assert (Hp : find_prefix field = Some p).
  { destruct Hf as [E|[E|[E|[E|[E|[]]]]]]; injection E as <- <-; vm_compute; reflexivity. }
  destruct v as [|c v]; [congruence|]. cbn in H1.
  assert (B : beq c "/" = false) by (destruct (beq c "/") eqn:E; [apply Ascii.eqb_eq in E; congruence|reflexivity]).
  split.
  - intros H2. unfold processor. rewrite Hp, B. cbn [probabilistic].
    assert (L : beq (last_char (c :: v)) "/" = false) by (destruct (beq (last_char (c :: v)) "/") eqn:E; [apply Ascii.eqb_eq in E; unfold last_char in E; congruence|reflexivity]).
    rewrite L, andb_false_r. eexists. split; [reflexivity|]. cbn [rmatch]. apply tmem_In.
  - unfold processor. rewrite Hp. cbn [app]. rewrite B. cbn [probabilistic].
    assert (L : beq (last_char (c :: v ++ lit "/")) "/" = true).
    { unfold last_char. change (c :: v ++ lit "/") with ((c :: v) ++ ["/"%char]). now rewrite last_last. }
    rewrite L. replace (1 <? N.of_nat (length (c :: v ++ lit "/"))) with true by (symmetry; apply N.ltb_lt; cbn; rewrite app_length; cbn; lia).
    cbn [andb]. eexists. split; [reflexivity|]. cbn [rmatch].
    replace (firstn (length (c :: v ++ lit "/") - 1) (c :: v ++ lit "/")) with (c :: v); [apply tmem_In|].
    change (c :: v ++ lit "/") with ((c :: v) ++ ["/"%char]). rewrite app_length, firstn_app. cbn [length].
    replace (S (length v) + 1 - 1)%nat with (S (length v)) by lia.
    replace (firstn (S (length v)) (c :: v)) with (c :: v) by (symmetry; exact (firstn_all (c :: v))).
    now rewrite Nat.sub_diag, app_nil_r.
Qed.
Print Assumptions C61_literal_value.

(** Refused: a regular expression that cannot be compiled, and a value that begins with a
    slash and does not end with another one. *)
Theorem C61_refused :
  forall regcomp db field p o,
  find_prefix field = Some p ->
  (forall re, regcomp (c_str re) = None -> processor regcomp db field o (lit "/" ++ re ++ lit "/") = None) /\
  (forall v, v = [] \/ last v NUL <> "/"%char -> processor regcomp db field o (lit "/" ++ v) = None).
Proof.
  intros rc db field p o Hp. split.
  - intros re Hc. unfold processor. rewrite Hp. cbn [app lit list_ascii_of_string].
    replace (1 <? N.of_nat (length ("/"%char :: re ++ ["/"%char]))) with true by (symmetry; apply N.ltb_lt; cbn; rewrite app_length; cbn; lia).
    replace (last_char ("/"%char :: re ++ ["/"%char])) with "/"%char by (unfold last_char; change ("/"%char :: re ++ ["/"%char]) with (("/"%char :: re) ++ ["/"%char]); now rewrite last_last).
    change (beq "/" "/") with true. cbn [andb skipn].
    replace (length ("/"%char :: re ++ ["/"%char]) - 2)%nat with (length re) by (cbn; rewrite app_length; cbn; lia).
    rewrite firstn_app, firstn_all, Nat.sub_diag, app_nil_r. unfold regexp_to_query. now rewrite Hc.
  - intros v Hv. unfold processor. rewrite Hp. cbn [app lit list_ascii_of_string]. change (beq "/" "/") with true. cbv iota.
    destruct v as [|c v]; [reflexivity|]. destruct Hv as [Hv|Hv]; [discriminate Hv|].
    assert (L : beq (last_char ("/"%char :: c :: v)) "/" = false).
    { destruct (beq _ _) eqn:E; [|reflexivity]. apply Ascii.eqb_eq in E. unfold last_char in E. cbn in E, Hv. congruence. }
    now rewrite L, andb_false_r.
Qed.
Print Assumptions C61_refused.

Definition no_regcomp (_ : bytes) : option (bytes -> bool) := None.
Definition any_regcomp (_ : bytes) : option (bytes -> bool) := Some (fun s => match s with [] => true | _ => false end).
Definition no_parser (_ _ : bytes) (_ : rdoc) := false.
(** Not true: "tag:T finds every message with tag T": a tag that ends with a slash is looked
    up without it, although only paths and folders are documented to ignore it. *)
Theorem C61_literal_tag_refuted :
  ~ (forall db v d, In d db -> has (lit "K") v d -> v <> [] -> hd NUL v <> "/"%char ->
       exists q, processor no_regcomp db (lit "tag") (mk_options false) v = Some q /\ rmatch no_parser db q d = true).
Proof.
  intros H. set (d := mk_rdoc 1 [lit "Ktodo/"] (fun _ => [])).
  destruct (H [d] (lit "todo/") d (or_introl eq_refl) (or_introl eq_refl)) as (q & E & M); [discriminate|discriminate|].
  assert (L : processor no_regcomp [d] (lit "tag") (mk_options false) (lit "todo/") = Some (RTerm (lit "Ktodo"))) by (vm_compute; reflexivity).
  rewrite L in E. injection E as <-. vm_compute in M. discriminate M.
Qed.
Print Assumptions C61_literal_tag_refuted.
(** Not true: "subject:/^$/ finds the messages with an empty subject" (the expression here is
    one that matches exactly the empty string): it finds nothing. *)
Theorem C61_empty_value_refuted :
  ~ (forall db d q, ascending db -> In d db -> rd_value d VALUE_SUBJECT = [] ->
       processor any_regcomp db (lit "subject") (mk_options true) (lit "/^$/") = Some q -> rmatch no_parser db q d = true).
Proof.
  intros H. set (d := mk_rdoc 1 [] (fun _ => [])). specialize (H [d] d (RSource VALUE_SUBJECT (fun s => match s with [] => true | _ => false end))).
  assert (A : ascending [d]) by (cbn; split; [intros e HF; contradiction HF|exact I]).
  specialize (H A (or_introl eq_refl) eq_refl eq_refl). vm_compute in H. discriminate H.
Qed.
Print Assumptions C61_empty_value_refuted.

(** Three messages; the expression matches subjects that begin with 'a'. *)
Definition begins_a (s : bytes) : bool := match s with c :: _ => beq c "a" | [] => false end.
Definition mail (n : N) (s : string) (tags : list string) : rdoc :=
  mk_rdoc n (map (fun t => lit "K" ++ lit t) tags) (fun k => if k =? VALUE_SUBJECT then lit s else []).
Definition three : list rdoc := [mail 3 "alpha" ["inbox"]; mail 5 "beta" ["archive"; "x"]; mail 6 "" []; mail 9 "again" []]%string.
Example C61_example :
  ascending three /\
  source_docids begins_a VALUE_SUBJECT three = Some [3; 9] /\
  (let calls := [Check 3 true; Check 5 false; Next] in
   let answers := [Document 3; No; Document 9] in
   do_calls begins_a calls (init VALUE_SUBJECT three) = Some answers /\ obeys Before calls answers) /\
  do_calls begins_a [Check 4 true; SkipTo 5] (init VALUE_SUBJECT three) = Some [No; Document 9] /\
  (let q := processor (fun _ => Some begins_a) three (lit "tag") (mk_options false) (lit "/^a/") in
   q = Some (ROr [lit "Karchive"]) /\ forall q', q = Some q' -> map (rmatch no_parser three q') three = [false; true; false; false]).
Proof.
  split; [cbn; repeat split; intros e He; repeat (destruct He as [<- |He]; [cbn; lia|]); contradiction|].
  split; [vm_compute; reflexivity|]. split.
  { split; [vm_compute; reflexivity|]. cbn. unfold allowed. cbn. repeat split; try discriminate; lia. }
  split; [vm_compute; reflexivity|]. split; [vm_compute; reflexivity|].
  intros q' E. assert (L : processor (fun _ => Some begins_a) three (lit "tag") (mk_options false) (lit "/^a/") = Some (ROr [lit "Karchive"])) by (vm_compute; reflexivity).
  rewrite L in E. injection E as <-. vm_compute. reflexivity.
Qed.
