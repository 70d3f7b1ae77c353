(** Property C62: notmuch config set (notmuch-config.c). *)
From Verif Require Import Bytes StrUtil StrUtilSpec StrUtilProofs SprinterSpec SprinterProofs3 StringMap Dump Config ConfigSpec P_Config ConfigCmd ConfigCmdSpec ConfigCmdProofs.
Local Open Scope nat_scope.

(** A command that reports failure changes nothing. *)
Theorem C62_failure_changes_nothing :
  forall utf8_valid is_word good_names io db item values w w',
  command_set utf8_valid is_word good_names io db item values w = (false, w') -> w' = w.
Proof.
  intros uv iw gn io db item vs w w'. unfold command_set. destruct (starts_with _ item); [now intros [= <-]|].
  destruct (negb _); [now intros [= <-]|]. destruct db.
  - destruct vs as [|v [|? ?]]; [| |now intros [= <-]]; (destruct io; [discriminate|now intros [= <-]]).
  - destruct (item_split item) as [[g k]|]; [|now intros [= <-]]. destruct (w_file w); [|now intros [= <-]]. destruct io; [discriminate|now intros [= <-]].
Qed.
Print Assumptions C62_failure_changes_nothing.

Section File.
Variables (utf8_valid is_word : bytes -> bool) (good_names : bytes -> bytes -> bool) (nullb : bool).
Hypothesis utf8_ok : forall s, utf8 s -> utf8_valid s = true.

Lemma set_file item vs w w' : command_set utf8_valid is_word good_names true false item vs w = (true, w') ->
  exists f g k, w_file w = Some f /\ section_item item g k /\ w_meta w' = w_meta w /\
  w_file w' = Some (update good_names g k vs (fold_left ensure_group standard_groups f)).
Proof.
  unfold command_set. destruct (starts_with _ item); [discriminate|]. destruct (negb _); [discriminate|].
  destruct (item_split item) as [[g k]|] eqn:E; [|discriminate]. destruct (w_file w) as [f|] eqn:F; [|discriminate].
  intros [= <-]. exists f, g, k. repeat split; trivial; now apply item_split_spec in E as (? & ? & ?).
Qed.
Lemma get_string_raw vs : writable vs -> get_string utf8_valid nullb (raw_value vs) = Some (stored vs).
Proof.
  intros H. unfold get_string. rewrite raw_chug by exact H. rewrite utf8_ok by now apply raw_utf8. now rewrite raw_unescape.
Qed.
Lemma update_spec f g k vs : ordinary f -> ~ In "."%char g -> good_names g k = true -> (vs = [] \/ writable vs) ->
  let f' := update good_names g k vs (fold_left ensure_group standard_groups f) in
  ordinary f' /\
  in_file (reload utf8_valid nullb f') (g ++ lit "." ++ k) = (match vs with [] => None | _ => Some (stored vs) end) /\
  forall key, key <> g ++ lit "." ++ k -> in_file (reload utf8_valid nullb f') key = in_file (reload utf8_valid nullb f) key.
Proof.
  intros Hf Hg Hn Hv f'. set (f0 := fold_left ensure_group standard_groups f) in *.
  assert (Of0 : ordinary f0) by (apply ensure_ordinary; [apply standard_nodot|exact Hf]).
  assert (O : ordinary f').
  { unfold f', update. rewrite Hn. destruct vs; [now apply remove_ordinary|now apply set_value_ordinary]. }
  assert (G : forall g' k', find_raw g' k' f' = if bseq g' g && bseq k' k then (match vs with [] => None | _ => Some (raw_value vs) end) else find_raw g' k' f).
  { intros g' k'. unfold f', update. rewrite Hn. unfold f0. destruct vs; [rewrite find_remove|rewrite find_set_value]; rewrite find_ensure; reflexivity. }
  split; [exact O|]. split.
  - rewrite in_file_reload by assumption. rewrite G, !bseq_refl. cbn [andb]. destruct vs as [|v vs]; [reflexivity|]. apply get_string_raw. destruct Hv as [Hv|Hv]; [discriminate Hv|exact Hv].
  - intros key Hk. pose proof (split_period_spec key) as S. destruct (split_period key) as [[g' k']|].
    + destruct S as [-> Hg']. rewrite !in_file_reload by assumption. rewrite G. destruct (bseq g' g && bseq k' k) eqn:E; [|reflexivity].
      apply andb_prop in E as [E1 E2]. apply bseq_eq in E1, E2. subst. congruence.
    + now rewrite !in_file_nodot.
Qed.
End File.

(** A command that succeeds sets the item in the file to the given value or list - or removes
    it when no value is given -, and no other item of the file is changed. *)
Theorem C62_set_changes_one_item :
  forall utf8_valid is_word good_names nullb, (forall s, utf8 s -> utf8_valid s = true) ->
  forall item section name values w w' f, section_item item section name -> good_names section name = true ->
  w_file w = Some f -> ordinary f -> values = [] \/ writable values ->
  command_set utf8_valid is_word good_names true false item values w = (true, w') ->
  exists f', w_file w' = Some f' /\ w_meta w' = w_meta w /\ ordinary f' /\
    in_file (reload utf8_valid nullb f') item = (match values with [] => None | _ => Some (stored values) end) /\
    forall other, other <> item -> in_file (reload utf8_valid nullb f') other = in_file (reload utf8_valid nullb f) other.
Proof.
  intros uv iw gn nb Hu item g k vs w w' f (Ei & Hg & Hk) Hn Hf Of Hv E.
  destruct (set_file uv iw gn item vs w w' E) as (f0 & g0 & k0 & F & (Ei2 & Hg0 & _) & Hm & Hw). rewrite Hf in F. injection F as <-.
  rewrite Ei in Ei2. destruct (split_unique g k g0 k0 Hg Hg0 Ei2) as [<- <-].
  destruct (update_spec uv gn nb Hu f g k vs Of Hg Hn Hv) as (O & I & J).
  eexists. split; [exact Hw|]. split; [exact Hm|]. split; [exact O|]. subst item. split; [exact I|exact J].
Qed.
Print Assumptions C62_set_changes_one_item.

(** The whole way round: what one command sets, the next one gets, unless the item is one of
    the paths (which are completed): a list of values without semicolons, blanks at
    their ends, or backslashes at their ends. *)
Theorem C62_set_then_get :
  forall utf8_valid is_word good_names nullb, (forall s, utf8 s -> utf8_valid s = true) ->
  forall item section name values w w' f, section_item item section name -> good_names section name = true ->
  w_file w = Some f -> ordinary f -> values <> [] -> Forall utf8 values -> Forall storable_value values ->
  ~ In item path_items -> item <> lit "database.backup_path" ->
  command_set utf8_valid is_word good_names true false item values w = (true, w') ->
  exists f', w_file w' = Some f' /\
  forall o m, o_file o = reload utf8_valid nullb f' -> path_not_stored o -> open_config o = Some m -> command_get item m = values.
Proof.
  intros uv iw gn nb Hu item g k vs w w' f Hs Hn Hf Of Hne Hut Hst Hp Hb E.
  assert (W : writable vs).
  { split; [exact Hne|]. split; [exact Hut|]. split.
    - intros a b l _. revert Hst. apply Forall_impl. now intros v (_ & X & _).
    - destruct vs as [|v vs]; [congruence|]. inversion Hst; subst. destruct H1 as (Hv & _ & Hsp & _). cbn [hd]. intros X. rewrite X in Hsp. discriminate Hsp. }
  destruct (C62_set_changes_one_item uv iw gn nb Hu item g k vs w w' f Hs Hn Hf Of (or_intror W) E) as (f' & Hw & _ & _ & I & _).
  exists f'. split; [exact Hw|]. intros o m Ho Hps Em. destruct (C49_precedence o m Hps Em) as (path & _ & _ & _ & H).
  assert (Hpath : item <> lit "database.path") by (intros ->; apply Hp; now left).
  specialize (H item Hpath Hb). unfold item_value in H. rewrite Ho, I in H. destruct vs as [|v vs]; [congruence|]. cbn [first_of] in H.
  destruct H as (x & Ex & [(X & _)|(_ & ->)]); [contradiction|]. unfold command_get. rewrite Ex. apply stored_values; [discriminate|exact Hst].
Qed.
Print Assumptions C62_set_then_get.

(** Setting values never prevents later commands from opening the database. *)
Theorem C62_still_opens :
  forall utf8_valid is_word good_names nullb, (forall s, utf8 s -> utf8_valid s = true) ->
  forall item section name values w w' f o m, section_item item section name -> good_names section name = true ->
  w_file w = Some f -> ordinary f -> writable values ->
  command_set utf8_valid is_word good_names true false item values w = (true, w') ->
  o_file o = reload utf8_valid nullb f -> path_not_stored o -> open_config o = Some m ->
  exists f', w_file w' = Some f' /\
  forall o', o_file o' = reload utf8_valid nullb f' -> o_env o' = o_env o -> o_stat o' = o_stat o -> o_pw o' = o_pw o -> o_given o' = o_given o -> o_split o' = o_split o ->
    o_parent o' = o_parent o -> o_profile o' = o_profile o -> o_meta o' = o_meta o -> path_not_stored o' -> exists m', open_config o' = Some m'.
Proof.
  intros uv iw gn nb Hu item g k vs w w' f o m Hs Hn Hf Of W E Ho Hps Em.
  destruct (C62_set_changes_one_item uv iw gn nb Hu item g k vs w w' f Hs Hn Hf Of (or_intror W) E) as (f' & Hw & _ & _ & I & J).
  exists f'. split; [exact Hw|]. intros o' E1 E2 E3 E3' E4 E5 E6 E7 E8 Hps'. apply (C49_when_opening_succeeds o' Hps').
  assert (OK : exists m, open_config o = Some m) by now exists m. apply (C49_when_opening_succeeds o Hps) in OK as (K1 & K2 & K3).
  assert (SET : forall key, set_anywhere o key -> set_anywhere o' key).
  { intros key [K|K]; [left|right]; [|now rewrite E8]. rewrite E1. destruct (list_eq_dec ascii_dec key item) as [->|Hk].
    - rewrite I. destruct W as (W & _). destruct vs; [congruence|discriminate].
    - rewrite J by exact Hk. now rewrite Ho in K. }
  split; [|split].
  - destruct (set_file uv iw gn item vs w w' E) as (f0 & g0 & k0 & F & (Ei2 & Hg0 & _) & _ & Hw'). rewrite Hf in F. injection F as <-.
    destruct Hs as (Ei & Hg & _). rewrite Ei in Ei2. destruct (split_unique g k g0 k0 Hg Hg0 Ei2) as [<- <-].
    rewrite Hw in Hw'. injection Hw' as ->. intros a b Hin. rewrite E1 in Hin. rewrite E4.
    unfold update in Hin. destruct vs as [|v vs]; [destruct W as (W & _); congruence|]. rewrite Hn in Hin.
    unfold reload in Hin. apply in_flat_map in Hin as ([a' l] & H1 & H2). cbn [fst snd] in H2. apply in_map_iff in H2 as ([b' r] & H3 & H4). cbn [fst snd] in H3. injection H3 as -> -> Hr.
    assert (OLD : exists l0, In (a, l0) f /\ In (b, r) l0 \/ r = raw_value (v :: vs)).
    { destruct (set_value_In _ _ _ _ _ _ _ _ H1 H4) as [(l0 & X1 & X2)|X]; [|exists []; now right].
      exists l0. left. split; [|exact X2]. exact (ensure_In a l0 (b, r) standard_groups f X1 X2). }
    destruct OLD as (l0 & [[X1 X2]|X]).
    + apply K1. rewrite Ho. unfold reload. apply in_flat_map. exists (a, l0). split; [exact X1|]. apply in_map_iff. exists (b, r). cbn [fst snd]. now rewrite Hr.
    + subst r. rewrite (get_string_raw uv nb Hu) in Hr by exact W. discriminate Hr.
  - intros key Hk. destruct (K2 key Hk) as [X|(d & path & X)]; [left; now apply SET|right]. exists d, path. revert X. unfold default_of. now rewrite E2, E3, E3', E6, E7.
  - rewrite E5. intros X. apply SET. now apply K3.
Qed.
Print Assumptions C62_still_opens.

(** --database: the item is set in the database (the empty value removes it), the file and all
    other items stay. *)
Theorem C62_set_in_database :
  forall utf8_valid is_word good_names item values w w',
  command_set utf8_valid is_word good_names true true item values w = (true, w') ->
  w_file w' = w_file w /\
  (forall v, values = [v] -> v <> [] -> in_database (w_meta w') item = Some v) /\
  (NoDup (map fst (w_meta w)) -> values = [] \/ values = [[]] -> in_database (w_meta w') item = None) /\
  forall other, other <> item -> in_database (w_meta w') other = in_database (w_meta w) other.
Proof.
  intros uv iw gn item vs w w' E. unfold command_set in E. destruct (starts_with _ item); [discriminate|]. destruct (negb _); [discriminate|].
  assert (R : NoDup (map fst (w_meta w)) -> in_database (cfg_set item [] (w_meta w)) item = None).
  { generalize (w_meta w). induction l as [|[a b] l IH]; intros H; [reflexivity|]. cbn in *. inversion H; subst. destruct (bseq item a) eqn:X.
    - apply bseq_eq in X. subst a. clear -H2. induction l as [|[a b] l IH]; [reflexivity|]. cbn in *. rewrite bseq_neq by (intros ->; apply H2; now left). apply IH. intros X. apply H2. now right.
    - cbn. rewrite bseq_neq by (intros ->; now rewrite bseq_refl in X). now apply IH. }
  assert (OTHER : forall v other, other <> item -> in_database (cfg_set item v (w_meta w)) other = in_database (w_meta w) other).
  { intros v other Hk. rewrite cfg_set_get, bseq_neq by exact Hk. reflexivity. }
  destruct vs as [|v [|? ?]]; [| |discriminate]; injection E as <-; cbn [w_file w_meta]; split; try reflexivity; split; try split; auto.
  - intros v0 X; discriminate X.
  - intros v' [= <-] Hv. rewrite cfg_set_get, bseq_refl. destruct v; [congruence|reflexivity].
  - intros Hn [X|X]; [discriminate X|]. injection X as ->. now apply R.
Qed.
Print Assumptions C62_set_in_database.

Definition always (_ : bytes) : bool := true.
Definition names_ok (g k : bytes) : bool := negb (bseq g []) && negb (bseq k []).
(** Not true: "a list is read back as it was set": a semicolon in one of the values is
    written with an escape that is no escape for the reader. *)
Theorem C62_list_with_semicolon_refuted : forall nullb,
  ~ (forall item section name values w w' f, section_item item section name -> w_file w = Some f -> ordinary f -> Forall utf8 values -> (2 <= length values)%nat ->
     command_set always always names_ok true false item values w = (true, w') ->
     exists f', w_file w' = Some f' /\ in_file (reload always nullb f') item = Some (stored values)).
Proof.
  intros nullb H.
  destruct (H (lit "new.tags") (lit "new") (lit "tags") [lit "a;b"; lit "c"] {| w_file := Some []; w_meta := [] |}
    (snd (command_set always always names_ok true false (lit "new.tags") [lit "a;b"; lit "c"] {| w_file := Some []; w_meta := [] |})) []) as (f' & E & I).
  - repeat split; [|discriminate]. cbn. intros X. repeat (destruct X as [X|X]; [discriminate X|]). exact X.
  - reflexivity.
  - split; constructor.
  - repeat constructor; apply utf8_ascii; reflexivity.
  - cbn; lia.
  - vm_compute. reflexivity.
  - set (w' := snd (command_set always always names_ok true false (lit "new.tags") [lit "a;b"; lit "c"] {| w_file := Some []; w_meta := [] |})) in E.
    assert (L : w_file w' = Some [(lit "database", []); (lit "user", []); (lit "new", [(lit "tags", lit "a\;b;c;")]); (lit "search", []); (lit "maildir", [])]) by (vm_compute; reflexivity).
    rewrite L in E. injection E as <-. destruct nullb; vm_compute in I; discriminate I.
Qed.
Print Assumptions C62_list_with_semicolon_refuted.
(** Not true: "after a successful set, commands still work": a value that is not UTF-8 is
    stored, and then the file cannot be read any more. *)
Definition ascii_only (s : bytes) : bool := forallb (fun c => N.leb (code c) 127) s.
Theorem C62_any_value_readable_refuted : forall nullb,
  ~ (forall item section name v w w' f, section_item item section name -> w_file w = Some f -> ordinary f ->
     command_set ascii_only always names_ok true false item [v] w = (true, w') ->
     exists f', w_file w' = Some f' /\ forall g k, ~ In (g, k, None) (reload ascii_only nullb f')).
Proof.
  intros nullb H.
  destruct (H (lit "query.q3") (lit "query") (lit "q3") [chr 255] {| w_file := Some []; w_meta := [] |}
    (snd (command_set ascii_only always names_ok true false (lit "query.q3") [[chr 255]] {| w_file := Some []; w_meta := [] |})) []) as (f' & E & I).
  - repeat split; [|discriminate]. cbn. intros X. repeat (destruct X as [X|X]; [discriminate X|]). exact X.
  - reflexivity.
  - split; constructor.
  - vm_compute. reflexivity.
  - set (w' := snd (command_set ascii_only always names_ok true false (lit "query.q3") [[chr 255]] {| w_file := Some []; w_meta := [] |})) in E.
    assert (L : w_file w' = Some [(lit "database", []); (lit "user", []); (lit "new", []); (lit "search", []); (lit "maildir", []); (lit "query", [(lit "q3", [chr 255])])]) by (vm_compute; reflexivity).
    rewrite L in E. injection E as <-. apply (I (lit "query") (lit "q3")). destruct nullb; vm_compute; tauto.
Qed.
Print Assumptions C62_any_value_readable_refuted.
(** Not true without the condition on group names: a group "a.b" later in the file hides an
    item that was just set. *)
Theorem C62_dotted_group_refuted : forall nullb,
  ~ (forall item section name v w w' f, section_item item section name -> w_file w = Some f -> NoDup (map fst f) -> Forall (fun e => NoDup (map fst (snd e))) f -> utf8 v ->
     command_set always always names_ok true false item [v] w = (true, w') ->
     exists f', w_file w' = Some f' /\ in_file (reload always nullb f') item = Some v).
Proof.
  intros nullb H. set (f := [(lit "index", []); (lit "index.header", [(lit "List", lit "Old")])]).
  destruct (H (lit "index.header.List") (lit "index") (lit "header.List") (lit "New") {| w_file := Some f; w_meta := [] |}
    (snd (command_set always always names_ok true false (lit "index.header.List") [lit "New"] {| w_file := Some f; w_meta := [] |})) f) as (f' & E & I).
  - repeat split; [|discriminate]. cbn. intros X. repeat (destruct X as [X|X]; [discriminate X|]). exact X.
  - reflexivity.
  - cbn. repeat constructor; cbn; [intros [X|[]]; discriminate X|intros []].
  - repeat constructor; intros [].
  - apply utf8_ascii; reflexivity.
  - vm_compute. reflexivity.
  - set (w' := snd (command_set always always names_ok true false (lit "index.header.List") [lit "New"] {| w_file := Some f; w_meta := [] |})) in E.
    assert (L : w_file w' = Some [(lit "index", [(lit "header.List", lit "New")]); (lit "index.header", [(lit "List", lit "Old")]); (lit "database", []); (lit "user", []); (lit "new", []); (lit "search", []); (lit "maildir", [])]) by (vm_compute; reflexivity).
    rewrite L in E. injection E as <-. destruct nullb; vm_compute in I; discriminate I.
Qed.
Print Assumptions C62_dotted_group_refuted.
(** Not true: "success means that the item was set": with a name that GLib refuses nothing is. *)
Theorem C62_success_means_set_refuted : forall nullb,
  ~ (forall item v w w', command_set always always names_ok true false item [v] w = (true, w') ->
     exists f', w_file w' = Some f' /\ in_file (reload always nullb f') item = Some v).
Proof.
  intros nullb H.
  destruct (H (lit ".name") (lit "v") {| w_file := Some []; w_meta := [] |}
    (snd (command_set always always names_ok true false (lit ".name") [lit "v"] {| w_file := Some []; w_meta := [] |}))) as (f' & E & I).
  - vm_compute. reflexivity.
  - assert (L : w_file (snd (command_set always always names_ok true false (lit ".name") [lit "v"] {| w_file := Some []; w_meta := [] |})) = Some (map (fun g => (g, [])) standard_groups)) by (vm_compute; reflexivity).
    rewrite L in E. injection E as <-. destruct nullb; vm_compute in I; discriminate I.
Qed.
Print Assumptions C62_success_means_set_refuted.
(** Not true: "prefixes that begin with a lower case letter are refused": only what follows
    the last period is looked at. *)
Theorem C62_reserved_prefix_refuted :
  ~ (forall name w, (exists c r, name = c :: r /\ between c 97 122) ->
     fst (command_set always always names_ok true false (lit "index.header." ++ name) [lit "X-Foo"] w) = false).
Proof.
  intros H. specialize (H (lit "from.X") {| w_file := Some []; w_meta := [] |}).
  assert (X : exists c r, lit "from.X" = c :: r /\ between c 97 122) by (exists "f"%char, (lit "rom.X"); split; [reflexivity|unfold between; cbn; lia]).
  specialize (H X). vm_compute in H. discriminate H.
Qed.
Print Assumptions C62_reserved_prefix_refuted.

(** Setting a list over an older value, removing, and values with blanks and backslashes. *)
Definition ex_file : kfile := [(lit "new", [(lit "tags", lit "old;"); (lit "ignore", lit "x")]); (lit "user", [(lit "name", lit "Me")])].
Example C62_example :
  ordinary ex_file /\ section_item (lit "new.tags") (lit "new") (lit "tags") /\ writable [lit " a\b"; lit "c"] /\ storable_value (lit "a\b") /\
  (let w' := snd (command_set always always names_ok true false (lit "new.tags") [lit " a\b"; lit "c"] {| w_file := Some ex_file; w_meta := [] |}) in
   match w_file w' with
   | Some f' => In (lit "new", [(lit "tags", lit "\sa\\b;c;"); (lit "ignore", lit "x")]) f' /\
                in_file (reload always true f') (lit "new.tags") = Some (lit " a\b;c;") /\ in_file (reload always true f') (lit "user.name") = Some (lit "Me")
   | None => False
   end) /\
  fst (command_set always always names_ok true false (lit "built_with.compact") [lit "no"] {| w_file := Some ex_file; w_meta := [] |}) = false.
Proof.
  split.
  { split; [cbn; repeat constructor; cbn; [intros [X|[]]; discriminate X|intros []]|].
    repeat constructor; cbn; intros X; repeat (destruct X as [X|X]; [discriminate X|]); exact X. }
  split.
  { repeat split; [|discriminate]. cbn. intros X. repeat (destruct X as [X|X]; [discriminate X|]). exact X. }
  split.
  { split; [discriminate|]. split; [repeat constructor; apply utf8_ascii; reflexivity|]. split; [|discriminate].
    intros a b l _. repeat constructor; cbn; intros X; repeat (destruct X as [X|X]; [discriminate X|]); exact X. }
  split.
  { repeat split; try discriminate. cbn. intros X. repeat (destruct X as [X|X]; [discriminate X|]). exact X. }
  split; [vm_compute; repeat split; tauto|vm_compute; reflexivity].
Qed.
