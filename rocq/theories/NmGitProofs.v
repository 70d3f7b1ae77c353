From Verif Require Import Bytes Hex HexSpec HexProofs StrUtil StrUtilSpec StrUtilProofs Terms Meta StringMap DocMap Db Props
  TagOps TagLine TagLineSpec TagLineProofs Dump DumpSpec DumpProofs DumpProofs2 DumpProofs3 NmGit NmGitSpec.
Local Open Scope nat_scope.

(** ** Quoting *)
Definition enc1 (safe : bytes) (c : byte) : bytes := if pq_keep safe c then [c] else escape_byte c.
Definition enc (safe s : bytes) : bytes := flat_map (enc1 safe) s.

Lemma up_low c : is_updigit (updigit (code c / 16)) && is_updigit (updigit (code c mod 16)) = true /\
  tolower (updigit (code c / 16)) = hexdigit (code c / 16) /\ tolower (updigit (code c mod 16)) = hexdigit (code c mod 16).
Proof.
  assert (H : forall c, (is_updigit (updigit (code c / 16)) && is_updigit (updigit (code c mod 16))) &&
    (beq (tolower (updigit (code c / 16))) (hexdigit (code c / 16)) && beq (tolower (updigit (code c mod 16))) (hexdigit (code c mod 16))) = true)
    by (apply byte_sweep; vm_compute; reflexivity).
  specialize (H c). rewrite !andb_true_iff, !beq_eq in H. rewrite andb_true_iff. tauto.
Qed.

Lemma hex_quote_enc safe s : pq_keep safe "%"%char = false -> hex_quote safe s = enc safe s.
Proof.
  intros Hp. unfold hex_quote, enc. induction s as [|c s IH]; [reflexivity|]. cbn [py_quote flat_map]. unfold enc1 at 1.
  destruct (pq_keep safe c) eqn:E.
  - cbn [app lower_escapes]. assert (X : beq c "%"%char = false) by (apply beq_neq; congruence). rewrite X. now rewrite IH.
  - destruct (up_low c) as (A & B & C). cbn [app lower_escapes]. rewrite beq_refl, A, B, C. unfold escape_byte. cbn [app].
    now rewrite IH.
Qed.
Lemma keep_default : pq_keep default_safe "%"%char = false.
Proof. reflexivity. Qed.
Lemma keep_prefix : pq_keep (lit "+@=,") "%"%char = false.
Proof. reflexivity. Qed.

Lemma unquote_enc1 safe c x : pq_keep safe "%"%char = false -> py_unquote (enc1 safe c ++ x) = c :: py_unquote x.
Proof.
  intros Hp. unfold enc1. destruct (pq_keep safe c) eqn:E.
  - cbn [app py_unquote]. assert (X : beq c "%"%char = false) by (apply beq_neq; congruence). now rewrite X.
  - destruct (escape_digits c) as (A & B & C). unfold escape_byte. cbn [app py_unquote]. unfold escape_char. rewrite beq_refl, A, B.
    cbn [andb]. now rewrite C.
Qed.
Lemma unquote_enc safe s x : pq_keep safe "%"%char = false -> py_unquote (enc safe s ++ x) = s ++ py_unquote x.
Proof.
  intros Hp. unfold enc. induction s as [|c s IH]; [reflexivity|]. cbn [flat_map app]. rewrite <- app_assoc, unquote_enc1 by exact Hp. now rewrite IH.
Qed.
Lemma unquote_quote safe s : pq_keep safe "%"%char = false -> py_unquote (hex_quote safe s) = s.
Proof. intros Hp. rewrite hex_quote_enc by exact Hp. rewrite <- (app_nil_r (enc safe s)), unquote_enc by exact Hp. cbn. apply app_nil_r. Qed.
Lemma quote_inj safe s t : pq_keep safe "%"%char = false -> hex_quote safe s = hex_quote safe t -> s = t.
Proof. intros Hp H. rewrite <- (unquote_quote safe s Hp), <- (unquote_quote safe t Hp). now rewrite H. Qed.

Lemma hexq_unquote s x : py_unquote (hex_encode s ++ x) = s ++ py_unquote x.
Proof.
  unfold hex_encode. induction s as [|c s IH]; [reflexivity|]. cbn [hex_encode_loop]. destruct (is_output c) eqn:E.
  - cbn [app py_unquote]. pose proof (is_output_not_escape c E) as X. unfold escape_char in X. rewrite X. now rewrite IH.
  - destruct (escape_digits c) as (A & B & C). unfold escape_byte. cbn [app py_unquote]. unfold escape_char. rewrite beq_refl, A, B.
    cbn [andb]. now rewrite C, IH.
Qed.

Lemma enc_decode safe s : pq_keep safe "%"%char = false -> hex_decode_internal (enc safe s) = (s, true).
Proof.
  intros Hp. unfold enc. induction s as [|c s IH]; [reflexivity|]. cbn [flat_map]. unfold enc1 at 1. destruct (pq_keep safe c) eqn:E.
  - cbn [app hex_decode_internal]. unfold escape_char. assert (X : beq c "%"%char = false) by (apply beq_neq; congruence). now rewrite X, IH.
  - destruct (escape_digits c) as (A & B & C). unfold escape_byte. cbn [app hex_decode_internal]. rewrite beq_refl, A, B, IH. cbn [andb]. now rewrite C.
Qed.

(** Characters. *)
Definition path_char (c : byte) : bool :=
  negb (pyspace c) && not_slash c && ((33 <=? code c)%N && (code c <=? 126)%N) && negb (beq c """"%char) && negb (beq c "\"%char).
Lemma enc1_chars c x : In x (enc1 default_safe c) -> path_char x = true.
Proof.
  assert (H : forall c, forallb path_char (enc1 default_safe c) = true) by (apply byte_sweep; vm_compute; reflexivity).
  intros Hx. exact (forallb_In _ _ _ (H c) Hx).
Qed.
Lemma quote_chars s x : In x (hex_quote default_safe s) -> path_char x = true.
Proof.
  rewrite hex_quote_enc by exact keep_default. unfold enc. rewrite in_flat_map. intros (c & _ & H). now apply enc1_chars in H.
Qed.
Lemma enc1_prefix_chars c x : In x (enc1 (lit "+@=,") c) -> path_char x = true.
Proof.
  assert (H : forall c, forallb path_char (enc1 (lit "+@=,") c) = true) by (apply byte_sweep; vm_compute; reflexivity).
  intros Hx. exact (forallb_In _ _ _ (H c) Hx).
Qed.
Lemma prefix_chars s x : In x (encoded_prefix s) -> path_char x = true.
Proof.
  unfold encoded_prefix. rewrite hex_quote_enc by exact keep_prefix. unfold enc. rewrite in_flat_map. intros (c & _ & H). now apply enc1_prefix_chars in H.
Qed.
Lemma path_char_facts x : path_char x = true -> pyspace x = false /\ not_slash x = true /\ printed_as_is x /\ x <> " "%char.
Proof.
  unfold path_char, printed_as_is. rewrite !andb_true_iff, !negb_true_iff, !N.leb_le, !beq_neq. unfold code.
  intros ((((A & B) & C & D) & E) & F). repeat split; auto; try lia. intros ->. cbn in C. lia.
Qed.

Lemma kept_iff c : kept c <-> pq_keep default_safe c = true.
Proof.
  assert (H : forall c, eqb (mem c (lit "ABCDEFGHIJKLMNOPQRSTUVWXYZ") || mem c (lit "abcdefghijklmnopqrstuvwxyz") ||
      mem c (lit "0123456789") || mem c (lit "+-_@=.:,~")) (pq_keep default_safe c) = true)
    by (apply byte_sweep; vm_compute; reflexivity).
  specialize (H c). apply eqb_prop in H. rewrite <- H. unfold kept. rewrite !orb_true_iff, !mem_In. tauto.
Qed.
Lemma encoded_quote s e : encoded s e <-> e = hex_quote default_safe s.
Proof.
  rewrite hex_quote_enc by exact keep_default. split.
  - induction 1 as [|c s e K _ IH|c s e K _ IH]; [reflexivity| |]; unfold enc in *; cbn [flat_map]; unfold enc1 at 1.
    + apply kept_iff in K. rewrite K. cbn. now rewrite IH.
    + destruct (pq_keep default_safe c) eqn:E; [apply kept_iff in E; contradiction|]. unfold escape_byte. cbn [app]. now rewrite IH.
  - intros ->. induction s as [|c s IH]; [constructor|]. unfold enc. cbn [flat_map]. unfold enc1 at 1. destruct (pq_keep default_safe c) eqn:E.
    + cbn [app]. constructor; [now apply kept_iff|exact IH].
    + unfold escape_byte. cbn [app]. apply enc_octet; [|exact IH]. rewrite kept_iff. congruence.
Qed.

(** ** Paths *)
Section P.
Variable hash : bytes -> bytes.
Hypothesis Hh : hash_ok hash.
Local Notation id_path := (id_path hash).
Local Notation tag_path := (tag_path hash).

Lemma takewhile_slash a b : (forall x, In x a -> not_slash x = true) -> takewhile not_slash (a ++ "/"%char :: b) = a.
Proof. intros H. induction a as [|c a IH]; [reflexivity|]. cbn. rewrite (H c) by now left. f_equal. apply IH. intros x X. apply H. now right. Qed.
Lemma takewhile_noslash a : (forall x, In x a -> not_slash x = true) -> takewhile not_slash a = a.
Proof. intros H. apply takewhile_forall. apply forallb_forall. exact H. Qed.
Lemma dropwhile_slash a b : (forall x, In x a -> not_slash x = true) -> dropwhile not_slash (a ++ "/"%char :: b) = "/"%char :: b.
Proof. intros H. induction a as [|c a IH]; [reflexivity|]. cbn. rewrite (H c) by now left. apply IH. intros x X. apply H. now right. Qed.
Lemma match_id_tag_ok a b : (forall x, In x a -> not_slash x = true) -> (forall x, In x b -> not_slash x = true) ->
  match_id_tag (a ++ "/"%char :: b) = Some (a, b).
Proof.
  intros Ha Hb. unfold match_id_tag. rewrite dropwhile_slash, takewhile_slash by exact Ha. now rewrite takewhile_noslash.
Qed.
Lemma quote_noslash s x : In x (hex_quote default_safe s) -> not_slash x = true.
Proof. intros H. apply quote_chars, path_char_facts in H. tauto. Qed.
Lemma lowhex_mem a : In a (lit "0123456789abcdef") <-> is_lowhex a = true.
Proof. unfold is_lowhex. now rewrite mem_In. Qed.
Lemma hash_eq x : exists a b c d, hash x = [a; b; c; d] /\ is_lowhex a = true /\ is_lowhex b = true /\ is_lowhex c = true /\ is_lowhex d = true.
Proof. destruct (Hh x) as (a & b & c & d & H). exists a, b, c, d. rewrite !lowhex_mem in H. exact H. Qed.

Lemma match_path v id tag : match_tag_file v (tag_path v id tag) = Some (hex_quote default_safe id, hex_quote default_safe tag).
Proof.
  unfold match_tag_file, NmGit.tag_path, NmGit.id_path. destruct v.
  - rewrite <- !app_assoc, strip_prefix_app. change (lit "/" ++ ?x) with ("/"%char :: x). apply match_id_tag_ok; apply quote_noslash.
  - destruct (hash_eq (hex_quote default_safe id)) as (a & b & c & d & E & A & B & C & D). rewrite E. cbn [firstn skipn].
    rewrite <- !app_assoc, strip_prefix_app. cbn [app lit list_ascii_of_string match_hexdir]. rewrite A, B, beq_refl. cbn [andb match_hexdir app]. rewrite C, D, beq_refl. cbn [andb].
    apply match_id_tag_ok; apply quote_noslash.
Qed.

Lemma lowhex_char c : is_lowhex c = true -> path_char c = true.
Proof.
  assert (H : forall c, implb (is_lowhex c) (path_char c) = true) by (apply byte_sweep; vm_compute; reflexivity).
  intros E. specialize (H c). now rewrite E in H.
Qed.
Lemma id_path_chars v id x : In x (id_path v id) -> path_char x = true \/ x = "/"%char.
Proof.
  unfold NmGit.id_path. destruct v.
  - intros H. apply in_app_or in H as [H|H]; [|left; now apply quote_chars in H].
    cbn in H. intuition (subst; auto).
  - destruct (hash_eq (hex_quote default_safe id)) as (a & b & c & d & E & A & B & C & D). rewrite E. cbn [firstn skipn].
    intros H. repeat (apply in_app_or in H as [H|H]); try (cbn in H; intuition (subst; auto using lowhex_char)).
    left. now apply quote_chars in H.
Qed.
Lemma path_chars v id tag x : In x (tag_path v id tag) -> path_char x = true \/ x = "/"%char.
Proof.
  unfold NmGit.tag_path. intros H. apply in_app_or in H as [H|H]; [now apply id_path_chars in H|].
  apply in_app_or in H as [[H|[]]|H]; [auto|left; now apply quote_chars in H].
Qed.
Lemma slash_space : pyspace "/"%char = false.
Proof. reflexivity. Qed.
Lemma path_nospace v id tag x : In x (tag_path v id tag) -> pyspace x = false.
Proof. intros H. apply path_chars in H as [H| ->]; [now apply path_char_facts in H|reflexivity]. Qed.

Lemma dropwhile_none f (s : bytes) : (forall x, In x s -> f x = false) -> dropwhile f s = s.
Proof. destruct s as [|c s]; [reflexivity|]. intros H. cbn. now rewrite (H c) by now left. Qed.
Lemma py_strip_edges s t : s = [] \/ (pyspace (hd NUL s) = false /\ pyspace (last s NUL) = false) ->
  forallb pyspace t = true -> py_strip (s ++ t) = s.
Proof.
  intros Hs Ht. unfold py_strip. destruct Hs as [->|[H1 H2]].
  - cbn [app]. rewrite (dropwhile_forall pyspace t Ht). reflexivity.
  - destruct s as [|c s]; [cbn [app]; rewrite (dropwhile_forall pyspace t Ht); reflexivity|]. cbn [hd] in H1.
    cbn [app dropwhile]. rewrite H1. change (c :: s ++ t) with ((c :: s) ++ t). rewrite rev_app_distr.
    rewrite dropwhile_app_stop.
    + apply rev_involutive.
    + clear - Ht. rewrite forallb_forall in *. intros x X. apply Ht. now apply in_rev.
    + destruct (rev (c :: s)) as [|l r] eqn:E; [now right|]. left. cbn [peek]. rewrite <- H2. f_equal.
      assert (X : c :: s = rev r ++ [l]) by (rewrite <- (rev_involutive (c :: s)), E; reflexivity). rewrite X. symmetry. apply last_last.
Qed.
Lemma strip_path v id tag : py_strip (tag_path v id tag ++ [NL]) = tag_path v id tag.
Proof.
  apply py_strip_edges; [|reflexivity]. right.
  assert (Hne : tag_path v id tag <> []) by (unfold NmGit.tag_path, NmGit.id_path; destruct v; discriminate).
  split; apply path_nospace with v id tag.
  - destruct (tag_path v id tag); [congruence|now left].
  - destruct (exists_last Hne) as (l & a & E). rewrite E. rewrite last_last. apply in_or_app. right. now left.
Qed.
Lemma unpack_path v id tag : unpack_line v (tag_path v id tag ++ [NL]) = U_pair id tag.
Proof.
  unfold unpack_line. rewrite strip_path, match_path. now rewrite !unquote_quote by exact keep_default.
Qed.
Lemma tag_path_inj v i t i' t' : tag_path v i t = tag_path v i' t' -> i = i' /\ t = t'.
Proof.
  intros H. assert (X := unpack_path v i t). rewrite H, unpack_path in X. injection X as -> ->. auto.
Qed.
Lemma id_path_inj v i i' : id_path v i = id_path v i' -> i = i'.
Proof. intros H. apply (tag_path_inj v i [] i' []). unfold NmGit.tag_path. now rewrite H. Qed.
Lemma dirname_path v id tag : dirname (tag_path v id tag) = id_path v id.
Proof.
  unfold dirname, NmGit.tag_path. change (lit "/" ++ ?x) with ("/"%char :: x). rewrite rev_app_distr. cbn [rev]. rewrite <- app_assoc. cbn [app].
  rewrite dropwhile_slash by (intros x X; apply in_rev in X; now apply quote_noslash in X).
  cbn [tl]. apply rev_involutive.
Qed.
Lemma path_tags v id tag : starts_with (lit "tags/") (tag_path v id tag) = true.
Proof. unfold NmGit.tag_path, NmGit.id_path. destruct v; reflexivity. Qed.
Lemma path_for_iff v id tag p : path_for hash v id tag p <-> p = tag_path v id tag.
Proof.
  unfold path_for, NmGit.tag_path, NmGit.id_path. destruct v.
  - split.
    + intros (ei & et & E1 & E2 & ->). apply encoded_quote in E1 as ->. apply encoded_quote in E2 as ->. now rewrite <- !app_assoc.
    + intros ->. exists (hex_quote default_safe id), (hex_quote default_safe tag). rewrite !encoded_quote. rewrite <- !app_assoc. auto.
  - destruct (hash_eq (hex_quote default_safe id)) as (a & b & c & d & E & _). rewrite E. cbn [firstn skipn]. split.
    + intros (ei & et & E1 & E2 & a' & b' & c' & d' & E' & ->). apply encoded_quote in E1 as ->. apply encoded_quote in E2 as ->.
      rewrite E in E'. injection E' as <- <- <- <-. now rewrite <- !app_assoc.
    + intros ->. exists (hex_quote default_safe id), (hex_quote default_safe tag). rewrite !encoded_quote. do 2 (split; [reflexivity|]).
      exists a, b, c, d. split; [exact E|]. now rewrite <- !app_assoc.
Qed.

(** What git accepts. *)
Lemma components_acc_app acc a b : (forall x, In x a -> not_slash x = true) ->
  components_acc acc (a ++ "/"%char :: b) = (acc ++ a) :: components_acc [] b.
Proof.
  revert acc. induction a as [|c a IH]; intros acc H; cbn [app components_acc].
  - rewrite beq_refl. now rewrite app_nil_r.
  - assert (X : beq c "/"%char = false) by (specialize (H c (or_introl eq_refl)); unfold not_slash in H; now apply negb_true_iff in H).
    rewrite X, IH by (intros x Hx; apply H; now right). now rewrite <- app_assoc.
Qed.
Lemma components_acc_end acc a : (forall x, In x a -> not_slash x = true) -> components_acc acc a = [acc ++ a].
Proof.
  revert acc. induction a as [|c a IH]; intros acc H; cbn [components_acc]; [now rewrite app_nil_r|].
  assert (X : beq c "/"%char = false) by (specialize (H c (or_introl eq_refl)); unfold not_slash in H; now apply negb_true_iff in H).
  rewrite X, IH by (intros x Hx; apply H; now right). now rewrite <- app_assoc.
Qed.
Lemma lowhex_component a b : is_lowhex a = true -> is_lowhex b = true -> component_ok [a; b] = true.
Proof.
  intros A B. unfold component_ok. rewrite negb_true_iff, !orb_false_iff, !bseq_neq. repeat split; try discriminate.
  intros [= -> ->]. discriminate A.
Qed.
Lemma path_ok_iff v id tag : path_ok (tag_path v id tag) =
  component_ok (hex_quote default_safe id) && component_ok (hex_quote default_safe tag).
Proof.
  assert (T : forall x, path_ok (lit "tags/" ++ x) = path_ok x) by reflexivity.
  unfold NmGit.tag_path, NmGit.id_path. destruct v.
  - rewrite <- app_assoc, T. unfold path_ok, components. change (lit "/" ++ ?x) with ("/"%char :: x).
    rewrite components_acc_app by apply quote_noslash. rewrite components_acc_end by apply quote_noslash. cbn. now rewrite andb_true_r.
  - destruct (hash_eq (hex_quote default_safe id)) as (a & b & c & d & E & A & B & C & D). rewrite E. cbn [firstn skipn].
    rewrite <- !app_assoc, T. unfold path_ok, components.
    assert (Sl : forall x, lit "/" ++ x = "/"%char :: x) by reflexivity. rewrite !Sl.
    rewrite components_acc_app by (intros x [<-|[<-|[]]]; [apply lowhex_char, path_char_facts in A|apply lowhex_char, path_char_facts in B]; tauto).
    rewrite components_acc_app by (intros x [<-|[<-|[]]]; [apply lowhex_char, path_char_facts in C|apply lowhex_char, path_char_facts in D]; tauto).
    rewrite components_acc_app by apply quote_noslash. rewrite components_acc_end by apply quote_noslash.
    cbn [forallb app]. rewrite !lowhex_component by assumption. cbn. now rewrite andb_true_r.
Qed.
Lemma enc_percent s : ~ In "%"%char (enc default_safe s) -> enc default_safe s = s.
Proof.
  unfold enc. induction s as [|c s IH]; [reflexivity|]. cbn [flat_map]. unfold enc1. destruct (pq_keep default_safe c).
  - cbn [app]. intros H. f_equal. apply IH. intros X. apply H. now right.
  - intros H. exfalso. apply H. now left.
Qed.
Lemma tolower_percent c : tolower c = "%"%char -> c = "%"%char.
Proof.
  assert (H : forall c, implb (beq (tolower c) "%"%char) (beq c "%"%char) = true) by (apply byte_sweep; vm_compute; reflexivity).
  intros E. specialize (H c). rewrite E in H. now apply beq_eq in H.
Qed.
Lemma component_ok_iff s : component_ok (hex_quote default_safe s) = true <-> file_name s.
Proof.
  assert (P : forall w, ~ In "%"%char w -> hex_quote default_safe s = w -> s = w).
  { intros w Hw E. rewrite hex_quote_enc in E by exact keep_default. rewrite <- E in Hw. apply enc_percent in Hw. congruence. }
  unfold component_ok, file_name. rewrite negb_true_iff, !orb_false_iff, !bseq_neq. split.
  - intros (((A & B) & C) & D). repeat split; try (intros ->; cbn in *; congruence).
    intros E. apply D. replace (hex_quote default_safe s) with s; [exact E|].
    assert (X : forall n, nth n (map tolower s) NUL = nth n (lit ".git") NUL) by now rewrite E.
    destruct s as [|s1 [|s2 [|s3 [|s4 [|s5 s]]]]]; try discriminate E. injection E as E1 E2 E3 E4. unfold hex_quote.
    assert (K : forall y, tolower y = "."%char \/ tolower y = "g"%char \/ tolower y = "i"%char \/ tolower y = "t"%char -> enc1 default_safe y = [y]).
    { assert (H : forall y, implb (beq (tolower y) "."%char || beq (tolower y) "g"%char || beq (tolower y) "i"%char || beq (tolower y) "t"%char)
         (bseq (enc1 default_safe y) [y]) = true) by (apply byte_sweep; vm_compute; reflexivity).
      intros y Hy. specialize (H y). rewrite <- !beq_eq in Hy. rewrite <- bseq_eq. destruct (bseq (enc1 default_safe y) [y]); [reflexivity|].
      destruct (beq (tolower y) "."%char), (beq (tolower y) "g"%char), (beq (tolower y) "i"%char), (beq (tolower y) "t"%char); cbn in H; intuition discriminate. }
    change (lower_escapes (py_quote default_safe [s1; s2; s3; s4])) with (hex_quote default_safe [s1; s2; s3; s4]).
    rewrite hex_quote_enc by exact keep_default. unfold enc. cbn [flat_map]. rewrite !K by tauto. reflexivity.
  - intros (A & B & C & D). repeat split; try (intros E; apply P in E; [congruence|cbn; intuition discriminate]).
    intros E. assert (Hn : ~ In "%"%char (hex_quote default_safe s)).
    { intros X. apply (in_map tolower) in X. rewrite E in X. cbn in X. intuition discriminate. }
    apply D. rewrite <- E. f_equal. symmetry. rewrite hex_quote_enc by exact keep_default. apply enc_percent.
    now rewrite <- hex_quote_enc by exact keep_default.
Qed.
Lemma path_accepted v id tag : path_ok (tag_path v id tag) = true <-> file_name id /\ file_name tag.
Proof. rewrite path_ok_iff, andb_true_iff, !component_ok_iff. reflexivity. Qed.
End P.
