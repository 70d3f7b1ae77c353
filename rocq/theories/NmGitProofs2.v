From Verif Require Import Bytes Hex HexSpec HexProofs StrUtil StrUtilSpec StrUtilProofs Terms Meta StringMap DocMap Db Props
  TagOps TagLine TagLineSpec TagLineProofs Dump DumpSpec DumpProofs DumpProofs2 DumpProofs3 NmGit NmGitSpec NmGitProofs.
Local Open Scope nat_scope.

(** ** The prefix *)
Lemma keep_output c : c <> "~"%char -> c <> NUL -> pq_keep (lit "+@=,") c = is_output c.
Proof.
  assert (H : forall c, beq c "~"%char || beq c NUL || eqb (pq_keep (lit "+@=,") c) (is_output c) = true) by (apply byte_sweep; vm_compute; reflexivity).
  intros H1 H2. specialize (H c). apply beq_neq in H1, H2. rewrite H1, H2 in H. cbn in H. now apply eqb_prop in H.
Qed.
Lemma prefix_encode p : cstr p -> ~ In "~"%char p -> encoded_prefix p = hex_encode p.
Proof.
  intros Hc Ht. unfold encoded_prefix. rewrite hex_quote_enc by exact keep_prefix. unfold enc, hex_encode.
  induction p as [|c p IH]; [reflexivity|]. apply cstr_cons in Hc as [Hc Hcs]. cbn [flat_map hex_encode_loop]. unfold enc1 at 1.
  rewrite keep_output; [|intros ->; apply Ht; now left|exact Hc]. rewrite IH; [|exact Hcs|intros X; apply Ht; now right].
  now destruct (is_output c).
Qed.
Lemma encode_app a b : hex_encode (a ++ b) = hex_encode a ++ hex_encode b.
Proof.
  unfold hex_encode. induction a as [|c a IH]; [reflexivity|]. cbn [app hex_encode_loop]. destruct (is_output c); rewrite IH; [reflexivity|now rewrite app_assoc].
Qed.
Lemma unquote_encode s : py_unquote (hex_encode s) = s.
Proof. rewrite <- (app_nil_r (hex_encode s)), hexq_unquote. apply app_nil_r. Qed.

Lemma encode_nospace s c : In c (hex_encode s) -> pyspace c = false.
Proof.
  unfold hex_encode. induction s as [|x s IH]; [intros []|]. cbn [hex_encode_loop].
  assert (H1 : forall c, implb (is_output c) (negb (pyspace c)) = true) by (apply byte_sweep; vm_compute; reflexivity).
  assert (H2 : forall c, forallb (fun y => negb (pyspace y)) (escape_byte c) = true) by (apply byte_sweep; vm_compute; reflexivity).
  destruct (is_output x) eqn:E.
  - intros [->|H]; [|now apply IH]. specialize (H1 c). rewrite E in H1. now apply negb_true_iff in H1.
  - intros H. apply in_app_or in H as [H|H]; [|now apply IH]. apply negb_true_iff. exact (forallb_In _ _ _ (H2 x) H).
Qed.
Lemma nospace_facts c : pyspace c = false -> c <> " "%char /\ c <> NL /\ c <> chr 13.
Proof. intros H. repeat split; intros ->; discriminate H. Qed.

(** The tags selected. *)
Lemma select_tags prefix tags : cstr prefix -> ~ In "~"%char prefix ->
  map (fun t => py_unquote (skipn (length ("+"%char :: encoded_prefix prefix)) t))
      (filter (starts_with ("+"%char :: encoded_prefix prefix)) (map (fun t => "+"%char :: hex_encode t) tags)) = unprefixed prefix tags.
Proof.
  intros Hc Ht. rewrite (prefix_encode prefix Hc Ht). induction tags as [|t tags IH]; [reflexivity|]. cbn [map filter unprefixed].
  assert (X : starts_with ("+"%char :: hex_encode prefix) ("+"%char :: hex_encode t) = starts_with prefix t).
  { apply eq_true_iff_eq. rewrite !starts_with_app. split.
    - intros (r & [= E]). exists (py_unquote r). rewrite <- (unquote_encode t), E. apply hexq_unquote.
    - intros (r & ->). exists (hex_encode r). rewrite encode_app. reflexivity. }
  rewrite X. assert (Y : starts_with prefix t = match strip_prefix prefix t with Some _ => true | None => false end) by reflexivity. rewrite Y.
  destruct (strip_prefix prefix t) as [r|] eqn:E; [|exact IH].
  apply strip_prefix_Some in E as ->. cbn [map]. rewrite IH. f_equal.
  cbn [length skipn]. rewrite encode_app, skipn_app, skipn_all, Nat.sub_diag. cbn. apply unquote_encode.
Qed.

(** ** Words *)
Lemma words_run acc a rest : (forall c, In c a -> pyspace c = false) -> py_words_acc acc (a ++ rest) = py_words_acc (acc ++ a) rest.
Proof.
  revert acc. induction a as [|c a IH]; intros acc H; [cbn; now rewrite app_nil_r|]. cbn [app py_words_acc].
  rewrite (H c) by now left. rewrite IH by (intros x X; apply H; now right). now rewrite <- app_assoc.
Qed.
Lemma words_dump tags : py_words (dump_tags true tags) = map (fun t => "+"%char :: hex_encode t) tags.
Proof.
  assert (A : forall tags w, w <> [] -> (forall c, In c w -> pyspace c = false) ->
     py_words_acc [] (w ++ dump_tags false tags) = w :: map (fun t => "+"%char :: hex_encode t) tags).
  { clear tags. induction tags as [|t tags IH]; intros w Hw Hs; cbn [dump_tags].
    - rewrite words_run by exact Hs. cbn. destruct w; [congruence|reflexivity].
    - rewrite words_run by exact Hs. assert (S0 : forall a acc r, py_words_acc (a :: acc) (" "%char :: r) = (a :: acc) :: py_words_acc [] r) by reflexivity.
      destruct w as [|c w]; [congruence|]. cbn [app map]. rewrite S0. f_equal.
      change ("+"%char :: hex_encode t ++ dump_tags false tags) with (("+"%char :: hex_encode t) ++ dump_tags false tags).
      apply IH; [discriminate|]. intros c0 [<-|H]; [reflexivity|now apply encode_nospace in H]. }
  unfold py_words. destruct tags as [|t tags]; [reflexivity|]. cbn [dump_tags app map].
  change ("+"%char :: hex_encode t ++ dump_tags false tags) with (("+"%char :: hex_encode t) ++ dump_tags false tags).
  apply A; [discriminate|]. intros c [<-|H]; [reflexivity|now apply encode_nospace in H].
Qed.

(** ** Splitting *)
Inductive nosep : bytes -> Prop :=
| ns_nil : nosep []
| ns_char c a : c <> " "%char -> nosep a -> nosep (c :: a)
| ns_plus a : nosep a -> nosep (" "%char :: "+"%char :: a).
Lemma nosep_app a b : nosep a -> nosep b -> nosep (a ++ b).
Proof. induction 1; intros Hb; cbn; auto using nosep. Qed.
Lemma nosep_chars a : (forall c, In c a -> c <> " "%char) -> nosep a.
Proof. induction a as [|c a IH]; intros H; constructor; [apply H; now left|apply IH; intros x X; apply H; now right]. Qed.
Lemma nosep_dump tags f : nosep (dump_tags f tags).
Proof.
  assert (N : forall t, nosep (hex_encode t)) by (intros t; apply nosep_chars; intros c H; apply encode_nospace in H; now apply nospace_facts in H).
  revert f. induction tags as [|t tags IH]; intros f; cbn [dump_tags]; [constructor|]. destruct f; cbn [app].
  - constructor; [discriminate|]. now apply nosep_app.
  - apply ns_plus. now apply nosep_app.
Qed.
Definition sep : bytes := lit " -- id:".
Lemma split_nosep acc a rest : nosep a -> py_split_acc sep 0 acc (a ++ rest) = py_split_acc sep 0 (acc ++ a) rest.
Proof.
  intros H. revert acc. induction H as [|c a Hc H IH|a H IH]; intros acc.
  - cbn. now rewrite app_nil_r.
  - cbn [app py_split_acc]. assert (X : starts_with sep (c :: a ++ rest) = false).
    { destruct (starts_with sep (c :: a ++ rest)) eqn:S0; [|reflexivity]. apply starts_with_app in S0 as (r & S0). injection S0 as S0 _. congruence. }
    rewrite X, IH. now rewrite <- app_assoc.
  - cbn [app py_split_acc]. assert (X : forall r, starts_with sep (" "%char :: "+"%char :: r) = false) by reflexivity.
    assert (Y : forall r, starts_with sep ("+"%char :: r) = false) by reflexivity.
    rewrite X, Y, IH. now rewrite <- !app_assoc.
Qed.
Lemma split_skip k acc s : k <= length s -> py_split_acc sep k acc s = py_split_acc sep 0 acc (skipn k s).
Proof.
  revert k acc. induction s as [|c s IH]; intros [|k] acc H; cbn [length] in H; try reflexivity.
  cbn [py_split_acc skipn]. apply IH. lia.
Qed.
Lemma split_line a b : nosep a -> nosep b -> py_split sep (a ++ sep ++ b) = [a; b].
Proof.
  intros Ha Hb. unfold py_split. rewrite split_nosep by exact Ha. cbn [app].
  assert (X : starts_with sep (sep ++ b) = true) by (apply starts_with_app; now exists b).
  change (sep ++ b) with (" "%char :: lit "-- id:" ++ b) in *. cbn [py_split_acc]. rewrite X. f_equal.
  rewrite split_skip by (rewrite app_length; cbn; lia).
  change (skipn (pred (length sep)) (lit "-- id:" ++ b)) with b.
  rewrite <- (app_nil_r b) at 1. rewrite split_nosep by exact Hb. reflexivity.
Qed.

(** ** Quoted ids *)
Lemma undouble_double s : undouble (double_quotes s) = s.
Proof.
  induction s as [|c s IH]; [reflexivity|]. cbn [double_quotes]. destruct (beq c """"%char) eqn:E.
  - cbn [undouble]. rewrite E. cbn [beq]. apply beq_eq in E as ->. cbn. now rewrite IH.
  - destruct (double_quotes s) as [|d r] eqn:D; [cbn in *; rewrite <- IH; reflexivity|]. cbn [undouble]. rewrite E. cbn [andb].
    change (match r with [] => [d] | d' :: r' => if beq d """"%char && beq d' """"%char then d :: undouble r' else d :: undouble r end) with (undouble (d :: r)).
    now rewrite IH.
Qed.
Definition id_text (id : bytes) : bytes := if need_quoting id then """"%char :: double_quotes id ++ [""""%char] else id.
Lemma xapian_unquote_quoted s : xapian_unquote (""""%char :: double_quotes s ++ [""""%char]) = s.
Proof.
  unfold xapian_unquote. rewrite beq_refl. change (""""%char :: double_quotes s ++ [""""%char]) with ((""""%char :: double_quotes s) ++ [""""%char]).
  rewrite last_last, beq_refl. cbn [andb]. rewrite removelast_last. apply undouble_double.
Qed.
Lemma unquote_id id : xapian_unquote (id_text id) = id.
Proof.
  unfold id_text. destruct (need_quoting id) eqn:E; [apply xapian_unquote_quoted|].
  destruct id as [|c id]; [discriminate E|]. unfold xapian_unquote. destruct (beq c """"%char) eqn:Q; [|reflexivity].
  apply beq_eq in Q as ->. discriminate E.
Qed.
Lemma id_text_edges id : id_text id <> [] /\ pyspace (hd NUL (id_text id)) = false /\ pyspace (last (id_text id) NUL) = false.
Proof.
  unfold id_text. destruct (need_quoting id) eqn:E.
  - split; [discriminate|]. split; [reflexivity|].
    change (""""%char :: double_quotes id ++ [""""%char]) with ((""""%char :: double_quotes id) ++ [""""%char]). now rewrite last_last.
  - assert (N : id <> []) by (intros ->; discriminate E). split; [exact N|].
    assert (F : forall c, In c id -> pyspace c = false).
    { intros c Hc. destruct id as [|x id]; [destruct Hc|]. cbn [need_quoting] in E. pose proof (existsb_false_forall _ _ E c Hc) as X.
      assert (H : forall c, implb (pyspace c) (term_char_needs_quoting c) = true) by (apply byte_sweep; vm_compute; reflexivity).
      specialize (H c). rewrite X in H. now destruct (pyspace c). }
    split; apply F; [destruct id; [congruence|now left]|]. destruct (exists_last N) as (l & a & ->). rewrite last_last. apply in_or_app. right. now left.
Qed.
Lemma id_text_In c id : In c (id_text id) -> In c id \/ c = """"%char.
Proof.
  unfold id_text. destruct (need_quoting id); [|auto]. intros [<-|H]; [auto|]. apply in_app_or in H as [H|[<-|[]]]; [|auto].
  left. now apply double_quotes_In in H.
Qed.
Lemma id_query_text id : id_query id = lit "id:" ++ id_text id.
Proof. reflexivity. Qed.

(** ** Lines *)
Lemma dump_tags_edges tags : dump_tags true tags = [] \/
  (hd NUL (dump_tags true tags) = "+"%char /\ pyspace (last (dump_tags true tags) NUL) = false).
Proof.
  destruct tags as [|t tags]; [now left|right]. split; [reflexivity|].
  assert (A : forall tags w, w <> [] -> pyspace (last w NUL) = false -> pyspace (last (w ++ dump_tags false tags) NUL) = false).
  { clear. induction tags as [|t tags IH]; intros w Hw Hl; cbn [dump_tags]; [now rewrite app_nil_r|].
    change ([" "%char] ++ "+"%char :: hex_encode t ++ dump_tags false tags) with ((" "%char :: "+"%char :: hex_encode t) ++ dump_tags false tags).
    rewrite app_assoc. apply IH; [destruct w; discriminate|].
    destruct (hex_encode t) as [|c r] eqn:E; [change (" "%char :: ["+"%char]) with ([" "%char] ++ ["+"%char]); rewrite app_assoc, last_last; reflexivity|].
    assert (N : hex_encode t <> []) by (rewrite E; discriminate). rewrite <- E.
    destruct (exists_last N) as (l & a & El). rewrite El.
    change (" "%char :: "+"%char :: l ++ [a]) with ((" "%char :: "+"%char :: l) ++ [a]). rewrite app_assoc, last_last.
    apply (encode_nospace t). rewrite El. apply in_or_app. right. now left. }
  cbn [dump_tags app]. change ("+"%char :: hex_encode t ++ dump_tags false tags) with (("+"%char :: hex_encode t) ++ dump_tags false tags).
  apply A; [discriminate|]. destruct (hex_encode t) as [|c r] eqn:E; [reflexivity|]. rewrite <- E.
  assert (N : hex_encode t <> []) by (rewrite E; discriminate). destruct (exists_last N) as (l & a & El). rewrite El.
  change ("+"%char :: l ++ [a]) with (("+"%char :: l) ++ [a]). rewrite last_last. apply (encode_nospace t). rewrite El. apply in_or_app. right. now left.
Qed.

Lemma strip_cons c s : pyspace c = false -> exists r, py_strip (c :: s) = c :: r.
Proof.
  intros H. unfold py_strip. cbn [dropwhile]. rewrite H. cbn [rev].
  assert (X : forall l, exists l', dropwhile pyspace (l ++ [c]) = l' ++ [c]).
  { induction l as [|x l IH]; cbn; [rewrite H; now exists []|]. destruct (pyspace x); [exact IH|]. now exists (x :: l). }
  destruct (X (rev s)) as (l' & ->). rewrite rev_app_distr. now exists (rev l').
Qed.

Lemma parse_line_ok prefix m : cstr prefix -> ~ In "~"%char prefix -> plain_id (dm_id m) ->
  parse_dump_line prefix (tag_line_body (dm_id m) (dm_tags m) ++ [NL]) = D_line (dm_id m) (unprefixed prefix (dm_tags m)).
Proof.
  intros Hc Ht (_ & Hi). unfold parse_dump_line.
  assert (E : tag_line_body (dm_id m) (dm_tags m) ++ [NL] = dump_tags true (dm_tags m) ++ sep ++ id_text (dm_id m) ++ [NL]).
  { unfold tag_line_body. rewrite id_query_text. unfold sep. rewrite <- !app_assoc. reflexivity. }
  assert (S0 : starts_with (lit "#") (py_strip (tag_line_body (dm_id m) (dm_tags m) ++ [NL])) = false).
  { rewrite E. destruct (dm_tags m) as [|t tags].
    - cbn [dump_tags app]. unfold sep. change (lit " -- id:" ++ ?x) with (" "%char :: "-"%char :: lit "- id:" ++ x).
      assert (P : forall x, py_strip (" "%char :: "-"%char :: x) = py_strip ("-"%char :: x)) by reflexivity. rewrite P.
      destruct (strip_cons "-"%char (lit "- id:" ++ id_text (dm_id m) ++ [NL]) eq_refl) as (r & ->). reflexivity.
    - cbn [dump_tags app]. edestruct (strip_cons "+"%char) as (r & ->); reflexivity. }
  rewrite S0, E. change (lit " -- id:") with sep. rewrite split_line.
  - cbn [map]. rewrite (py_strip_edges _ [NL]); [|right; now destruct (id_text_edges (dm_id m)) as (_ & A & B)|reflexivity].
    rewrite <- (app_nil_r (dump_tags true (dm_tags m))), py_strip_edges; [|rewrite ?app_nil_r|reflexivity].
    + rewrite unquote_id, words_dump. f_equal. now apply select_tags.
    + destruct (dump_tags_edges (dm_tags m)) as [A|[A B]]; [now left|right]. rewrite A. split; [reflexivity|exact B].
  - apply nosep_dump.
  - apply nosep_chars. intros c H. apply in_app_or in H as [H|[<-|[]]]; [|discriminate].
    apply id_text_In in H as [H| ->]; [now apply Hi in H|discriminate].
Qed.

Lemma parse_comment prefix r : parse_dump_line prefix ("#"%char :: r) = D_skip.
Proof. unfold parse_dump_line. destruct (strip_cons "#"%char r eq_refl) as (x & ->). reflexivity. Qed.
Lemma parse_lines_app prefix a b : parse_dump_lines prefix (a ++ b) =
  match parse_dump_lines prefix a with Some x => option_map (app x) (parse_dump_lines prefix b) | None => None end.
Proof.
  induction a as [|l a IH]; cbn [app parse_dump_lines]; [now destruct (parse_dump_lines prefix b)|].
  destruct (parse_dump_line prefix l); [exact IH|reflexivity|]. rewrite IH.
  destruct (parse_dump_lines prefix a); [|reflexivity]. now destruct (parse_dump_lines prefix b).
Qed.
Lemma universal_id s : ~ In (chr 13) s -> universal false s = s.
Proof.
  induction s as [|c s IH]; [reflexivity|]. intros H. cbn [universal].
  assert (X : beq c (chr 13) = false) by (apply beq_neq; intros ->; apply H; now left). rewrite X.
  assert (Y : universal false s = s) by (apply IH; intros Z; apply H; now right). rewrite Y. now destruct (beq_spec c NL) as [->|].
Qed.
Lemma encode_nocr s : ~ In (chr 13) (hex_encode s).
Proof. intros H. apply encode_nospace in H. discriminate H. Qed.
Lemma dump_tags_nocr tags f : ~ In (chr 13) (dump_tags f tags).
Proof.
  revert f. induction tags as [|t tags IH]; intros f; cbn [dump_tags]; [intros []|]. intros H.
  apply in_app_or in H as [H|[H|H]]; [destruct f; [destruct H|destruct H as [H|[]]; discriminate H]|discriminate H|].
  apply in_app_or in H as [H|H]; [now apply encode_nocr in H|now apply IH in H].
Qed.

Definition dumpable (m : dumped) : Prop := msg_ok m /\ plain_id (dm_id m).
Lemma dump_nocr cfg ms : Forall dumpable ms -> ~ In (chr 13) (dump false everything cfg ms).
Proof.
  intros H. unfold dump. intros X. apply in_app_or in X as [X|X]; [cbn in X; intuition discriminate|].
  cbn [everything inc_config] in X. apply in_app_or in X as [X|X].
  - apply in_concat in X as (l & Hl & X). apply in_map_iff in Hl as ((k & w) & <- & _). unfold dump_config_item in X. cbn [fst snd] in X.
    repeat (apply in_app_or in X as [X|X]); try (cbn in X; intuition discriminate); now apply encode_nocr in X.
  - apply in_concat in X as (l & Hl & X). apply in_map_iff in Hl as (m & <- & Hm). rewrite Forall_forall in H. destruct (H m Hm) as (_ & _ & Hi).
    rewrite dump_message_lines in X. unfold msg_lines in X. destruct (mem NL (dm_id m)); [destruct X|]. cbn [concat] in X.
    apply in_app_or in X as [X|X].
    + apply in_app_or in X as [X|[X|[]]]; [|discriminate X]. unfold tag_line_body in X. apply in_app_or in X as [X|X]; [now apply dump_tags_nocr in X|].
      apply in_app_or in X as [X|X]; [cbn in X; intuition discriminate|]. apply id_query_In in X as [X|X]; [cbn in X; intuition discriminate|].
      now apply Hi in X.
    + destruct (dm_props m) as [|p l]; [destruct X|]. cbn [concat] in X. rewrite app_nil_r in X. apply in_app_or in X as [X|X]; [cbn in X; intuition discriminate|].
      unfold prop_line in X. destruct X as [X|X]; [discriminate X|]. apply in_app_or in X as [X|X]; [now apply encode_nocr in X|].
      apply in_app_or in X as [X|[X|[]]]; [|discriminate X].
      apply in_concat in X as (y & Hy & X). apply in_map_iff in Hy as ((a & b) & <- & _). unfold dump_property in X. cbn [fst snd] in X.
      destruct X as [X|X]; [discriminate X|]. apply in_app_or in X as [X|[X|X]]; [now apply encode_nocr in X|discriminate X|now apply encode_nocr in X].
Qed.

Lemma read_dump_ok prefix cfg ms : cstr prefix -> ~ In "~"%char prefix -> Forall cfg_item_ok cfg -> Forall dumpable ms ->
  read_dump prefix (dump false everything cfg ms) = Some (map (fun m => (dm_id m, unprefixed prefix (dm_tags m))) ms).
Proof.
  intros Hc Ht Hg Hm. unfold read_dump, py_lines. rewrite universal_id by now apply dump_nocr.
  destruct (dump_lines cfg ms) as (hl & Fh & (r & Er) & ->). rewrite split_lines_concat.
  - cbn [parse_dump_lines]. rewrite Er, parse_comment. rewrite parse_lines_app.
    assert (A : parse_dump_lines prefix (map cfg_line cfg) = Some []).
    { clear. induction cfg as [|p cfg IH]; [reflexivity|]. cbn [map parse_dump_lines]. unfold cfg_line at 1, dump_config_item.
      change (lit "#@ " ++ ?x) with ("#"%char :: lit "@ " ++ x). rewrite parse_comment. exact IH. }
    rewrite A. clear A Er Fh Hg cfg hl r. induction Hm as [|m ms (Hk & Hi) _ IH]; [reflexivity|]. cbn [map concat].
    rewrite parse_lines_app. unfold msg_lines at 1. assert (N : mem NL (dm_id m) = false) by (apply mem_not_In; intros X; now apply Hi in X).
    rewrite N. cbn [parse_dump_lines]. rewrite parse_line_ok by assumption.
    assert (B : parse_dump_lines prefix (match dm_props m with [] => [] | l => [lit "#=" ++ prop_line (dm_id m) l] end) = Some []).
    { destruct (dm_props m) as [|p l]; [reflexivity|]. cbn [parse_dump_lines]. change (lit "#=" ++ ?x) with ("#"%char :: "="%char :: x). now rewrite parse_comment. }
    rewrite B. cbn [option_map]. destruct (parse_dump_lines prefix (concat (map msg_lines ms))) as [x|]; cbn [option_map app] in *; [|discriminate IH].
    injection IH as ->. reflexivity.
  - constructor; [exact Fh|]. apply Forall_app. split.
    + apply Forall_forall. intros x X. apply in_map_iff in X as (p & <- & Hp). rewrite Forall_forall in Hg. exact (cfg_line_full (fun x => x) p (Hg p Hp)).
    + apply Forall_forall. intros x X. apply in_concat in X as (l & Hl & X). apply in_map_iff in Hl as (m & <- & Hm').
      rewrite Forall_forall in Hm. destruct (Hm m Hm') as (Hk & _). pose proof (msg_lines_full m Hk) as F. rewrite Forall_forall in F. now apply F.
Qed.

(** ** Batch lines *)
Definition mkop (rm : bool) (prefix t : bytes) : tagop := {| to_tag := prefix ++ t; to_remove := rm |}.
Definition act_of (rm : bool) : byte := if rm then "-"%char else "+"%char.
Definition piece (prefix t : bytes) : bytes := encoded_prefix prefix ++ hex_quote default_safe t.
Lemma piece_denotes prefix t : denotes (piece prefix t) (prefix ++ t).
Proof.
  apply decode_denotes. unfold piece, encoded_prefix. rewrite !hex_quote_enc by reflexivity.
  unfold enc. induction prefix as [|c p IH]; [apply (enc_decode default_safe t keep_default)|].
  cbn [flat_map app]. rewrite <- app_assoc. unfold enc1 at 1. destruct (pq_keep (lit "+@=,") c) eqn:E.
  - cbn [app hex_decode_internal]. unfold escape_char. assert (X : beq c "%"%char = false) by (apply beq_neq; intros ->; discriminate E). now rewrite X, IH.
  - destruct (escape_digits c) as (A & B & C). unfold escape_byte. cbn [app hex_decode_internal]. rewrite beq_refl, A, B, IH. cbn [andb]. now rewrite C.
Qed.
Lemma piece_word prefix t : word (piece prefix t).
Proof.
  intros H. apply in_app_or in H as [H|H]; [apply prefix_chars in H|apply quote_chars in H]; apply path_char_facts in H; tauto.
Qed.
Lemma piece_legal prefix t : legal_tag (prefix ++ t) -> piece prefix t <> [] /\ forall r, piece prefix t <> "-"%char :: r.
Proof.
  intros (A & B). pose proof (piece_denotes prefix t) as D. split.
  - intros E. rewrite E in D. inversion D. congruence.
  - intros r E. rewrite E in D. inversion D; subst. eapply B. symmetry. eassumption.
Qed.
Lemma join_items rm prefix q c r tags : q = c :: r -> c <> " "%char ->
  Forall (fun t => cstr (prefix ++ t) /\ legal_tag (prefix ++ t)) tags ->
  exists rest, join_tags (act_of rm) prefix false tags ++ lit " -- " ++ q = " "%char :: rest /\ items false rest (map (mkop rm prefix) tags) q.
Proof.
  intros Hq Hc. induction 1 as [|t tags (Ht & Hl) _ (rest & E & Hi)].
  - exists (lit "-- " ++ q). split; [reflexivity|]. apply (it_dashes false [] [] q c r); auto; intros x [].
  - exists (act_of rm :: piece prefix t ++ " "%char :: rest). split; [cbn [join_tags app lit list_ascii_of_string]; unfold piece; rewrite <- E, <- ?app_assoc; cbn [app]; rewrite <- ?app_assoc; reflexivity|].
    cbn [map]. replace (mkop rm prefix t) with {| to_tag := until_nul (prefix ++ t); to_remove := rm |} by (unfold mkop; now rewrite until_nul_cstr).
    destruct (piece_legal prefix t Hl) as (L1 & L2).
    apply (it_op false [] rm (piece prefix t) (prefix ++ t) rest (map (mkop rm prefix) tags) q); auto.
    + intros x [].
    + apply piece_word.
    + intros _. apply L2.
    + apply piece_denotes.
Qed.
Lemma batch_line_parses rm prefix id tags : tags <> [] -> ~ In NL id ->
  Forall (fun t => cstr (prefix ++ t) /\ legal_tag (prefix ++ t)) tags ->
  exists q, parse_tag_line false (batch_line_of (act_of rm) prefix id tags) = P_ok (map (mkop rm prefix) tags) q /\
    parse_boolean_term q = Some (lit "id", id).
Proof.
  intros Hne Hn Hf. set (q := lit "id:" ++ xapian_quote id). exists q. split.
  - assert (EL : batch_line_of (act_of rm) prefix id tags = (join_tags (act_of rm) prefix true tags ++ lit " -- " ++ q) ++ [ascii_of_N 10]).
    { unfold batch_line_of, q. rewrite <- app_assoc. reflexivity. }
    assert (NE : batch_line_of (act_of rm) prefix id tags <> []) by (rewrite EL; intros X; now apply app_eq_nil in X).
    apply (proj2 (proj2 (parse_tag_line_spec false _ _ (or_introl EL) NE))).
    destruct tags as [|t tags]; [congruence|]. inversion Hf as [|? ? (Ht & Hl) Hf']; subst.
    destruct (join_items rm prefix q "i"%char (lit "d:" ++ xapian_quote id) tags eq_refl ltac:(discriminate) Hf') as (rest & E & Hi).
    exists [], (act_of rm), (piece prefix t ++ " "%char :: rest). split; [cbn [join_tags app lit list_ascii_of_string]; unfold piece; rewrite <- E, <- ?app_assoc; cbn [app]; rewrite <- ?app_assoc; reflexivity|].
    split; [intros x []|]. do 3 (split; [destruct rm; discriminate|]). cbn [map].
    replace (mkop rm prefix t) with {| to_tag := until_nul (prefix ++ t); to_remove := rm |} by (unfold mkop; now rewrite until_nul_cstr).
    destruct (piece_legal prefix t Hl) as (L1 & L2).
    apply (it_op false [] rm (piece prefix t) (prefix ++ t) rest (map (mkop rm prefix) tags) q); auto.
    + intros x [].
    + apply piece_word.
    + intros _. apply L2.
    + apply piece_denotes.
  - apply parse_boolean_term_complete. exists [], [], (xapian_quote id). split; [unfold q; rewrite app_nil_r; reflexivity|].
    split; [constructor|]. split; [constructor|]. split; [discriminate|]. split; [cbn; intuition discriminate|].
    split; [intros c r [= <- <-] X; apply isspace_spec in X; discriminate X|]. unfold xapian_quote. constructor. apply doubled_fun.
Qed.
