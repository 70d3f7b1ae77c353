(** C73: message ids and tags in a notmuch-git repository.
    C74: status, commit, checkout and merge of notmuch git. *)
From Verif Require Import Bytes Hex StrUtil Terms Meta StringMap DocMap Db Props TagOps TagLine Dump DumpSpec DumpProofs DumpProofs2 DumpProofs3
  PropsSpec NmGit NmGitSpec NmGitProofs NmGitProofs2 NmGitProofs3 NmGitProofs4.
Local Open Scope nat_scope.

(** ** C73 *)

(** The path written for an id and a tag is the documented one, and there is one. *)
Theorem C73_path_meets_spec :
  forall hash v id tag, hash_ok hash -> forall p, path_for hash v id tag p <-> p = tag_path hash v id tag.
Proof. intros hash v id tag Hh p. now apply path_for_iff. Qed.
Print Assumptions C73_path_meets_spec.

(** Reading the path back in a diff gives the id and the tag. *)
Theorem C73_path_roundtrip :
  forall hash v id tag p, hash_ok hash -> path_for hash v id tag p -> unpack_line v (p ++ [ascii_of_N 10]) = U_pair id tag.
Proof. intros hash v id tag p Hh P. apply path_for_iff in P as ->; [|exact Hh]. now apply unpack_path. Qed.
Print Assumptions C73_path_roundtrip.

(** Different tags, or tags of different messages, are different files. *)
Theorem C73_path_injective :
  forall hash v id tag id' tag' p, hash_ok hash -> path_for hash v id tag p -> path_for hash v id' tag' p -> id = id' /\ tag = tag'.
Proof.
  intros hash v id tag id' tag' p Hh P P'. apply path_for_iff in P as ->; [|exact Hh]. apply path_for_iff in P'; [|exact Hh]. now apply tag_path_inj in P'.
Qed.
Print Assumptions C73_path_injective.

(** Git prints these paths as they are (the program reads git's output unquoted). *)
Theorem C73_path_printable :
  forall hash v id tag p, hash_ok hash -> path_for hash v id tag p -> forall c, In c p -> printed_as_is c.
Proof.
  intros hash v id tag p Hh P c Hc. apply path_for_iff in P as ->; [|exact Hh]. apply path_chars in Hc as [H| ->]; [| |exact Hh].
  - now apply path_char_facts in H.
  - unfold printed_as_is. cbn. repeat split; try lia; discriminate.
Qed.
Print Assumptions C73_path_printable.

(** Git accepts the path exactly when id and tag are usable file names. *)
Theorem C73_git_accepts :
  forall hash v id tag p, hash_ok hash -> path_for hash v id tag p -> (path_ok p = true <-> file_name id /\ file_name tag).
Proof. intros hash v id tag p Hh P. apply path_for_iff in P as ->; [|exact Hh]. now apply path_accepted. Qed.
Print Assumptions C73_git_accepts.

(** The output of 'notmuch dump' for messages within notmuch's limits, with ids without
    blanks and line breaks, is read as exactly these messages with exactly their tags
    that start with the prefix. *)
Theorem C73_dump_read_back :
  forall prefix cfg ms, cstr prefix -> ~ In "~"%char prefix -> Forall cfg_item_ok cfg ->
  Forall (fun m => msg_ok m /\ plain_id (dm_id m)) ms ->
  read_dump prefix (dump false everything cfg ms) = Some (map (fun m => (dm_id m, unprefixed prefix (dm_tags m))) ms).
Proof. intros prefix cfg ms Hc Ht Hg Hm. now apply read_dump_ok. Qed.
Print Assumptions C73_dump_read_back.

(** The lines checkout writes are read by 'notmuch tag --batch' as the operations on
    exactly the prefixed tags, with a query for exactly the message. *)
Theorem C73_batch_line_read :
  forall (remove : bool) prefix id tags, tags <> [] -> ~ In (ascii_of_N 10) id ->
  Forall (fun t => cstr (prefix ++ t) /\ legal_tag (prefix ++ t)) tags ->
  exists q, parse_tag_line false (batch_line_of (if remove then "-"%char else "+"%char) prefix id tags) =
      P_ok (map (fun t => {| to_tag := prefix ++ t; to_remove := remove |}) tags) q /\
    parse_boolean_term q = Some (lit "id", id).
Proof. intros remove prefix id tags H1 H2 H3. exact (batch_line_parses remove prefix id tags H1 H2 H3). Qed.
Print Assumptions C73_batch_line_read.

Definition hash0 (_ : bytes) : bytes := lit "0af9".
Lemma hash0_ok : hash_ok hash0.
Proof. intros x. exists "0"%char, "a"%char, "f"%char, "9"%char. cbn. tauto. Qed.

Example C73_nontrivial :
  tag_path hash0 V1 (lit "a b/c%@x") (lit "to do~") = lit "tags/0a/f9/a%20b%2fc%25@x/to%20do~" /\
  unpack_line V1 (lit "tags/0a/f9/a%20b%2fc%25@x/to%20do~" ++ [NL]) = U_pair (lit "a b/c%@x") (lit "to do~") /\
  read_dump (lit "notmuch::") (dump false everything [(lit "k", lit "v")]
     [{| dm_id := lit "a""b@x"; dm_tags := [lit "inbox"; lit "notmuch::to do"; lit "notmuch::x"]; dm_props := [(lit "p", lit "q")] |};
      {| dm_id := lit "c@x"; dm_tags := []; dm_props := [] |}]) = Some [(lit "a""b@x", [lit "to do"; lit "x"]); (lit "c@x", [])] /\
  batch_line_of "-"%char (lit "notmuch::") (lit "a""b@x") [lit "to do"; lit "x"] =
    lit "-notmuch%3a%3ato%20do -notmuch%3a%3ax -- id:""a""""b@x""" ++ [NL].
Proof. now vm_compute. Qed.

(** "All other octets are replaced" (the help text): '~' is not. *)
Theorem C73_documented_alphabet_refuted :
  ~ forall s, forall c, In c (hex_quote default_safe s) -> In c (lit "ABCDEFGHIJKLMNOPQRSTUVWXYZabcdefghijklmnopqrstuvwxyz0123456789+-_@=.:,%").
Proof.
  intros H. specialize (H (lit "~") "~"%char ltac:(vm_compute; auto)). apply mem_In in H.
  assert (X : mem "~"%char (lit "ABCDEFGHIJKLMNOPQRSTUVWXYZabcdefghijklmnopqrstuvwxyz0123456789+-_@=.:,%") = false) by (vm_compute; reflexivity). congruence.
Qed.
Print Assumptions C73_documented_alphabet_refuted.

(** A prefix with '~': the prefix is compared unescaped with a dump that escapes '~', no
    tag is found. *)
Theorem C73_tilde_prefix_refuted :
  ~ forall prefix m, cstr prefix -> msg_ok m -> plain_id (dm_id m) ->
    read_dump prefix (dump false everything [] [m]) = Some [(dm_id m, unprefixed prefix (dm_tags m))].
Proof.
  intros H. specialize (H (lit "~") {| dm_id := lit "a@x"; dm_tags := [lit "~x"]; dm_props := [] |} eq_refl).
  assert (L : read_dump (lit "~") (dump false everything [] [{| dm_id := lit "a@x"; dm_tags := [lit "~x"]; dm_props := [] |}]) = Some [(lit "a@x", [])]) by (vm_compute; reflexivity).
  rewrite L in H. assert (X : Some [(lit "a@x", @nil bytes)] <> Some [(lit "a@x", [lit "x"])]) by discriminate. apply X. apply H.
  - unfold msg_ok. cbn. repeat split; try discriminate; try lia; repeat constructor; cbn; lia.
  - split; [reflexivity|]. intros c Hc. cbn in Hc. intuition (subst; discriminate).
Qed.
Print Assumptions C73_tilde_prefix_refuted.

(** A message id with a blank and the separator stops the program. *)
Theorem C73_every_id_read_refuted :
  ~ forall m, msg_ok m -> ~ In (ascii_of_N 10) (dm_id m) -> exists l, read_dump [] (dump false everything [] [m]) = Some l.
Proof.
  intros H. specialize (H {| dm_id := lit "a -- id:b"; dm_tags := []; dm_props := [] |}).
  assert (L : read_dump [] (dump false everything [] [{| dm_id := lit "a -- id:b"; dm_tags := []; dm_props := [] |}]) = None) by (vm_compute; reflexivity).
  destruct H as (l & H); [| |congruence].
  - unfold msg_ok. cbn. repeat split; try discriminate; try lia; constructor.
  - cbn. intuition discriminate.
Qed.
Print Assumptions C73_every_id_read_refuted.

(** Some tags cannot be stored: git refuses the path. *)
Theorem C73_every_tag_storable_refuted :
  ~ forall hash v id tag, hash_ok hash -> id <> [] -> tag <> [] -> path_ok (tag_path hash v id tag) = true.
Proof. intros H. discriminate (H hash0 V1 (lit "a@x") (lit "..") hash0_ok ltac:(discriminate) ltac:(discriminate)). Qed.
Print Assumptions C73_every_tag_storable_refuted.

(** A repository of format 1 read as format 0 (which is what 'clone' does: the format is
    read before the repository exists) gives wrong ids and tags without complaint. *)
Theorem C73_other_format_refuted :
  ~ forall hash id tag i t, hash_ok hash -> unpack_line V0 (tag_path hash V1 id tag ++ [NL]) = U_pair i t -> i = id.
Proof. intros H. discriminate (H hash0 (lit "a@x") (lit "t") (lit "0a") (lit "f9") hash0_ok ltac:(vm_compute; reflexivity)). Qed.
Print Assumptions C73_other_format_refuted.

(** ** C74 *)

Section Commands.
Variable hash : bytes -> bytes.
Variable v : fmt.
Variable prefix : bytes.
Variable cfg : list (bytes * bytes).
Variable props : bytes -> list (bytes * bytes).
Variable excluded : gmsg -> bool.
Variable safe_num safe_den : N.
Local Notation get_status := (get_status hash v prefix cfg props known).
Local Notation commit := (commit hash v prefix cfg props known excluded safe_num safe_den).
Local Notation checkout := (checkout hash v prefix cfg props known excluded safe_num safe_den).
Local Notation merge := (merge hash v prefix cfg props known excluded safe_num safe_den).

(** The repository and the database are in order. *)
Definition ready (r : grepo) (db : gdb) : Prop :=
  hash_ok hash /\ prefix_ok prefix /\ Forall cfg_item_ok cfg /\ db_ok props db /\ usable prefix db /\ tags_legal prefix db /\
  tree_ok hash v prefix (r_head r) /\ cache_valid hash v prefix r db /\ commit_cache_valid r.

(** 'status' is exact, changes neither HEAD nor the database, and leaves a valid cache. *)
Theorem C74_status_exact :
  forall r db, ready r db -> exists r' s, get_status r db db = (r', Some s) /\ status_exact hash v prefix (r_head r) db s /\
    r_head r' = r_head r /\ ready r' db.
Proof.
  intros r db (H1 & H2 & H3 & H4 & H5 & H6 & H7 & H8 & H9). destruct (status_ok hash H1 v prefix cfg props H2 H3 r db db H4 H5 H7 H8) as (idx & s & E & _ & _ & S).
  pose proof (status_cache hash H1 v prefix cfg props H2 H3 r db H4 H5 H7 H8) as Hc. rewrite E in Hc. cbn [fst] in Hc.
  eexists _, s. split; [exact E|]. split; [exact S|]. split; [reflexivity|]. repeat (split; [assumption|]). exact H9.
Qed.

(** Later additions of messages and changes of tags keep the cache valid: the next
    status, which looks at the changed messages only, is exact again. *)
Theorem C74_incremental :
  forall r db db', ready r db -> evolves db db' -> (g_rev db <= g_rev db')%N ->
  db_ok props db' -> usable prefix db' -> tags_legal prefix db' -> ready r db'.
Proof.
  intros r db db' (H1 & H2 & H3 & H4 & H5 & H6 & H7 & H8 & H9) He Hr K1 K2 K3.
  repeat (split; [assumption|]). split; [|exact H9]. now apply cache_evolves with props db.
Qed.

(** After a commit HEAD holds exactly the tracked tags of the database and what it held
    before about messages the database does not have; the FORMAT file stays. *)
Theorem C74_commit :
  forall force r db r', ready r db -> commit force r db = (r', C_done) ->
  (forall id tag, holds hash v (r_head r') id tag <->
     tracked prefix db id tag \/ (holds hash v (r_head r) id tag /\ ~ in_database db id)) /\
  (In (lit "FORMAT") (r_head r') <-> In (lit "FORMAT") (r_head r)) /\ ready r' db.
Proof.
  intros force r db r' (H1 & H2 & H3 & H4 & H5 & H6 & H7 & H8 & H9) E.
  destruct (commit_done hash H1 v prefix cfg props H2 H3 excluded safe_num safe_den force r db r' H4 H5 H7 H8 H9 E) as (A & B & C & D).
  assert (Hf : forall id t, lit "FORMAT" = tag_path hash v id t -> False).
  { intros id t X. pose proof (path_tags hash v id t) as Y. rewrite <- X in Y. discriminate Y. }
  split; [|split].
  - intros id tag. rewrite !holds_iff by exact H1. rewrite A. split.
    + intros [(i & t & X & Y)|(X & _)]; [|symmetry in X; now apply Hf in X]. apply tag_path_inj in X as [-> ->]; assumption.
    + intros X. left. exists id, tag. auto.
  - rewrite A. split; [intros [(i & t & X & _)|(_ & X)]; [now apply Hf in X|exact X]|]. intros X. right. auto.
  - repeat (split; [assumption|]). split; [|auto]. split; [exact B|]. intros p X. apply A in X as [(i & t & -> & X)|(-> & _)]; [right|now left].
    exists i, t. split; [now apply path_for_iff|]. destruct X as [X|(X & _)].
    + destruct (H5 i t X) as (F1 & F2). split; [exact F1|]. split; [exact F2|]. pose proof (H6 i t X) as L. destruct X as (m & M1 & _ & _ & M2).
      destruct H4 as (_ & _ & H4). destruct (H4 m M1) as (_ & _ & _ & _ & _ & T & _). destruct (T _ M2). auto.
    + destruct H7 as (_ & H7). destruct (H7 _ X) as [Y|(i' & t' & P & Q)]; [symmetry in Y; now apply Hf in Y|].
      apply path_for_iff in P; [|exact H1]. apply tag_path_inj in P as [<- <-]; assumption.
Qed.

(** A commit is followed by a clean status. *)
Theorem C74_commit_clean :
  forall force r db r', ready r db -> commit force r db = (r', C_done) ->
  exists r'' s, get_status r' db db = (r'', Some s) /\ s_added s = [] /\ s_deleted s = [].
Proof.
  intros force r db r' Hr E. destruct (C74_commit force r db r' Hr E) as (A & _ & Hr'). destruct (C74_status_exact r' db Hr') as (r'' & s & Es & (S1 & S2 & _) & _).
  exists r'', s. split; [exact Es|]. split.
  - destruct (s_added s) as [|(i & t) l] eqn:Q; [reflexivity|]. exfalso. destruct (proj1 (S1 i t)) as (X & Y); [now left|]. apply Y, A. now left.
  - destruct (s_deleted s) as [|(i & t) l] eqn:Q; [reflexivity|]. exfalso. destruct (proj1 (S2 i t)) as (X & Y & Z); [now left|]. apply A in X as [X|(_ & X)]; contradiction.
Qed.

(** After a checkout the prefixed tags of every mail are exactly those of HEAD; other
    tags, other messages and HEAD are as before. *)
Theorem C74_checkout :
  forall force r db r' db', ready r db -> checkout force r db = (r', db', C_done) ->
  r_head r' = r_head r /\ map g_id (g_msgs db') = map g_id (g_msgs db) /\
  (forall id tag, tracked prefix db' id tag <-> is_mail db id /\ holds hash v (r_head r) id tag) /\
  (forall m, In m (g_msgs db) -> exists m', In m' (g_msgs db') /\ g_id m' = g_id m /\ g_mail m' = g_mail m /\
     (g_mail m = false -> m' = m \/ g_tags m' = g_tags m) /\
     (forall x, (forall t, x <> prefix ++ t) -> (In x (g_tags m') <-> In x (g_tags m)))) /\
  ready r' db'.
Proof.
  intros force r db r' db' (H1 & H2 & H3 & H4 & H5 & H6 & H7 & H8 & H9) E.
  destruct (checkout_done hash H1 v prefix cfg props H2 H3 excluded safe_num safe_den force r db r' db' H4 H5 H6 H7 H8 E) as (A1 & A2 & A3 & A4 & A5 & A6 & F).
  split; [exact A1|]. split; [clear - F; induction F as [|m m' l l' (X & _) _ IH]; [reflexivity|]; cbn; congruence|].
  assert (T : forall id tag, tracked prefix db' id tag <-> is_mail db id /\ holds hash v (r_head r) id tag).
  { intros id tag. split.
    - intros (m' & M1 & M2 & <- & M3). destruct (Forall2_in_r _ _ _ _ F M1) as (m & M4 & (B1 & B2 & B3 & B4 & B5)).
      rewrite B2 in M2. split; [exists m; auto|]. rewrite B1. apply (B5 M2) in M3 as [(t & X & Y)|(X & _)]; [apply app_inv_head in X as <-; exact Y|now apply X in M2 || (exfalso; now apply (X tag))].
    - intros ((m & M1 & M2 & <-) & Hh). destruct (Forall2_in_l _ _ _ _ F M1) as (m' & M4 & (B1 & B2 & B3 & B4 & B5)).
      exists m'. repeat split; auto; [congruence|]. apply (B5 M2). left. now exists tag. }
  split; [exact T|]. split.
  - intros m M1. destruct (Forall2_in_l _ _ _ _ F M1) as (m' & M4 & (B1 & B2 & B3 & B4 & B5)). exists m'. repeat split; auto.
    + intros K. destruct (g_mail m) eqn:G; [|now rewrite <- (B4 eq_refl)]. apply (B5 eq_refl) in K as [(t & -> & _)|(_ & K)]; [now apply H in K || (exfalso; now apply (H t))|exact K].
    + intros K. destruct (g_mail m) eqn:G; [|now rewrite (B4 eq_refl)]. apply (B5 eq_refl). right. auto.
  - unfold ready. rewrite A1. repeat (split; [assumption|]). split; [|split; [|split; [exact H7|split; [exact A6|]]]].
    + intros id tag X. apply T in X as (_ & X). apply holds_iff in X; [|exact H1]. destruct H7 as (_ & H7). destruct (H7 _ X) as [Y|(i & t & P & Q1 & Q2 & _)].
      * exfalso. pose proof (path_tags hash v id tag) as Z. rewrite Y in Z. discriminate Z.
      * apply path_for_iff in P; [|exact H1]. apply tag_path_inj in P as [-> ->]; auto.
    + intros id tag X. apply T in X as (_ & X). apply holds_iff in X; [|exact H1]. destruct H7 as (_ & H7). destruct (H7 _ X) as [Y|(i & t & P & Q1 & Q2 & _ & _ & Q)].
      * exfalso. pose proof (path_tags hash v id tag) as Z. rewrite Y in Z. discriminate Z.
      * apply path_for_iff in P; [|exact H1]. apply tag_path_inj in P as [-> ->]; auto.
    + unfold commit_cache_valid. rewrite A2. exact H9.
Qed.

(** After a checkout status shows nothing added, and deletions of ghosts only. *)
Theorem C74_checkout_clean :
  forall force r db r' db', ready r db -> checkout force r db = (r', db', C_done) ->
  exists r'' s, get_status r' db' db' = (r'', Some s) /\ s_added s = [] /\ (forall id tag, In (id, tag) (s_deleted s) -> ~ is_mail db id).
Proof.
  intros force r db r' db' Hr E. destruct (C74_checkout force r db r' db' Hr E) as (A1 & _ & T & _ & Hr'). destruct (C74_status_exact r' db' Hr') as (r'' & s & Es & (S1 & S2 & _) & _).
  exists r'', s. split; [exact Es|]. rewrite A1 in S1, S2. split.
  - destruct (s_added s) as [|(i & t) l] eqn:Q; [reflexivity|]. exfalso. destruct (proj1 (S1 i t)) as (X & Y); [now left|]. apply T in X. tauto.
  - intros id tag X M. apply S2 in X as (X & Y & _). apply Y, T. auto.
Qed.

(** Without --force, commit and checkout change nothing unless the number of changed
    messages is within the fraction of a positive number of tagged messages. *)
Theorem C74_safe_fraction :
  forall r db r0 s, get_status r db db = (r0, Some s) ->
  (forall r' o, commit false r db = (r', o) -> o <> C_done -> r_head r' = r_head r) /\
  (forall r' db' o, checkout false r db = (r', db', o) -> o <> C_done -> r_head r' = r_head r /\ db' = db) /\
  ((exists r', commit false r db = (r', C_done)) \/ (exists r' db', checkout false r db = (r', db', C_done)) ->
   exists a d, NoDup a /\ NoDup d /\ (forall id, In id a <-> exists t, In (id, t) (s_added s)) /\ (forall id, In id d <-> exists t, In (id, t) (s_deleted s)) /\
     (0 < count_messages prefix excluded db)%N /\
     (N.of_nat (length a + length d) * safe_den <= safe_num * count_messages prefix excluded db)%N).
Proof.
  intros r db r0 s E.
  assert (Hd : r_head r0 = r_head r).
  { revert E. unfold NmGit.get_status. destruct (index_tags hash v prefix cfg props r db); [|intros [= ]].
    destruct (diff_names v (r_head r) l); [destruct (diff_names v l (r_head r))|]; intros [= <- <-] || intros [= ]; reflexivity. }
  unfold NmGit.commit, NmGit.checkout. rewrite E. cbn [negb andb].
  assert (I : forall l id, In id (map fst (dict_of l)) <-> exists t, In (id, t) l).
  { intros l id. rewrite in_map_iff. split.
    - intros ((i & ts) & <- & X). destruct (dict_ids l) as (_ & F). rewrite Forall_forall in F. specialize (F _ X). cbn in F. destruct ts as [|t ts]; [congruence|].
      exists t. apply dict_of_In. unfold pairs_of. apply in_flat_map. exists (i, t :: ts). split; [exact X|]. now left.
    - intros (t & X). apply (proj2 (dict_of_In _ _ _)) in X. unfold pairs_of in X. apply in_flat_map in X as ((i & ts) & X & Y). cbn in Y. apply in_map_iff in Y as (u & [= <- <-] & _).
      now exists (i, ts). }
  split; [|split].
  - intros r' o. destruct (is_committed s); [intros [= <- <-] _; exact Hd|]. destruct (negb (check_safe prefix excluded safe_num safe_den db s)); intros [= <- <-] K; [exact Hd|congruence].
  - intros r' db' o. destruct (negb (check_safe prefix excluded safe_num safe_den db s)); intros [= <- <- <-] K; [auto|congruence].
  - intros H. assert (S : check_safe prefix excluded safe_num safe_den db s = true).
    { destruct (check_safe prefix excluded safe_num safe_den db s); [reflexivity|]. cbn [negb] in H. destruct H as [(r' & H)|(r' & db' & H)]; [destruct (is_committed s)|]; discriminate H. }
    unfold check_safe in S. apply andb_true_iff in S as (S1 & S2). apply negb_true_iff, N.eqb_neq in S1. apply negb_true_iff, N.ltb_ge in S2.
    exists (map fst (dict_of (s_added s))), (map fst (dict_of (s_deleted s))). rewrite !map_length.
    split; [apply dict_ids|]. split; [apply dict_ids|]. split; [intros id; apply I|]. split; [intros id; apply I|]. split; [lia|exact S2].
Qed.

(** merge (and pull) with uncommitted changes: refused, nothing changes. *)
Theorem C74_merge_insists :
  forall merged r db r0 s, get_status r db db = (r0, Some s) -> s_added s <> [] \/ s_deleted s <> [] ->
  exists r', merge merged r db = (r', db, C_refused) /\ r_head r' = r_head r.
Proof.
  intros merged r db r0 s E H. unfold NmGit.merge. rewrite E. assert (N : is_committed s = false).
  { unfold is_committed. destruct (s_added s), (s_deleted s); try reflexivity. destruct H; congruence. }
  rewrite N. exists r0. split; [reflexivity|]. revert E. unfold NmGit.get_status. destruct (index_tags hash v prefix cfg props r db); [|intros [= ]].
  destruct (diff_names v (r_head r) l); [destruct (diff_names v l (r_head r))|]; intros [= <- <-] || intros [= ]; reflexivity.
Qed.

(** A merge that is done leaves the prefixed tags of all mail as the merged tree has
    them; nothing uncommitted was lost, because there was nothing. *)
Theorem C74_merge :
  forall merged r db r' db', ready r db -> tree_ok hash v prefix merged -> merge merged r db = (r', db', C_done) ->
  r_head r' = merged /\
  (forall id tag, tracked prefix db' id tag <-> is_mail db id /\ holds hash v merged id tag) /\
  (forall id tag, tracked prefix db id tag -> holds hash v (r_head r) id tag) /\
  (forall id tag, holds hash v (r_head r) id tag -> in_database db id -> tracked prefix db id tag) /\ ready r' db'.
Proof.
  intros merged r db r' db' Hr Hm E. destruct (C74_status_exact r db Hr) as (r0 & s & Es & (S1 & S2 & _) & Eh & Hr0). unfold NmGit.merge in E. rewrite Es in E.
  destruct (is_committed s) eqn:K; [|discriminate E].
  assert (Hr1 : ready {| r_head := merged; r_priv := r_priv r0; r_cache := r_cache r0; r_index := Some merged; r_icache := r_icache r0 |} db).
  { destruct Hr0 as (H1 & H2 & H3 & H4 & H5 & H6 & H7 & H8 & H9). repeat (split; [assumption|]). exact H9. }
  destruct (C74_checkout false _ db r' db' Hr1 E) as (A1 & _ & T & _ & Hr'). cbn [r_head] in A1, T.
  split; [exact A1|]. split; [exact T|]. unfold is_committed in K. destruct (s_added s) as [|? ?] eqn:Qa; [|discriminate K]. destruct (s_deleted s) as [|? ?] eqn:Qd; [|discriminate K].
  split; [|split; [|exact Hr']].
  - intros id tag X. destruct Hr as (H1 & _). apply holds_iff; [exact H1|]. destruct (in_dec (list_eq_dec ascii_dec) (tag_path hash v id tag) (r_head r)) as [Y|Y]; [exact Y|].
    exfalso. apply (proj2 (S1 id tag)). split; [exact X|]. rewrite holds_iff by exact H1. exact Y.
  - intros id tag X D. destruct Hr as (H1 & H2 & H3 & H4 & H5 & _ & H7 & H8 & _).
    destruct (index_exact hash H1 v prefix cfg props H2 H3 r db H4 H5 H8) as (idx & _ & _ & Hi).
    destruct (in_dec (list_eq_dec ascii_dec) (tag_path hash v id tag) idx) as [Y|Y].
    + apply Hi in Y as (i & t & Y & Z). apply tag_path_inj in Z as [-> ->]; assumption.
    + exfalso. apply (proj2 (S2 id tag)). split; [exact X|]. split; [|exact D]. intros Z. apply Y, Hi. now exists id, tag.
Qed.

(** 'clone' never loads the tags into the database: it does so only when no message has
    a tag with the prefix, and then the check of the fraction stops it. *)
Theorem C74_clone_refuted :
  forall known r db, get_tags prefix db = [] -> exists r' o, clone hash v prefix cfg props known excluded safe_num safe_den r db = (r', db, o) /\ o <> C_done.
Proof.
  intros kn r db H. unfold clone. rewrite H. unfold NmGit.checkout. destruct (NmGit.get_status hash v prefix cfg props kn r db db) as (r0 & [s|]); [|eexists _, _; split; [reflexivity|discriminate]].
  assert (C : check_safe prefix excluded safe_num safe_den db s = false).
  { unfold check_safe. replace (count_messages prefix excluded db) with 0%N; [reflexivity|]. unfold count_messages.
    replace (filter (fun m => g_mail m && tag_match prefix m && negb (excluded m)) (g_msgs db)) with (@nil gmsg); [reflexivity|].
    unfold get_tags in H. assert (X : forall m, In m (g_msgs db) -> g_mail m && tag_match prefix m = false).
    { intros m M. destruct (g_mail m && tag_match prefix m) eqn:E; [|reflexivity]. exfalso. assert (Ne : g_tags m = []).
      { destruct (g_tags m) as [|t l] eqn:T; [reflexivity|]. assert (Y : In t []) by (rewrite <- H; apply in_flat_map; exists m; split; [now apply filter_In|rewrite T; now left]). destruct Y. }
      apply andb_true_iff in E as (_ & E). unfold tag_match in E. rewrite Ne in E. discriminate E. }
    symmetry. induction (g_msgs db) as [|m l IH]; [reflexivity|]. cbn [filter]. rewrite (X m (or_introl eq_refl)). cbn [andb]. apply IH; [|intros y Y; apply X; now right].
    cbn [filter flat_map] in H. rewrite (X m (or_introl eq_refl)) in H. exact H. }
  rewrite C. cbn. eexists _, _. split; [reflexivity|discriminate].
Qed.
End Commands.
Print Assumptions C74_status_exact.
Print Assumptions C74_incremental.
Print Assumptions C74_commit.
Print Assumptions C74_commit_clean.
Print Assumptions C74_checkout.
Print Assumptions C74_checkout_clean.
Print Assumptions C74_safe_fraction.
Print Assumptions C74_merge_insists.
Print Assumptions C74_merge.
Print Assumptions C74_clone_refuted.

(** ** A concrete repository *)
Definition pfx := lit "notmuch::".
Definition msg (id : string) (tags : list string) (md : N) (mail : bool) : gmsg :=
  {| g_id := lit id; g_tags := map (fun t => lit t) tags; g_mod := md; g_mail := mail |}.
Definition ex_db : gdb :=
  {| g_msgs := [msg "a@x" ["inbox"; "notmuch::todo"] 3 true; msg "b@x" ["notmuch::bug"] 5 true; msg "g@x" [] 2 false];
     g_rev := 5; g_uuid := lit "uuid" |}%string.
Definition tpath (id tag : string) : bytes := tag_path hash0 V1 (lit id) (lit tag).
Definition ex_head : list bytes := [lit "FORMAT"; tpath "b@x" "bug"; tpath "b@x" "old"; tpath "z@x" "far"]%string.
Definition ex_repo : grepo := {| r_head := ex_head; r_priv := None; r_cache := None; r_index := None; r_icache := None |}.
Definition no_props (_ : bytes) : list (bytes * bytes) := [].
Definition no_excl (_ : gmsg) : bool := false.
Local Notation st k r db := (get_status hash0 V1 pfx [] no_props k r db db).
Local Notation ci k f r db := (commit hash0 V1 pfx [] no_props k no_excl 1 10 f r db).
Local Notation co k f r db := (checkout hash0 V1 pfx [] no_props k no_excl 1 10 f r db).

Lemma sorted_dec l : (fix go l := match l with [] => true | x :: l' => forallb (bltb x) l' && go l' end) l = true -> tsorted l.
Proof.
  unfold tsorted. induction l as [|x l IH]; intros H; [constructor|]. apply andb_true_iff in H as (A & B). constructor; [now apply IH|].
  apply Forall_forall. intros y Y. exact (forallb_In _ _ _ A Y).
Qed.
Lemma tracked_ex id tag : tracked pfx ex_db id tag -> (id = lit "a@x" /\ tag = lit "todo") \/ (id = lit "b@x" /\ tag = lit "bug").
Proof.
  intros (m & A & B & <- & C). cbn in A. destruct A as [<-|[<-|[<-|[]]]]; cbn [g_id g_tags msg map] in *.
  - left. split; [reflexivity|]. destruct C as [C|[C|[]]]; [discriminate C|]. now injection C.
  - right. split; [reflexivity|]. destruct C as [C|[]]. now injection C.
  - destruct C.
Qed.
Lemma ex_ready : ready hash0 V1 pfx [] no_props ex_repo ex_db.
Proof.
  assert (Fn : file_name (lit "a@x") /\ file_name (lit "b@x") /\ file_name (lit "z@x") /\ file_name (lit "todo") /\ file_name (lit "bug") /\ file_name (lit "old") /\ file_name (lit "far"))
    by (unfold file_name; cbn; repeat split; discriminate).
  destruct Fn as (F1 & F2 & F3 & F4 & F5 & F6 & F7).
  split; [exact hash0_ok|]. split.
  { split; [reflexivity|]. split; [cbn; intuition discriminate|reflexivity]. }
  split; [constructor|]. split.
  { split; [|split; [discriminate|]].
    - cbn. repeat constructor; cbn; intuition discriminate.
    - intros m M. cbn in M. destruct M as [<-|[<-|[<-|[]]]]; (split; [split; [reflexivity|cbn; intros c Hc; repeat split; intros ->; intuition discriminate]|]);
        (split; [discriminate|]); (split; [cbn; lia|]); (split; [cbn; lia|]); (split; [apply sorted_dec; vm_compute; reflexivity|]);
        (split; [cbn; intros t Ht; intuition (subst; cbn; reflexivity || lia)|intros ? ? []]). }
  split.
  { intros id tag T. apply tracked_ex in T as [(-> & ->)|(-> & ->)]; auto. }
  split.
  { intros id tag T. split; [discriminate|]. intros r. discriminate. }
  split.
  { split; [apply sorted_dec; vm_compute; reflexivity|]. intros p Hp. cbn [ex_repo r_head ex_head In] in Hp.
    assert (L : forall tag : string, tag = "bug"%string \/ tag = "old"%string \/ tag = "far"%string -> cstr (pfx ++ lit tag) /\ length (pfx ++ lit tag) <= 200 /\ legal_tag (pfx ++ lit tag)).
    { intros tag [->|[->| ->]]; (split; [reflexivity|]); (split; [cbn; lia|]); split; try discriminate; intros r; discriminate. }
    destruct Hp as [<-|[<-|[<-|[<-|[]]]]]; [now left|right|right|right].
    - exists (lit "b@x"), (lit "bug"). split; [now apply path_for_iff; [exact hash0_ok|]|]. repeat (split; [assumption|]). apply (L "bug"%string). auto.
    - exists (lit "b@x"), (lit "old"). split; [now apply path_for_iff; [exact hash0_ok|]|]. repeat (split; [assumption|]). apply (L "old"%string). auto.
    - exists (lit "z@x"), (lit "far"). split; [now apply path_for_iff; [exact hash0_ok|]|]. repeat (split; [assumption|]). apply (L "far"%string). auto. }
  split; [exact I|]. intros h sum X. discriminate X.
Qed.

Example C74_applies :
  ready hash0 V1 pfx [] no_props ex_repo ex_db /\
  snd (st known ex_repo ex_db) = Some {| s_added := [(lit "a@x", lit "todo")]; s_deleted := [(lit "b@x", lit "old")]; s_missing := [(lit "z@x", lit "far")] |} /\
  snd (ci known false ex_repo ex_db) = C_refused /\
  (r_head (fst (ci known true ex_repo ex_db)), snd (ci known true ex_repo ex_db)) =
    ([lit "FORMAT"; tpath "a@x" "todo"; tpath "b@x" "bug"; tpath "z@x" "far"]%string, C_done) /\
  (map g_tags (g_msgs (snd (fst (co known true ex_repo ex_db)))), snd (co known true ex_repo ex_db)) =
    ([[lit "inbox"]; [lit "notmuch::bug"; lit "notmuch::old"]; []], C_done).
Proof. split; [exact ex_ready|]. vm_compute. repeat split. Qed.

(** ** Where it goes wrong *)

(** Messages that are only known as ghosts (someone replied to them): commit deletes their
    tags from HEAD as if the user had removed them. *)
Definition ghost_repo : grepo := {| r_head := [lit "FORMAT"; tpath "g@x" "bug"]%string; r_priv := None; r_cache := None; r_index := None; r_icache := None |}.
Theorem C74_missing_mail_kept_refuted :
  ~ forall r db r' id tag, ready hash0 V1 pfx [] no_props r db -> ci known true r db = (r', C_done) -> ~ is_mail db id ->
    holds hash0 V1 (r_head r) id tag -> holds hash0 V1 (r_head r') id tag.
Proof.
  intros H. specialize (H ghost_repo ex_db (fst (ci known true ghost_repo ex_db)) (lit "g@x") (lit "bug")).
  rewrite !holds_iff in H by exact hash0_ok.
  assert (L : r_head (fst (ci known true ghost_repo ex_db)) = [lit "FORMAT"; tpath "a@x" "todo"; tpath "b@x" "bug"]%string) by (vm_compute; reflexivity).
  rewrite L in H. assert (X : In (tag_path hash0 V1 (lit "g@x") (lit "bug")) [lit "FORMAT"; tpath "a@x" "todo"; tpath "b@x" "bug"]%string).
  { apply H.
    - destruct ex_ready as (E1 & E2 & E3 & E4 & E5 & E6 & (_ & E7) & E8 & E9). repeat (split; [assumption|]). split; [|split; [exact I|intros h sum X; discriminate X]].
      split; [apply sorted_dec; vm_compute; reflexivity|]. intros p Hp. cbn [ghost_repo r_head In] in Hp. destruct Hp as [<-|[<-|[]]]; [now left|right].
      exists (lit "g@x"), (lit "bug"). split; [now apply path_for_iff; [exact hash0_ok|]|]. unfold file_name, legal_tag. cbn. repeat split; try discriminate; try lia.
    - vm_compute. reflexivity.
    - intros (m & A & B & C). cbn in A. destruct A as [<-|[<-|[<-|[]]]]; discriminate.
    - right. now left. }
  apply tmem_In in X. vm_compute in X. discriminate X.
Qed.
Print Assumptions C74_missing_mail_kept_refuted.

(** Without the Python bindings every message counts as known: nothing is ever missing,
    and a commit deletes the tags of all messages the database does not have. *)
Theorem C74_without_bindings_refuted :
  ~ forall r db r' id tag, ci known_search true r db = (r', C_done) -> ~ in_database db id ->
    holds hash0 V1 (r_head r) id tag -> holds hash0 V1 (r_head r') id tag.
Proof.
  intros H. specialize (H ex_repo ex_db (fst (ci known_search true ex_repo ex_db)) (lit "z@x") (lit "far")).
  rewrite !holds_iff in H by exact hash0_ok.
  assert (L : r_head (fst (ci known_search true ex_repo ex_db)) = [lit "FORMAT"; tpath "a@x" "todo"; tpath "b@x" "bug"]%string) by (vm_compute; reflexivity).
  rewrite L in H. assert (X : In (tag_path hash0 V1 (lit "z@x") (lit "far")) [lit "FORMAT"; tpath "a@x" "todo"; tpath "b@x" "bug"]%string).
  { apply H.
    - vm_compute. reflexivity.
    - intros (m & A & B). cbn in A. destruct A as [<-|[<-|[<-|[]]]]; discriminate.
    - cbn. auto. }
  apply tmem_In in X. vm_compute in X. discriminate X.
Qed.
Print Assumptions C74_without_bindings_refuted.

(** The database was replaced (new uuid): the old entries stay in the private index and
    are reported, and committed, as added tags. *)
Definition synced_repo : grepo := fst (st known ex_repo ex_db).
Definition new_db : gdb := {| g_msgs := [msg "b@x" ["notmuch::bug"] 1 true]; g_rev := 1; g_uuid := lit "other" |}%string.
Lemma new_db_ok : db_ok no_props new_db.
Proof.
  split; [|split; [discriminate|]].
  - cbn. repeat constructor; cbn; intuition discriminate.
  - intros m M. cbn in M. destruct M as [<-|[]]; (split; [split; [reflexivity|cbn; intros c Hc; repeat split; intros ->; intuition discriminate]|]);
        (split; [discriminate|]); (split; [cbn; lia|]); (split; [cbn; lia|]); (split; [apply sorted_dec; vm_compute; reflexivity|]);
        (split; [cbn; intros t Ht; intuition (subst; cbn; reflexivity || lia)|intros ? ? []]).
Qed.
Theorem C74_new_database_refuted :
  ~ forall r db s, db_ok no_props db -> snd (st known r db) = Some s ->
    forall id tag, In (id, tag) (s_added s) -> tracked pfx db id tag.
Proof.
  intros H.
  assert (L : snd (st known synced_repo new_db) = Some {| s_added := [(lit "a@x", lit "todo")]; s_deleted := [(lit "b@x", lit "old")]; s_missing := [(lit "z@x", lit "far")] |}) by (vm_compute; reflexivity).
  destruct (H _ _ _ new_db_ok L (lit "a@x") (lit "todo") (or_introl eq_refl)) as (m & A & _ & B & _). destruct A as [<-|[]]. discriminate B.
Qed.
Print Assumptions C74_new_database_refuted.

(** A message was removed from the database: its entries stay in the private index, its
    tags are reported, and committed, as if the message were there. *)
Definition ex_db_removed : gdb :=
  {| g_msgs := [msg "b@x" ["notmuch::bug"] 5 true]; g_rev := 6; g_uuid := lit "uuid" |}%string.
Lemma removed_ok : db_ok no_props ex_db_removed.
Proof.
  split; [|split; [discriminate|]].
  - cbn. repeat constructor; cbn; intuition discriminate.
  - intros m M. cbn in M. destruct M as [<-|[]]; (split; [split; [reflexivity|cbn; intros c Hc; repeat split; intros ->; intuition discriminate]|]);
        (split; [discriminate|]); (split; [cbn; lia|]); (split; [cbn; lia|]); (split; [apply sorted_dec; vm_compute; reflexivity|]);
        (split; [cbn; intros t Ht; intuition (subst; cbn; reflexivity || lia)|intros ? ? []]).
Qed.
Theorem C74_removed_message_refuted :
  ~ forall r0 db r db' s, ready hash0 V1 pfx [] no_props r0 db -> r = fst (st known r0 db) ->
    db_ok no_props db' -> g_uuid db' = g_uuid db -> (g_rev db < g_rev db')%N ->
    (forall m, In m (g_msgs db') -> In m (g_msgs db)) ->
    snd (st known r db') = Some s -> forall id tag, In (id, tag) (s_added s) -> tracked pfx db' id tag.
Proof.
  intros H.
  assert (L : snd (st known synced_repo ex_db_removed) = Some {| s_added := [(lit "a@x", lit "todo")]; s_deleted := [(lit "b@x", lit "old")]; s_missing := [(lit "z@x", lit "far")] |}) by (vm_compute; reflexivity).
  destruct (H ex_repo ex_db synced_repo ex_db_removed _ ex_ready eq_refl removed_ok eq_refl ltac:(reflexivity) ltac:(cbn; tauto) L (lit "a@x") (lit "todo") (or_introl eq_refl)) as (m & A & _ & B & _).
  destruct A as [<-|[]]. discriminate B.
Qed.
Print Assumptions C74_removed_message_refuted.

(** A change between the dump and the writing of the cache file, which records the
    revision of that moment, is not noticed by later runs. *)
Definition ex_db_changed : gdb :=
  {| g_msgs := [msg "a@x" ["inbox"] 6 true; msg "b@x" ["notmuch::bug"] 5 true; msg "g@x" [] 2 false];
     g_rev := 6; g_uuid := lit "uuid" |}%string.
Theorem C74_concurrent_change_refuted :
  ~ forall r0 db db' s, ready hash0 V1 pfx [] no_props r0 db -> evolves db db' ->
    snd (st known (fst (get_status hash0 V1 pfx [] no_props known r0 db db')) db') = Some s ->
    status_exact hash0 V1 pfx (r_head r0) db' s.
Proof.
  intros H.
  assert (L : snd (st known (fst (get_status hash0 V1 pfx [] no_props known ex_repo ex_db ex_db_changed)) ex_db_changed) =
     Some {| s_added := [(lit "a@x", lit "todo")]; s_deleted := [(lit "b@x", lit "old")]; s_missing := [(lit "z@x", lit "far")] |}) by (vm_compute; reflexivity).
  assert (V : evolves ex_db ex_db_changed).
  { split; [reflexivity|]. split.
    - intros m M K. cbn in M. destruct M as [<-|[<-|[<-|[]]]]; [| |discriminate K].
      + eexists. split; [now left|]. repeat split. now right.
      + eexists. split; [right; now left|]. repeat split. now left.
    - intros m M K. cbn in M. destruct M as [<-|[<-|[<-|[]]]]; [now right| |discriminate K]. left. right. now left. }
  destruct (H ex_repo ex_db ex_db_changed _ ex_ready V L) as (S & _).
  destruct (proj1 (S (lit "a@x") (lit "todo")) (or_introl eq_refl)) as ((m & A & _ & B & C) & _).
  cbn in A. destruct A as [<-|[<-|[<-|[]]]]; try discriminate B. cbn in C. destruct C as [C|[]]. discriminate C.
Qed.
Print Assumptions C74_concurrent_change_refuted.

(** A prefix with an upper-case letter finds no tags: the query is lower-cased. *)
Definition upper_db : gdb := {| g_msgs := [msg "b@x" ["N::bug"] 1 true]; g_rev := 1; g_uuid := lit "uuid" |}%string.
Definition empty_repo : grepo := {| r_head := [lit "FORMAT"]; r_priv := None; r_cache := None; r_index := None; r_icache := None |}.
Theorem C74_upper_case_prefix_refuted :
  ~ forall prefix r db s, cstr prefix -> ~ In "~"%char prefix -> db_ok no_props db -> r_cache r = None ->
    snd (get_status hash0 V1 prefix [] no_props known r db db) = Some s ->
    forall id tag, tracked prefix db id tag -> ~ holds hash0 V1 (r_head r) id tag -> In (id, tag) (s_added s).
Proof.
  intros H.
  assert (L : snd (get_status hash0 V1 (lit "N::") [] no_props known empty_repo upper_db upper_db) = Some {| s_added := []; s_deleted := []; s_missing := [] |}) by (vm_compute; reflexivity).
  assert (K : db_ok no_props upper_db).
  2: destruct (H (lit "N::") empty_repo upper_db _ eq_refl ltac:(cbn; intuition discriminate) K eq_refl L (lit "b@x") (lit "bug")).
  all: cycle 1.
  - eexists. split; [now left|]. repeat split. now left.
  - intros X. apply holds_iff in X; [|exact hash0_ok]. destruct X as [X|[]]. discriminate X.
  - split; [|split; [discriminate|]].
    + cbn. repeat constructor; cbn; intuition discriminate.
    + intros m M. cbn in M. destruct M as [<-|[]]; (split; [split; [reflexivity|cbn; intros c Hc; repeat split; intros ->; intuition discriminate]|]);
        (split; [discriminate|]); (split; [cbn; lia|]); (split; [cbn; lia|]); (split; [apply sorted_dec; vm_compute; reflexivity|]);
        (split; [cbn; intros t Ht; intuition (subst; cbn; reflexivity || lia)|intros ? ? []]).
Qed.
Print Assumptions C74_upper_case_prefix_refuted.
