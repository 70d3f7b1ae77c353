(** C76, C77: the structured output of a message. *)
From Verif Require Import Bytes StrUtil Reply Sprinter SprinterSpec SprinterProofs Mime MimeSpec MimeProofs P_Mime P_Sprinter ShowPart ShowPartSpec ShowPartProofs ShowPartProofs2 ShowPartProofs3 ShowPartProofs4 ShowPartProofs5 ShowPartProofs6.
Local Open Scope nat_scope.

Lemma emit_nosep v : filter (fun o => negb (is_separator o)) (emit v) = emit v.
Proof.
  induction v as [s|z|b| |l IH|l IH] using value_ind'; try reflexivity.
  - cbn [emit filter is_separator negb]. f_equal. rewrite filter_app. f_equal. induction IH as [|x r Hx _ IHr]; [reflexivity|]. cbn [flat_map]. now rewrite filter_app, Hx, IHr.
  - cbn [emit filter is_separator negb]. f_equal. rewrite filter_app. f_equal. induction IH as [|x r Hx _ IHr]; [reflexivity|]. cbn [flat_map app filter is_separator negb]. f_equal. now rewrite filter_app, Hx, IHr.
Qed.

(** The tree behind the output. *)
Lemma root_tree fuel c body : depth body <= fuel -> pkcs7_is_not_text body ->
  exists n st1 t m fs l, mime_node_child c (fst (mime_node_root body)) 0 (snd (mime_node_root body)) = Some (Some 1, n, st1) /\
    build fuel c (Some 1) n st1 = Some (t, (m, fs)) /\ okay body n /\ allt (well body) t /\
    shows (S fuel) c body l m /\ oflat t = l /\ parts (denum t) = l /\ map fst l = map Some (seq 1 (length l)).
Proof.
  intros D P. destruct (C55_always_shown c body (S fuel) ltac:(lia)) as (l & m & Sh). assert (N := C55_numbers c body (S fuel) l m ltac:(lia) Sh).
  assert (S0 := Sh). destruct Sh as (fs & V). cbn [visit] in V. set (root := fst (mime_node_root body)) in *. set (st := snd (mime_node_root body)) in *. change (length (n_children root)) with 1 in V.
  cbn [visit_children] in V. destruct (mime_node_child c root 0 st) as [((num, n), st1)|] eqn:M; [|discriminate].
  assert (E1 : num = Some 1).
  { destruct (visit fuel c n st1) as [(l0, (m0, fs0))|]; [|discriminate]. injection V as <- _ _. cbn [map fst length seq] in N. now injection N. }
  subst num. assert (K : okay body n).
  { eapply child_okay; [exact P| |exact M]. intros x [<-|[]]. constructor. }
  exists n, st1. rewrite (visit_build fuel c (Some 1) n st1) in V. destruct (build fuel c (Some 1) n st1) as [(t, (m0, fs0))|] eqn:B; [|discriminate].
  destruct (build_top _ _ _ _ _ _ _ B) as (kids & -> & L). injection V as <- <- <-. exists (OT (Some 1) n kids), m0, fs0. eexists. split; [reflexivity|]. split; [reflexivity|]. split; [exact K|].
  split; [eapply build_well; eauto|]. rewrite app_nil_r in *. split; [exact S0|]. split; [reflexivity|]. split; [|exact N].
  apply numbers_some. cbn [oflat]. apply Forall_forall. intros x I. apply (in_map fst) in I. cbn [map fst] in I, N. rewrite N in I. apply in_map_iff in I as (k & <- & _). discriminate.
Qed.
Lemma all_numbered t l : oflat t = l -> map fst l = map Some (seq 1 (length l)) -> Forall (fun x => fst x <> None) (oflat t).
Proof.
  intros -> N. apply Forall_forall. intros x I. apply (in_map fst) in I. rewrite N in I. apply in_map_iff in I as (k & <- & _). discriminate.
Qed.

(** C76: whatever the message, its parts, headers and signatures, and whatever the options:
    what is printed is the value [v]; it has the structure of devel/schemata; and it says what
    is known of the message, its parts - each in its place, with the number by which it can be
    asked for (C55), all of those the walk of C55 visits, in order - and its status (C54).
    An RFC 8259 reader gets [v] back from the JSON output. *)
Theorem C76_show_message : forall fuel e c try o msg h body, depth body <= fuel -> pkcs7_is_not_text body -> so_body o = true ->
  exists v l m t d,
    format_message fuel e c try o msg h body = Some (emit v) /\
    shows (S fuel) c body l m /\ parts t = l /\
    displays_message e c try o msg h (Some t) m v /\
    tmessage (so_version o) true d v /\
    exists p n, json_run (emit v) json_init = Some p /\ forall k, n <= k -> read_json k (j_out p) = Some (v, [chr 10]).
Proof.
  intros fuel e c try o msg h body D P B. destruct (root_tree fuel c body D P) as (n & st1 & t & m & fs & l & M & T & K & W & S & F & Pt & N).
  exists (VMap (omap (message_fields e c try o msg h (Some t) m))), l, m, (denum t), (height t). split; [|split; [exact S|split; [exact Pt|split; [|split]]]].
  - unfold format_message. rewrite B. destruct (mime_node_root body) as (root, st) eqn:R. cbn [fst snd] in M. rewrite M, (format_build e c try o body P) by exact K. rewrite T.
    f_equal. exact (message_emit e c try o msg h (Some t) m).
  - apply (message_display e c try o body msg h (Some t) m). split; [exact W|eapply all_numbered; eauto].
  - apply (message_schema e c try o body msg h (Some t) m). now split.
  - destruct (C36_json_reads_back (VMap (omap (message_fields e c try o msg h (Some t) m))) _ (emit_nosep _)) as (p & E & n0 & H). exists p, n0. split; [exact E|exact H].
Qed.
Print Assumptions C76_show_message.
(** With --body=false nothing is known of the parts: the status is empty and the subject is
    the one outside. *)
Theorem C76_show_without_body : forall fuel e c try o msg h body, so_body o = false ->
  exists v, format_message fuel e c try o msg h body = Some (emit v) /\
    displays_message e c try o msg h None mcrypto_new v /\ tmessage (so_version o) false 0 v.
Proof.
  intros fuel e c try o msg h body B. exists (VMap (omap (message_fields e c try o msg h None mcrypto_new))). split; [|split].
  - unfold format_message. rewrite B. cbn. f_equal. exact (message_emit e c try o msg h None mcrypto_new).
  - apply (message_display e c try o body msg h None mcrypto_new). exact I.
  - apply (message_schema e c try o body msg h None mcrypto_new). exact I.
Qed.
Print Assumptions C76_show_without_body.
(** The S-expression output reads back too, if the names in show.extra_headers are made of
    letters, digits, '-' and '_' (otherwise see C37_sexp_key_aborts). *)
Theorem C76_show_message_sexp : forall fuel e c try o msg h body, depth body <= fuel -> pkcs7_is_not_text body ->
  (forall n, In n (so_extra o) -> forallb keyword_char n = true) ->
  exists v p n0, format_message fuel e c try o msg h body = Some (emit v) /\
    sexp_run (emit v) sexp_init = Some p /\ forall k, n0 <= k -> read_lisp k (s_out p) = Some (lisp v, [chr 10]).
Proof.
  intros fuel e c try o msg h body D P X.
  assert (G : exists t m, format_message fuel e c try o msg h body = Some (emit (VMap (omap (message_fields e c try o msg h t m))))).
  { destruct (so_body o) eqn:B.
    - destruct (root_tree fuel c body D P) as (n & st1 & t & m & fs & l & M & T & K & _). exists (Some t), m.
      unfold format_message. rewrite B. destruct (mime_node_root body) as (root, st) eqn:R. cbn [fst snd] in M. rewrite M, (format_build e c try o body P) by exact K. rewrite T.
      f_equal. exact (message_emit e c try o msg h (Some t) m).
    - exists None, mcrypto_new. unfold format_message. rewrite B. cbn. f_equal. exact (message_emit e c try o msg h None mcrypto_new). }
  destruct G as (t & m & E). assert (K := good_message e c try o X msg h t m). set (v := VMap (omap (message_fields e c try o msg h t m))) in *.
  destruct (C37_sexp_reads_back v (emit v) (emit_nosep v) K) as (p & R & n & H). exists v, p, n. auto.
Qed.
Print Assumptions C76_show_message_sexp.
(** No key of the headers is printed twice, if no header is listed twice in
    show.extra_headers and none of those shown anyway is listed there. *)
Theorem C76_header_keys_distinct : forall o h ps, NoDup (so_extra o) ->
  (forall a b, In a (so_extra o) -> In b (so_extra o) -> strcaseeq a b = true -> a = b) ->
  (forall n k, In n (so_extra o) -> In k ["Subject"; "From"; "To"; "Cc"; "Bcc"; "Reply-To"; "Date"]%string -> strcaseeq (lit k) n = false) ->
  exists v, format_headers_sprinter o h false ps = emit v /\ NoDup (keys v).
Proof. intros o h ps A B C. exists (headers_value o h false ps). split; [apply headers_emit|now apply headers_nodup]. Qed.
Print Assumptions C76_header_keys_distinct.
(** But with show.extra_headers=Subject the key "Subject" is printed twice, the second time
    with the subject outside, although devel/schemata says that names differ; and most
    readers of JSON take the last one. *)
Theorem C76_header_keys_distinct_always_refuted : forall o h ps outside, In (lit "Subject") (so_extra o) -> get_header (h_all h) (lit "Subject") = Some (lit "Subject", outside) ->
  exists a b c, format_headers_sprinter o h false (Some ps) = emit (VMap (a ++ (lit "Subject", VStr ps) :: b ++ (lit "Subject", VStr outside) :: c)).
Proof.
  intros o h ps outside I G.
  assert (J : In (lit "Subject", VStr outside) (extra_fields o h)) by (unfold extra_fields; apply in_flat_map; exists (lit "Subject"); split; [exact I|rewrite G; now left]).
  apply in_split in J as (x & y & E). exists [], (omap (tl (header_fields h false (Some ps))) ++ x), y. rewrite headers_emit. unfold headers_value. rewrite E. 
  cbn [app]. rewrite <- app_assoc. reflexivity.
Qed.
Print Assumptions C76_header_keys_distinct_always_refuted.
(** The headers of a reply. *)
Theorem C76_reply_headers : forall o h ps, exists v, format_headers_sprinter o h true ps = emit v /\ treply_headers v /\
  field "Subject" v = Some (VStr (match ps with Some s => s | None => cstr (h_subject h) end)) /\
  field "In-reply-to" v = Some (VStr (cstr (h_irt h))) /\ field "References" v = Some (VStr (cstr (h_refs h))).
Proof.
  intros o h ps. exists (headers_value o h true ps). split; [apply headers_emit|]. split; [apply reply_headers_schema|]. unfold headers_value. rewrite app_nil_r. unfold header_fields.
  split; [fields; reflexivity|]. split; fields; reflexivity.
Qed.
Print Assumptions C76_reply_headers.
(** The name and address of a signer are printed only for a good signature by a valid key,
    and "good" only if nothing at all is wrong. *)
Theorem C76_signer : forall o g, exists v, format_signature o g = emit v /\ displays_signature (so_version o) g v /\ tsignature (so_version o) v /\
  (field "userid" v <> None \/ field "email" v <> None -> field "status" v = text "good" /\ exists c, sg_cert g = Some c /\ (ct_validity c = V_full \/ ct_validity c = V_ultimate)) /\
  (field "status" v = text "good" <-> (sg_status g < 4)%N).
Proof.
  intros o g. exists (signature_value o g). split; [apply signature_emit|]. assert (D := signature_displays o g). split; [exact D|]. split; [apply signature_schema|].
  assert (V : verdict_of (sg_status g) = Good <-> (sg_status g < 4)%N).
  { unfold verdict_of. destruct (N.leb_spec 8 (sg_status g)) as [L|L].
    - destruct (N.testbit _ 2); split; intros; try discriminate; lia.
    - assert (X : forall n, (n < 8)%N -> N.testbit n 2 = N.leb 4 n).
      { intros n H. assert (C : (n = 0 \/ n = 1 \/ n = 2 \/ n = 3 \/ n = 4 \/ n = 5 \/ n = 6 \/ n = 7)%N) by lia. repeat (destruct C as [C|C]; [subst n; reflexivity|]). subst n. reflexivity. }
      rewrite X by lia. destruct (N.leb_spec 4 (sg_status g)); split; intros; try discriminate; try lia. reflexivity. }
  split.
  - intros H. rewrite (ds_status _ _ _ D), (ds_userid _ _ _ D), (ds_email _ _ _ D) in *; clear D. destruct (verdict_of (sg_status g)).
    + destruct H as [H|H]; now destruct H.
    + destruct H as [H|H]; now destruct H.
    + split; [reflexivity|]. destruct (sg_cert g) as [ct|]; [|destruct H as [H|H]; now destruct H]. exists ct. split; [reflexivity|]. unfold trusted in H.
      destruct (ct_validity ct); try (destruct H as [H|H]; now destruct H); auto.
  - rewrite <- V, (ds_status _ _ _ D). destruct (verdict_of (sg_status g)); split; intros H; try discriminate; reflexivity.
Qed.
Print Assumptions C76_signer.

(** C77: --part=k prints exactly the value that the whole message shows for part number k -
    it is the part of that value with this number - and nothing if there is no such part. *)
Theorem C77_show_part : forall fuel e c try o msg h body, depth body <= fuel -> pkcs7_is_not_text body -> so_body o = true ->
  exists v l m, format_message fuel e c try o msg h body = Some (emit v) /\ shows (S fuel) c body l m /\
    (forall k, 1 <= k <= length l -> exists n kids v', In (Some k, n) l /\
       show_part (S fuel) e c try o msg h body k = Some (emit v') /\ In v' (subvalues v) /\
       field "id" v' = Some (VInt (Z.of_nat k)) /\ displays_part e c try o (PT k n kids) v') /\
    (forall k, length l < k -> show_part (S fuel) e c try o msg h body k = Some []).
Proof.
  intros fuel e c try o msg h body D P B. destruct (root_tree fuel c body D P) as (n & st1 & t & m & fs & l & M & T & K & W & S & F & Pt & N).
  exists (VMap (omap (message_fields e c try o msg h (Some t) m))), l, m. split; [|split; [exact S|]].
  { unfold format_message. rewrite B. destruct (mime_node_root body) as (root, st) eqn:R. cbn [fst snd] in M. rewrite M, (format_build e c try o body P) by exact K. rewrite T.
    f_equal. exact (message_emit e c try o msg h (Some t) m). }
  assert (LS : length (subs t) = length l) by (rewrite <- F, <- subs_flat; now rewrite map_length).
  assert (FD : forall k, find_dfs (Datatypes.S fuel) c (Some 0) (fst (mime_node_root body)) (Datatypes.S k) (snd (mime_node_root body)) =
    match find_dfs fuel c (Some 1) n k st1 with Some (inl r) => Some (inl r) | Some (inr (k', (m, fs))) => Some (inr (k', (m, tl fs))) | None => None end).
  { intros k. cbn [find_dfs]. change (length (n_children (fst (mime_node_root body)))) with 1. cbn [find_children]. rewrite M. destruct (find_dfs fuel c (Some 1) n k st1) as [[?|(k', (m', fs'))]|]; reflexivity. }
  assert (FB := find_build c fuel (Some 1) n st1 t (m, fs) T).
  split.
  - intros [|k] (L1 & L2); [lia|]. specialize (FB k). destruct (nth_error (subs t) k) as [s|] eqn:E; [|apply nth_error_None in E; lia].
    assert (E' : nth_error l k = Some (top s)) by (rewrite <- F, <- subs_flat; now apply map_nth_error).
    assert (NK : fst (top s) = Some (Datatypes.S k)).
    { assert (X := map_nth_error fst k l E'). rewrite N in X. rewrite (map_nth_error Some k (seq 1 (length l)) (d := 1 + k)) in X; [now injection X as <-|].
      rewrite (nth_error_nth' _ 0) by (rewrite seq_length; lia). now rewrite seq_nth by lia. }
    destruct s as [nu n' kids]. cbn [top fst snd] in *. subst nu. destruct FB as (st2 & st3 & FB & B2).
    exists n', (map denum kids), (part_value e c try o (OT (Some (Datatypes.S k)) n' kids)). assert (I := nth_error_In _ _ E). apply nth_error_In in E'. split; [exact E'|].
    destruct (part_inside e c try o body t W _ I) as (IN & W').
    assert (NN : Forall (fun x => fst x <> None) (oflat (OT (Some (Datatypes.S k)) n' kids))).
    { apply Forall_forall. intros x J. assert (A := all_numbered t l F N). rewrite Forall_forall in A. apply A. rewrite <- subs_flat. rewrite <- subs_flat in J. apply in_map_iff in J as (s & <- & J).
      apply in_map_iff. exists s. split; [reflexivity|]. clear - I J. revert I J. generalize (OT (Some (Datatypes.S k)) n' kids). intros u.
      induction t as [num0 n0 kids0 IH] using otree_ind'. intros I J. cbn [subs] in I. destruct I as [<-|I]; [exact J|]. cbn [subs]. right.
      apply in_concat in I as (ll & I1 & I2). apply in_map_iff in I1 as (t1 & <- & I1). apply in_concat. exists (subs t1). split; [now apply in_map|]. rewrite Forall_forall in IH. now apply IH. }
    assert (DP := part_display e c try o body _ W' NN). cbn [denum] in DP.
    assert (V : n' = snd (top (OT (Some (Datatypes.S k)) n' kids))) by reflexivity.
    split; [|split; [|split]].
    + unfold show_part. destruct (mime_node_root body) as (root, st) eqn:R. cbn [fst snd] in FD. rewrite FD, FB. rewrite (format_build e c try o body P).
      * rewrite (build_mono _ _ _ _ _ _ B2). reflexivity.
      * cbn [allt] in W'. exact (proj1 (proj1 W')).
    + eapply sub_field; [|]. { unfold message_fields. cbn [option_map]. do 8 right. now left. } eapply sub_list; [now left|exact IN].
    + now inversion DP.
    + exact DP.
  - intros [|k] L; [lia|]. specialize (FB k). destruct (nth_error (subs t) k) as [s|] eqn:E. { assert (nth_error (subs t) k <> None) as X by congruence. apply nth_error_Some in X. lia. }
    unfold show_part. destruct (mime_node_root body) as (root, st) eqn:R. cbn [fst snd] in FD. now rewrite FD, FB.
Qed.
Print Assumptions C77_show_part.

(** ** A concrete message *)

(** The encrypted and signed message of P_Mime.v, with the subject "..." outside. *)
Definition ex_key : cert := {| ct_fpr := Some (lit "0123456789ABCDEF0123"); ct_uid := Some (lit "A <a@x>"); ct_email := Some (lit "a@x"); ct_validity := V_full |}.
Definition ex_gmime : gmime := {|
  g_sigs := fun _ => [{| sg_status := 1; sg_cert := Some ex_key; sg_created := 5; sg_expires := 0 |};
                      {| sg_status := 164; sg_cert := Some ex_key; sg_created := 5; sg_expires := 0 |}];
  g_disposition := fun _ => None; g_cid := fun _ => None; g_filename := fun _ => None; g_charset := fun _ => Some (lit "utf-8"); g_cte := fun _ => None;
  g_length := fun _ => 7%Z;
  g_headers := fun _ => {| h_subject := None; h_from := None; h_to := None; h_cc := None; h_bcc := None; h_reply_to := None; h_irt := None; h_refs := None; h_date := []; h_all := [] |} |}.
Definition ex_opts (body : bool) : sopts := {| so_version := 5; so_body := body; so_html := false; so_duplicate := 0; so_extra := [lit "list-id"] |}.
Definition ex_msg : smsg := {| sm_id := lit "m@x"; sm_match := true; sm_excluded := false; sm_files := [lit "/mail/1"]; sm_date := 1; sm_relative := lit "today"; sm_tags := [lit "inbox"; lit "unread"] |}.
Definition ex_hdrs : hdrs := {| h_subject := Some (lit "..."); h_from := Some (lit "a@x"); h_to := Some (lit "b@x"); h_cc := None; h_bcc := None; h_reply_to := None; h_irt := None; h_refs := None;
  h_date := lit "Thu, 01 Jan 1970 00:00:01 +0000"; h_all := [(lit "Subject", lit "..."); (lit "List-Id", lit "l")] |}.
Definition ex_output (body : bool) : option bytes :=
  match format_message 9 ex_gmime both true (ex_opts body) ex_msg ex_hdrs ex_message with
  | Some calls => option_map j_out (json_run calls json_init)
  | None => None
  end.
Definition sig_text : string := "[{""status"": ""good"", ""fingerprint"": ""0123456789ABCDEF0123"", ""created"": 5, ""userid"": ""A <a@x>"", ""email"": ""a@x""}, {""status"": ""bad"", ""keyid"": ""456789ABCDEF0123"", ""errors"": {""key-expired"": true, ""key-missing"": true}}]".
(** No PKCS#7 part inside. *)
Fixpoint no_pkcs7 (o : obj) : bool :=
  match o with
  | OPart _ _ => true
  | OMulti _ _ ch _ dec => forallb no_pkcs7 ch && match dec with Some (x, _) => no_pkcs7 x | None => true end
  | OMessage _ _ b => no_pkcs7 b
  | OPkcs7 _ _ _ _ => false
  end.
Lemma within_no_pkcs7 a b : within a b -> no_pkcs7 b = true -> no_pkcs7 a = true.
Proof.
  induction 1 as [|i k ch s d x I W IH|i k ch s x sg W IH|i s x W IH|i t s x d W IH|i t v x sg W IH]; cbn [no_pkcs7]; intros H; auto; try discriminate.
  - apply andb_true_iff in H as (H & _). rewrite forallb_forall in H. auto.
  - apply andb_true_iff in H as (_ & H). auto.
Qed.
Example C76_example : depth ex_message <= 9 /\ pkcs7_is_not_text ex_message /\
  ex_output true = Some (lit ("{""id"": ""m@x"", ""match"": true, ""excluded"": false, ""filename"": [""/mail/1""], ""timestamp"": 1, ""date_relative"": ""today"", ""tags"": [""inbox"", ""unread""], ""duplicate"": 1, "
    ++ """body"": [{""id"": 1, ""encstatus"": [{""status"": ""good""}], ""content-type"": ""multipart/encrypted"", ""content"": ["
    ++ "{""id"": 2, ""content-type"": ""application/pgp-encrypted"", ""content-charset"": ""utf-8"", ""content-length"": 7}, "
    ++ "{""id"": 3, ""sigstatus"": " ++ sig_text ++ ", ""content-type"": ""multipart/signed"", ""content"": ["
    ++ "{""id"": 4, ""content-type"": ""text/plain"", ""content"": ""hello""}, "
    ++ "{""id"": 5, ""content-type"": ""application/pgp-signature"", ""content-charset"": ""utf-8"", ""content-length"": 7}]}]}], "
    ++ """crypto"": {""signed"": {""status"": " ++ sig_text ++ ", ""encrypted"": true, ""headers"": [""Subject""]}, ""decrypted"": {""status"": ""full"", ""header-mask"": {""Subject"": ""...""}}}, "
    ++ """headers"": {""Subject"": ""real"", ""From"": ""a@x"", ""To"": ""b@x"", ""Date"": ""Thu, 01 Jan 1970 00:00:01 +0000"", ""List-Id"": ""l""}}")%string ++ [chr 10]).
Proof.
  split; [vm_compute; lia|]. split; [|vm_compute; reflexivity].
  intros i t v d W. assert (X := within_no_pkcs7 _ _ W eq_refl). discriminate X.
Qed.
(** --body=false, which is said to leave the bodies out, prints the subject outside where the
    full output has the encrypted one, and says nothing of encryption and signature. *)
Theorem C76_body_false_only_omits_the_body_refuted : exists e c try o o' msg h body v v',
  so_body o = true /\ o' = {| so_version := so_version o; so_body := false; so_html := so_html o; so_duplicate := so_duplicate o; so_extra := so_extra o |} /\
  format_message (depth body) e c try o msg h body = Some (emit v) /\ format_message (depth body) e c try o' msg h body = Some (emit v') /\
  (exists hv, field "headers" v = Some hv /\ field "Subject" hv = text "real") /\
  (exists hv, field "headers" v' = Some hv /\ field "Subject" hv = text "...") /\
  (exists cv, field "crypto" v = Some cv /\ field "decrypted" cv <> None /\ field "signed" cv <> None) /\ field "crypto" v' = Some (VMap []).
Proof.
  destruct C76_example as (D & P & _). set (o := ex_opts true). set (o' := ex_opts false).
  destruct (root_tree (depth ex_message) both ex_message (le_n _) P) as (n & st1 & t & m & fs & l & M & T & K & W & Sh & F & Pt & N).
  exists ex_gmime, both, true, o, o', ex_msg, ex_hdrs, ex_message.
  exists (VMap (omap (message_fields ex_gmime both true o ex_msg ex_hdrs (Some t) m))), (VMap (omap (message_fields ex_gmime both true o' ex_msg ex_hdrs None mcrypto_new))).
  assert (Hm : m = {| m_dec := DEC_FULL; m_sigs := Some 7; m_payload := true; m_psubject := Some (lit "real"); m_sigenc := true |}).
  { destruct Sh as (fs' & V). assert (V' : visit (S (depth ex_message)) both (fst (mime_node_root ex_message)) (snd (mime_node_root ex_message)) <> None) by (vm_compute; discriminate).
    assert (V2 : match visit (S (depth ex_message)) both (fst (mime_node_root ex_message)) (snd (mime_node_root ex_message)) with Some (_, (m, _)) => Some m | None => None end =
      Some {| m_dec := DEC_FULL; m_sigs := Some 7; m_payload := true; m_psubject := Some (lit "real"); m_sigenc := true |}) by (vm_compute; reflexivity).
    rewrite V in V2. now injection V2. }
  split; [reflexivity|]. split; [reflexivity|]. split.
  { unfold format_message. change (so_body o) with true. destruct (mime_node_root ex_message) as (root, st) eqn:R. cbn [fst snd] in M. rewrite M, (format_build ex_gmime both true o ex_message P) by exact K. rewrite T.
    f_equal. exact (message_emit ex_gmime both true o ex_msg ex_hdrs (Some t) m). }
  split. { unfold format_message. change (so_body o') with false. destruct (mime_node_root ex_message) as (root, st) eqn:R. assert (st = snd (mime_node_root ex_message)) as -> by now rewrite R.
    change (fst (snd (mime_node_root ex_message))) with mcrypto_new. reflexivity. }
  subst m. split; [eexists; split; [unfold message_fields; fields; reflexivity|reflexivity]|]. split; [eexists; split; [unfold message_fields; fields; reflexivity|reflexivity]|].
  split; [|reflexivity]. eexists. split; [unfold message_fields; fields; reflexivity|]. split; vm_compute; discriminate.
Qed.
Print Assumptions C76_body_false_only_omits_the_body_refuted.
