(** C81: the text and raw output of notmuch show. *)
From Verif Require Import Bytes StrUtil Decimal Reply Sprinter Mime MimeSpec MimeProofs P_Mime ShowPart ShowPartSpec ShowPartProofs ShowPartProofs2 ShowPartProofs4 P_ShowPart ShowText ShowTextSpec ShowTextProofs.
Local Open Scope nat_scope.

Lemma message_render depth from msg h body : render (message_item depth from msg h body) =
  message_line depth msg ++ header_text (Some (get_one_line_summary from msg)) h ++ flat_map render body ++ close_line (lit "message").
Proof.
  unfold message_item. cbn [render flat_map]. rewrite (header_render (Some _)). unfold message_line, close_line, get_one_line_summary.
  rewrite join_space_tags. unfold flag, or_null, pct_s. cbn [app]. rewrite <- ?app_assoc. cbn [app]. rewrite <- ?app_assoc. reflexivity.
Qed.
Lemma decz_one z : one_line (decz z).
Proof. destruct z; [apply dec_one|apply dec_one|]. intros [H|H]; [discriminate H|]. now apply dec_one in H. Qed.
Lemma tags_one l : Forall one_line l -> one_line (join_space l).
Proof.
  intros H. rewrite join_space_tags. destruct H as [|x l Hx H]; [intros []|]. cbn [get_tags_as_string]. apply one_app; [exact Hx|].
  induction H as [|y l Hy _ IH]; [intros []|]. cbn [flat_map]. apply one_app; [apply one_app; [one_lit|exact Hy]|exact IH].
Qed.
Lemma message_good depth from msg h body : harmless_message from msg h -> Forall goodi body -> goodi (message_item depth from msg h body).
Proof.
  intros (A1 & A2 & A3 & A4 & A5 & A6 & A7) B. unfold message_item. apply goodi_block; [reflexivity| |].
  - assert (F : one_line (flag (sm_match msg)) /\ one_line (flag (sm_excluded msg))) by (split; [destruct (sm_match msg)|destruct (sm_excluded msg)]; one_lit).
    destruct F as [F1 F2]. repeat (apply one_app; [try one_lit; assumption || apply decz_one|]).
    apply or_null_one. destruct (sm_files msg); [exact Logic.I|]. now inversion A6.
  - constructor; [|exact B]. apply header_good; [exact A7|]. constructor; [|constructor]. split.
    + apply one_app; [exact A1|]. apply one_app; [one_lit|]. apply one_app; [exact A4|]. apply one_app; [one_lit|]. apply one_app; [now apply tags_one|one_lit].
    + apply mark_text. destruct from; [discriminate|exact A2].
Qed.

(** What notmuch show --format=text prints of a message is read back as: the message, with
    its headers, and in its body the parts that the walk of C55 visits, each in its place,
    with its number, its text or a note that it is not text -- whatever the message, if no
    piece of it can be taken for one of the lines that open and close. *)
Theorem C81_text_reads_back : forall fuel e c o dep from msg h body, depth body <= fuel -> pkcs7_is_not_text body -> so_body o = true ->
  harmless_message from msg h ->
  (forall l m, shows (S fuel) c body l m -> Forall (fun x => harmless_part e o (snd x)) l) ->
  exists out l m t, text_message fuel e c o dep from msg h body = Some out /\
    shows (S fuel) c body l m /\ parts t = l /\ map fst l = map Some (seq 1 (length l)) /\
    read_text out = Some [message_item dep from msg h [Block (lit "body") [] [part_item e o t]]].
Proof.
  intros fuel e c o dep from msg h body D P B H Hp.
  destruct (root_tree fuel c body D P) as (n & st1 & t & m & fs & l & M & T & K & W & S & F & Pt & N).
  assert (Pl : plain_tree e o t).
  { unfold plain_tree. rewrite F. apply Forall_forall. intros x I. split.
    - apply (in_map fst) in I. rewrite N in I. apply in_map_iff in I as (k & <- & _). discriminate.
    - specialize (Hp l m S). rewrite Forall_forall in Hp. now apply Hp. }
  assert (X := text_build e c o B body P fuel (Some 1) n st1 K). rewrite T in X. specialize (X Pl).
  exists (render (message_item dep from msg h [Block (lit "body") [] [part_item e o (denum t)]])), l, m, (denum t).
  split; [|split; [exact S|split; [exact Pt|split; [exact N|]]]].
  - unfold text_message. rewrite B. cbn [negb]. destruct (mime_node_root body) as (root, st). cbn [fst snd] in M.
    cbn [text_children]. rewrite M, X. f_equal. rewrite message_render. cbn [flat_map render]. rewrite !app_nil_r. unfold close_line.
    cbn [app]. rewrite <- ?app_assoc. cbn [app]. rewrite <- ?app_assoc. reflexivity.
  - apply read_render. apply message_good; [exact H|]. constructor; [|constructor]. apply goodi_block; [reflexivity|intros []|].
    constructor; [|constructor]. eapply part_good; eauto.
Qed.
(** With --body=false: the message and its headers. *)
Theorem C81_text_without_body : forall fuel e c o dep from msg h body, so_body o = false -> harmless_message from msg h ->
  exists out, text_message fuel e c o dep from msg h body = Some out /\ read_text out = Some [message_item dep from msg h []].
Proof.
  intros fuel e c o dep from msg h body B H. exists (render (message_item dep from msg h [])). split.
  - unfold text_message. rewrite B. f_equal. rewrite message_render. cbn [flat_map app negb]. now rewrite <- app_assoc.
  - apply read_render, message_good; [exact H|constructor].
Qed.
(** Several outputs one after the other are read as what each of them is read as. *)
Theorem C81_one_after_another : forall a b x y, read_text a = Some x -> read_text b = Some y -> read_text (a ++ b) = Some (x ++ y).
Proof.
  intros a b x y. unfold read_text. destruct (lines_of a) as [la|] eqn:Ea; [|discriminate]. destruct (lines_of b) as [lb|] eqn:Eb; [|discriminate].
  assert (L : lines_of (a ++ b) = Some (la ++ lb)).
  { unfold lines_of in *. assert (G : forall a cur la, lines_from cur a = Some la -> lines_from cur (a ++ b) = Some (la ++ lb)); [|now apply G].
    clear a la Ea. induction a as [|c a IH]; intros cur la Ea; cbn [app lines_from] in *.
    - destruct cur; [|discriminate]. injection Ea as <-. exact Eb.
    - destruct (beq c (chr 10)); [|now apply IH]. destruct (lines_from [] a) as [l|] eqn:E; [|discriminate]. injection Ea as <-. now rewrite (IH [] l E). }
  rewrite L. assert (R : forall la open acc r, read_items la open acc = Some r -> read_items (la ++ lb) open acc = read_items lb [] (rev r)).
  { clear. induction la as [|l la IH]; intros open acc r E; cbn [app read_items] in *.
    - destruct open; [|discriminate]. injection E as <-. now rewrite rev_involutive.
    - destruct (mark_of l); [now apply IH| |now apply IH]. destruct open as [|((k, h), bf) open]; [discriminate|]. destruct (bseq kind k); [now apply IH|discriminate]. }
  intros X Y. rewrite (R _ _ _ _ X).
  assert (Z : forall lb (open : list (bytes * bytes * list item)) acc z y, read_items lb open acc = Some y ->
    read_items lb (match rev open with [] => [] | (k, h, bf) :: r => rev r ++ [(k, h, bf ++ z)] end) (match open with [] => acc ++ z | _ => acc end) = Some (rev z ++ y)).
  { clear. induction lb as [|l lb IH]; intros open acc z y E; cbn [read_items] in *.
    - destruct open as [|o0 open]; [|discriminate]. injection E as <-. cbn. now rewrite rev_app_distr.
    - destruct (mark_of l) as [k h|k|].
      + specialize (IH _ _ z _ E). rewrite <- IH. destruct open as [|o0 open]; cbn [rev app] in *; [reflexivity|].
        cbn [rev]. destruct (rev open ++ [o0]) as [|((k1, h1), b1) r] eqn:Q; [now destruct (rev open)|]. cbn [app]. rewrite rev_app_distr. reflexivity.
      + destruct open as [|((k', h), bf) open]; [discriminate|]. destruct (bseq k k') eqn:Ek; [|discriminate]. specialize (IH _ _ z _ E).
        rewrite <- IH. cbn [rev]. destruct open as [|o1 open].
        * cbn. rewrite Ek. reflexivity.
        * cbn [rev]. destruct (rev open ++ [o1]) as [|((k1, h1), b1) r] eqn:Q; [now destruct (rev open)|]. cbn [app]. rewrite rev_app_distr. cbn. rewrite Ek. reflexivity.
      + specialize (IH _ _ z _ E). rewrite <- IH. destruct open; reflexivity. }
  specialize (Z lb [] [] (rev x) y Y). cbn in Z. rewrite rev_involutive in Z. exact Z.
Qed.

(** ** Which file is shown *)
(** With --duplicate=N, N from 1: the N-th file or an error. *)
Theorem C81_duplicate : forall can n files, (0 < n)%nat ->
  mime_node_open_file can (Z.of_nat n) files =
    match nth_error files (n - 1) with Some f => if can f then Some f else None | None => None end /\
  raw_file can (Z.of_nat n) files = mime_node_open_file can (Z.of_nat n) files.
Proof.
  intros can n files Hn.
  assert (L : forall files i, (0 < i)%nat -> open_loop can (Z.of_nat n) (Z.of_nat i) files =
    match nth_error files (n - i) with Some f => if can f then Some f else None | None => None end).
  { clear files. induction files as [|f r IH]; intros i Hi; [now destruct (n - i)|]. cbn [open_loop].
    destruct (Z.leb_spec (Z.of_nat n) (Z.of_nat i)) as [Le|Lt].
    - replace (n - i) with 0 by lia. cbn. destruct (can f); [reflexivity|]. destruct (Z.ltb_spec 0 (Z.of_nat n)); [reflexivity|lia].
    - replace (Z.of_nat i + 1)%Z with (Z.of_nat (S i)) by lia. rewrite IH by lia. replace (n - i) with (S (n - S i)) by lia. reflexivity. }
  assert (G : forall files i, (0 < i)%nat -> get_filename (Z.of_nat n) (Z.of_nat i) files = nth_error files (n - i)).
  { clear files L. induction files as [|f r IH]; intros i Hi; [now destruct (n - i)|]. cbn [get_filename].
    destruct (Z.leb_spec (Z.of_nat n) (Z.of_nat i)) as [Le|Lt]; [now replace (n - i) with 0 by lia|].
    replace (Z.of_nat i + 1)%Z with (Z.of_nat (S i)) by lia. rewrite IH by lia. now replace (n - i) with (S (n - S i)) by lia. }
  assert (E : mime_node_open_file can (Z.of_nat n) files = open_loop can (Z.of_nat n) 1 files).
  { unfold mime_node_open_file. destruct files as [|f r]; [reflexivity|]. destruct (Z.leb_spec (Z.of_nat n) 0); [lia|reflexivity]. }
  assert (L1 := L files 1 ltac:(lia)). assert (G1 := G files 1 ltac:(lia)). change (Z.of_nat 1) with 1%Z in L1, G1.
  rewrite E, L1. split; [reflexivity|]. unfold raw_file. now rewrite G1.
Qed.
(** Without it: the first file that can be opened, in the formats that look into the mail. *)
Theorem C81_first_readable : forall can dup files, (dup <= 0)%Z -> mime_node_open_file can dup files = find can files.
Proof.
  intros can dup files Hd.
  assert (L : forall files i, (0 < i)%Z -> open_loop can dup i files = find can files).
  { clear files. induction files as [|f r IH]; intros i Hi; [reflexivity|]. cbn. destruct (Z.leb_spec dup i); [|lia].
    destruct (can f); [reflexivity|]. destruct (Z.ltb_spec 0 dup); [lia|]. apply IH. lia. }
  unfold mime_node_open_file. destruct files as [|f r]; [reflexivity|]. destruct (Z.leb_spec dup 0); [|lia]. cbn [andb].
  destruct (can f) eqn:C; [cbn; now rewrite C|]. apply L. lia.
Qed.
(** Not so in raw output: if the first file is gone, it fails although another file is there. *)
Theorem C81_raw_first_readable_refuted : ~ (forall can dup files, (dup <= 0)%Z -> raw_file can dup files = find can files).
Proof.
  intros H. specialize (H (fun f => bseq f (lit "b")) 0%Z [lit "a"; lit "b"] ltac:(lia)). vm_compute in H. discriminate H.
Qed.

(** Raw output of a message: exactly what the file holds; in case of a read error, what was
    read up to there, and failure. *)
Theorem C81_raw : forall r,
  (snd (raw_loop r) = true <-> ~ In None r) /\
  exists n, fst (raw_loop r) = concat (map (fun x => match x with Some b => b | None => [] end) (firstn n r)) /\ (snd (raw_loop r) = true -> n = length r) /\
    (snd (raw_loop r) = false -> nth_error r n = Some None /\ ~ In None (firstn n r)).
Proof.
  induction r as [|[b|] r IH]; cbn [raw_loop].
  - split; [cbn; intuition|]. exists 0. cbn. intuition discriminate.
  - destruct IH as (A & n & E1 & E2 & E3). destruct (raw_loop r) as [out ok]. cbn [fst snd] in *. split.
    + rewrite A. split; intros H I; apply H; [destruct I as [I|I]; [discriminate|exact I]|now right].
    + exists (S n). cbn [firstn map concat length nth_error]. rewrite E1. split; [reflexivity|]. split; [intros H; now rewrite E2|].
      intros H. destruct (E3 H) as [X Y]. split; [exact X|]. intros [I|I]; [discriminate|auto].
  - cbn [fst snd]. split; [split; [discriminate|]; intros H; elim H; now left|]. exists 0. cbn. split; [reflexivity|]. split; [discriminate|]. intros _. split; [reflexivity|intros []].
Qed.

(** ** A case *)
Definition ex_info (mime text : string) : info :=
  {| o_mime := lit mime; o_protected := None; o_forwarded := None; o_protocol := None; o_subject := None; o_text := lit text; o_attachment := None |}.
Definition nlb : string := String (chr 10) EmptyString.
Definition ffb : string := String (chr 12) EmptyString.
Definition ex_plain (t : string) : obj := OPart (ex_info "text/plain" t) true.
Definition ex_mixed (t : string) : obj := OMulti (ex_info "multipart/mixed" "") MPlain [ex_plain t; OPart (ex_info "image/png" "x") false] None None.
Definition ex_hdrs : hdrs := {| h_subject := Some (lit "hi"); h_from := Some (lit "a@b"); h_to := Some (lit "c@d"); h_cc := None; h_bcc := None;
  h_reply_to := None; h_irt := None; h_refs := None; h_date := lit "today"; h_all := [] |}.
Definition ex_gm : gmime := {| g_sigs := fun _ => []; g_disposition := fun _ => None; g_cid := fun _ => None; g_filename := fun _ => None;
  g_charset := fun _ => None; g_cte := fun _ => None; g_length := fun _ => (-1)%Z; g_headers := fun _ => ex_hdrs |}.
Definition ex_sm : smsg := {| sm_id := lit "m@x"; sm_match := true; sm_excluded := false; sm_files := [lit "/m/1"]; sm_date := 0%Z; sm_relative := lit "now"; sm_tags := [lit "inbox"; lit "unread"] |}.
Definition ex_so : sopts := {| so_version := 5; so_body := true; so_html := false; so_duplicate := 0%Z; so_extra := [] |}.
Definition ex_cc : cctx := {| c_verify := false; c_decrypt := false |}.
Definition ex_text (t : string) : option bytes := text_message 5 ex_gm ex_cc ex_so 0 (lit "a@b") ex_sm ex_hdrs (ex_mixed t).
Definition ex_msg_text (inside : list item) : item := message_item 0 (lit "a@b") ex_sm ex_hdrs [Block (lit "body") [] inside].
Definition ex_parts (texts : list item) : list item :=
  [Block (lit "part") (lit " ID: 1, Content-type: multipart/mixed")
    [Block (lit "part") (lit " ID: 2, Content-type: text/plain") texts;
     Block (lit "part") (lit " ID: 3, Content-type: image/png") [Line (lit "Non-text part: image/png")]]].
Example C81_example : match ex_text ("one" ++ nlb ++ "two" ++ nlb) with Some out => read_text out | None => None end =
  Some [ex_msg_text (ex_parts [Line (lit "one"); Line (lit "two")])].
Proof. vm_compute. reflexivity. Qed.
Example C81_example_harmless : harmless_message (lit "a@b") ex_sm ex_hdrs /\ harmless (lit ("one" ++ nlb ++ "two" ++ nlb)).
Proof.
  split.
  - repeat split; try one_lit; try discriminate; repeat constructor; one_lit.
  - exists [lit "one"; lit "two"]. split; [reflexivity|]. intros l [<-|[<-|[]]]; split; (one_lit || discriminate).
Qed.
(** Text can forge parts: here the reader sees an attachment that does not exist. *)
Theorem C81_forged_part_refuted :
  ~ (forall fuel e c o dep from msg h body, depth body <= fuel -> pkcs7_is_not_text body -> so_body o = true -> harmless_message from msg h ->
     exists out l m t, text_message fuel e c o dep from msg h body = Some out /\ shows (S fuel) c body l m /\ parts t = l /\
       read_text out = Some [message_item dep from msg h [Block (lit "body") [] [part_item e o t]]]).
Proof.
  set (forged := (ffb ++ "part}" ++ nlb ++ ffb ++ "attachment{ ID: 9" ++ nlb)%string).
  intros H. specialize (H 5 ex_gm ex_cc ex_so 0%Z (lit "a@b") ex_sm ex_hdrs (ex_plain forged)).
  destruct H as (out & l & m & t & E & _ & _ & R); [cbn; lia| |reflexivity|apply C81_example_harmless|].
  - intros i t v d W. inversion W.
  - assert (X : match text_message 5 ex_gm ex_cc ex_so 0 (lit "a@b") ex_sm ex_hdrs (ex_plain forged) with Some out => read_text out | None => None end = None) by (vm_compute; reflexivity).
    rewrite E in X. congruence.
Qed.
Example C81_forged_attachment :
  match ex_text (ffb ++ "part}" ++ nlb ++ ffb ++ "attachment{ ID: 9" ++ nlb ++ "x" ++ nlb ++ ffb ++ "attachment}" ++ nlb ++ ffb ++ "part{" ++ nlb) with Some out => read_text out | None => None end =
  Some [ex_msg_text [Block (lit "part") (lit " ID: 1, Content-type: multipart/mixed")
    [Block (lit "part") (lit " ID: 2, Content-type: text/plain") []; Block (lit "attachment") (lit " ID: 9") [Line (lit "x")]; Block (lit "part") [] [];
     Block (lit "part") (lit " ID: 3, Content-type: image/png") [Line (lit "Non-text part: image/png")]]]].
Proof. vm_compute. reflexivity. Qed.
(** Text whose last line is not ended swallows the line that closes the part. *)
Example C81_unended_text : match ex_text "hi" with Some out => read_text out | None => None end = None.
Proof. vm_compute. reflexivity. Qed.
(** With --duplicate the opening line still names the first file. *)
Theorem C81_line_names_file_refuted : ~ (forall can dup msg f, mime_node_open_file can dup (sm_files msg) = Some f ->
  exists a, message_line 0 msg = a ++ lit " filename:" ++ f ++ [LF]).
Proof.
  intros H. destruct (H (fun _ => true) 2%Z {| sm_id := lit "m@x"; sm_match := true; sm_excluded := false; sm_files := [lit "/a"; lit "/b"]; sm_date := 0%Z; sm_relative := []; sm_tags := [] |} (lit "/b") eq_refl) as (a & E).
  apply (f_equal (fun s => firstn 2 (rev s))) in E. rewrite !rev_app_distr in E. vm_compute in E. discriminate E.
Qed.
Print Assumptions C81_text_reads_back.
Print Assumptions C81_text_without_body.
Print Assumptions C81_one_after_another.
Print Assumptions C81_duplicate.
Print Assumptions C81_first_readable.
Print Assumptions C81_raw_first_readable_refuted.
Print Assumptions C81_raw.
Print Assumptions C81_forged_part_refuted.
Print Assumptions C81_line_names_file_refuted.
