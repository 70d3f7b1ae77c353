(** C82: the layout of what notmuch search, address and reply print. *)
From Verif Require Import Bytes StrUtil Decimal XQuery Thread Query SearchCmd Address Sprinter SprinterSpec SprinterProofs Mime MimeSpec P_Mime P_Sprinter ShowPart ShowPartSpec ShowPartProofs ShowPartProofs3 ShowPartProofs6 P_ShowPart ShowTextSpec ShowTextProofs SearchOut SearchOutSpec SearchOutProofs RelDate.
From Coq Require Import Lia ZArith.
Local Open Scope nat_scope.

(** What is printed is [v], and readers of JSON and of S-expressions get it back. *)
Definition outputs (calls : list op) (v : value) : Prop :=
  printing v calls /\
  (exists p n, json_run calls json_init = Some p /\ forall k, n <= k -> read_json k (j_out p) = Some (v, [chr 10])) /\
  (exists p n, sexp_run calls sexp_init = Some p /\ forall k, n <= k -> read_lisp k (s_out p) = Some (lisp v, [chr 10])).
Lemma outputs_of calls v : printing v calls -> aggregate v = true -> good_keys v -> outputs calls v.
Proof.
  intros P A G. split; [exact P|]. split.
  - destruct (C36_json_reads_back v calls P) as (p & E & n & R). rewrite A in R. exists p, n. auto.
  - destruct (C37_sexp_reads_back v calls P G) as (p & E & n & R). rewrite A in R. exists p, n. auto.
Qed.

(** notmuch search --output=summary: a list with an object for each thread, in order, with
    the structure of devel/schemata, each saying what is known of its thread (C44, C52). *)
Theorem C82_summary : forall version oldest_first relative ts,
  exists vs, outputs (search_summary_ops version oldest_first relative ts) (VList vs) /\
    tsearch_summary version (VList vs) /\
    Forall2 (fun t v => displays_thread version oldest_first relative (authors_string t) t v) ts vs.
Proof.
  intros version oldest_first relative ts. exists (map (thread_value version oldest_first relative) ts). split; [|split].
  - apply outputs_of; [|reflexivity|].
    + apply list_printing. intros t. apply summary_emit.
    + apply good_list, Forall_forall. intros x I. apply in_map_iff in I as (t & <- & _). apply thread_good.
  - exists (map (thread_value version oldest_first relative) ts). split; [reflexivity|]. apply Forall_forall. intros x I. apply in_map_iff in I as (t & <- & _). apply thread_schema.
  - induction ts as [|t ts IH]; constructor; [apply thread_displays|exact IH].
Qed.
Print Assumptions C82_summary.
(** The other outputs of notmuch search: the list of the strings. *)
Theorem C82_list : forall items, outputs (search_list_ops items) (VList (map VStr items)) /\ tstrings (VList (map VStr items)).
Proof.
  intros items. split; [|apply tstrs]. apply outputs_of; [|reflexivity|].
  - apply list_printing. reflexivity.
  - apply good_list, Forall_forall. intros x I. apply in_map_iff in I as (t & <- & _). exact Logic.I.
Qed.
Print Assumptions C82_list.
(** notmuch address: an object for each mailbox. *)
Theorem C82_address : forall name_addr l,
  exists vs, outputs (address_ops name_addr l) (VList vs) /\ Forall tmailbox vs /\ Forall2 (displays_mailbox name_addr) l vs.
Proof.
  intros name_addr l. exists (map (mailbox_value name_addr) l). split; [|split].
  - apply outputs_of; [|reflexivity|].
    + apply list_printing. intros b. apply mailbox_emit.
    + apply good_list, Forall_forall. intros x I. apply in_map_iff in I as (b & <- & _). apply mailbox_good.
  - apply Forall_forall. intros x I. apply in_map_iff in I as (b & <- & _). apply mailbox_schema.
  - induction l as [|b l IH]; constructor; [apply mailbox_displays|exact IH].
Qed.
Print Assumptions C82_address.
(** notmuch reply: the headers of the new message and the original as notmuch show prints it
    (C76), which is always with its body and never with HTML. *)
Theorem C82_reply : forall fuel e c try version extra duplicate reply msg h body, depth body <= fuel -> pkcs7_is_not_text body ->
  exists calls rv ov d l m t,
    reply_ops fuel e c try version extra duplicate reply msg h body = Some calls /\
    printing (VMap [(lit "reply-headers", rv); (lit "original", ov)]) calls /\
    treply version d (VMap [(lit "reply-headers", rv); (lit "original", ov)]) /\
    (field "Subject" rv = Some (VStr (cstr (h_subject reply))) /\ field "From" rv = Some (VStr (cstr (h_from reply))) /\
     field "To" rv = text_of (h_to reply) /\ field "Cc" rv = text_of (h_cc reply) /\ field "Bcc" rv = text_of (h_bcc reply) /\
     field "In-reply-to" rv = Some (VStr (cstr (h_irt reply))) /\ field "References" rv = Some (VStr (cstr (h_refs reply)))) /\
    shows (S fuel) c body l m /\ parts t = l /\
    displays_message e c try {| so_version := version; so_body := true; so_html := false; so_duplicate := duplicate; so_extra := extra |} msg h (Some t) m ov /\
    exists p n, json_run calls json_init = Some p /\ forall k, n <= k -> read_json k (j_out p) = Some (VMap [(lit "reply-headers", rv); (lit "original", ov)], [chr 10]).
Proof.
  intros fuel e c try version extra duplicate reply msg h body D P.
  set (o := {| so_version := version; so_body := true; so_html := false; so_duplicate := duplicate; so_extra := extra |}).
  destruct (C76_show_message fuel e c try o msg h body D P eq_refl) as (v & l & m & t & d & F & Sh & Pt & Dm & Tm & _).
  set (rv := headers_value o reply true None). 
  set (calls := [BeginMap; Key (lit "reply-headers")] ++ format_headers_sprinter o reply true None ++ [Key (lit "original")] ++ emit v ++ [End]).
  assert (Pr : printing (VMap [(lit "reply-headers", rv); (lit "original", v)]) calls).
  { unfold printing, calls. rewrite headers_emit. fold rv. cbn [app filter is_separator negb emit flat_map fst snd].
    do 2 f_equal. rewrite filter_app, emit_nosep. cbn [filter is_separator negb]. rewrite filter_app, emit_nosep. cbn [filter is_separator negb]. rewrite app_nil_r, <- app_assoc. reflexivity. }
  exists calls, rv, v, d, l, m, t. split; [unfold reply_ops; fold o; now rewrite F|]. split; [exact Pr|]. split; [|split; [|split; [exact Sh|split; [exact Pt|split; [exact Dm|]]]]].
  - change (VMap [(lit "reply-headers", rv); (lit "original", v)]) with (VMap (omap [("reply-headers", Some rv); ("original", Some v)]%string)). unfold treply. schema; [apply reply_headers_schema|exact Tm].
  - unfold rv, headers_value. rewrite app_nil_r. unfold header_fields. repeat split; fields; reflexivity || (destruct (h_to reply); reflexivity) || (destruct (h_cc reply); reflexivity) || (destruct (h_bcc reply); reflexivity).
  - destruct (C36_json_reads_back _ calls Pr) as (p & E & n & R). exists p, n. auto.
Qed.
Print Assumptions C82_reply.

(** ** Text *)
Lemma tags_join l : tags_text l = join_space l.
Proof.
  destruct l as [|x l]; [reflexivity|]. cbn [tags_text]. revert x. induction l as [|y l IHl]; intros x; [cbn; apply app_nil_r|].
  change (join_space (x :: y :: l)) with (x ++ lit " " ++ join_space (y :: l)). rewrite <- IHl. cbn [flat_map]. now rewrite <- !app_assoc.
Qed.
(** A line for each thread, in order, from which the identifier, the date, the three numbers
    and the rest can be read, if no tag holds a newline; the dates of C66 need no hypothesis. *)
Theorem C82_text : forall zone now oldest_first ts,
  Forall (fun t => ~ In " "%char (th_id t) /\ one_line (th_id t) /\ Forall one_line (th_tags t)) ts ->
  exists lines, lines_of (search_summary_text oldest_first (relative_date zone now) ts) = Some lines /\
    Forall2 (fun t l => exists rest, read_line l =
      Some {| l_id := th_id t; l_date := relative_date zone now (if oldest_first then th_oldest t else th_newest t);
              l_matched := N.of_nat (th_matched t); l_total := N.of_nat (th_total t); l_files := N.of_nat (th_files t); l_rest := rest |} /\
      (Forall plain_tag (th_tags t) -> read_tags rest = Some (th_tags t)) /\
      exists people_subject, rest = people_subject ++ lit " (" ++ join_space (th_tags t) ++ lit ")" /\
        people_subject = sanitize_string (authors_string t) ++ lit "; " ++ sanitize_string (match th_subject t with Some s => s | None => [] end)) ts lines.
Proof.
  intros zone now oldest_first ts H. set (relative := relative_date zone now).
  assert (Q : Forall (plain_line oldest_first relative) ts).
  { revert H. apply Forall_impl. intros t (A & B & C). split; [exact A|]. split; [exact B|]. split; [apply relative_plain|exact C]. }
  exists (map (summary_line oldest_first relative) ts). split.
  - unfold search_summary_text. rewrite <- (lines_of_lines (map (summary_line oldest_first relative) ts)).
    + f_equal. induction ts as [|t ts IH]; [reflexivity|]. cbn [flat_map map concat]. inversion H; inversion Q; subst. rewrite IH by assumption. now rewrite (proj1 (summary_line_eq oldest_first relative t)).
    + clear H. induction Q; cbn [map]; constructor; [now apply summary_one|assumption].
  - clear H. induction Q as [|t ts Ht Q IH]; constructor; [|exact IH]. exists (rest_text t). split; [now apply read_summary_line|]. split; [apply read_tags_rest|].
    eexists. split; [|reflexivity]. unfold rest_text, subject_string. rewrite <- !app_assoc. now rewrite tags_join.
Qed.
Print Assumptions C82_text.

Definition ex_thread (id tag : bytes) (authors : list bytes) (subject : string) : thread :=
  {| th_id := id; th_subject := Some (lit subject); th_authors := authors; th_matched_authors := authors; th_tags := [tag]; th_messages := [];
     th_total := 1; th_files := 1; th_matched := 1; th_oldest := 0; th_newest := 0 |}.
(** Tags are not sanitized, unlike authors and subjects: a tag with a newline makes one
    thread look like two. *)
Theorem C82_text_newline_in_tag_refuted : exists relative a b c, a <> b /\
  search_summary_text false relative [a] = search_summary_text false relative [b; c].
Proof.
  exists (fun _ => lit "2026-01-01"), (ex_thread (lit "1") (lit "x)" ++ chr 10 :: lit "thread:2   2026-01-01 [1/1] Eve; pay (y") [lit "Ann"] "hi"),
    (ex_thread (lit "1") (lit "x") [lit "Ann"] "hi"), (ex_thread (lit "2") (lit "y") [lit "Eve"] "pay").
  split; [discriminate|]. vm_compute. reflexivity.
Qed.
Print Assumptions C82_text_newline_in_tag_refuted.
(** Where the authors end cannot be seen; nor where the tags begin, if they may hold blanks
    and parentheses. *)
Theorem C82_text_ambiguous_refuted :
  (exists relative a b, authors_string a <> authors_string b /\ th_subject a <> th_subject b /\ summary_text false relative a = summary_text false relative b) /\
  (exists relative a b, th_tags a <> th_tags b /\ th_subject a <> th_subject b /\ summary_text false relative a = summary_text false relative b).
Proof.
  split.
  - exists (fun _ => lit "2026-01-01"), (ex_thread (lit "1") (lit "x") [lit "Ann; re"] "hi"), (ex_thread (lit "1") (lit "x") [lit "Ann"] "re; hi").
    split; [intros H; vm_compute in H; discriminate H|]. split; [discriminate|]. vm_compute. reflexivity.
  - exists (fun _ => lit "2026-01-01"), (ex_thread (lit "1") (lit "b (x") [lit "Ann"] "a"), (ex_thread (lit "1") (lit "x") [lit "Ann"] "a (b").
    split; [discriminate|]. split; [discriminate|]. vm_compute. reflexivity.
Qed.
Print Assumptions C82_text_ambiguous_refuted.

(** ** A case: two threads *)
Definition ex_t1 := ex_thread (lit "000000000000002a") (lit "inbox") [lit "Ann"; lit "Bob"] "lunch".
Definition ex_t2 := {| th_id := lit "0000000000000001"; th_subject := Some (lit "say ""hi"""); th_authors := [lit "Cy"]; th_matched_authors := [lit "Cy"];
  th_tags := [lit "inbox"; lit "unread"]; th_messages := []; th_total := 3; th_files := 4; th_matched := 2; th_oldest := 0; th_newest := 1000 |}.
Example C82_text_case : exists lines, lines_of (search_summary_text false (relative_date (fun _ => 0%Z) 2000000000) [ex_t1; ex_t2]) = Some lines /\
  lines = [lit "thread:000000000000002a   1970-01-01 [1/1] Ann, Bob; lunch (inbox)"; lit "thread:0000000000000001   1970-01-01 [2/3(4)] Cy; say ""hi"" (inbox unread)"] /\
  map (fun l => option_map l_files (read_line l)) lines = [Some 1%N; Some 4%N] /\
  Forall (fun t => ~ In " "%char (th_id t) /\ one_line (th_id t) /\ Forall one_line (th_tags t)) [ex_t1; ex_t2].
Proof.
  eexists. split; [vm_compute; reflexivity|]. split; [vm_compute; reflexivity|]. split; [vm_compute; reflexivity|].
  repeat constructor; intros H; repeat (destruct H as [H|H]; [discriminate H|]); exact H.
Qed.
Example C82_json_case : option_map j_out (json_run (search_summary_ops 5 false (fun _ => lit "now") [ex_t2]) json_init) =
  Some (lit "[{""thread"": ""0000000000000001"", ""timestamp"": 1000, ""date_relative"": ""now"", ""matched"": 2, ""total"": 3, ""authors"": ""Cy"", ""subject"": ""say \""hi\"""", ""query"": [null, null], ""tags"": [""inbox"", ""unread""]}]" ++ [chr 10]).
Proof. vm_compute. reflexivity. Qed.
