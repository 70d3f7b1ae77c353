(** Property C60: which text of a part is indexed (lib/index.cc, the filter that discards
    uuencoded data and HTML tags). *)
From Verif Require Import Bytes MaildirSpec Discard DiscardSpec DiscardProofs.
Local Open Scope nat_scope.

(** The filter never reads outside its table and never hangs, on any bytes, in pieces of
    any sizes; and the result does not depend on the pieces. *)
Theorem C60_total_and_independent_of_pieces :
  forall html pieces, exists kept, discard html pieces = Some kept /\
  forall pieces', concat pieces' = concat pieces -> discard html pieces' = Some kept.
Proof.
  intros [|] ps.
  - exists (hout 0 (concat ps)). split; [apply discard_html|]. intros ps' E. now rewrite discard_html, E.
  - exists (uout 0 (concat ps)). split; [apply discard_plain|]. intros ps' E. now rewrite discard_plain, E.
Qed.
Print Assumptions C60_total_and_independent_of_pieces.
(** No call writes more than the size of its input, which is the size of the buffer. *)
Theorem C60_output_fits :
  forall states skip state inbuf state' out, filter_filter states skip state inbuf = Some (state', out) -> length out <= length inbuf.
Proof. intros states skip k s k' o. exact (filter_length states skip s k k' o). Qed.
Print Assumptions C60_output_fits.

(** Plain text without a line "begin 644 name" is kept as it is. *)
Theorem C60_plain_text_kept :
  forall pieces, ~ contains_begin_line (concat pieces) -> discard false pieces = Some (concat pieces).
Proof. intros ps H. rewrite discard_plain. f_equal. exact (proj1 (no_begin (concat ps) 0 [] ltac:(lia) (at_zero []) H)). Qed.
Print Assumptions C60_plain_text_kept.
(** From any plain text, only uuencoded data is dropped - and the one character after it. *)
Theorem C60_only_uuencoded_data_dropped :
  forall pieces, exists kept, discard false pieces = Some kept /\ uu (concat pieces) kept.
Proof. intros ps. exists (uout 0 (concat ps)). split; [apply discard_plain|]. exact (proj1 (uu_sound (concat ps)) 0 [] ltac:(lia) (at_zero [])). Qed.
Print Assumptions C60_only_uuencoded_data_dropped.
(** A uuencoded file that begins at the beginning of a line is dropped, its last line is
    not, and the text after it is treated as if it stood alone. *)
Theorem C60_uuencoded_file_dropped :
  forall text l data, text = [] \/ (exists t, text = t ++ [NEWLINE]) -> ~ contains_begin_line text -> begin_line l -> data_lines data ->
  discard false [text ++ l ++ data] = Some (text ++ l) /\
  forall x rest kept, x <> "M"%char -> discard false [rest] = Some kept ->
    discard false [text ++ l ++ data ++ x :: rest] = Some (text ++ l ++ kept).
Proof.
  intros t l d Ht Hn Hl Hd. split.
  - rewrite discard_plain. cbn [concat]. rewrite app_nil_r. f_equal. now apply file_dropped_end.
  - intros x s kept Hx. rewrite !discard_plain. cbn [concat]. rewrite !app_nil_r. intros [= <-]. f_equal. now apply file_dropped.
Qed.
Print Assumptions C60_uuencoded_file_dropped.

(** HTML: what is kept is exactly the text outside of tags, with '<' for each tag. *)
Theorem C60_html_text_kept :
  forall pieces kept, discard true pieces = Some kept <-> html (concat pieces) kept.
Proof.
  intros ps kept. rewrite discard_html. split.
  - intros [= <-]. apply html_sound.
  - intros H. f_equal. now apply html_complete.
Qed.
Print Assumptions C60_html_text_kept.

(** Not true: "the line after the data is indexed" (the comment in lib/index.cc says so of
    the last line of uuencoded data): it loses its first character. *)
Theorem C60_line_after_data_kept_refuted :
  ~ (forall l data rest, begin_line l -> data_lines data -> ~ contains_begin_line rest -> (forall r, rest <> "M"%char :: r) ->
       discard false [l ++ data ++ rest] = Some (l ++ rest)).
Proof.
  intros H. specialize (H (lit "begin 644 a" ++ [NEWLINE]) [] (lit "hello")).
  assert (B : begin_line (lit "begin 644 a" ++ [NEWLINE])).
  { exists "6"%char, "4"%char, "4"%char, (lit "a"). split; [reflexivity|]. unfold between. cbn. repeat split; try lia. intros [X|[]]. discriminate X. }
  assert (D : data_lines []) by (exists []; split; [reflexivity|constructor]).
  assert (N : ~ contains_begin_line (lit "hello")).
  { intros (a & l & b & E & B'). destruct (begin_header l B') as (m & name & -> & L & _). apply (f_equal (@length ascii)) in E. rewrite !app_length, L in E. cbn in E. lia. }
  specialize (H B D N ltac:(intros r X; discriminate X)). vm_compute in H. discriminate H.
Qed.
Print Assumptions C60_line_after_data_kept_refuted.
(** Not true: "only a line that begins with 'begin' starts uuencoded data". *)
Theorem C60_begin_at_line_start_refuted :
  ~ (forall text l rest, begin_line l -> text <> [] -> ~ In NEWLINE text -> discard false [text ++ l ++ rest] = Some (text ++ l ++ rest)).
Proof.
  intros H. specialize (H (lit "We ") (lit "begin 644 a" ++ [NEWLINE]) (lit "MONDAY")).
  assert (B : begin_line (lit "begin 644 a" ++ [NEWLINE])).
  { exists "6"%char, "4"%char, "4"%char, (lit "a"). split; [reflexivity|]. unfold between. cbn. repeat split; try lia. intros [X|[]]. discriminate X. }
  specialize (H B ltac:(discriminate) ltac:(intros [X|[X|[X|[]]]]; discriminate X)). vm_compute in H. discriminate H.
Qed.
Print Assumptions C60_begin_at_line_start_refuted.
(** Not true: "the text after a comment is kept": an apostrophe in the comment hides it. *)
Theorem C60_text_after_comment_kept_refuted :
  ~ (forall comment text, ~ occurs (lit "-->") comment -> ~ In "<"%char text ->
       exists before, discard true [lit "<!--" ++ comment ++ lit "-->" ++ text] = Some (before ++ text)).
Proof.
  intros H. destruct (H (lit " don't ") (lit "hello")) as (b & E).
  - intros (a & b & E). repeat (destruct a as [|? a]; [discriminate E|injection E as _ E]). destruct a; discriminate E.
  - intros X. repeat (destruct X as [X|X]; [discriminate X|]). exact X.
  - assert (L : discard true [lit "<!--" ++ lit " don't " ++ lit "-->" ++ lit "hello"] = Some ["<"%char]) by (vm_compute; reflexivity).
    rewrite L in E. injection E as E. apply (f_equal (@length ascii)) in E. rewrite app_length in E. cbn in E. lia.
Qed.
Print Assumptions C60_text_after_comment_kept_refuted.
(** Not true: "all text without uuencoded data is indexed": nothing after a NUL byte is. *)
Theorem C60_text_after_nul_indexed_refuted :
  ~ (forall text, ~ contains_begin_line text -> indexed_body false [text] = Some text).
Proof.
  intros H. specialize (H ["a"%char; NUL; "b"%char]).
  assert (N : ~ contains_begin_line ["a"%char; NUL; "b"%char]).
  { intros (a & l & b & E & B'). destruct (begin_header l B') as (m & name & -> & L & _). apply (f_equal (@length ascii)) in E. rewrite !app_length, L in E. cbn in E. lia. }
  specialize (H N). vm_compute in H. discriminate H.
Qed.
Print Assumptions C60_text_after_nul_indexed_refuted.

(** A letter with a uuencoded file in it, cut in the middle of its "begin" line; an HTML text. *)
Definition NL1 := [NEWLINE].
Example C60_example :
  discard false [lit "See:" ++ NL1 ++ lit "beg"; lit "in 644 a.gz" ++ NL1 ++ lit "M'XL(" ++ NL1 ++ lit "MAB"; NL1 ++ lit "#0V$" ++ NL1 ++ lit "end" ++ NL1]
    = Some (lit "See:" ++ NL1 ++ lit "begin 644 a.gz" ++ NL1 ++ lit "0V$" ++ NL1 ++ lit "end" ++ NL1) /\
  begin_line (lit "begin 644 a.gz" ++ NL1) /\ data_lines (lit "M'XL(" ++ NL1 ++ lit "MAB" ++ NL1) /\
  discard true [lit "a<b"; lit " title='x>y'>bc</b"; lit "> d"] = Some (lit "a<bc< d").
Proof.
  split; [vm_compute; reflexivity|]. split.
  { exists "6"%char, "4"%char, "4"%char, (lit "a.gz"). split; [reflexivity|]. unfold between. cbn. repeat split; try lia. intros X. repeat (destruct X as [X|X]; [discriminate X|]). exact X. }
  split; [|vm_compute; reflexivity].
  exists [lit "M'XL(" ++ NL1; lit "MAB" ++ NL1]. split; [reflexivity|]. constructor; [|constructor; [|constructor]].
  - exists (lit "'XL("), NEWLINE. split; [reflexivity|]. split; [repeat constructor; cbn; lia|]. unfold between. cbn. lia.
  - exists (lit "AB"), NEWLINE. split; [reflexivity|]. split; [repeat constructor; cbn; lia|]. unfold between. cbn. lia.
Qed.
