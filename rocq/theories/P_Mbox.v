(** C57: the mbox output of the show command can be read back. *)
From Verif Require Import Bytes Hex HexProofs TagLine TagLineSpec TagLineProofs Dump GzLine GzLineSpec GzLineProofs Mbox MboxSpec MboxProofs.
Local Open Scope nat_scope.

(** A message whose file can be read to its end, has the text [content], and whose address
    has no line break in it; asctime (3) ends in a line break and has no other. *)
Definition readable (m : mbox_message) (content : bytes) : Prop :=
  b_file m = Some {| data := content; at_end := Z_ok |} /\ cstr content /\ ~ In NL (b_from m) /\ full_line (b_date m).

(** For every sequence of messages, what is printed is read back as exactly their files, byte
    by byte: whatever lines beginning with "From " they contain, and whether or not they end
    in a line break. *)
Theorem C57_mbox_roundtrip : forall ms contents fuel, Forall2 readable ms contents ->
  (forall c, In c contents -> length c < fuel) ->
  exists out, show_mbox fuel ms = Some (out, true) /\ read_mbox out = Some contents.
Proof.
  intros ms contents fuel F L.
  assert (H : exists out lss, show_mbox fuel ms = Some (out, true) /\ Forall full_line lss /\ out = concat lss /\
                fst (sections lss) = [] /\ map message_of (snd (sections lss)) = contents).
  { induction F as [|m c ms contents (MF & CC & NF & FD) F IH].
    - exists [], []. repeat split. constructor.
    - destruct IH as (out & lss & E & FL & EO & S1 & S2); [intros x X; apply L; now right|].
      destruct (body_lines c) as (ls & FB & CB & BB). destruct FD as (d & DE & ND).
      exists ((lit "From " ++ b_from m ++ lit " " ++ b_date m ++ concat (map mbox_line (split_lines c)) ++ [NL]) ++ out),
        ((lit "From " ++ b_from m ++ lit " " ++ b_date m) :: map mbox_line ls ++ lss).
      cbn [show_mbox]. unfold format_part_mbox. rewrite MF, mbox_lines_ok, E by (auto; apply L; now left).
      split; [reflexivity|]. split.
      { constructor.
        - exists (lit "From " ++ b_from m ++ lit " " ++ d). rewrite DE, <- !app_assoc. split; [reflexivity|].
          rewrite !in_app_iff. intros [X|[X|[X|X]]]; [exact (nl_not_in_from X)|contradiction|destruct X as [X|[]]; discriminate X|contradiction].
        - apply Forall_app. split; [|exact FL]. apply Forall_map. eapply Forall_impl; [|exact FB]. intros l. apply full_mbox_line. }
      split.
      { cbn [concat]. rewrite concat_app, <- EO, BB, <- !app_assoc. reflexivity. }
      cbn [sections]. rewrite sections_app by (apply Forall_map, Forall_forall; intros l _; apply mbox_not_separator).
      change (separator (lit "From " ++ b_from m ++ lit " " ++ b_date m)) with true. cbn [fst snd map]. split; [reflexivity|].
      rewrite S1, app_nil_r, S2. f_equal. unfold message_of. rewrite map_map, (map_ext _ (fun l => l)), map_id by (intros l; apply unquote_quote).
      rewrite CB. apply removelast_last. }
  destruct H as (out & lss & E & FL & EO & S1 & S2). exists out. split; [exact E|]. unfold read_mbox. rewrite EO, split_full by exact FL.
  destruct (sections lss) as (a, b). cbn [fst snd] in *. now subst.
Qed.

(** A message whose file is gone is left out, the others are printed, and the status is not
    success. *)
Theorem C57_missing_file : forall a m b fuel, b_file m = None ->
  match show_mbox fuel (a ++ m :: b), show_mbox fuel (a ++ b) with
  | Some (out, ok), Some (out', _) => out = out' /\ ok = false
  | None, None => True
  | _, _ => False
  end.
Proof.
  intros a m b fuel M. induction a as [|x a IH]; cbn [app show_mbox].
  - unfold format_part_mbox at 1. rewrite M. destruct (show_mbox fuel b) as [(o, k)|]; cbn; auto.
  - destruct (format_part_mbox fuel x) as [(o, k)|]; [|exact I].
    destruct (show_mbox fuel (a ++ m :: b)) as [(o1, k1)|], (show_mbox fuel (a ++ b)) as [(o2, k2)|]; try contradiction; auto.
    destruct IH as (-> & ->). split; [reflexivity|apply andb_false_r].
Qed.

(** A file that cannot be read to its end (a damaged compressed file) is printed for ever: the
    loop ends at the end of the file only. *)
Theorem C57_terminates_refuted : forall m s, b_file m = Some s -> cstr (data s) -> at_end s <> Z_ok ->
  forall fuel, format_part_mbox fuel m = None.
Proof. intros m s E C X fuel. unfold format_part_mbox. now rewrite E, (mbox_lines_forever fuel None [] s C I X). Qed.

(** NUL bytes: the rest of the line is lost. *)
Theorem C57_nul_refuted : exists m content out,
  b_file m = Some {| data := content; at_end := Z_ok |} /\ ~ In NL (b_from m) /\ full_line (b_date m) /\
  show_mbox 100 [m] = Some (out, true) /\ read_mbox out <> Some [content].
Proof.
  exists {| b_from := lit "a@b"; b_date := lit "Thu Jan  1 00:00:00 1970" ++ [NL]; b_file := Some {| data := lit "ab" ++ NUL :: lit "c" ++ NL :: lit "d" ++ [NL]; at_end := Z_ok |} |}.
  do 2 eexists. split; [reflexivity|]. split; [cbn; intuition discriminate|]. split; [eexists; split; [reflexivity|cbn; intuition discriminate]|].
  split; [vm_compute; reflexivity|]. vm_compute. intros X. discriminate X.
Qed.

Definition ex_ms : list mbox_message :=
  [{| b_from := lit "a@b"; b_date := lit "Thu Jan  1 00:00:00 1970" ++ [NL];
      b_file := Some {| data := lit "Subject: x" ++ NL :: NL :: lit "From here" ++ NL :: lit ">From there" ++ NL :: lit "From"; at_end := Z_ok |} |};
   {| b_from := lit "MAILER-DAEMON"; b_date := lit "Thu Jan  1 00:00:01 1970" ++ [NL]; b_file := Some {| data := lit "From x" ++ [NL]; at_end := Z_ok |} |}].
Example C57_example : exists out, show_mbox 100 ex_ms = Some (out, true) /\
  out = lit "From a@b Thu Jan  1 00:00:00 1970" ++ NL :: lit "Subject: x" ++ NL :: NL :: lit ">From here" ++ NL :: lit ">>From there" ++ NL :: lit "From" ++ NL ::
        lit "From MAILER-DAEMON Thu Jan  1 00:00:01 1970" ++ NL :: lit ">From x" ++ [NL; NL].
Proof. eexists. split; vm_compute; reflexivity. Qed.

Print Assumptions C57_mbox_roundtrip.
Print Assumptions C57_missing_file.
Print Assumptions C57_terminates_refuted.
Print Assumptions C57_nul_refuted.
