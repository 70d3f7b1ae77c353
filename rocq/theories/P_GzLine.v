(** C40: lines are read whole. *)
From Verif Require Import Bytes Hex TagLine Dump GzLine GzLineSpec GzLineProofs.
Local Open Scope nat_scope.

(** The lines of a text are determined by [lines_of]. *)
Theorem C40_lines_determined : forall text a b, lines_of text a -> lines_of text b -> a = b.
Proof. exact lines_unique. Qed.
Print Assumptions C40_lines_determined.
(** Reading any NUL-free input to its end delivers exactly its lines, however long they
    are compared with the buffer, and then end of file. *)
Theorem C40_all_lines : forall input, cstr input ->
  exists ls, read_all {| data := input; at_end := Z_ok |} = (ls, G_eof) /\ lines_of input ls.
Proof.
  intros input H. exists (split_lines input). split; [|apply split_lines_of].
  exact (read_lines_spec (S (length input)) None {| data := input; at_end := Z_ok |} H I (Nat.lt_succ_diag_r _)).
Qed.
Print Assumptions C40_all_lines.
(** The same for one call with any buffer of at least two bytes left by earlier calls. *)
Theorem C40_one_line : forall buf input, cstr input -> match buf with Some n => 2 <= n | None => True end ->
  match gz_getline buf {| data := input; at_end := Z_ok |} with
  | G_line l len s => input = l ++ data s /\ at_end s = Z_ok /\ 2 <= len /\ (full_line l \/ (data s = [] /\ l <> [] /\ ~ In NL l))
  | G_eof => input = []
  | _ => False
  end.
Proof.
  intros buf input H Hb.
  destruct (loop_spec (S (length input)) (match buf with Some len => len | None => 120 end) [] {| data := input; at_end := Z_ok |} H) as (len & Hlen & D).
  { cbn. destruct buf; lia. } { intros []. } { cbn. lia. }
  unfold gz_getline. cbn [data at_end] in *. destruct D as [(l & r & -> & N & ->)|(N & ->)].
  - cbn. rewrite <- app_assoc. split; [reflexivity|]. split; [reflexivity|]. split; [exact Hlen|]. left. exists l. auto.
  - cbn. destruct input as [|c i]; cbn; [reflexivity|]. rewrite app_nil_r. split; [reflexivity|]. split; [reflexivity|]. split; [exact Hlen|]. right. split; [reflexivity|]. split; [discriminate|exact N].
Qed.
Print Assumptions C40_one_line.
(** If the input ends in a read or decompression error, the complete lines before it are
    delivered, the error is reported (never end of file), and the incomplete line is not
    delivered as if it were whole. *)
Theorem C40_error_reported : forall input e, cstr input -> e <> Z_ok ->
  exists full last, input = concat full ++ last /\ Forall full_line full /\ ~ In NL last /\
    read_all {| data := input; at_end := e |} = (full, match e with Z_errno => G_errno | _ => G_gzerror end).
Proof.
  intros input e H He. pose proof (read_lines_spec (S (length input)) None {| data := input; at_end := e |} H I (Nat.lt_succ_diag_r _)) as R.
  cbn [at_end data] in R. destruct e; [congruence| |]; exact R.
Qed.
Print Assumptions C40_error_reported.
(** Without the restriction to NUL-free input this fails: the rest of a line after a NUL is
    dropped and the next line is glued on. *)
Theorem C40_all_bytes_refuted : ~ (forall input, exists ls, read_all {| data := input; at_end := Z_ok |} = (ls, G_eof) /\ lines_of input ls).
Proof.
  intros H. destruct (H (lit "ab" ++ [NUL] ++ lit "c" ++ [NL] ++ lit "d" ++ [NL])) as (ls & E & C & _).
  assert (L : read_all {| data := lit "ab" ++ [NUL] ++ lit "c" ++ [NL] ++ lit "d" ++ [NL]; at_end := Z_ok |} = ([lit "abd" ++ [NL]], G_eof)) by (vm_compute; reflexivity).
  rewrite L in E. injection E as <-. discriminate C.
Qed.
Print Assumptions C40_all_bytes_refuted.
(** A NUL at the start of a line makes the function read the byte before its buffer. *)
Theorem C40_no_out_of_bounds_refuted : ~ (forall input, gz_getline None {| data := input; at_end := Z_ok |} <> G_crash).
Proof. intros H. apply (H [NUL; NL]). vm_compute. reflexivity. Qed.
Print Assumptions C40_no_out_of_bounds_refuted.
(** A line longer than two buffer sizes, and an unterminated one. *)
Example C40_example : read_all {| data := repeat "x"%char 300 ++ [NL; NL] ++ lit "end"; at_end := Z_ok |} = ([repeat "x"%char 300 ++ [NL]; [NL]; lit "end"], G_eof).
Proof. vm_compute. reflexivity. Qed.
