From Verif Require Import Bytes Hex HexProofs TagLine TagLineSpec TagLineProofs Dump GzLine GzLineSpec GzLineProofs Mbox MboxSpec.
Local Open Scope nat_scope.

Lemma from_like_is l : from_likeb l = is_from_line l.
Proof.
  unfold is_from_line. induction l as [|c r IH]; [reflexivity|]. cbn [from_likeb dropwhile].
  destruct (beq_spec c ">"%char) as [->|N].
  - cbn [andb]. replace (separator (">"%char :: r)) with false by reflexivity. cbn [orb]. exact IH.
  - assert (E : beq ">"%char c = false) by (destruct (beq_spec ">"%char c); [congruence|reflexivity]). rewrite E. cbn [andb]. now rewrite orb_false_r.
Qed.
Lemma starts_snoc p x c : ~ In c p -> starts_with p (x ++ [c]) = starts_with p x.
Proof.
  intros N. apply eq_true_iff_eq. rewrite !starts_with_app. split; intros (r & H).
  - destruct r as [|d r] using rev_ind.
    + rewrite app_nil_r in H. exfalso. apply N. rewrite <- H. apply in_or_app. right. now left.
    + rewrite app_assoc in H. apply app_inj_tail in H as (-> & _). now exists r.
  - rewrite H. exists (r ++ [c]). now rewrite app_assoc.
Qed.
Lemma nl_not_in_from : ~ In NL (lit "From ").
Proof. cbn. intuition discriminate. Qed.
Lemma is_from_snoc l : is_from_line (l ++ [NL]) = is_from_line l.
Proof.
  unfold is_from_line. induction l as [|c l IH]; [reflexivity|]. cbn [app dropwhile]. destruct (beq ">"%char c); [exact IH|].
  change (c :: l ++ [NL]) with ((c :: l) ++ [NL]). apply starts_snoc, nl_not_in_from.
Qed.
Lemma mbox_line_snoc l : mbox_line (l ++ [NL]) = mbox_line l ++ [NL].
Proof. unfold mbox_line. rewrite is_from_snoc. now destruct (is_from_line l). Qed.
Lemma unquote_quote l : unquote (mbox_line l) = l.
Proof.
  unfold mbox_line. destruct (is_from_line l) eqn:E.
  - cbn [unquote]. rewrite from_like_is, E. reflexivity.
  - destruct l as [|c r]; [reflexivity|]. cbn [unquote]. destruct (beq_spec c ">"%char) as [->|N]; [|reflexivity].
    rewrite from_like_is. cbn [andb]. unfold is_from_line in E |- *. cbn [dropwhile] in E. change (beq ">"%char ">"%char) with true in E. cbn iota in E. now rewrite E.
Qed.
Lemma mbox_not_separator l : separator (mbox_line l) = false.
Proof.
  unfold mbox_line. destruct (is_from_line l) eqn:E; [reflexivity|]. destruct l as [|c r]; [reflexivity|].
  unfold is_from_line in E. cbn [dropwhile] in E. destruct (beq_spec ">"%char c) as [<-|N]; [reflexivity|exact E].
Qed.
Lemma full_mbox_line l : full_line l -> full_line (mbox_line l).
Proof.
  intros (b & -> & N). rewrite mbox_line_snoc. exists (mbox_line b). split; [reflexivity|]. unfold mbox_line. destruct (is_from_line b); [|exact N].
  intros [X|X]; [discriminate X|contradiction].
Qed.
Lemma split_full ls : Forall full_line ls -> split_lines (concat ls) = ls.
Proof.
  intros F. apply (lines_unique (concat ls)); [apply split_lines_of|]. split; [reflexivity|]. exists ls, []. rewrite app_nil_r. auto.
Qed.
(** The text printed for a file. *)
Lemma body_lines content : exists ls, Forall full_line ls /\ concat ls = content ++ [NL] /\
  concat (map mbox_line (split_lines content)) ++ [NL] = concat (map mbox_line ls).
Proof.
  destruct (split_lines_of content) as (C & full & last & E & F & L). rewrite E in C |- *.
  destruct L as [-> |(l & -> & NE & N)].
  - exists (full ++ [[NL]]). split; [apply Forall_app; split; [exact F|]; constructor; [exists []; split; [reflexivity|intros []]|constructor]|].
    rewrite app_nil_r in C |- *. rewrite concat_app, C. split; [reflexivity|]. rewrite map_app, concat_app. reflexivity.
  - exists (full ++ [l ++ [NL]]). split; [apply Forall_app; split; [exact F|]; constructor; [exists l; auto|constructor]|].
    rewrite concat_app in C |- *. cbn [concat] in C |- *. rewrite app_nil_r in C |- *. rewrite app_assoc, C. split; [reflexivity|].
    rewrite !map_app, !concat_app. cbn [map concat]. rewrite mbox_line_snoc, !app_nil_r, app_assoc. reflexivity.
Qed.
Lemma sections_app a b : Forall (fun l => separator l = false) a -> sections (a ++ b) = (a ++ fst (sections b), snd (sections b)).
Proof.
  induction 1 as [|l a H F IH]; cbn [app sections]; [now destruct (sections b)|]. rewrite IH, H. reflexivity.
Qed.
Lemma mbox_lines_read fuel : forall buf line s ls, read_lines fuel buf s = (ls, G_eof) -> mbox_lines fuel buf line s = Some (concat (map mbox_line ls)).
Proof.
  induction fuel as [|fuel IH]; intros buf line s ls H; [discriminate H|]. cbn [read_lines mbox_lines] in *.
  destruct (gz_getline buf s) as [l len s'| | | | |]; try discriminate H.
  - destruct (read_lines fuel (Some len) s') as (ls', e) eqn:R. injection H as <- ->. now rewrite (IH _ l _ _ R).
  - now injection H as <-.
Qed.
Lemma mbox_lines_ok content fuel : cstr content -> length content < fuel ->
  mbox_lines fuel None [] {| data := content; at_end := Z_ok |} = Some (concat (map mbox_line (split_lines content))).
Proof.
  intros C F. apply mbox_lines_read. exact (read_lines_spec fuel None {| data := content; at_end := Z_ok |} C I F).
Qed.
(** After a read error the loop goes on for ever. *)
Lemma mbox_lines_forever fuel : forall buf line s, cstr (data s) -> buf_ok buf -> at_end s <> Z_ok -> mbox_lines fuel buf line s = None.
Proof.
  induction fuel as [|fuel IH]; intros buf line s C B E; [reflexivity|]. cbn [mbox_lines].
  destruct (loop_spec (S (length (data s))) (match buf with Some len => len | None => 120 end) [] s C) as (len & Hlen & D).
  { cbn. destruct buf; cbn in B; lia. } { intros []. } { lia. }
  change (getline_loop _ _ [] s) with (gz_getline buf s) in D. destruct D as [(l & r & D1 & D2 & ->)|(D1 & ->)].
  - rewrite IH; [reflexivity| |exact Hlen|exact E]. cbn [data]. rewrite D1 in C. apply cstr_app in C as [_ C]. now apply cstr_cons in C as [_ C].
  - unfold at_eof. destruct (at_end s) eqn:Z; [congruence| |]; now rewrite IH by (auto; congruence).
Qed.
