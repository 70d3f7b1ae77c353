(** Properties C10, C11 (lib/message-id.c, lib/add-message.cc). *)
From Verif Require Import Bytes StrUtil MsgId MsgIdSpec MsgIdProofs.
Local Open Scope nat_scope.

(** One step on any non-empty text: strictly consumes input; an id returned is not
    empty, has no closing bracket, does not start with white space, and all its
    bytes come from the text. *)
Theorem C10_progress_and_shape :
  forall s, s <> [] ->
  exists r next, message_id_parse s = (r, Some next) /\ length next < length s /\
    (exists p, s = p ++ next) /\
    (forall id, r = Some id -> id <> [] /\ ~ In ">"%char id /\ isspace (peek id) = false /\ forall c, In c id -> In c s).
Proof.
  intros s Hs. destruct (message_id_parse_spec s Hs) as (r & next & E & L & P). exists r, next. split; [exact E|]. split; [exact L|]. split.
  - revert E. unfold message_id_parse. destruct s as [|c s]; [congruence|]. unfold skip_space_and_comments.
    destruct (skip_sc_suffix (c :: s) 0) as (p & Ep).
    pose proof (take_drop (fun x => negb (beq x "<"%char)) (skip_sc 0 (c :: s))) as Td.
    destruct (dropwhile _ (skip_sc 0 (c :: s))) as [|lt b].
    + intros [= _ <-]. exists (c :: s). now rewrite app_nil_r.
    + destruct (skip_sc_suffix b 0) as (q & Eq). rewrite span_eq.
      pose proof (take_drop (fun x => negb (beq x ">"%char)) (skip_sc 0 b)) as Te.
      destruct (dropwhile (fun x => negb (beq x ">"%char)) (skip_sc 0 b)) as [|gt nx].
      * intros [= _ <-]. exists (c :: s). now rewrite app_nil_r.
      * intros [= _ <-].
        exists (p ++ takewhile (fun x => negb (beq x "<"%char)) (skip_sc 0 (c :: s)) ++ lt :: q ++
                takewhile (fun x => negb (beq x ">"%char)) (skip_sc 0 b) ++ [gt]).
        etransitivity; [exact Ep|]. rewrite <- Td at 1. rewrite Eq at 1. rewrite <- Te at 1.
        rewrite <- !app_assoc. cbn. rewrite <- !app_assoc. reflexivity.
  - intros id Hid. destruct (P id Hid) as (P1 & P2 & P3 & P4). split; [exact P1|]. split; [exact P2|]. split; [|exact P4].
    destruct id as [|x id]; [congruence|]. apply P3.
Qed.
Print Assumptions C10_progress_and_shape.
Example C10_progress_and_shape_applies :
  message_id_parse (lit "(a (nested) \) comment) text < foo@bar> <next>") = (Some (lit "foo@bar"), Some (lit " <next>")).
Proof. reflexivity. Qed.

(** Reading a whole header always terminates, whatever the text, the own id and the
    references already collected; it never yields an empty id. *)
Theorem C10_terminates :
  forall self text known, Forall (fun id => id <> []) known ->
  exists refs last, parse_references self text known = Some (refs, last) /\
    Forall (fun id => id <> []) refs /\ last <> Some [] /\ incl known refs /\ (NoDup known -> NoDup refs).
Proof.
  intros self text known Hk. exists (hadds self known (ids_of_header text)), (last_of self (ids_of_header text)).
  split; [apply parse_references_eq|]. split; [|split; [|split]].
  - apply Forall_forall. intros x Hx. apply hadds_In in Hx as [Hx|[Hx _]].
    + rewrite Forall_forall in Hk. auto.
    + now apply ids_of_header_shape in Hx as [Hx _].
  - intros E. assert (In [] (ids_of_header text)).
    { revert E. generalize (ids_of_header text). intros l. induction l as [|i l IH]; cbn; [discriminate|].
      destruct (last_of self l) as [x|]; [intros [= ->]; auto|]. destruct (bseq i self); [discriminate|]. intros [= ->]. now left. }
    apply ids_of_header_shape in H as [H _]. congruence.
  - intros x Hx. apply hadds_In. now left.
  - apply hadds_NoDup.
Qed.
Print Assumptions C10_terminates.
Example C10_terminates_applies : parse_references (lit "self") (lit "<<<(((") [lit "x@y"] = Some ([lit "x@y"; lit "<<((("], Some (lit "<<(((")).
Proof. vm_compute. reflexivity. Qed.

(** On a well-formed header the ids read are exactly the ids written. *)
Theorem C10_exact_on_well_formed :
  forall self ids text, header ids text ->
  exists refs last, parse_references self text [] = Some (refs, last) /\
    (forall x, In x refs <-> In x ids /\ x <> self) /\ NoDup refs /\ last = last_of self ids.
Proof.
  intros self ids text H. exists (hadds self [] ids), (last_of self ids). rewrite parse_references_eq, (ids_of_regular_header ids text H).
  split; [reflexivity|]. split; [|split; [apply hadds_NoDup; constructor|reflexivity]].
  intros x. rewrite hadds_In. cbn. tauto.
Qed.
Print Assumptions C10_exact_on_well_formed.
Example C10_exact_on_well_formed_applies :
  header [lit "a@b"; lit "c@d"] (lit " (c) <a@b> text < c@d>").
Proof.
  change (lit " (c) <a@b> text < c@d>") with
    (lit " (c) " ++ [] ++ "<"%char :: [] ++ lit "a@b" ++ ">"%char :: lit " " ++ lit "text " ++ "<"%char :: lit " " ++ lit "c@d" ++ ">"%char :: [] ++ []).
  assert (R : forall s, match s with [] => False | c :: _ => isspace c = false /\ c <> "("%char end ->
     2 <= length s -> existsb (fun c => beq c ">"%char || beq c " "%char || beq c (ascii_of_N 9)) s = false -> regular_id s).
  { intros s H1 H2 H3. assert (N : forall c, (beq c ">"%char || beq c " "%char || beq c (ascii_of_N 9)) = true -> ~ In c s).
    { intros c Hc Hin. assert (X : existsb (fun c => beq c ">"%char || beq c " "%char || beq c (ascii_of_N 9)) s = true) by (apply existsb_exists; eauto). congruence. }
    repeat split; [exact H2| | | |]; try (apply N; reflexivity). destruct s; [destruct H1|exact H1]. }
  constructor 2.
  - constructor 2; [reflexivity|]. 
    apply (cw_comment ["c"%char] [" "%char]); [|constructor 2; [reflexivity|constructor]]. constructor 2; try discriminate. constructor.
  - split; [intros []|exact I].
  - constructor.
  - apply R; [split; [reflexivity|discriminate]|cbn; lia|reflexivity].
  - constructor 2.
    + constructor 2; [reflexivity|constructor].
    + split; [intros X; cbn in X; repeat destruct X as [X|X]; try discriminate; exact X|split; [reflexivity|discriminate]].
    + constructor 2; [reflexivity|constructor].
    + apply R; [split; [reflexivity|discriminate]|cbn; lia|reflexivity].
    + constructor; [constructor|split; [intros []|exact I]].
Qed.

(** The strict reading accepts exactly: white space, one bracketed text without white
    space or '>', white space. *)
Theorem C10_strict_exact :
  forall text id, message_id_parse_strict text = Some id <->
  exists w w', text = w ++ "<"%char :: id ++ ">"%char :: w' /\ forallb isspace w = true /\ forallb isspace w' = true /\
    existsb isspace id = false /\ ~ In ">"%char id.
Proof.
  intros text id. unfold message_id_parse_strict. split.
  - destruct text as [|c0 t0] eqn:Et; [discriminate|]. rewrite <- Et. clear Et c0 t0.
    unfold skip_space. pose proof (take_drop isspace text) as T1. pose proof (takewhile_all isspace text) as A1.
    destruct (dropwhile isspace text) as [|c s]; [discriminate|]. destruct (beq_spec c "<"%char) as [->|]; [|discriminate].
    rewrite span_eq. pose proof (take_drop (fun c => negb (beq c ">"%char)) s) as T2.
    pose proof (takewhile_all (fun c => negb (beq c ">"%char)) s) as A2.
    destruct (existsb isspace (takewhile _ s)) eqn:Ex; [discriminate|].
    destruct (dropwhile (fun c => negb (beq c ">"%char)) s) as [|gt a] eqn:Ed; [discriminate|].
    assert (Hgt : gt = ">"%char).
    { clear - Ed. induction s as [|x s IH]; [discriminate|]. cbn in Ed. destruct (beq_spec x ">"%char) as [->|]; cbn in Ed; [now injection Ed|auto]. }
    subst gt. pose proof (take_drop isspace a) as T3. pose proof (takewhile_all isspace a) as A3.
    destruct (dropwhile isspace a); [|discriminate]. intros [= <-]. rewrite app_nil_r in T3.
    exists (takewhile isspace text), a. split; [rewrite T2, T1; reflexivity|]. split; [exact A1|]. split; [rewrite <- T3; exact A3|].
    split; [exact Ex|].
    intros H. rewrite forallb_forall in A2. apply A2 in H. now rewrite beq_refl in H.
  - intros (w & w' & -> & Hw & Hw' & Hi & Hg).
    destruct (w ++ _) as [|c0 t0] eqn:Et; [destruct w; discriminate|]. rewrite <- Et. clear Et c0 t0.
    assert (D : forall l r, forallb isspace l = true -> dropwhile isspace (l ++ r) = dropwhile isspace r).
    { induction l as [|x l IH]; intros r H; [reflexivity|]. cbn in *. apply andb_true_iff in H as [-> H]. now apply IH. }
    unfold skip_space. rewrite D by exact Hw. cbn [dropwhile]. change (isspace "<"%char) with false. cbn [beq Ascii.eqb Bool.eqb andb].
    change (beq "<"%char "<"%char) with true. cbn iota. rewrite span_not_gt by exact Hg. rewrite Hi.
    rewrite <- (app_nil_r w'). rewrite D by exact Hw'. reflexivity.
Qed.
Print Assumptions C10_strict_exact.
Example C10_strict_exact_applies : message_id_parse_strict (lit " <a@b> ") = Some (lit "a@b") /\ message_id_parse_strict (lit "<a@b> <c@d>") = None.
Proof. split; reflexivity. Qed.

(** The id of a message with a Message-Id header is never empty. *)
Theorem C10_header_message_id_nonempty :
  forall header id, header_message_id header = Some id -> id <> [].
Proof.
  intros [|c h] id; [discriminate|]. unfold header_message_id. destruct (message_id_parse_spec (c :: h)) as (r & next & E & _ & P); [discriminate|].
  rewrite E. cbn [fst]. destruct r as [r|]; intros [= <-]; [now apply P|discriminate].
Qed.
Print Assumptions C10_header_message_id_nonempty.

(** Limits.  A bracketed id of one character is dropped although the same id without
    its closing bracket is kept. *)
Theorem C10_one_character_id_refuted :
  ~ (forall id, id <> [] -> ~ In ">"%char id -> existsb isspace id = false -> isspace (peek id) = false ->
       fst (message_id_parse ("<"%char :: id ++ [">"%char])) = Some id) /\
  fst (message_id_parse (lit "<a")) = Some (lit "a").
Proof.
  split; [|reflexivity]. intros H. specialize (H (lit "a")).
  assert (X : fst (message_id_parse ("<"%char :: lit "a" ++ [">"%char])) = None) by reflexivity.
  rewrite H in X; [discriminate|discriminate| |reflexivity|reflexivity]. intros [X'|[]]; discriminate.
Qed.
Print Assumptions C10_one_character_id_refuted.
(** Two adjacent blanks inside an id leave one. *)
Theorem C10_blanks_removed_refuted :
  ~ (forall s id next, message_id_parse s = (Some id, next) -> ~ In " "%char id).
Proof. intros H. apply (H (lit "<a  b>") (lit "a b") (Some [])); [reflexivity|]. right. now left. Qed.
Print Assumptions C10_blanks_removed_refuted.
(** The strict reading can return the empty id, which then takes precedence over the
    References header. *)
Theorem C10_strict_nonempty_refuted :
  ~ (forall s id, message_id_parse_strict s = Some id -> id <> []) /\
  read_parents (lit "self@x") (lit "<parent@x>") (lit "<>") = Some ([lit "parent@x"], Some []).
Proof. split; [|reflexivity]. intros H. now apply (H (lit "<>") []). Qed.
Print Assumptions C10_strict_nonempty_refuted.

(** C11: the recorded references of a message: never its own id, all read from its
    headers, no repetition; the parent is a strictly parsed In-Reply-To, else one of
    the references. *)
Theorem C11_references_never_self :
  forall self references in_reply_to, exists refs parent,
    read_parents self references in_reply_to = Some (refs, parent) /\
    ~ In self refs /\ NoDup refs /\
    (forall x, In x refs -> x <> [] /\ (In x (ids_of_header references) \/ In x (ids_of_header in_reply_to))) /\
    (forall p, parent = Some p -> message_id_parse_strict in_reply_to = Some p \/ (In p refs /\ p <> self)) /\
    (parent = None -> refs = []).
Proof.
  intros self refs irt. unfold read_parents. rewrite !parse_references_eq.
  set (h1 := hadds self [] (ids_of_header refs)). set (h2 := hadds self h1 (ids_of_header irt)).
  eexists h2, _. split; [reflexivity|].
  assert (HI : forall x, In x h2 <-> (In x (ids_of_header refs) \/ In x (ids_of_header irt)) /\ x <> self).
  { intros x. unfold h2, h1. rewrite !hadds_In. cbn. tauto. }
  assert (HL : forall l p, last_of self l = Some p -> In p l /\ p <> self).
  { induction l as [|i l IH]; intros p; [discriminate|]. cbn. destruct (last_of self l) as [x|].
    - intros [= ->]. destruct (IH p eq_refl). auto.
    - destruct (bseq_spec i self); [discriminate|]. intros [= <-]. auto. }
  assert (HN : forall l, last_of self l = None -> forall x, In x l -> x = self).
  { induction l as [|i l IH]; intros E x [].
    - subst x. cbn in E. destruct (last_of self l); [discriminate|]. destruct (bseq_spec i self); [assumption|discriminate].
    - cbn in E. destruct (last_of self l); [discriminate|]. now apply IH. }
  split; [rewrite HI; tauto|]. split; [apply hadds_NoDup, hadds_NoDup; constructor|]. split.
  { intros x Hx. apply HI in Hx as [Hx _]. split; [|exact Hx]. destruct Hx as [Hx|Hx]; now apply ids_of_header_shape in Hx as [Hx _]. }
  split.
  - intros p Hp. destruct (message_id_parse_strict irt) as [q|]; [injection Hp as ->; now left|]. right.
    destruct (last_of self (ids_of_header refs)) as [q|] eqn:E.
    + injection Hp as ->. apply HL in E as [E1 E2]. split; [apply HI; auto|exact E2].
    + apply HL in Hp as [E1 E2]. split; [apply HI; auto|exact E2].
  - destruct (message_id_parse_strict irt); [discriminate|]. destruct (last_of self (ids_of_header refs)) eqn:E1; [discriminate|].
    intros E2. destruct h2 as [|x h]; [reflexivity|]. exfalso. destruct (proj1 (HI x) (or_introl eq_refl)) as [[H|H] Hx].
    + apply Hx. now apply (HN _ E1).
    + apply Hx. now apply (HN _ E2).
Qed.
Print Assumptions C11_references_never_self.
Example C11_references_never_self_applies :
  read_parents (lit "me@x") (lit "<root@x> <me@x> <mid@x>") (lit "<mid@x> from you") =
  Some ([lit "root@x"; lit "mid@x"], Some (lit "mid@x")).
Proof. vm_compute. reflexivity. Qed.

(** For well-formed headers the recorded references are exactly the other ids listed,
    and the parent is the documented choice. *)
Theorem C11_exact_on_well_formed :
  forall self ids1 ids2 references in_reply_to, header ids1 references -> header ids2 in_reply_to ->
  exists refs parent, read_parents self references in_reply_to = Some (refs, parent) /\
    (forall x, In x refs <-> (In x ids1 \/ In x ids2) /\ x <> self) /\
    parent = match message_id_parse_strict in_reply_to with
             | Some p => Some p
             | None => match last_of self ids1 with Some p => Some p | None => last_of self ids2 end
             end.
Proof.
  intros self i1 i2 r1 r2 H1 H2. unfold read_parents. rewrite !parse_references_eq, (ids_of_regular_header _ _ H1), (ids_of_regular_header _ _ H2).
  eexists _, _. split; [reflexivity|]. split; [|reflexivity]. intros x. rewrite !hadds_In. cbn. tauto.
Qed.
Print Assumptions C11_exact_on_well_formed.

(** The parent may be the message itself: the strict In-Reply-To is not compared with
    the own id. *)
Theorem C11_parent_never_self_refuted :
  ~ (forall self references in_reply_to refs parent,
       read_parents self references in_reply_to = Some (refs, parent) -> parent <> Some self).
Proof. intros H. now apply (H (lit "me@x") [] (lit "<me@x>") [] (Some (lit "me@x"))). Qed.
Print Assumptions C11_parent_never_self_refuted.
(** A message id over 189 bytes is stored compressed, and a reference to it, compared
    literally, is kept. *)
Theorem C11_long_id_self_reference_refuted :
  forall compressed : bytes -> bytes, (forall s, length (compressed s) <= 189) ->
  forall id, regular_id id -> 189 < length id ->
  exists refs parent, read_parents (compressed id) ("<"%char :: id ++ [">"%char]) [] = Some (refs, parent) /\
    In id refs /\ parent = Some id.
Proof.
  intros compressed Hc id Hr Hl.
  assert (H : header [id] ("<"%char :: id ++ [">"%char])).
  { apply (hd_id [] [] [] id [] []); [constructor|split; [intros []|exact I]|constructor|exact Hr|]. apply (hd_end [] []); [constructor|]. split; [intros []|exact I]. }
  assert (H0 : header [] []) by (apply (hd_end [] []); [constructor|split; [intros []|exact I]]).
  destruct (C11_exact_on_well_formed (compressed id) [id] [] _ [] H H0) as (refs & parent & E & HI & ->).
  eexists _, _. split; [exact E|].
  assert (N : id <> compressed id) by (intros X; specialize (Hc id); rewrite <- X in Hc; lia).
  split; [apply HI; split; [left; now left|exact N]|]. cbn. rewrite (proj2 (bseq_neq id (compressed id)) N). reflexivity.
Qed.
Print Assumptions C11_long_id_self_reference_refuted.
