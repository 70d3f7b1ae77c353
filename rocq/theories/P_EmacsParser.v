(** C78: Emacs sees the results of a search, whatever the pieces in which the output comes. *)
From Verif Require Import Bytes Decimal Sprinter SprinterSpec SprinterProofs SprinterProofs2 P_Sprinter EmacsParser EmacsParserProofs EmacsParserProofs2.
Local Open Scope nat_scope.

Lemma items_emit l : good_keys (VList l) -> Items (flat_map emit l) (map lisp l).
Proof.
  induction l as [|v l IH]; intros G; [apply Items_nil|]. cbn in G. destruct G as (G1 & G2). cbn [flat_map map]. apply (Items_app _ [lisp v] _ (map lisp l)); [apply Items_of_Sp, sexp_prints, G1|apply IH, G2].
Qed.
Lemma printed_items l calls p first st : good_keys (VList l) -> filter nonsep calls = flat_map emit l -> s_state p = first :: st ->
  exists p' its, sexp_run calls p = Some p' /\ s_out p' = s_out p ++ texts its /\ map i_d its = map lisp l /\ Forall ok its /\ Forall spaced (if first then tl its else its) /\
    s_state p' = (if l then first else false) :: st.
Proof.
  intros G F S. destruct (items_emit l G calls p first st F S) as (p' & E & [(H1 & H2 & H3)|(pre & b & D & L & O & S')]).
  - exists p', []. destruct l; [|discriminate H1]. rewrite app_nil_r. repeat split; auto; [destruct first; constructor|congruence].
  - destruct (items_exist _ _ D) as (i & its & E1 & E2 & Ok & W & Sd). exists p', ({| i_ws := pre; i_d := i_d i; i_text := i_text i |} :: its).
    inversion Ok as [|? ? (O1 & O2) Ok']; subst. rewrite S in L. split; [exact E|]. split; [|split; [exact E1|split; [|split]]].
    + rewrite O, !texts_cons. cbn. rewrite W. now rewrite <- ?app_assoc.
    + constructor; [|exact Ok']. split; [|exact O2]. cbn. destruct first; cbn in L; [now subst pre|]. inversion L; reflexivity.
    + destruct first; [exact Sd|]. constructor; [|exact Sd]. unfold spaced. cbn. cbn in L. inversion L; discriminate.
    + destruct l; [discriminate E1|exact S'].
Qed.
Lemma printed_list l1 l2 calls1 calls2 : good_keys (VList (l1 ++ l2)) -> filter nonsep calls1 = BeginList :: flat_map emit l1 -> filter nonsep calls2 = flat_map emit l2 ++ [End] ->
  exists p1 p its1 its2, sexp_run calls1 sexp_init = Some p1 /\ sexp_run (calls1 ++ calls2) sexp_init = Some p /\ s_out p1 = "("%char :: texts its1 /\ s_out p = whole (its1 ++ its2) /\
    map i_d its1 = map lisp l1 /\ map i_d its2 = map lisp l2 /\ Forall ok (its1 ++ its2) /\ Forall spaced (tl (its1 ++ its2)).
Proof.
  intros G F1 F2. assert (GG : good_keys (VList l1) /\ good_keys (VList l2)). { clear - G. induction l1 as [|v l1 IH]; [split; [exact I|exact G]|]. cbn in *. tauto. } destruct GG as (G1 & G2).
  apply filter_first in F1 as (c0 & c1 & -> & F0 & F1). destruct (sexp_seps c0 F0 sexp_init) as (p0 & E0 & S0 & O0). cbn in S0, O0.
  assert (B : sexp_begin_aggregate p0 = {| s_state := [true]; s_sep := s_sep p0; s_out := ["("%char] |}). { unfold sexp_begin_aggregate, sexp_begin_value. rewrite S0. unfold sput. cbn. now rewrite S0, O0. }
  destruct (printed_items l1 c1 (sexp_begin_aggregate p0) true [] G1 F1) as (p1 & its1 & E1 & O1 & M1 & K1 & Sp1 & S1); [now rewrite B|].
  apply filter_split in F2 as (c2 & c3 & -> & F2 & F3). apply filter_first in F3 as (c4 & c5 & -> & F4 & F5).
  destruct (printed_items l2 c2 p1 _ _ G2 F2 S1) as (p2 & its2 & E2 & O2 & M2 & K2 & Sp2 & S2).
  destruct (sexp_seps c4 F4 p2) as (p3 & E3 & S3 & O3). rewrite S2 in S3.
  destruct (sexp_seps c5 F5 (sput [chr 10] {| s_state := []; s_sep := s_sep p3; s_out := s_out p3 ++ [")"%char] |})) as (p4 & E4 & S4 & O4).
  exists p1, p4, its1, its2. rewrite B in O1. cbn [s_out] in O1.
  assert (R1 : sexp_run (c0 ++ BeginList :: c1) sexp_init = Some p1) by (rewrite sexp_run_app, E0; exact E1).
  split; [exact R1|]. split; [rewrite sexp_run_app, R1, sexp_run_app, E2, sexp_run_app, E3; cbn [sexp_run sexp_call]; unfold sexp_end; rewrite S3; exact E4|]. split; [exact O1|].
  split; [rewrite O4; cbn [sput s_out]; rewrite O3, O2, O1; unfold whole, body; rewrite texts_app; cbn; now rewrite <- !app_assoc|]. split; [exact M1|]. split; [exact M2|].
  split; [now apply Forall_app|]. destruct its1 as [|i its1]; cbn.
  - destruct l1; [exact Sp2|discriminate M1].
  - apply Forall_app. split; [exact Sp1|]. destruct l1; [discriminate M1|exact Sp2].
Qed.
Lemma printed_all l calls p : printing (VList l) calls -> good_keys (VList l) -> sexp_run calls sexp_init = Some p ->
  exists its, s_out p = whole its /\ map i_d its = map lisp l /\ Forall ok its /\ Forall spaced (tl its).
Proof.
  intros P G E. assert (F : exists c1 c2, calls = c1 ++ c2 /\ filter nonsep c1 = [BeginList] /\ filter nonsep c2 = flat_map emit l ++ [End]).
  { apply (filter_split nonsep calls [BeginList] (flat_map emit l ++ [End])). exact P. }
  destruct F as (c1 & c2 & -> & F1 & F2). destruct (printed_list [] l c1 c2 G F1 F2) as (p1 & p' & its1 & its2 & _ & E' & _ & O & M1 & M2 & K & Sp). rewrite E in E'. injection E' as <-. apply map_eq_nil in M1. subst its1.
  exists its2. auto.
Qed.

(** Whatever the elements of the list that notmuch prints (search results, threads, addresses,
    with any strings in them), however the printer lays them out, and in whatever pieces the
    output arrives: the result function has been applied to exactly the elements, in
    order, once each; nothing is signalled and nothing is left over. *)
Theorem C78_any_pieces : forall l calls p chunks, printing (VList l) calls -> good_keys (VList l) -> sexp_run calls sexp_init = Some p -> concat chunks = s_out p ->
  exists st, filter_all stream_init chunks = Some st /\ e_results st = map lisp l /\ e_state st = LEnd /\ e_buf st = [].
Proof.
  intros l calls p chunks P G E C. destruct (printed_all l calls p P G E) as (its & O & M & K & Sp).
  destruct (filter_waits its K Sp chunks stream_init [] []) as (st & F & W). { left. rewrite app_nil_r. repeat split; congruence. }
  exists st. split; [exact F|]. cbn [app] in W. rewrite C, O in W. destruct (waits_end its st W) as (W1 & W2 & W3). rewrite W2, M. auto.
Qed.
Print Assumptions C78_any_pieces.
(** While the output is arriving, and if notmuch is killed: no error, and exactly the first n
    elements have been delivered, where n counts at least every element whose text has
    arrived - with one more character if it is a number, t or nil, whose end cannot be seen
    otherwise. *)
Definition slack (l : list value) : nat := match rev l with (VInt _ | VBool _ | VNull) :: _ => 1 | _ => 0 end.
Theorem C78_as_it_arrives : forall l calls p chunks rest, printing (VList l) calls -> good_keys (VList l) -> sexp_run calls sexp_init = Some p -> concat chunks ++ rest = s_out p ->
  exists st n, filter_all stream_init chunks = Some st /\ e_results st = map lisp (firstn n l) /\ n <= length l /\
    forall l1 l2 calls1 calls2 p1, l = l1 ++ l2 -> calls = calls1 ++ calls2 -> filter nonsep calls1 = BeginList :: flat_map emit l1 -> sexp_run calls1 sexp_init = Some p1 ->
      length (s_out p1) + slack l1 <= length (concat chunks) -> length l1 <= n.
Proof.
  intros l calls p chunks rest P G E C. destruct (printed_all l calls p P G E) as (its & O & M & K & Sp).
  destruct (filter_waits its K Sp chunks stream_init [] rest) as (st & F & W). { left. repeat split; congruence. } cbn [app] in W.
  assert (N : exists done todo, its = done ++ todo /\ e_results st = map i_d done).
  { destruct W as [(-> & _)|[(done & todo & sk & (_ & Ei & Er & _) & _)|(_ & Er & _)]]; [exists [], its; auto|exists done, todo; auto|exists its, []; rewrite app_nil_r; auto]. }
  destruct N as (done & todo & Ei & Er). exists st, (length done). split; [exact F|].
  assert (Ll : length done <= length l) by (apply (f_equal (@length _)) in M; rewrite !map_length in M; rewrite <- M, Ei, app_length; lia).
  split; [rewrite Er, <- firstn_map, <- M, Ei, map_app, firstn_app, map_length, Nat.sub_diag, app_nil_r; symmetry; rewrite <- (map_length i_d); apply firstn_all|].
  split; [exact Ll|]. intros l1 l2 calls1 calls2 p1 -> -> F1 E1 L.
  assert (F2 : filter nonsep calls2 = flat_map emit l2 ++ [End]).
  { unfold printing in P. change (fun o => negb (is_separator o)) with nonsep in P. cbn [emit] in P. rewrite filter_app, F1, flat_map_app in P. cbn in P. rewrite <- app_assoc in P. injection P as P. now apply app_inv_head in P. }
  destruct (printed_list l1 l2 calls1 calls2 G F1 F2) as (p1' & p' & its1 & its2 & E1' & E' & O1 & O' & M1 & M2 & K' & Sp'). rewrite E1 in E1'. injection E1' as <-. rewrite E in E'. injection E' as <-.
  destruct (filter_waits (its1 ++ its2) K' Sp' chunks stream_init [] rest) as (st' & F' & W'). { left. repeat split; congruence. } cbn [app] in W'. rewrite F in F'. injection F' as <-.
  assert (X : exists r, e_results st = map i_d its1 ++ r).
  { destruct (rev l1) as [|v r] eqn:R.
    - assert (l1 = []) by (rewrite <- (rev_involutive l1), R; reflexivity). subst l1. apply map_eq_nil in M1. subst its1. exists (e_results st). reflexivity.
    - assert (El1 : l1 = rev r ++ [v]) by (rewrite <- (rev_involutive l1), R; reflexivity). unfold slack in L. rewrite R in L.
      rewrite El1, map_app in M1. cbn [map] in M1. apply map_eq_app in M1 as (a & b & -> & Ma & Mb). destruct b as [|i [|? ?]]; try discriminate Mb. injection Mb as Mb.
      destruct (is_atom (i_d i)) eqn:A.
      + eapply waits_prompt; eauto. rewrite <- O1. rewrite Mb in A. destruct v; try discriminate A; lia.
      + eapply waits_prompt_closed; eauto. rewrite <- O1. lia. }
  destruct X as (r & X). rewrite Er in X. apply (f_equal (@length _)) in X. rewrite app_length, !map_length in X. apply (f_equal (@length _)) in M1. rewrite !map_length in M1. lia.
Qed.
Print Assumptions C78_as_it_arrives.

(** An example: two results, in pieces that end within a string, an escape and a number. *)
Definition ex_results : list value := [VMap [(lit "thread", VStr (lit "1")); (lit "subject", VStr [chr 34; ")"%char; chr 10; chr 1]); (lit "total", VInt 12); (lit "tags", VList [VStr (lit "a b")])]; VInt 34; VBool true].
Definition ex_calls : list op := match emit (VList ex_results) with b :: r => b :: Separator :: r | [] => [] end.
Definition ex_out : bytes := match sexp_run ex_calls sexp_init with Some p => s_out p | None => [] end.
Fixpoint pieces (n : nat) (fuel : nat) (s : bytes) : list bytes :=
  match fuel with O => [] | S f => match s with [] => [] | _ => firstn n s :: pieces n f (skipn n s) end end.
Example C78_example : printing (VList ex_results) ex_calls /\ good_keys (VList ex_results) /\ concat (pieces 1 200 ex_out) = ex_out /\ concat (pieces 7 200 ex_out) = ex_out /\
  option_map e_results (filter_all stream_init (pieces 1 200 ex_out)) = Some (map lisp ex_results) /\
  option_map e_results (filter_all stream_init (pieces 7 200 ex_out)) = Some (map lisp ex_results) /\
  option_map (fun st => length (e_results st)) (filter_all stream_init (pieces 7 4 ex_out)) = Some 0 /\
  option_map (fun st => length (e_results st)) (filter_all stream_init (pieces 7 9 ex_out)) = Some 2.
Proof. vm_compute. repeat split; reflexivity. Qed.
