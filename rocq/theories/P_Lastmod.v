(** Property C38: lastmod range queries. *)
From Verif Require Import Bytes Decimal Lastmod LastmodSpec LastmodProofs.
Local Open Scope Z_scope.

(** lastmod:A..B selects exactly the messages whose revision lies between the two
    bounds, negative numbers counting back from the current revision.  (Revisions are
    stored as doubles; below 2^53 nothing is lost, and the bounds may be any long.) *)
Theorem C38_range_selects_by_revision :
  forall current a za b zb, number_text a za -> number_text b zb -> in_long za -> in_long zb ->
  exists q, lastmod_strings_to_query current a b = Some q /\
    (forall rev, 0 <= rev < 2 ^ 53 -> (q (Some rev) = true <-> bound current za <= rev <= bound current zb)).
Proof.
  intros current a za b zb Ha Hb La Lb. eexists. split; [apply query_numbers; eassumption|].
  intros rev H. now apply range_exact.
Qed.
Print Assumptions C38_range_selects_by_revision.

(** Missing ends are unbounded. *)
Theorem C38_open_ends :
  forall current a z, number_text a z -> in_long z ->
  (exists q, lastmod_strings_to_query current a [] = Some q /\
     forall rev, 0 <= rev < 2 ^ 53 -> (q (Some rev) = true <-> bound current z <= rev)) /\
  (exists q, lastmod_strings_to_query current [] a = Some q /\
     forall rev, 0 <= rev < 2 ^ 53 -> (q (Some rev) = true <-> rev <= bound current z)) /\
  (exists q, lastmod_strings_to_query current [] [] = Some q /\
     forall rev, 0 <= rev < 2 ^ 53 -> q (Some rev) = true).
Proof.
  intros current a z Ha La. split; [|split]; eexists.
  - split; [apply query_from; eassumption|]. intros rev H. rewrite range_exact by exact H. unfold LONG_MAX. lia.
  - split; [apply query_to; eassumption|]. intros rev H. rewrite range_exact by exact H. lia.
  - split; [reflexivity|]. intros rev H. change (value_range 0 LONG_MAX (Some rev) = true). rewrite range_exact by exact H. unfold LONG_MAX. lia.
Qed.
Print Assumptions C38_open_ends.

(** A message changed after revision r (the value a client saved, as printed) is
    exactly what "lastmod:r+1.." finds. *)
Theorem C38_changes_since :
  forall current r, 0 <= r -> in_long (r + 1) ->
  exists q, lastmod_strings_to_query current (decz (r + 1)) [] = Some q /\
    forall rev, 0 <= rev < 2 ^ 53 -> (q (Some rev) = true <-> r < rev).
Proof.
  intros current r Hr Hl. destruct (proj1 (C38_open_ends current (decz (r + 1)) (r + 1) (decz_number _) Hl)) as (q & Hq & H).
  exists q. split; [exact Hq|]. intros rev Hv. rewrite H by exact Hv. unfold bound.
  rewrite (proj2 (Z.ltb_ge (r + 1) 0)) by lia. lia.
Qed.
Print Assumptions C38_changes_since.

(** Numbers outside the range of long, and texts that do not begin with a number, are
    rejected at either end. *)
Theorem C38_out_of_range_rejected :
  forall current a z other, number_text a z -> ~ in_long z ->
  lastmod_strings_to_query current a other = None /\ lastmod_strings_to_query current other a = None.
Proof.
  intros current a z other Ha Hl. pose proof (stol_number a z [] Ha eq_refl) as S. rewrite app_nil_r in S.
  assert ((LONG_MIN <=? z) && (z <=? LONG_MAX) = false) as E.
  { apply andb_false_iff. rewrite !Z.leb_gt. unfold in_long, LONG_MIN, LONG_MAX in *. lia. }
  rewrite E in S. pose proof (number_nonempty a z Ha) as N. unfold lastmod_strings_to_query.
  destruct a as [|c a']; [congruence|]. rewrite S. split; [reflexivity|].
  destruct (match other with [] => Some 0 | _ => stol other end); reflexivity.
Qed.
Print Assumptions C38_out_of_range_rejected.

Theorem C38_non_number_rejected :
  forall current c s other, isspace c = false -> isdigit c = false -> c <> "-"%char -> c <> "+"%char ->
  lastmod_strings_to_query current (c :: s) other = None /\ lastmod_strings_to_query current other (c :: s) = None.
Proof.
  intros current c s other H1 H2 H3 H4.
  assert (S : stol (c :: s) = None).
  { unfold stol. cbn [dropwhile]. rewrite H1. cbv beta iota. rewrite (proj2 (beq_neq c _) H3), (proj2 (beq_neq c _) H4).
    cbv beta iota. cbn [peek]. now rewrite H2. }
  unfold lastmod_strings_to_query. rewrite S. split; [reflexivity|].
  destruct (match other with [] => Some 0 | _ => stol other end); reflexivity.
Qed.
Print Assumptions C38_non_number_rejected.

(** Text after the number is silently ignored: "12junk" means 12. *)
Theorem C38_trailing_text_rejected_refuted :
  ~ (forall current a, (forall z, ~ number_text a z) -> a <> [] -> lastmod_strings_to_query current a [] = None).
Proof.
  intros H. specialize (H 0 (lit "12junk")).
  assert (K : forall z, ~ number_text (lit "12junk") z).
  { intros z (ds & (_ & Hd) & [[E _]|[[E _]|[E _]]]); try discriminate E.
    subst ds. inversion Hd as [|? ? _ H1]; subst. inversion H1 as [|? ? _ H2]; subst. inversion H2 as [|? ? Hj _]; subst. cbn in Hj. lia. }
  specialize (H K). assert (lit "12junk" <> []) by discriminate. specialize (H H0).
  assert (L : match lastmod_strings_to_query 0 (lit "12junk") [] with Some _ => true | None => false end = true) by (vm_compute; reflexivity).
  rewrite H in L. discriminate.
Qed.
Print Assumptions C38_trailing_text_rejected_refuted.

(** The s-expression form: (lastmod A B), '*' for an open end, (lastmod A) for a
    single revision, (lastmod) for everything. *)
Theorem C38_sexp_forms :
  forall current a b, a <> lit "*" -> b <> lit "*" ->
  sexp_lastmod current [Some a; Some b] = lastmod_strings_to_query current a b /\
  sexp_lastmod current [Some a; Some (lit "*")] = lastmod_strings_to_query current a [] /\
  sexp_lastmod current [Some (lit "*"); Some b] = lastmod_strings_to_query current [] b /\
  sexp_lastmod current [Some a] = lastmod_strings_to_query current a a /\
  (exists q, sexp_lastmod current [] = Some q /\ forall d, q d = true) /\
  (forall x r, sexp_lastmod current (None :: r) = None /\ sexp_lastmod current (Some x :: None :: r) = None) /\
  (forall x y z r, sexp_lastmod current (x :: y :: z :: r) = None).
Proof.
  intros current a b Ha Hb. unfold sexp_lastmod. apply bseq_neq in Ha, Hb. rewrite Ha, Hb, bseq_refl.
  split; [reflexivity|]. split; [reflexivity|]. split; [reflexivity|]. split; [reflexivity|].
  split; [eexists; split; [reflexivity|reflexivity]|]. split; [intros x r; split; reflexivity|].
  intros [x|] [y|] z r; reflexivity.
Qed.
Print Assumptions C38_sexp_forms.

(** Beyond 2^53 revisions the comparison is no longer exact. *)
Theorem C38_exact_for_all_revisions_refuted :
  ~ (forall rev, 0 <= rev -> in_long rev -> forall a z q, number_text a z -> in_long z ->
       lastmod_strings_to_query 0 a [] = Some q -> q (Some rev) = true -> bound 0 z <= rev).
Proof.
  intros H.
  assert (L : exists q, lastmod_strings_to_query 0 (decz (2 ^ 53 + 1)) [] = Some q /\ q (Some (2 ^ 53)) = true).
  { rewrite (query_from 0 (decz (2 ^ 53 + 1)) (2 ^ 53 + 1) (decz_number _)) by (unfold in_long; lia).
    exists (value_range (bound 0 (2 ^ 53 + 1)) LONG_MAX). split; [reflexivity|].
    assert (L : value_range (bound 0 (2 ^ 53 + 1)) LONG_MAX (Some (2 ^ 53)) = true) by (vm_compute; reflexivity). exact L. }
  destruct L as (q & L1 & L2).
  specialize (H (2 ^ 53) ltac:(lia) ltac:(unfold in_long; lia) (decz (2 ^ 53 + 1)) (2 ^ 53 + 1) q (decz_number _) ltac:(unfold in_long; lia) L1 L2).
  revert H. change (bound 0 (2 ^ 53 + 1)) with (2 ^ 53 + 1). lia.
Qed.
Print Assumptions C38_exact_for_all_revisions_refuted.

Example C38_nontrivial :
  match lastmod_strings_to_query 100 (lit "-10") (lit "-1") with
  | Some q => map q [Some 89; Some 90; Some 99; Some 100; None]
  | None => []
  end = [false; true; true; false; false] /\
  number_text (lit "-10") (-10) /\ number_text (lit "-1") (-1) /\ in_long (-10).
Proof.
  split; [vm_compute; reflexivity|]. split; [exact (decz_number (-10))|]. split; [exact (decz_number (-1))|unfold in_long; lia].
Qed.
