(** The summary of a thread: counts, authors, tags, dates and subject (C42, C47). *)
From Verif Require Import Bytes Terms XQuery DocSet Thread Query QuerySpec ThreadSummarySpec QueryProofs QueryProofs2.
From Coq Require Import Sorted Permutation.
Local Open Scope nat_scope.

Lemma message_excluded_spec x tags m s d :
  message_excluded m (q_exclude (configure (Some x) tags m s)) d = true <-> m <> EXCLUDE_FALSE /\ excluded x tags d.
Proof.
  destruct (configure_exclude x tags m s) as (_ & _ & _ & ->).
  set (L := map (app (lit "K")) (filter (fun t => negb (tmem (lit "K" ++ t) (xterms x))) tags)).
  assert (G : existsb (fun tag => existsb (fun term => match term with [] => false | _ :: term' => bseq tag term' end) L) (doc_tags (xd_terms d)) = true
              <-> excluded x tags d).
  { rewrite existsb_exists. unfold excluded, names_tag, has_tag. split.
    - intros (t & Ht & H). apply existsb_exists in H as (term & Hl & H). apply in_map_iff in Hl as (g & <- & Hg).
      apply filter_In in Hg as (Hg & N). cbn [lit app] in H. change (bseq t g = true) in H. apply bseq_eq in H. subst g. exists t.
      split; [exact Hg|]. rewrite negb_true_iff, tmem_false in N. split; [exact N|]. now apply doc_tags_In.
    - intros (t & Ht & N & H). exists t. split; [now apply doc_tags_In|]. apply existsb_exists. exists (lit "K" ++ t).
      split; [apply in_map, filter_In; split; [exact Ht|]; rewrite negb_true_iff, tmem_false; exact N|].
      change (bseq t t = true). apply bseq_refl. }
  destruct m; cbn [message_excluded]; [split; [discriminate|intros (F & _); contradiction]| | |];
    (rewrite G; split; [intros H; split; [discriminate|exact H]|tauto]).
Qed.

(** ** tags: the sorted union *)
Lemma fold_tadd_In l : forall ts y, In y (fold_left (fun ts tag => tadd tag ts) l ts) <-> In y l \/ In y ts.
Proof.
  induction l as [|a l IH]; intros ts y; cbn [fold_left In]; [tauto|]. rewrite IH, tadd_In. intuition.
Qed.
Lemma fold_tadd_sorted l : forall ts, tsorted ts -> tsorted (fold_left (fun ts tag => tadd tag ts) l ts).
Proof. induction l as [|a l IH]; intros ts H; cbn [fold_left]; [exact H|]. apply IH. now apply tadd_sorted. Qed.
Lemma fold_tags_In (docs : list xdoc) : forall ts y,
  In y (fold_left (fun ts d => fold_left (fun ts tag => tadd tag ts) (doc_tags (xd_terms d)) ts) docs ts)
  <-> (exists d, In d docs /\ has_tag d y) \/ In y ts.
Proof.
  induction docs as [|d docs IH]; intros ts y; cbn [fold_left].
  - split; [tauto|]. intros [(d & [] & _)|H]; exact H.
  - rewrite IH, fold_tadd_In, doc_tags_In. split.
    + intros [(e & He & H)|[H|H]]; [left; exists e; split; [now right|exact H]|left; exists d; split; [now left|exact H]|now right].
    + intros [(e & [<-|He] & H)|H]; [right; now left|left; eauto|right; now right].
Qed.
Lemma fold_tags_sorted (docs : list xdoc) : forall ts, tsorted ts ->
  tsorted (fold_left (fun ts d => fold_left (fun ts tag => tadd tag ts) (doc_tags (xd_terms d)) ts) docs ts).
Proof. induction docs as [|d docs IH]; intros ts H; cbn [fold_left]; [exact H|]. apply IH. now apply fold_tadd_sorted. Qed.

(** ** authors *)
Lemma existsb_bseq a l : existsb (bseq a) l = true <-> In a l.
Proof.
  rewrite existsb_exists. split; [intros (b & Hb & E); apply bseq_eq in E; now subst|intros H; exists a; split; [exact H|apply bseq_refl]].
Qed.
Lemma fold_authors f (docs : list xdoc) : forall acc, fold_left (fun l d => add_author (f d) l) docs acc =
  acc ++ first_seen acc (map f docs).
Proof.
  induction docs as [|d docs IH]; intros acc; cbn [fold_left map first_seen]; [now rewrite app_nil_r|].
  rewrite IH. unfold add_author. destruct (f d) as [a|]; [|reflexivity].
  destruct (in_dec bytes_eq_dec a acc) as [H|H].
  - rewrite (proj2 (existsb_bseq a acc) H). reflexivity.
  - assert (existsb (bseq a) acc = false) as -> by (rewrite <- not_true_iff_false, existsb_bseq; exact H).
    now rewrite <- app_assoc.
Qed.
Lemma first_seen_In l : forall seen a, In a (first_seen seen l) <-> In (Some a) l /\ ~ In a seen.
Proof.
  induction l as [|[b|] l IH]; intros seen a; cbn [first_seen In]; [tauto| |].
  - destruct (in_dec bytes_eq_dec b seen) as [H|H].
    + rewrite IH. split; [tauto|]. intros ([E|H1] & H2); [injection E as ->; contradiction|auto].
    + cbn [In]. rewrite IH, in_app_iff. cbn [In]. split.
      * intros [->|(H1 & H2)]; [tauto|]. tauto.
      * intros ([E|H1] & H2); [left; congruence|]. destruct (bytes_eq_dec b a) as [->|N]; [now left|right]. tauto.
  - rewrite IH. split; [tauto|]. intros ([E|H1] & H2); [discriminate|auto].
Qed.
Lemma first_seen_nodup l : forall seen, NoDup (first_seen seen l).
Proof.
  induction l as [|[b|] l IH]; intros seen; cbn [first_seen]; [constructor| |apply IH].
  destruct (in_dec bytes_eq_dec b seen); [apply IH|]. constructor; [|apply IH].
  rewrite first_seen_In, in_app_iff. cbn. tauto.
Qed.

Lemma comma_list_snoc l a : l <> [] -> comma_list (l ++ [a]) = comma_list l ++ lit ", " ++ a.
Proof.
  induction l as [|b l IH]; intros H; [contradiction|]. destruct l as [|c l]; [reflexivity|].
  change (b ++ lit ", " ++ comma_list ((c :: l) ++ [a]) = (b ++ lit ", " ++ comma_list (c :: l)) ++ lit ", " ++ a).
  rewrite IH by discriminate. now rewrite <- !app_assoc.
Qed.
Lemma join_matched_some l : forall pre, pre <> [] -> join_matched (Some (comma_list pre)) l = Some (comma_list (pre ++ l)).
Proof.
  induction l as [|a l IH]; intros pre H; cbn [join_matched]; [now rewrite app_nil_r|].
  rewrite <- comma_list_snoc by exact H. rewrite IH; [now rewrite <- app_assoc|]. destruct pre; discriminate.
Qed.
Lemma join_matched_ok l : l <> [] -> join_matched None l = Some (comma_list l).
Proof. destruct l as [|a l]; [contradiction|]. intros _. cbn [join_matched]. exact (join_matched_some l [a] ltac:(discriminate)). Qed.
Lemma without_cons m a l : without m (a :: l) = if existsb (bseq a) m then without m l else a :: without m l.
Proof.
  unfold without. cbn [filter]. destruct (in_dec bytes_eq_dec a m) as [H|H].
  - now rewrite (proj2 (existsb_bseq a m) H).
  - assert (existsb (bseq a) m = false) as -> by (rewrite <- not_true_iff_false, existsb_bseq; exact H). reflexivity.
Qed.
Lemma join_others_rest m l : forall base pre, pre <> [] ->
  join_others m false (Some (base ++ comma_list pre)) l = Some (base ++ comma_list (pre ++ without m l)).
Proof.
  induction l as [|a l IH]; intros base pre H; cbn [join_others]; [now rewrite app_nil_r|]. rewrite without_cons.
  destruct (existsb (bseq a) m); [now apply IH|]. cbn [null_s].
  replace ((base ++ comma_list pre) ++ lit ", " ++ a) with (base ++ comma_list (pre ++ [a]))
    by (rewrite comma_list_snoc by exact H; now rewrite <- !app_assoc).
  rewrite IH by (destruct pre; discriminate). now rewrite <- app_assoc.
Qed.
Lemma join_others_first m l : forall acc, join_others m true acc l =
  match without m l with [] => acc | o => Some (null_s acc ++ lit "| " ++ comma_list o) end.
Proof.
  induction l as [|a l IH]; intros acc; cbn [join_others]; [reflexivity|]. rewrite without_cons.
  destruct (existsb (bseq a) m); [apply IH|].
  pose proof (join_others_rest m l (null_s acc ++ lit "| ") [a] ltac:(discriminate)) as H.
  cbn [comma_list] in H. rewrite <- !app_assoc in H. rewrite H. cbn [app]. reflexivity.
Qed.
Lemma authors_string_ok th : th_matched_authors th <> [] ->
  authors_string th = authors_line (th_matched_authors th) (without (th_matched_authors th) (th_authors th)).
Proof.
  intros H. unfold authors_string, authors_line. rewrite join_matched_ok by exact H. rewrite join_others_first. cbn [null_s].
  destruct (without _ _); [now rewrite app_nil_r|reflexivity].
Qed.
Lemma authors_string_null th : th_matched_authors th = [] ->
  authors_string th = match th_authors th with [] => [] | l => lit "(null)| " ++ comma_list l end.
Proof.
  intros H. unfold authors_string. rewrite H. cbn [join_matched]. rewrite join_others_first.
  assert (forall l, without [] l = l) as -> by (induction l as [|a l IH]; [reflexivity|]; cbn; f_equal; exact IH).
  destruct (th_authors th); reflexivity.
Qed.

(** ** dates and subject *)
Definition usable (d : xdoc) : option bytes :=
  match xd_subject d with None => None | Some s => match clean_subject s with [] => None | c => Some c end end.
Definition new_subject (cur : option bytes) (d : xdoc) : option bytes := match usable d with Some s => Some s | None => cur end.

Lemma ci_prefix_spec p s : ci_prefix p s = true <-> exists q t, s = q ++ t /\ map tolower q = map tolower p.
Proof.
  revert s. induction p as [|a p IH]; intros s; cbn [ci_prefix].
  - split; [intros _; exists [], s; auto|auto].
  - destruct s as [|b s].
    + split; [discriminate|]. intros (q & t & E & H). destruct q; [discriminate|]. cbn in E. discriminate.
    + rewrite andb_true_iff, beq_eq, IH. split.
      * intros (E & q & t & -> & H). exists (b :: q), t. split; [reflexivity|]. cbn [map]. congruence.
      * intros (q & t & E & H). destruct q as [|b' q]; [discriminate|]. cbn [app map] in *. injection E as <- ->.
        injection H as H1 H2. split; [congruence|]. eauto.
Qed.
Lemma reply_prefix_length p : reply_prefix p -> length p = 4.
Proof. intros H. rewrite <- (map_length tolower p). destruct H as [H|[H|[H|H]]]; rewrite H; reflexivity. Qed.
Lemma has_reply_prefix_spec s : has_reply_prefix s = true <-> exists p t, reply_prefix p /\ s = p ++ t.
Proof.
  unfold has_reply_prefix, reply_prefix. rewrite !orb_true_iff, !ci_prefix_spec.
  change (map tolower (lit "Re: ")) with (lit "re: "). change (map tolower (lit "Aw: ")) with (lit "aw: ").
  change (map tolower (lit "Vs: ")) with (lit "vs: "). change (map tolower (lit "Sv: ")) with (lit "sv: ").
  split.
  - intros [[[H|H]|H]|H]; destruct H as (q & t & E & H); exists q, t; auto 6.
  - intros (q & t & [H|[H|[H|H]]] & E); [left; left; left|left; left; right|left; right|right]; exists q, t; auto.
Qed.
Lemma clean_subject_bare s r : bare s r <-> clean_subject s = r.
Proof.
  unfold clean_subject. destruct (has_reply_prefix s) eqn:E.
  - apply has_reply_prefix_spec in E as (p & t & Hp & ->). 
    assert (SK : forall p t, reply_prefix p -> skipn 4 (p ++ t) = t).
    { intros p' t' H'. apply reply_prefix_length in H'. do 4 (destruct p' as [|? p']; [discriminate|]). destruct p'; [reflexivity|discriminate]. }
    rewrite SK by exact Hp. split.
    + intros [(p' & Hp' & Q)|(_ & N)]; [|exfalso; exact (N p t Hp eq_refl)].
      rewrite <- (SK p t Hp), Q. now apply SK.
    + intros <-. left. eauto.
  - assert (N : forall p t, reply_prefix p -> s <> p ++ t).
    { intros p t Hp ->. rewrite <- not_true_iff_false in E. apply E. apply has_reply_prefix_spec. eauto. }
    split; [intros [(p & Hp & Q)|(-> & _)]; [exfalso; exact (N p r Hp Q)|reflexivity]|intros <-; right; auto].
Qed.
Lemma usable_spec d r : usable d = Some r <-> bare_subject d r.
Proof.
  unfold usable, bare_subject. destruct (xd_subject d) as [s|]; [|split; [discriminate|intros (s & E & _); discriminate]].
  split.
  - intros H. exists s. split; [reflexivity|]. rewrite clean_subject_bare. destruct (clean_subject s); [discriminate|].
    injection H as <-. split; [reflexivity|discriminate].
  - intros (s' & E & B & N). injection E as <-. apply clean_subject_bare in B. rewrite B. destruct r; [contradiction|reflexivity].
Qed.
Lemma usable_none d : usable d = None <-> forall r, ~ bare_subject d r.
Proof.
  split; [intros H r B; apply usable_spec in B; congruence|]. intros H. destruct (usable d) as [r|] eqn:E; [|reflexivity].
  exfalso. apply (H r). now apply usable_spec.
Qed.

Lemma set_subject_eq t d : th_subject (set_subject_from_message t d) = new_subject (th_subject t) d.
Proof.
  unfold set_subject_from_message, new_subject, usable. destruct (xd_subject d) as [s|]; [|reflexivity].
  destruct (clean_subject s); reflexivity.
Qed.
Lemma set_subject_dates t d : th_oldest (set_subject_from_message t d) = th_oldest t /\ th_newest (set_subject_from_message t d) = th_newest t /\
  th_matched (set_subject_from_message t d) = th_matched t.
Proof. pose proof (set_subject_other t d) as H. cbn zeta in H. tauto. Qed.

Definition c_old (t : thread) (d : xdoc) : bool := (xd_date d <? th_oldest t)%Z || Nat.eqb (th_matched t) 0.
Definition c_new (t : thread) (d : xdoc) : bool := (th_newest t <? xd_date d)%Z || Nat.eqb (th_matched t) 0.
Definition subj1 (t : thread) (d : xdoc) (sort : sort_mode) : option bytes :=
  if c_old t d && is_oldest_first sort then new_subject (th_subject t) d else th_subject t.

Lemma dated_spec t d sort :
  th_oldest (dated t d sort) = (if c_old t d then xd_date d else th_oldest t) /\
  th_newest (dated t d sort) = (if c_new t d then xd_date d else th_newest t) /\
  th_subject (dated t d sort) = (if c_new t d && (negb (is_oldest_first sort) || empty_string (subj1 t d sort))
                                 then new_subject (subj1 t d sort) d else subj1 t d sort).
Proof.
  unfold dated. cbv zeta. fold (c_old t d).
  set (t1 := if c_old t d then _ else t).
  assert (H1 : th_oldest t1 = (if c_old t d then xd_date d else th_oldest t) /\ th_newest t1 = th_newest t /\ th_matched t1 = th_matched t /\
               th_subject t1 = subj1 t d sort).
  { subst t1. unfold subj1. destruct (c_old t d); [|auto]. cbn [andb]. destruct (is_oldest_first sort); [|auto].
    destruct (set_subject_dates (set_oldest t (xd_date d)) d) as (-> & -> & ->). rewrite set_subject_eq. auto. }
  clearbody t1. destruct H1 as (O1 & N1 & M1 & S1).
  unfold c_new. rewrite N1, M1. destruct ((th_newest t <? xd_date d)%Z || (th_matched t =? 0)); cbn [andb].
  - change (th_subject (set_newest t1 (xd_date d))) with (th_subject t1). rewrite S1.
    destruct (negb (is_oldest_first sort) || empty_string (subj1 t d sort)).
    + destruct (set_subject_dates (set_newest t1 (xd_date d)) d) as (-> & -> & _). rewrite set_subject_eq.
      cbn [set_newest th_oldest th_newest th_subject]. rewrite S1. auto.
    + cbn [set_newest th_oldest th_newest th_subject]. auto.
  - auto.
Qed.

Definition with_raw (t : thread) (d : xdoc) : option bytes := Some (match th_subject t with Some s => s | None => raw_subject d end).

(** one iteration of the loop, on dates, count and subject. *)
Lemma body_dates omit ex sort P t d t' : loop_body omit ex sort P t d = Some t' -> (P (xd_id d) = true -> kept omit ex d = true) ->
  if P (xd_id d) then
    exists t1, th_subject t1 = with_raw t d /\ th_oldest t1 = th_oldest t /\ th_newest t1 = th_newest t /\ th_matched t1 = th_matched t /\
      th_oldest t' = (if c_old t1 d then xd_date d else th_oldest t1) /\
      th_newest t' = (if c_new t1 d then xd_date d else th_newest t1) /\
      th_subject t' = (if c_new t1 d && (negb (is_oldest_first sort) || empty_string (subj1 t1 d sort))
                                 then new_subject (subj1 t1 d sort) d else subj1 t1 d sort) /\
      th_matched t' = (if message_excluded omit ex d then th_matched t else S (th_matched t))
  else th_oldest t' = th_oldest t /\ th_newest t' = th_newest t /\ th_matched t' = th_matched t /\
       th_subject t' = (if kept omit ex d then with_raw t d else th_subject t).
Proof.
  intros E H. unfold loop_body in E. destruct (P (xd_id d)) eqn:EP.
  - specialize (H eq_refl). destruct (add_kept omit ex t d H) as (A1 & A2 & A3 & A4 & A5 & A6 & A7 & A8 & A9 & A10 & A11).
    assert (NA : message_excluded omit ex d && is_all omit = false) by (unfold kept in H; now apply negb_true_iff in H).
    assert (EX : message_excluded omit ex d && negb (is_all omit) = message_excluded omit ex d)
        by (destruct (message_excluded omit ex d), (is_all omit); try reflexivity; discriminate).
    rewrite EX in E.
    destruct (matched_eq (thread_add_message omit ex t d) d (message_excluded omit ex d) sort _ _ A2 eq_refl)
        as (t2 & E2 & M1 & M2 & M3 & M4 & M5 & M6 & M7 & M8 & M9 & M10 & M11).
    rewrite E in E2. injection E2 as <-.
    exists (thread_add_message omit ex t d). rewrite M9, M10, M11, M5.
    destruct (dated_spec (thread_add_message omit ex t d) d sort) as (-> & -> & ->).
    split; [exact A11|]. rewrite <- A5. auto 10.
  - injection E as <-. destruct (kept omit ex d) eqn:K.
    + destruct (add_kept omit ex t d K) as (A1 & A2 & A3 & A4 & A5 & A6 & A7 & A8 & A9 & A10 & A11). auto.
    + rewrite add_dropped by exact K. auto.
Qed.

Lemma bodies_app omit ex sort P l1 l2 : forall t, bodies omit ex sort P (l1 ++ l2) t =
  match bodies omit ex sort P l1 t with None => None | Some t' => bodies omit ex sort P l2 t' end.
Proof.
  induction l1 as [|d l1 IH]; intros t; cbn [app bodies]; [reflexivity|].
  destruct (loop_body omit ex sort P t d); [apply IH|reflexivity].
Qed.
