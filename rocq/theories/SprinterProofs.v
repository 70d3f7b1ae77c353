(** Proofs about the JSON printer (C36). *)
From Verif Require Import Bytes Decimal Sprinter SprinterSpec.
Local Open Scope nat_scope.

(** Induction over values. *)
Lemma value_ind' (P : value -> Prop) :
  (forall s, P (VStr s)) -> (forall z, P (VInt z)) -> (forall b, P (VBool b)) -> P VNull ->
  (forall l, Forall P l -> P (VList l)) -> (forall l, Forall (fun kv => P (snd kv)) l -> P (VMap l)) -> forall v, P v.
Proof.
  intros H1 H2 H3 H4 H5 H6. fix IH 1. intros [s|z|b| |l|l]; [apply H1|apply H2|apply H3|apply H4| |].
  - apply H5. induction l as [|v l IHl]; constructor; [apply IH|exact IHl].
  - apply H6. induction l as [|[k v] l IHl]; constructor; [apply IH|exact IHl].
Qed.

Definition nonsep (o : op) : bool := negb (is_separator o).
Lemma filter_split {A} (f : A -> bool) l : forall a b, filter f l = a ++ b -> exists l1 l2, l = l1 ++ l2 /\ filter f l1 = a /\ filter f l2 = b.
Proof.
  induction l as [|x l IH]; intros a b H.
  - cbn in H. symmetry in H. apply app_eq_nil in H as [-> ->]. exists [], []. auto.
  - cbn in H. destruct (f x) eqn:E.
    + destruct a as [|y a].
      * exists [], (x :: l). split; [reflexivity|]. split; [reflexivity|]. cbn. rewrite E. exact H.
      * cbn in H. injection H as <- H. destruct (IH a b H) as (l1 & l2 & -> & F1 & F2). exists (x :: l1), l2. split; [reflexivity|]. cbn. rewrite E, F1. auto.
    + destruct (IH a b H) as (l1 & l2 & -> & F1 & F2). exists (x :: l1), l2. split; [reflexivity|]. cbn. rewrite E. auto.
Qed.
Lemma filter_first calls o r : filter nonsep calls = o :: r -> exists c1 c2, calls = c1 ++ o :: c2 /\ filter nonsep c1 = [] /\ filter nonsep c2 = r.
Proof.
  induction calls as [|x calls IH]; cbn; [discriminate|]. destruct (nonsep x) eqn:E.
  - intros [= <- H]. exists [], calls. auto.
  - intros H. destruct (IH H) as (c1 & c2 & -> & F1 & F2). exists (x :: c1), c2. split; [reflexivity|]. cbn. rewrite E. auto.
Qed.
Lemma json_run_app a : forall b p, json_run (a ++ b) p = match json_run a p with Some p => json_run b p | None => None end.
Proof. induction a as [|o a IH]; intros b p; cbn; [reflexivity|]. destruct (json_call o p); [apply IH|reflexivity]. Qed.
Lemma json_seps calls : filter nonsep calls = [] -> forall p, exists p', json_run calls p = Some p' /\ j_state p' = j_state p /\ j_out p' = j_out p.
Proof.
  induction calls as [|o calls IH]; cbn; intros H p; [eauto|]. destruct o; try discriminate. cbn. 
  destruct (IH H {| j_state := j_state p; j_sep := true; j_out := j_out p |}) as (p' & E & S & O). exists p'. auto.
Qed.

(** The texts the printer may produce for a value. *)
Inductive sep : bytes -> Prop := sep_space : sep (lit ", ") | sep_nl : sep [","%char; chr 10].
Inductive prints : value -> bytes -> Prop :=
| p_str s : prints (VStr s) ([chr 34] ++ flat_map json_escape s ++ [chr 34])
| p_int z : prints (VInt z) (decz z)
| p_bool b : prints (VBool b) (if b then lit "true" else lit "false")
| p_null : prints VNull (lit "null")
| p_nil : prints (VList []) (lit "[]")
| p_list l b : prints_elems l b -> prints (VList l) (["["%char] ++ b ++ ["]"%char])
| p_nil_map : prints (VMap []) (lit "{}")
| p_map l b : prints_members l b -> prints (VMap l) (["{"%char] ++ b ++ ["}"%char])
with prints_elems : list value -> bytes -> Prop :=
| pe_one v b : prints v b -> prints_elems [v] b
| pe_cons v b sp l b' : prints v b -> sep sp -> prints_elems l b' -> prints_elems (v :: l) (b ++ sp ++ b')
with prints_members : list (bytes * value) -> bytes -> Prop :=
| pm_one k v b : prints v b -> prints_members [(k, v)] ([chr 34] ++ flat_map json_escape k ++ [chr 34] ++ lit ": " ++ b)
| pm_cons k v b sp l b' : prints v b -> sep sp -> prints_members l b' ->
    prints_members ((k, v) :: l) (([chr 34] ++ flat_map json_escape k ++ [chr 34] ++ lit ": " ++ b) ++ sp ++ b').
Scheme prints_ind2 := Induction for prints Sort Prop
with prints_elems_ind2 := Induction for prints_elems Sort Prop
with prints_members_ind2 := Induction for prints_members Sort Prop.
Combined Scheme prints_mut from prints_ind2, prints_elems_ind2, prints_members_ind2.

Definition unfirst (st : list (bool * byte)) : list (bool * byte) := match st with (_, c) :: st => (false, c) :: st | [] => [] end.
(** The separator text written before a value. *)
Definition lead (st : list (bool * byte)) (pre : bytes) : Prop :=
  match st with (false, _) :: _ => sep pre | _ => pre = [] end.
Lemma begin_value_spec p : exists pre, lead (j_state p) pre /\ j_out (json_begin_value p) = j_out p ++ pre /\ j_state (json_begin_value p) = unfirst (j_state p).
Proof.
  unfold json_begin_value. destruct (j_state p) as [|[[] c] st] eqn:E; cbn.
  - exists []. rewrite app_nil_r, E. auto.
  - exists []. rewrite app_nil_r. auto.
  - destruct (j_sep p); cbn.
    + exists [","%char; chr 10]. split; [constructor|auto].
    + exists (lit ", "). split; [constructor|]. rewrite E. auto.
Qed.
Definition Pr (v : value) : Prop := forall calls p, printing v calls ->
  exists p' pre b, json_run calls p = Some p' /\ prints v b /\ lead (j_state p) pre /\ j_state p' = unfirst (j_state p) /\
    j_out p' = j_out p ++ pre ++ b ++ match j_state p with [] => if aggregate v then [chr 10] else [] | _ => [] end.
Lemma Pr_atom v o text : emit v = [o] -> aggregate v = false -> prints v text ->
  (forall p, json_call o p = Some (jput text (json_begin_value p))) -> Pr v.
Proof.
  intros He Ha Ht Ho calls p H. unfold printing in H. rewrite He in H.
  apply filter_first in H as (c1 & c2 & -> & F1 & F2). rewrite json_run_app.
  destruct (json_seps c1 F1 p) as (p1 & E1 & S1 & O1). rewrite E1. cbn [json_run]. rewrite Ho.
  destruct (json_seps c2 F2 (jput text (json_begin_value p1))) as (p2 & E2 & S2 & O2). rewrite E2.
  destruct (begin_value_spec p1) as (pre & L & O & S). exists p2, pre, text. split; [reflexivity|]. split; [exact Ht|]. rewrite <- S1. split; [exact L|].
  split; [rewrite S2; exact S|]. rewrite O2. cbn [j_out jput]. rewrite O, O1, Ha. destruct (j_state p1); rewrite <- !app_assoc, ?app_nil_r; reflexivity.
Qed.

Lemma elems_spec l : Forall Pr l -> forall calls p first close st, filter nonsep calls = flat_map emit l -> j_state p = (first, close) :: st ->
  exists p', json_run calls p = Some p' /\ 
    ((l = [] /\ j_out p' = j_out p /\ j_state p' = j_state p) \/
     exists pre b, prints_elems l b /\ lead (j_state p) pre /\ j_out p' = j_out p ++ pre ++ b /\ j_state p' = (false, close) :: st).
Proof.
  induction 1 as [|v l Hv Hl IH]; intros calls p first close st Hc Hs.
  - cbn in Hc. destruct (json_seps calls Hc p) as (p' & E & S & O). exists p'. split; [exact E|]. left. auto.
  - cbn in Hc. apply filter_split in Hc as (c1 & c2 & -> & F1 & F2). rewrite json_run_app.
    destruct (Hv c1 p F1) as (p1 & pre & b & E1 & B1 & L1 & S1 & O1). rewrite E1. rewrite Hs in S1. cbn in S1.
    destruct (IH c2 p1 false close st F2 S1) as (p2 & E2 & D). exists p2. split; [exact E2|]. right.
    rewrite Hs in O1. rewrite app_nil_r in O1.
    destruct D as [(-> & O2 & S2)|(pre2 & b2 & B2 & L2 & O2 & S2)].
    + exists pre, b. split; [now constructor|]. split; [exact L1|]. rewrite O2, O1, S2, S1. auto.
    + rewrite S1 in L2. cbn in L2. exists pre, (b ++ pre2 ++ b2). split; [now constructor|]. split; [exact L1|]. rewrite O2, O1, S2. rewrite <- !app_assoc. auto.
Qed.
Lemma members_spec l : Forall (fun kv => Pr (snd kv)) l -> forall calls p first close st, filter nonsep calls = flat_map (fun kv => Key (fst kv) :: emit (snd kv)) l -> j_state p = (first, close) :: st ->
  exists p', json_run calls p = Some p' /\ 
    ((l = [] /\ j_out p' = j_out p /\ j_state p' = j_state p) \/
     exists pre b, prints_members l b /\ lead (j_state p) pre /\ j_out p' = j_out p ++ pre ++ b /\ j_state p' = (false, close) :: st).
Proof.
  induction 1 as [|[k v] l Hv Hl IH]; intros calls p first close st Hc Hs.
  - cbn in Hc. destruct (json_seps calls Hc p) as (p' & E & S & O). exists p'. split; [exact E|]. left. auto.
  - cbn in Hc, Hv. apply filter_first in Hc as (c0 & c' & -> & F0 & Hc). rewrite json_run_app.
    destruct (json_seps c0 F0 p) as (p0 & E0 & S0 & O0). rewrite E0. cbn [json_run].
    destruct (begin_value_spec p0) as (pre & L & O & S). rewrite S0 in L, S.
    assert (Ek : json_call (Key k) p0 = Some {| j_state := (true, close) :: st; j_sep := j_sep (json_begin_value p0);
       j_out := j_out p ++ pre ++ [chr 34] ++ flat_map json_escape k ++ [chr 34] ++ lit ": " |}).
    { cbn [json_call]. unfold json_map_key, json_string_len. cbn [jput j_state j_out j_sep]. rewrite S, Hs. cbn [unfirst]. rewrite O, O0. rewrite <- !app_assoc. reflexivity. }
    rewrite Ek. clear Ek. set (p1 := {| j_state := (true, close) :: st; j_sep := _; j_out := _ |}).
    apply filter_split in Hc as (c1 & c2 & -> & F1 & F2). rewrite json_run_app.
    destruct (Hv c1 p1 F1) as (p2 & pre1 & b & E1 & B1 & L1 & S1 & O1). rewrite E1. cbn in L1, S1. subst pre1. cbn [p1 j_state j_out] in O1. rewrite app_nil_r in O1. cbn [app] in O1.
    destruct (IH c2 p2 false close st F2 S1) as (p3 & E3 & D). exists p3. split; [exact E3|]. right.
    destruct D as [(-> & O3 & S3)|(pre2 & b2 & B2 & L2 & O3 & S3)].
    + exists pre, ([chr 34] ++ flat_map json_escape k ++ [chr 34] ++ lit ": " ++ b). split; [now constructor|]. split; [exact L|]. rewrite O3, O1, S3, S1.
      split; [|reflexivity]. rewrite <- !app_assoc. cbn [app]. rewrite <- !app_assoc. reflexivity.
    + rewrite S1 in L2. cbn in L2. exists pre, (([chr 34] ++ flat_map json_escape k ++ [chr 34] ++ lit ": " ++ b) ++ pre2 ++ b2). split; [now constructor|]. split; [exact L|]. rewrite O3, O1, S3.
      split; [|reflexivity]. repeat (rewrite <- ?app_assoc; cbn [app]). reflexivity.
Qed.

Lemma printer_prints v : Pr v.
Proof.
  induction v as [s|z|b| |l IH|l IH] using value_ind'.
  - apply (Pr_atom _ (Str s) ([chr 34] ++ flat_map json_escape s ++ [chr 34])); try reflexivity. constructor.
  - apply (Pr_atom _ (Int z) (decz z)); try reflexivity. constructor.
  - apply (Pr_atom _ (Bool b) (if b then lit "true" else lit "false")); try reflexivity. constructor.
  - apply (Pr_atom _ Null (lit "null")); try reflexivity. constructor.
  - intros calls p H. unfold printing in H. cbn [emit] in H. apply filter_first in H as (c0 & c' & -> & F0 & H). apply filter_split in H as (c1 & c2 & -> & F1 & F2).
    apply filter_first in F2 as (c3 & c4 & -> & F3 & F4). rewrite json_run_app. destruct (json_seps c0 F0 p) as (p0 & E0 & S0 & O0). rewrite E0. cbn [json_run json_call].
    destruct (begin_value_spec p0) as (pre & L & O & S). rewrite S0 in L, S.
    set (p1 := json_begin_aggregate "[" "]" p0). rewrite json_run_app.
    assert (S1 : j_state p1 = (true, "]"%char) :: unfirst (j_state p)) by (unfold p1, json_begin_aggregate; cbn; now rewrite S).
    assert (O1 : j_out p1 = j_out p ++ pre ++ ["["%char]) by (unfold p1, json_begin_aggregate; cbn; rewrite O, O0, <- app_assoc; reflexivity).
    destruct (elems_spec l IH c1 p1 true "]"%char _ F1 S1) as (p2 & E2 & D). rewrite E2.
    rewrite json_run_app. destruct (json_seps c3 F3 p2) as (p3 & E3 & S3 & O3). rewrite E3. cbn [json_run json_call].
    assert (S2 : exists f, j_state p3 = (f, "]"%char) :: unfirst (j_state p)).
    { rewrite S3. destruct D as [(_ & _ & D)|(_ & _ & _ & _ & _ & D)]; rewrite D; [exists true; exact S1|eauto]. }
    destruct S2 as (f & S2). unfold json_end. rewrite S2.
    assert (B : exists b, prints (VList l) b /\ j_out p3 ++ ["]"%char] = j_out p ++ pre ++ b).
    { rewrite O3. destruct D as [(-> & D & _)|(pre2 & b & D1 & D2 & D3 & _)].
      - exists (lit "[]"). split; [constructor|]. rewrite D, O1. rewrite <- !app_assoc. reflexivity.
      - rewrite S1 in D2. cbn in D2. subst pre2. exists (["["%char] ++ b ++ ["]"%char]). split; [now constructor|]. rewrite D3, O1. rewrite <- !app_assoc. reflexivity. }
    destruct B as (b & B1 & B2).
    set (p4 := match unfirst (j_state p) with [] => _ | _ => _ end).
    destruct (json_seps c4 F4 p4) as (p5 & E5 & S5 & O5). exists p5, pre, b. split; [exact E5|]. split; [exact B1|]. split; [exact L|]. split.
    + rewrite S5. unfold p4. destruct (j_state p) as [|[? ?] ?]; reflexivity.
    + rewrite O5. unfold p4. cbn [aggregate]. destruct (j_state p) as [|[? ?] ?]; cbn [unfirst jput j_out]; rewrite B2; rewrite <- ?app_assoc, ?app_nil_r; reflexivity.
  - intros calls p H. unfold printing in H. cbn [emit] in H. apply filter_first in H as (c0 & c' & -> & F0 & H). apply filter_split in H as (c1 & c2 & -> & F1 & F2).
    apply filter_first in F2 as (c3 & c4 & -> & F3 & F4). rewrite json_run_app. destruct (json_seps c0 F0 p) as (p0 & E0 & S0 & O0). rewrite E0. cbn [json_run json_call].
    destruct (begin_value_spec p0) as (pre & L & O & S). rewrite S0 in L, S.
    set (p1 := json_begin_aggregate "{" "}" p0). rewrite json_run_app.
    assert (S1 : j_state p1 = (true, "}"%char) :: unfirst (j_state p)) by (unfold p1, json_begin_aggregate; cbn; now rewrite S).
    assert (O1 : j_out p1 = j_out p ++ pre ++ ["{"%char]) by (unfold p1, json_begin_aggregate; cbn; rewrite O, O0, <- app_assoc; reflexivity).
    destruct (members_spec l IH c1 p1 true "}"%char _ F1 S1) as (p2 & E2 & D). rewrite E2.
    rewrite json_run_app. destruct (json_seps c3 F3 p2) as (p3 & E3 & S3 & O3). rewrite E3. cbn [json_run json_call].
    assert (S2 : exists f, j_state p3 = (f, "}"%char) :: unfirst (j_state p)).
    { rewrite S3. destruct D as [(_ & _ & D)|(_ & _ & _ & _ & _ & D)]; rewrite D; [exists true; exact S1|eauto]. }
    destruct S2 as (f & S2). unfold json_end. rewrite S2.
    assert (B : exists b, prints (VMap l) b /\ j_out p3 ++ ["}"%char] = j_out p ++ pre ++ b).
    { rewrite O3. destruct D as [(-> & D & _)|(pre2 & b & D1 & D2 & D3 & _)].
      - exists (lit "{}"). split; [constructor|]. rewrite D, O1. rewrite <- !app_assoc. reflexivity.
      - rewrite S1 in D2. cbn in D2. subst pre2. exists (["{"%char] ++ b ++ ["}"%char]). split; [now constructor|]. rewrite D3, O1. rewrite <- !app_assoc. reflexivity. }
    destruct B as (b & B1 & B2).
    set (p4 := match unfirst (j_state p) with [] => _ | _ => _ end).
    destruct (json_seps c4 F4 p4) as (p5 & E5 & S5 & O5). exists p5, pre, b. split; [exact E5|]. split; [exact B1|]. split; [exact L|]. split.
    + rewrite S5. unfold p4. destruct (j_state p) as [|[? ?] ?]; reflexivity.
    + rewrite O5. unfold p4. cbn [aggregate]. destruct (j_state p) as [|[? ?] ?]; cbn [unfirst jput j_out]; rewrite B2; rewrite <- ?app_assoc, ?app_nil_r; reflexivity.
Qed.

(** The reader inverts the texts. *)
Lemma read_escape c t : read_string (json_escape c ++ t) = match read_string t with Some (x, r) => Some (c :: x, r) | None => None end.
Proof. destruct c as [[] [] [] [] [] [] [] []]; reflexivity. Qed.
Lemma read_string_spec s rest : read_string (flat_map json_escape s ++ [chr 34] ++ rest) = Some (s, rest).
Proof. induction s as [|c s IH]; [reflexivity|]. cbn [flat_map]. rewrite <- app_assoc, read_escape, IH. reflexivity. Qed.
Lemma read_decz z rest : isdigit (peek rest) = false -> read_number (decz z ++ rest) = Some (z, rest).
Proof.
  intros H. assert (A : forall n neg, match dec n ++ rest with
    | c :: s' => if isdigit c then let '(m, r) := if beq c "0" then (0%N, s') else read_digits 0 (dec n ++ rest) in Some (if neg : bool then Z.opp (Z.of_N m) else Z.of_N m, r) else None
    | [] => None end = Some (if neg then Z.opp (Z.of_N n) else Z.of_N n, rest)).
  { intros n neg. pose proof (dec_digits n) as D. pose proof (dec_nonempty n) as Ne. pose proof (dec_no_zero n) as Z0. pose proof (read_dec_end n rest H) as R.
    destruct (N.eq_dec n 0) as [->|Hn].
    - rewrite dec_zero. reflexivity.
    - destruct (dec n) as [|c t]; [congruence|]. cbn [app forallb peek] in *. apply andb_true_iff in D as [D1 _]. rewrite D1.
      destruct (beq_spec c "0") as [->|]; [exfalso; apply Z0; [lia|reflexivity]|]. rewrite R. reflexivity. }
  assert (B : forall n, match dec n ++ rest with c :: s' => if beq c "-" then (true, s') else (false, dec n ++ rest) | [] => (false, dec n ++ rest) end = (false, dec n ++ rest)).
  { intros n. pose proof (dec_digits n) as D. pose proof (dec_nonempty n) as Ne. destruct (dec n) as [|c t]; [congruence|]. cbn [app forallb] in *. apply andb_true_iff in D as [D1 _].
    destruct (beq_spec c "-") as [->|]; [discriminate|reflexivity]. }
  unfold read_number. destruct z as [|q|q]; cbn [decz].
  - rewrite B. exact (A 0%N false).
  - rewrite B. exact (A (Npos q) false).
  - cbn [app]. change (beq "-" "-") with true. cbn iota. exact (A (Npos q) true).
Qed.
Definition value_head (c : byte) : Prop := ws c = false /\ beq c "]" = false /\ beq c "}" = false.
Lemma decz_head z : exists c t, decz z = c :: t /\ (isdigit c = true \/ c = "-"%char).
Proof.
  assert (A : forall n, exists c t, dec n = c :: t /\ isdigit c = true).
  { intros n. pose proof (dec_digits n) as D. pose proof (dec_nonempty n) as Ne. destruct (dec n) as [|c t]; [congruence|]. cbn in D. apply andb_true_iff in D as [D _]. eauto. }
  destruct z as [|q|q]; cbn [decz].
  - destruct (A 0%N) as (c & t & -> & D). eauto.
  - destruct (A (Npos q)) as (c & t & -> & D). eauto.
  - eexists _, _. split; [reflexivity|auto].
Qed.
Definition num_start (c : byte) : bool := isdigit c || beq c "-".
Lemma num_tests c : num_start c = true ->
  ws c = false /\ beq c "]" = false /\ beq c "}" = false /\ beq c (chr 34) = false /\ beq c "[" = false /\ beq c "{" = false /\ beq "t" c = false /\ beq "f" c = false /\ beq "n" c = false /\ beq c "(" = false /\ beq c ")" = false /\ beq c ":" = false.
Proof. destruct c as [[] [] [] [] [] [] [] []]; intros H; try discriminate H; repeat split. Qed.
Lemma prints_head : (forall v b, prints v b -> exists c t, b = c :: t /\ value_head c).
Proof.
  intros v b H. destruct H; try (eexists _, _; split; [reflexivity|repeat split]).
  - destruct (decz_head z) as (c & t & -> & D). exists c, t. split; [reflexivity|]. assert (N : num_start c = true) by (unfold num_start; destruct D as [-> | ->]; reflexivity).
    apply num_tests in N. repeat split; apply N.
  - destruct b; (eexists _, _; split; [reflexivity|repeat split]).
Qed.
Lemma elems_head l b : prints_elems l b -> exists c t, b = c :: t /\ value_head c.
Proof.
  intros H. destruct H as [v b H|v b sp l b' H _ _]; apply prints_head in H as (c & t & -> & Hh); [eauto|]. exists c, (t ++ sp ++ b'). auto.
Qed.
Lemma ws_skip w c t : forallb ws w = true -> ws c = false -> dropwhile ws (w ++ c :: t) = c :: t.
Proof. intros Hw Hc. induction w as [|x w IH]; cbn in *; [now rewrite Hc|]. apply andb_true_iff in Hw as [-> Hw]. auto. Qed.
Lemma sep_cases sp : sep sp -> exists w, sp = ","%char :: w /\ forallb ws w = true.
Proof. intros []; eexists; split; reflexivity. Qed.

Definition reads_v (v : value) (b : bytes) : Prop := forall w rest, forallb ws w = true -> isdigit (peek rest) = false ->
  exists n, forall f, n <= f -> read_json f (w ++ b ++ rest) = Some (v, rest).
Definition reads_e (l : list value) (b : bytes) : Prop := forall w rest, forallb ws w = true ->
  exists n, forall f, n <= f -> read_elements f (w ++ b ++ "]"%char :: rest) = Some (l, rest).
Definition reads_m (l : list (bytes * value)) (b : bytes) : Prop := forall w rest, forallb ws w = true ->
  exists n, forall f, n <= f -> read_members f (w ++ b ++ "}"%char :: rest) = Some (l, rest).
Lemma reader_inverts : (forall v b, prints v b -> reads_v v b) /\ (forall l b, prints_elems l b -> reads_e l b) /\ (forall l b, prints_members l b -> reads_m l b).
Proof.
  apply (prints_mut (fun v b _ => reads_v v b) (fun l b _ => reads_e l b) (fun l b _ => reads_m l b)).
  - intros s w rest Hw Hr. exists 1. intros [|f] Hf; [lia|]. cbn [read_json]. rewrite <- app_assoc. cbn [app]. rewrite ws_skip by (assumption || reflexivity).
    change (beq (chr 34) (chr 34)) with true. cbn iota. rewrite <- app_assoc, read_string_spec. reflexivity.
  - intros z w rest Hw Hr. exists 1. intros [|f] Hf; [lia|]. cbn [read_json]. pose proof (read_decz z rest Hr) as R.
    destruct (decz_head z) as (c & t & E & D). rewrite E in *. cbn [app] in *.
    assert (N : num_start c = true) by (unfold num_start; destruct D as [-> | ->]; reflexivity). apply num_tests in N as (N1 & N2 & N3 & N4 & N5 & N6 & N7 & N8 & N9 & _).
    rewrite (ws_skip w c _ Hw N1). rewrite N4, N5, N6. cbn [lit list_ascii_of_string strip_prefix]. rewrite N7, N8, N9. rewrite R. reflexivity.
  - intros [] w rest Hw Hr; exists 1; intros [|f] Hf; try lia; cbn [read_json lit list_ascii_of_string app]; rewrite ws_skip by (assumption || reflexivity); reflexivity.
  - intros w rest Hw Hr; exists 1; intros [|f] Hf; try lia; cbn [read_json lit list_ascii_of_string app]; rewrite ws_skip by (assumption || reflexivity); reflexivity.
  - intros w rest Hw Hr; exists 1; intros [|f] Hf; try lia; cbn [read_json lit list_ascii_of_string app]; rewrite ws_skip by (assumption || reflexivity); reflexivity.
  - intros l b Hb IH w rest Hw Hr. destruct (IH [] rest eq_refl) as (n & Hn). exists (S n). intros [|f] Hf; [lia|]. cbn [read_json]. rewrite <- !app_assoc. cbn [app].
    rewrite ws_skip by (assumption || reflexivity). change (beq "[" (chr 34)) with false. change (beq "[" "[") with true. cbn iota.
    destruct (elems_head l b Hb) as (c & t & E & Hh1 & Hh2 & Hh3).
    replace (dropwhile ws (b ++ "]"%char :: rest)) with (c :: t ++ "]"%char :: rest).
    2:{ rewrite E. cbn. rewrite Hh1. reflexivity. }
    rewrite Hh2. specialize (Hn f ltac:(lia)). cbn [app] in Hn. rewrite Hn. reflexivity.
  - intros w rest Hw Hr; exists 1; intros [|f] Hf; try lia; cbn [read_json lit list_ascii_of_string app]; rewrite ws_skip by (assumption || reflexivity); reflexivity.
  - intros l b Hb IH w rest Hw Hr. destruct (IH [] rest eq_refl) as (n & Hn). exists (S n). intros [|f] Hf; [lia|]. cbn [read_json]. rewrite <- !app_assoc. cbn [app].
    rewrite ws_skip by (assumption || reflexivity). change (beq "{" (chr 34)) with false. change (beq "{" "[") with false. change (beq "{" "{") with true. cbn iota.
    assert (Hd : exists t, b = chr 34 :: t) by (destruct Hb; cbn [app]; eauto). destruct Hd as (t & E).
    replace (dropwhile ws (b ++ "}"%char :: rest)) with (chr 34 :: t ++ "}"%char :: rest) by (rewrite E; reflexivity).
    change (beq (chr 34) "}") with false. cbn iota. specialize (Hn f ltac:(lia)). cbn [app] in Hn. rewrite Hn. reflexivity.
  - intros v b Hb IH w rest Hw. destruct (IH w ("]"%char :: rest) Hw eq_refl) as (n & Hn). exists (S n). intros [|f] Hf; [lia|]. cbn [read_elements].
    rewrite Hn by lia. reflexivity.
  - intros v b sp l b' Hb IH Hsp Hl IHl w rest Hw. apply sep_cases in Hsp as (w' & -> & Hw'). rewrite <- !app_assoc. cbn [app]. 
    destruct (IH w (","%char :: w' ++ b' ++ "]"%char :: rest) Hw eq_refl) as (n & Hn). destruct (IHl w' rest Hw') as (n' & Hn'). exists (S (n + n')). intros [|f] Hf; [lia|]. cbn [read_elements].
    rewrite <- ?app_assoc. rewrite Hn by lia. change (dropwhile ws (","%char :: ?x)) with (","%char :: x). change (beq "," "]") with false. change (beq "," ",") with true. cbn iota.
    rewrite Hn' by lia. reflexivity.
  - intros k v b Hb IH w rest Hw. destruct (IH [" "%char] ("}"%char :: rest) eq_refl eq_refl) as (n & Hn). exists (S n). intros [|f] Hf; [lia|]. cbn [read_members].
    rewrite <- !app_assoc. cbn [app]. rewrite ws_skip by (assumption || reflexivity). change (beq (chr 34) (chr 34)) with true. cbn iota.
    rewrite <- ?app_assoc. cbn [app lit list_ascii_of_string]. rewrite (read_string_spec k (":"%char :: " "%char :: b ++ "}"%char :: rest) : read_string (flat_map json_escape k ++ chr 34 :: ":"%char :: " "%char :: b ++ "}"%char :: rest) = _).
    change (dropwhile ws (":"%char :: ?x)) with (":"%char :: x). change (beq ":" ":") with true. cbn iota.
    specialize (Hn f ltac:(lia)). cbn [app] in Hn. rewrite Hn. reflexivity.
  - intros k v b sp l b' Hb IH Hsp Hl IHl w rest Hw. apply sep_cases in Hsp as (w' & -> & Hw').
    destruct (IH [" "%char] (","%char :: w' ++ b' ++ "}"%char :: rest) eq_refl eq_refl) as (n & Hn). destruct (IHl w' rest Hw') as (n' & Hn'). exists (S (n + n')). intros [|f] Hf; [lia|]. cbn [read_members].
    rewrite <- !app_assoc. cbn [app]. rewrite ws_skip by (assumption || reflexivity). change (beq (chr 34) (chr 34)) with true. cbn iota.
    rewrite <- ?app_assoc. cbn [app lit list_ascii_of_string]. rewrite <- ?app_assoc. cbn [app].
    rewrite (read_string_spec k (":"%char :: " "%char :: b ++ ","%char :: w' ++ b' ++ "}"%char :: rest) : read_string (flat_map json_escape k ++ chr 34 :: ":"%char :: " "%char :: b ++ ","%char :: w' ++ b' ++ "}"%char :: rest) = _).
    change (dropwhile ws (":"%char :: ?x)) with (":"%char :: x). change (beq ":" ":") with true. cbn iota.
    specialize (Hn f ltac:(lia)). cbn [app] in Hn. rewrite Hn. change (dropwhile ws (","%char :: ?x)) with (","%char :: x). change (beq "," "}") with false. change (beq "," ",") with true. cbn iota.
    rewrite Hn' by lia. reflexivity.
Qed.
