(** Proofs about the S-expression printer (C37). *)
From Verif Require Import Bytes Decimal Sprinter SprinterSpec SprinterProofs.
Local Open Scope nat_scope.

Lemma sexp_run_app a : forall b p, sexp_run (a ++ b) p = match sexp_run a p with Some p => sexp_run b p | None => None end.
Proof. induction a as [|o a IH]; intros b p; cbn; [reflexivity|]. destruct (sexp_call o p); [apply IH|reflexivity]. Qed.
Lemma sexp_seps calls : filter nonsep calls = [] -> forall p, exists p', sexp_run calls p = Some p' /\ s_state p' = s_state p /\ s_out p' = s_out p.
Proof.
  induction calls as [|o calls IH]; cbn; intros H p; [eauto|]. destruct o; try discriminate. cbn. 
  destruct (IH H {| s_state := s_state p; s_sep := true; s_out := s_out p |}) as (p' & E & S & O). exists p'. auto.
Qed.

(** The texts the printer may produce for a datum. *)
Inductive ssep : bytes -> Prop := ssep_space : ssep [" "%char] | ssep_nl : ssep [chr 10].
Inductive dprints : datum -> bytes -> Prop :=
| d_str s : dprints (DStr s) ([chr 34] ++ flat_map sexp_escape s ++ [chr 34])
| d_int z : dprints (DInt z) (decz z)
| d_t : dprints (DSym (lit "t")) (lit "t")
| d_nil : dprints (DSym (lit "nil")) (lit "nil")
| d_key k : forallb keyword_char k = true -> dprints (DKey k) (":"%char :: k)
| d_empty : dprints (DList []) (lit "()")
| d_list l b : dprints_items l b -> dprints (DList l) (["("%char] ++ b ++ [")"%char])
with dprints_items : list datum -> bytes -> Prop :=
| di_one d b : dprints d b -> dprints_items [d] b
| di_cons d b sp l b' : dprints d b -> ssep sp -> dprints_items l b' -> dprints_items (d :: l) (b ++ sp ++ b').
Scheme dprints_ind2 := Induction for dprints Sort Prop
with dprints_items_ind2 := Induction for dprints_items Sort Prop.
Combined Scheme dprints_mut from dprints_ind2, dprints_items_ind2.

Definition sunfirst (st : list bool) : list bool := match st with _ :: st => false :: st | [] => [] end.
Definition slead (st : list bool) (pre : bytes) : Prop := match st with false :: _ => ssep pre | _ => pre = [] end.
Lemma sbegin_value_spec p : exists pre, slead (s_state p) pre /\ s_out (sexp_begin_value p) = s_out p ++ pre /\ s_state (sexp_begin_value p) = sunfirst (s_state p).
Proof.
  unfold sexp_begin_value. destruct (s_state p) as [|[] st] eqn:E; cbn.
  - exists []. rewrite app_nil_r, E. auto.
  - exists []. rewrite app_nil_r. auto.
  - destruct (s_sep p); cbn.
    + exists [chr 10]. split; [constructor|auto].
    + exists [" "%char]. split; [constructor|]. rewrite E. auto.
Qed.
(** A piece of calls prints the items [ds] inside an aggregate. *)
Definition Items (ops : list op) (ds : list datum) : Prop := forall calls p first st, filter nonsep calls = ops -> s_state p = first :: st ->
  exists p', sexp_run calls p = Some p' /\
    ((ds = [] /\ s_out p' = s_out p /\ s_state p' = s_state p) \/
     exists pre b, dprints_items ds b /\ slead (s_state p) pre /\ s_out p' = s_out p ++ pre ++ b /\ s_state p' = false :: st).
Definition Sp (v : value) : Prop := forall calls p, printing v calls ->
  exists p' pre b, sexp_run calls p = Some p' /\ dprints (lisp v) b /\ slead (s_state p) pre /\ s_state p' = sunfirst (s_state p) /\
    s_out p' = s_out p ++ pre ++ b ++ match s_state p with [] => if aggregate v then [chr 10] else [] | _ => [] end.
Lemma items_join l b : dprints_items l b -> forall l' b' sp, ssep sp -> dprints_items l' b' -> dprints_items (l ++ l') (b ++ sp ++ b').
Proof.
  induction 1 as [d b H|d b sp0 l b0 H Hs Hl IH]; intros l' b' sp Hsp Hl'; [now constructor|].
  cbn [app]. rewrite <- !app_assoc. constructor; auto.
Qed.
Lemma Items_nil : Items [] [].
Proof. intros calls p first st Hc Hs. destruct (sexp_seps calls Hc p) as (p' & E & S & O). exists p'. split; [exact E|]. left. auto. Qed.
Lemma Items_app o1 d1 o2 d2 : Items o1 d1 -> Items o2 d2 -> Items (o1 ++ o2) (d1 ++ d2).
Proof.
  intros H1 H2 calls p first st Hc Hs. apply filter_split in Hc as (c1 & c2 & -> & F1 & F2). rewrite sexp_run_app.
  destruct (H1 c1 p first st F1 Hs) as (p1 & E1 & D1). rewrite E1.
  assert (S1 : exists f, s_state p1 = f :: st).
  { destruct D1 as [(_ & _ & D)|(_ & _ & _ & _ & _ & D)]; rewrite D; [rewrite Hs|]; eauto. }
  destruct S1 as (f1 & S1). destruct (H2 c2 p1 f1 st F2 S1) as (p2 & E2 & D2). exists p2. split; [exact E2|].
  destruct D1 as [(-> & O1 & S1')|(pre1 & b1 & B1 & L1 & O1 & S1')].
  - rewrite O1, S1' in D2. exact D2.
  - right. destruct D2 as [(-> & O2 & S2)|(pre2 & b2 & B2 & L2 & O2 & S2)].
    + rewrite app_nil_r. exists pre1, b1. rewrite O2, S2, O1, S1'. auto.
    + rewrite S1' in L2. cbn in L2. exists pre1, (b1 ++ pre2 ++ b2). split; [now apply items_join|]. split; [exact L1|]. rewrite O2, O1, S2, <- !app_assoc. auto.
Qed.
Lemma Items_of_Sp v : Sp v -> Items (emit v) [lisp v].
Proof.
  intros H calls p first st Hc Hs. destruct (H calls p Hc) as (p' & pre & b & E & B & L & S & O). exists p'. split; [exact E|]. right. exists pre, b.
  split; [now constructor|]. split; [exact L|]. rewrite Hs in O, S. rewrite app_nil_r in O. auto.
Qed.
Lemma Items_key k : forallb keyword_char k = true -> Items [Key k] [DKey k].
Proof.
  intros Hk calls p first st Hc Hs. apply filter_first in Hc as (c1 & c2 & -> & F1 & F2). rewrite sexp_run_app.
  destruct (sexp_seps c1 F1 p) as (p1 & E1 & S1 & O1). rewrite E1. cbn [sexp_run sexp_call]. unfold sexp_keyword. rewrite Hk.
  destruct (sexp_seps c2 F2 (sput (":"%char :: k) (sexp_begin_value p1))) as (p2 & E2 & S2 & O2). rewrite E2.
  destruct (sbegin_value_spec p1) as (pre & L & O & S). exists p2. split; [reflexivity|]. right. exists pre, (":"%char :: k). 
  split; [constructor; now constructor|]. rewrite <- S1. split; [exact L|]. rewrite O2, S2. cbn [sput s_out s_state]. rewrite O, O1, S, S1, Hs, <- app_assoc. auto.
Qed.
Lemma Sp_atom v o text : emit v = [o] -> aggregate v = false -> dprints (lisp v) text ->
  (forall p, sexp_call o p = Some (sput text (sexp_begin_value p))) -> Sp v.
Proof.
  intros He Ha Ht Ho calls p H. unfold printing in H. rewrite He in H.
  apply filter_first in H as (c1 & c2 & -> & F1 & F2). rewrite sexp_run_app.
  destruct (sexp_seps c1 F1 p) as (p1 & E1 & S1 & O1). rewrite E1. cbn [sexp_run]. rewrite Ho.
  destruct (sexp_seps c2 F2 (sput text (sexp_begin_value p1))) as (p2 & E2 & S2 & O2). rewrite E2.
  destruct (sbegin_value_spec p1) as (pre & L & O & S). exists p2, pre, text. split; [reflexivity|]. split; [exact Ht|]. rewrite <- S1. split; [exact L|].
  split; [rewrite S2; exact S|]. rewrite O2. cbn [s_out sput]. rewrite O, O1, Ha. destruct (s_state p1); rewrite <- !app_assoc, ?app_nil_r; reflexivity.
Qed.
Lemma Sp_aggregate v o ops ds : (o = BeginList \/ o = BeginMap) -> emit v = o :: ops ++ [End] -> aggregate v = true -> lisp v = DList ds -> Items ops ds -> Sp v.
Proof.
  intros Ho He Ha Hl IH calls p H. unfold printing in H. rewrite He in H. apply filter_first in H as (c0 & c' & -> & F0 & H). apply filter_split in H as (c1 & c2 & -> & F1 & F2).
  apply filter_first in F2 as (c3 & c4 & -> & F3 & F4). rewrite sexp_run_app. destruct (sexp_seps c0 F0 p) as (p0 & E0 & S0 & O0). rewrite E0. cbn [sexp_run].
  destruct (sbegin_value_spec p0) as (pre & L & O & S). rewrite S0 in L, S.
  replace (sexp_call o p0) with (Some (sexp_begin_aggregate p0)) by (destruct Ho; subst; reflexivity).
  set (p1 := sexp_begin_aggregate p0). rewrite sexp_run_app.
  assert (S1 : s_state p1 = true :: sunfirst (s_state p)) by (unfold p1, sexp_begin_aggregate; cbn; now rewrite S).
  assert (O1 : s_out p1 = s_out p ++ pre ++ ["("%char]) by (unfold p1, sexp_begin_aggregate; cbn; rewrite O, O0, <- app_assoc; reflexivity).
  destruct (IH c1 p1 true _ F1 S1) as (p2 & E2 & D). rewrite E2.
  rewrite sexp_run_app. destruct (sexp_seps c3 F3 p2) as (p3 & E3 & S3 & O3). rewrite E3. cbn [sexp_run sexp_call].
  assert (S2 : exists f, s_state p3 = f :: sunfirst (s_state p)).
  { rewrite S3. destruct D as [(_ & _ & D)|(_ & _ & _ & _ & _ & D)]; rewrite D; [exists true; exact S1|eauto]. }
  destruct S2 as (f & S2). unfold sexp_end. rewrite S2.
  assert (B : exists b, dprints (lisp v) b /\ s_out p3 ++ [")"%char] = s_out p ++ pre ++ b).
  { rewrite O3, Hl. destruct D as [(-> & D & _)|(pre2 & b & D1 & D2 & D3 & _)].
    - exists (lit "()"). split; [constructor|]. rewrite D, O1. rewrite <- !app_assoc. reflexivity.
    - rewrite S1 in D2. cbn in D2. subst pre2. exists (["("%char] ++ b ++ [")"%char]). split; [now constructor|]. rewrite D3, O1. rewrite <- !app_assoc. reflexivity. }
  destruct B as (b & B1 & B2).
  set (p4 := match sunfirst (s_state p) with [] => _ | _ => _ end).
  destruct (sexp_seps c4 F4 p4) as (p5 & E5 & S5 & O5). exists p5, pre, b. split; [exact E5|]. split; [exact B1|]. split; [exact L|]. split.
  - rewrite S5. unfold p4. destruct (s_state p) as [|? ?]; reflexivity.
  - rewrite O5. unfold p4. rewrite Ha. destruct (s_state p) as [|? ?]; cbn [sunfirst sput s_out]; rewrite B2; rewrite <- ?app_assoc, ?app_nil_r; reflexivity.
Qed.
Lemma sexp_prints v : good_keys v -> Sp v.
Proof.
  induction v as [s|z|b| |l IH|l IH] using value_ind'; intros G.
  - apply (Sp_atom _ (Str s) ([chr 34] ++ flat_map sexp_escape s ++ [chr 34])); try reflexivity. constructor.
  - apply (Sp_atom _ (Int z) (decz z)); try reflexivity. constructor.
  - apply (Sp_atom _ (Bool b) (if b then lit "t" else lit "nil")); try reflexivity. destruct b; constructor.
  - apply (Sp_atom _ Null (lit "nil")); try reflexivity. constructor.
  - apply (Sp_aggregate _ BeginList (flat_map emit l) (map lisp l)); try reflexivity; [auto|].
    induction l as [|v l IHl]; [apply Items_nil|]. cbn in G. destruct G as [G1 G2]. apply Forall_cons_iff in IH as [IH1 IH2].
    cbn [flat_map map]. apply (Items_app _ [lisp v] _ (map lisp l)); [apply Items_of_Sp, IH1, G1|apply IHl; assumption].
  - apply (Sp_aggregate _ BeginMap (flat_map (fun kv => Key (fst kv) :: emit (snd kv)) l) (flat_map (fun kv => [DKey (fst kv); lisp (snd kv)]) l)); try reflexivity; [auto|].
    induction l as [|[k v] l IHl]; [apply Items_nil|]. cbn in G. destruct G as (G0 & G1 & G2). apply Forall_cons_iff in IH as [IH1 IH2].
    cbn [flat_map fst snd]. apply (Items_app (Key k :: emit v) [DKey k; lisp v]); [|apply IHl; assumption].
    apply (Items_app [Key k] [DKey k] (emit v) [lisp v]); [apply Items_key, G0|apply Items_of_Sp, IH1, G1].
Qed.

(** The reader inverts the texts. *)
Lemma lread_escape c t : read_lisp_string (sexp_escape c ++ t) = match read_lisp_string t with Some (x, r) => Some (c :: x, r) | None => None end.
Proof. destruct c as [[] [] [] [] [] [] [] []]; reflexivity. Qed.
Lemma lread_string_spec s rest : read_lisp_string (flat_map sexp_escape s ++ [chr 34] ++ rest) = Some (s, rest).
Proof. induction s as [|c s IH]; [reflexivity|]. cbn [flat_map]. rewrite <- app_assoc, lread_escape, IH. reflexivity. Qed.
Lemma span_all f (w rest : bytes) : forallb f w = true -> f (peek rest) = false -> span f (w ++ rest) = (w, rest).
Proof.
  intros Hw Hr. induction w as [|c w IH]; cbn in *.
  - destruct rest as [|c r]; cbn in *; [reflexivity|]. now rewrite Hr.
  - apply andb_true_iff in Hw as [-> Hw]. now rewrite (IH Hw).
Qed.
Lemma decz_symbol z : forallb symbol_char (decz z) = true.
Proof.
  assert (A : forall n, forallb symbol_char (dec n) = true).
  { intros n. pose proof (dec_digits n) as D. revert D. generalize (dec n). intros b. induction b as [|c b IH]; cbn; [reflexivity|]. intros D. apply andb_true_iff in D as [D1 D2].
    rewrite (IH D2). unfold symbol_char, isalnum. rewrite D1, ?orb_true_r. reflexivity. }
  destruct z; cbn [decz]; try apply A.
Qed.
Lemma keyword_symbol k : forallb keyword_char k = true -> forallb symbol_char k = true.
Proof. induction k as [|c k IH]; cbn; [reflexivity|]. intros H. apply andb_true_iff in H as [H1 H2]. rewrite (IH H2). unfold symbol_char. unfold keyword_char in H1. rewrite H1. reflexivity. Qed.
Lemma symbol_not_ws c : symbol_char c = true -> ws c = false /\ beq c (chr 34) = false /\ beq c "(" = false /\ beq c ")" = false.
Proof. destruct c as [[] [] [] [] [] [] [] []]; intros H; try discriminate H; repeat split. Qed.
Lemma read_atom f w c tok rest : forallb ws w = true -> forallb symbol_char (c :: tok) = true -> symbol_char (peek rest) = false ->
  read_lisp (S f) (w ++ (c :: tok) ++ rest) = if beq c ":" then Some (DKey tok, rest) else match read_number (c :: tok) with Some (z, []) => Some (DInt z, rest) | _ => Some (DSym (c :: tok), rest) end.
Proof.
  intros Hw Ht Hr. pose proof (span_all symbol_char (c :: tok) rest Ht Hr) as Sp. cbn [forallb] in Ht. apply andb_true_iff in Ht as [Hc _].
  destruct (symbol_not_ws c Hc) as (X1 & X2 & X3 & X4). cbn [read_lisp app]. rewrite ws_skip by assumption. rewrite X2, X3. cbn [app] in Sp. rewrite Sp. reflexivity.
Qed.
Definition datum_head (c : byte) : Prop := ws c = false /\ beq c ")" = false.
Lemma dprints_head d b : dprints d b -> exists c t, b = c :: t /\ datum_head c.
Proof.
  intros H. destruct H; try (eexists _, _; split; [reflexivity|repeat split]).
  destruct (decz_head z) as (c & t & -> & D). exists c, t. split; [reflexivity|]. assert (N : num_start c = true) by (unfold num_start; destruct D as [-> | ->]; reflexivity).
  apply num_tests in N. repeat split; apply N.
Qed.
Definition reads_d (d : datum) (b : bytes) : Prop := forall w rest, forallb ws w = true -> symbol_char (peek rest) = false ->
  exists n, forall f, n <= f -> read_lisp f (w ++ b ++ rest) = Some (d, rest).
Definition reads_i (l : list datum) (b : bytes) : Prop := forall w rest, forallb ws w = true ->
  exists n, forall f, n <= f -> read_list f (w ++ b ++ ")"%char :: rest) = Some (l, rest).
Lemma read_close w rest : forallb ws w = true -> forall f, 1 <= f -> read_list f (w ++ ")"%char :: rest) = Some ([], rest).
Proof. intros Hw [|f] Hf; [lia|]. cbn [read_list]. rewrite ws_skip by (assumption || reflexivity). reflexivity. Qed.
Lemma lisp_reader_inverts : (forall d b, dprints d b -> reads_d d b) /\ (forall l b, dprints_items l b -> reads_i l b).
Proof.
  apply (dprints_mut (fun d b _ => reads_d d b) (fun l b _ => reads_i l b)).
  - intros s w rest Hw Hr. exists 1. intros [|f] Hf; [lia|]. cbn [read_lisp]. rewrite <- app_assoc. cbn [app]. rewrite ws_skip by (assumption || reflexivity).
    change (beq (chr 34) (chr 34)) with true. cbn iota. rewrite <- app_assoc, lread_string_spec. reflexivity.
  - intros z w rest Hw Hr. exists 1. intros [|f] Hf; [lia|]. pose proof (read_decz z [] eq_refl) as R. rewrite app_nil_r in R. pose proof (decz_symbol z) as Sy.
    destruct (decz_head z) as (c & t & E & D). rewrite E in *.
    assert (N : num_start c = true) by (unfold num_start; destruct D as [-> | ->]; reflexivity). apply num_tests in N.
    rewrite read_atom by assumption. replace (beq c ":") with false by (symmetry; apply N). rewrite R. reflexivity.
  - intros w rest Hw Hr. exists 1. intros [|f] Hf; [lia|]. apply (read_atom f w "t"%char [] rest Hw eq_refl Hr).
  - intros w rest Hw Hr. exists 1. intros [|f] Hf; [lia|]. apply (read_atom f w "n"%char (lit "il") rest Hw eq_refl Hr).
  - intros k Hk w rest Hw Hr. exists 1. intros [|f] Hf; [lia|]. apply (read_atom f w ":"%char k rest Hw); [|exact Hr]. cbn [forallb]. rewrite (keyword_symbol k Hk). reflexivity.
  - intros w rest Hw Hr. exists 2. intros [|[|f]] Hf; try lia. cbn [read_lisp lit list_ascii_of_string app]. rewrite ws_skip by (assumption || reflexivity). reflexivity.
  - intros l b Hb IH w rest Hw Hr. destruct (IH [] rest eq_refl) as (n & Hn). exists (S n). intros [|f] Hf; [lia|]. cbn [read_lisp]. rewrite <- !app_assoc. cbn [app].
    rewrite ws_skip by (assumption || reflexivity). change (beq "(" (chr 34)) with false. change (beq "(" "(") with true. cbn iota.
    specialize (Hn f ltac:(lia)). cbn [app] in Hn. rewrite Hn. reflexivity.
  - intros d b Hb IH w rest Hw. destruct (IH w (")"%char :: rest) Hw eq_refl) as (n & Hn). exists (S (S n)). intros [|f] Hf; [lia|]. cbn [read_list].
    destruct (dprints_head d b Hb) as (c & t & -> & H1 & H2). cbn [app] in *. rewrite ws_skip by assumption. rewrite H2. rewrite Hn by lia.
    rewrite (read_close [] rest eq_refl f ltac:(lia) : read_list f (")"%char :: rest) = _). reflexivity.
  - intros d b sp l b' Hb IH Hsp Hl IHl w rest Hw. rewrite <- !app_assoc.
    assert (P : symbol_char (peek (sp ++ b' ++ ")"%char :: rest)) = false) by (destruct Hsp; reflexivity). assert (W : forallb ws sp = true) by (destruct Hsp; reflexivity).
    destruct (IH w (sp ++ b' ++ ")"%char :: rest) Hw P) as (n & Hn). destruct (IHl sp rest W) as (n' & Hn'). exists (S (n + n')). intros [|f] Hf; [lia|]. cbn [read_list].
    destruct (dprints_head d b Hb) as (c & t & -> & H1 & H2). cbn [app] in *. rewrite ws_skip by assumption. rewrite H2. rewrite Hn by lia. rewrite Hn' by lia. reflexivity.
Qed.
