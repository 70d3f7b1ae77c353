(** Property C92: in Python the properties of a message are a set of pairs of texts, read and changed as the mapping says. *)
From Coq Require Import Sorting.Sorted.
From Verif Require Import Bytes Terms Meta DocMap Db DbProofs Props PropsSpec PropsProofs P_Props PyTags PyTagsProofs PyTagsProofs2 PyProps PyPropsSpec PyPropsProofs.
Local Open Scope nat_scope.

(** m[k], k in m and m.get (k, d): the first value of the key, or none. *)
Theorem C92_lookup :
  forall h s R k d, recorded (terms h s) R -> key_text k ->
  (exists v, first_value R k v /\ props_getitem h (Str k) s = Good v /\ props_contains h (Str k) s = Good true /\ props_get h (Str k) d s = Good v) \/
  ((forall v, ~ R k v) /\ props_getitem h (Str k) s = Bad PKeyError /\ props_contains h (Str k) s = Good false /\ props_get h (Str k) d s = Good d).
Proof.
  intros h s R k d Rec Hk. destruct (get_text _ _ Rec k Hk) as (kb & A & G). unfold props_contains, props_get.
  destruct G as [(vb & v & G & D & F)|[G N]].
  - left. assert (E : props_getitem h (Str k) s = Good v) by (unfold props_getitem; now rewrite A, G, D). exists v. rewrite E. auto.
  - right. assert (E : props_getitem h (Str k) s = Bad PKeyError) by (unfold props_getitem; now rewrite A, G). rewrite E. auto.
Qed.
Print Assumptions C92_lookup.

(** Iterating gives every key, in order, once for each of its values; len () counts the pairs; keys (), values () and
    items () give each key, value and pair once. *)
Theorem C92_iteration :
  forall h s R, recorded (terms h s) R ->
  exists t, NoDup t /\ (forall k v, In (k, v) t <-> R k v) /\
    props_iter h s = Good (map fst t) /\ StronglySorted (fun a b => a = b \/ before a b) (map fst t) /\ props_len h s = Good (length t) /\
    (exists l, props_items h s = Good l /\ NoDup l /\ forall k v, In (k, v) l <-> R k v) /\
    (exists l, props_keys h s = Good l /\ NoDup l /\ forall k, In k l <-> exists v, R k v) /\
    (exists l, props_values h s = Good l /\ NoDup l /\ forall v, In v l <-> exists k, R k v).
Proof.
  intros h s R Rec. destruct (pairs_text _ _ Rec [] [] false eq_refl) as (q & G & S1 & N & I). set (t := map (fun p => (decode_ignore (fst p), decode_ignore (snd p))) q) in *. cbv zeta in S1, N, I.
  assert (I' : forall k v, In (k, v) t <-> R k v) by (intros k v; rewrite I; split; [tauto|]; intros X; split; [exact X|now exists k]). clear I.
  assert (P : pairs h [] false s = Good t) by (unfold pairs; now rewrite G). exists t. unfold props_len, props_items, props_keys, props_values, props_iter. rewrite P. cbn [pmap].
  split; [exact N|]. split; [exact I'|]. split; [reflexivity|]. split.
  { clear - S1. induction S1 as [|x q0 S1 IH F]; [constructor|]. cbn [map]. constructor; [exact IH|]. apply Forall_forall. intros y H. apply in_map_iff in H. destruct H as (z & <- & H).
    rewrite Forall_forall in F. destruct (F z H) as [B|[E _]]; auto. }
  split; [now rewrite map_length|]. split; [|split]; eexists; (split; [reflexivity|]).
  - split; [apply once_nodup, pair_eq|]. intros k v. rewrite (once_in _ _ _ pair_eq). apply I'.
  - split; [apply once_nodup, teq_eq|]. intros k. rewrite (once_in _ _ _ teq_eq), in_map_iff. split; [intros ([a b] & <- & X); exists b; now apply I'|intros (v & X); exists (k, v); split; [reflexivity|now apply I']].
  - split; [apply once_nodup, teq_eq|]. intros v. rewrite (once_in _ _ _ teq_eq), in_map_iff. split; [intros ([a b] & <- & X); exists a; now apply I'|intros (k & X); exists (k, v); split; [reflexivity|now apply I']].
Qed.
Print Assumptions C92_iteration.

(** getall: the pairs whose key begins with the text, or is the text, each once. *)
Theorem C92_getall :
  forall h s R p exact_, recorded (terms h s) R -> value_text p ->
  exists t, props_getall h (Str p) exact_ s = Good t /\ NoDup t /\
    forall k v, In (k, v) t <-> R k v /\ if exact_ then k = p else exists r, k = p ++ r.
Proof.
  intros h s R p exact_ Rec Hp. destruct (arg_value p Hp) as (pb & E & _ & A). unfold props_getall. rewrite A. destruct (pairs_text _ _ Rec p pb exact_ E) as (q & G & _ & N & I).
  unfold pairs. rewrite G. eexists. split; [reflexivity|]. split; [exact N|exact I].
Qed.
Print Assumptions C92_getall.

(** Every call does to the pairs what it says, and changes nothing else of the message and no other message; KeyError is raised
    when there is nothing to pop and no default. *)
Theorem C92_calls :
  forall h k0 o s R, has_props s h k0 R -> proper o ->
  (nothing o R /\ props_perform h o s = (s, if key_error o then Some PKeyError else None)) \/
  (~ nothing o R /\ exists s' R', props_perform h o s = (s', None) /\ has_props s' h k0 R' /\ meaning o R R' /\ only_props s s' h k0).
Proof.
  intros h k0 o s R H P.
  assert (Rt : forall x y, R x y -> key_text x /\ value_text y /\ fits x y). { intros x y. destruct H as (d & _ & Rec). now apply (rec_text _ _ Rec). }
  destruct o as [k v|k v|k|k v|k dflt| | |k v|l]; cbn [proper] in P.
  - right. split; [intros []|]. destruct P as (k' & v' & -> & -> & A & B & C). destruct (add_props h k0 s R k' v' H A B C) as (s' & E & H' & O). exists s', (added R k' v'). cbn. repeat (split; [assumption|]). split; [|exact O]. reflexivity.
  - right. split; [intros []|]. destruct P as (k' & v' & -> & -> & A & B & C). destruct (add_props h k0 s R k' v' H A B C) as (s' & E & H' & O). exists s', (added R k' v'). cbn. repeat (split; [assumption|]). split; [|exact O]. reflexivity.
  - right. split; [intros []|]. destruct P as (k' & -> & A). destruct (del_props h k0 s R k' H A) as (s' & E & H' & O). eexists s', _. cbn. split; [exact E|]. split; [exact H'|]. split; [|exact O]. reflexivity.
  - right. split; [intros []|]. destruct P as (k' & v' & -> & -> & A & B & C). destruct (remove_props h k0 s R k' v' H A B C) as (s' & E & H' & O). exists s', (removed R k' v'). cbn. repeat (split; [assumption|]). split; [|exact O]. reflexivity.
  - destruct P as (k' & -> & A). cbn [props_perform nothing meaning key_error]. destruct (pop_props h k0 s R k' dflt H A) as [(v & s' & E & F & H' & O)|[E N]].
    + right. split; [intros X; apply (X v); apply F|]. rewrite E. exists s', (removed R k' v). split; [reflexivity|]. split; [exact H'|]. split; [|exact O]. exists v. split; [exact F|reflexivity].
    + left. split; [exact N|]. rewrite E. destruct dflt; reflexivity.
  - cbn [props_perform nothing meaning key_error]. destruct (popitem_props h k0 s R H) as [(k & v & s' & E & F & L & H' & O)|[E N]].
    + right. split; [intros X; apply (X k v); apply F|]. rewrite E. exists s', (removed R k v). split; [reflexivity|]. split; [exact H'|]. split; [|exact O]. exists k, v. split; [exact F|]. split; [exact L|reflexivity].
    + left. split; [exact N|]. rewrite E. reflexivity.
  - right. split; [intros []|]. destruct (clear_props h k0 s R H) as (s' & E & H' & O). eexists s', _. cbn. split; [exact E|]. split; [exact H'|]. split; [|exact O]. reflexivity.
  - right. split; [intros []|]. destruct P as (k' & v' & -> & -> & A & B & C). cbn [props_perform]. unfold props_setdefault. destruct (getitem_props h k0 s R k' H A) as [(w & -> & F)|[-> N]].
    + exists s, R. split; [reflexivity|]. split; [exact H|]. split; [|apply only_refl]. cbn. left. split; [exists w; apply F|reflexivity].
    + destruct (add_props h k0 s R k' v' H A B C) as (s' & E & H' & O). exists s', (added R k' v'). cbn. split; [exact E|]. split; [exact H'|]. split; [|exact O]. right. split; [exact N|reflexivity].
  - right. split; [intros []|]. destruct (update_props h k0 l s R H P) as (s' & E & H' & O). eexists s', _. cbn. split; [exact E|]. split; [exact H'|]. split; [|exact O]. reflexivity.
Qed.
Print Assumptions C92_calls.

(** Histories of any length. *)
Theorem C92_history :
  forall h k0 os s R, has_props s h k0 R -> Forall proper os ->
  exists R', as_relations os R R' /\ has_props (props_performs h os s) h k0 R' /\ only_props s (props_performs h os s) h k0.
Proof.
  intros h k0 os. induction os as [|o os IH]; intros s R H F.
  - exists R. split; [constructor|]. split; [exact H|apply only_refl].
  - inversion F as [|? ? P F']; subst. cbn [props_performs]. destruct (C92_calls h k0 o s R H P) as [[N E]|[N (s' & R1 & E & H' & M & O)]].
    + rewrite E. cbn [fst]. destruct (IH s R H F') as (R' & A & B & C). exists R'. split; [now apply as_rel_nothing|auto].
    + rewrite E. cbn [fst]. destruct (IH s' R1 H' F') as (R' & A & B & C). exists R'. split; [now apply as_rel_change with R1|]. split; [exact B|exact (only_trans _ _ _ _ _ O C)].
Qed.
Print Assumptions C92_history.

(** Refused: a database open for reading only; a key with '='; a key or value without an encoding or of another type.
    Nothing changes. *)
Theorem C92_refused :
  forall h hd s, dget h (handles s) = Some hd -> isopen s = true ->
  (writable s = false -> forall k v, (exists a, arg k = Good a) -> (exists b, arg v = Good b) ->
     props_add h k v s = (s, Some (PStatus St_read_only)) /\ props_remove h k v s = (s, Some (PStatus St_read_only)) /\
     props_delitem h k s = (s, Some (PStatus St_read_only)) /\ props_clear h s = (s, Some (PStatus St_read_only))) /\
  (writable s = true -> forall k v a b, arg k = Good a -> arg v = Good b -> In "="%char a ->
     props_add h k v s = (s, Some (PStatus St_illegal_argument)) /\ props_remove h k v s = (s, Some (PStatus St_illegal_argument))) /\
  (forall k v, (exists n, k = Other n) \/ (exists t, k = Str t /\ encode t = None) ->
     exists e, (e = PTypeError \/ e = PUnicodeEncodeError) /\ props_getitem h k s = Bad e /\ props_add h k v s = (s, Some e) /\ props_remove h k v s = (s, Some e) /\ props_delitem h k s = (s, Some e)).
Proof.
  intros h hd s Hh Ho. assert (Same : set_handles (dput h hd (handles s)) s = s) by (rewrite dput_same by exact Hh; now destruct s).
  split; [|split].
  - intros Hw k v (a & Ea) (b & Eb). assert (W : ensure_writable s = St_read_only) by (unfold ensure_writable; now rewrite Hw).
    unfold props_add, props_remove, props_delitem, props_clear. rewrite Ea, Eb. cbn [step]. unfold on_handle. rewrite Hh. unfold modify_property, remove_all_properties. rewrite W, Same. repeat split; reflexivity.
  - intros Hw k v a b Ea Eb I. unfold props_add, props_remove. rewrite Ea, Eb. destruct (C12_bad_key_refused h s hd a b Hh Hw Ho I) as [-> ->]. split; reflexivity.
  - intros k v [(n & ->)|(t & -> & E)].
    + exists PTypeError. split; [now left|]. repeat split; reflexivity.
    + exists PUnicodeEncodeError. split; [now right|]. unfold props_getitem, props_add, props_remove, props_delitem. cbn [arg]. rewrite E. repeat split; reflexivity.
Qed.
Print Assumptions C92_refused.

(** ** Examples *)
Definition exd (l : list bytes) : db := snd (step (OpOpenMsg 1 7) (open_db {| st_docs := [(7%N, {| d_terms := l; d_lastmod := 3 |})]; st_ub := 3 |} 0 true)).
(** a=1, a=2 and b= with the terms of a tag and an id. *)
Definition ex1 : list bytes := map lit ["Kinbox"; "Qa@b"; "XPROPERTYa=1"; "XPROPERTYa=2"; "XPROPERTYb="]%string.
Definition exR : relation := fun k v => In (k, v) [([97], [49]); ([97], [50]); ([98], [])]%N.
Example C92_nontrivial :
  props_getitem 1 (Str [97%N]) (exd ex1) = Good [49%N] /\ props_getitem 1 (Str [98%N]) (exd ex1) = Good [] /\ props_getitem 1 (Str [99%N]) (exd ex1) = Bad PKeyError /\
  props_len 1 (exd ex1) = Good 3 /\ props_keys 1 (exd ex1) = Good [[97]; [98]]%N /\ props_iter 1 (exd ex1) = Good [[97]; [97]; [98]]%N /\
  props_getall 1 (Str [97%N]) true (exd ex1) = Good [([97], [49]); ([97], [50])]%N /\
  snd (props_pop 1 (Str [97%N]) None (exd ex1)) = Good [49%N] /\
  terms 1 (fst (props_pop 1 (Str [97%N]) None (exd ex1))) = map lit ["Kinbox"; "Qa@b"; "XPROPERTYa=2"; "XPROPERTYb="]%string /\
  terms 1 (props_performs 1 [PSet (Str [97%N]) (Str [51%N]); PPopitem; PDel (Str [98%N])] (exd ex1)) = map lit ["Kinbox"; "Qa@b"; "XPROPERTYa=2"; "XPROPERTYa=3"]%string.
Proof. vm_compute. repeat split. Qed.
Example C92_hypotheses : has_props (exd ex1) 1 7 exR.
Proof.
  exists {| d_terms := ex1; d_lastmod := 3 |}. assert (So : tsorted ex1) by repeat constructor.
  assert (Pr : forall kb vb, props ex1 kb vb <-> In (kb, vb) [(lit "a", lit "1"); (lit "a", lit "2"); (lit "b", [])]).
  { intros kb vb. split.
    - intros [K I]. cbn in I. decompose [or] I; try discriminate; try contradiction;
        match goal with E : _ = "X"%char :: _ |- _ => injection E as E end;
        match goal with E : _ = kb ++ _ |- _ => destruct kb as [|c kb]; [discriminate E|]; injection E as <- E; destruct kb as [|c kb]; [injection E as <-; cbn; auto|injection E as <- E; elim K; right; now left] end.
    - cbn [In]. intros I. decompose [or] I; try contradiction; match goal with E : (_, _) = _ |- _ => injection E as <- <- end; (split; [intros X; cbn in X; intuition discriminate|cbn; auto 8]). }
  assert (Wf : props_wf ex1).
  { intros s I. cbn in I. decompose [or] I; try discriminate; try contradiction; match goal with E : _ = "X"%char :: _ |- _ => injection E as <- end; cbn; auto. }
  split; [split; [reflexivity|]; split; [reflexivity|]; split; [reflexivity|]; split; [exact So|]; split; [exact Wf|reflexivity]|].
  split; [exact So|]. split; [exact Wf|]. split.
  - intros kb vb I. apply Pr in I. cbn [In] in I. decompose [or] I; try contradiction; match goal with E : (_, _) = _ |- _ => injection E as <- <- end;
      (split; [cbn; lia|]); (split; [cbn; intuition discriminate|]); (split; [cbn; intuition discriminate|]).
    + exists [97%N], [49%N]. split; reflexivity.
    + exists [97%N], [50%N]. split; reflexivity.
    + exists [98%N], []. split; reflexivity.
  - intros k v. unfold exR. split.
    + cbn [In]. intros I. decompose [or] I; try contradiction; match goal with E : (_, _) = _ |- _ => injection E as <- <- end.
      * exists (lit "a"), (lit "1"). split; [reflexivity|]. split; [reflexivity|]. apply Pr. cbn. auto.
      * exists (lit "a"), (lit "2"). split; [reflexivity|]. split; [reflexivity|]. apply Pr. cbn. auto.
      * exists (lit "b"), []. split; [reflexivity|]. split; [reflexivity|]. apply Pr. cbn. auto.
    + intros (kb & vb & Ek & Ev & P). apply Pr in P. rewrite <- (decode_ignore_encode _ _ Ek), <- (decode_ignore_encode _ _ Ev). cbn [In] in P.
      decompose [or] P; try contradiction; match goal with E : (_, _) = _ |- _ => injection E as <- <- end; vm_compute; auto.
Qed.

(** pop of a value that is not UTF-8 returns it and leaves it there. *)
Theorem C92_pop_refuted :
  let s := exd [lit "XPROPERTYa=" ++ [ascii_of_N 255]] in
  props_pop 1 (Str [97%N]) None s = (fst (props_pop 1 (Str [97%N]) None s), Good []) /\ terms 1 (fst (props_pop 1 (Str [97%N]) None s)) = terms 1 s.
Proof. vm_compute. split; reflexivity. Qed.
Print Assumptions C92_pop_refuted.
(** popitem raises KeyError although there is a property, if its key is not UTF-8. *)
Theorem C92_popitem_refuted :
  let s := exd [lit "XPROPERTY" ++ ascii_of_N 255 :: lit "=1"] in
  snd (props_popitem 1 s) = Bad PKeyError /\ props_len 1 s = Good 1.
Proof. vm_compute. split; reflexivity. Qed.
Print Assumptions C92_popitem_refuted.
(** del m[k] of a key that is not there raises nothing; del m['a=2'] removes the values of a that begin with 2. *)
Theorem C92_del_refuted :
  let s := exd ex1 in
  props_getitem 1 (Str [99%N]) s = Bad PKeyError /\ snd (props_delitem 1 (Str [99%N]) s) = None /\
  props_getitem 1 (Str [97; 61; 50]%N) s = Bad PKeyError /\ props_delitem 1 (Str [97; 61; 50]%N) (exd (map lit ["XPROPERTYa=2=3"]%string)) = (fst (props_delitem 1 (Str [97; 61; 50]%N) (exd (map lit ["XPROPERTYa=2=3"]%string))), None) /\
  terms 1 (fst (props_delitem 1 (Str [97; 61; 50]%N) (exd (map lit ["XPROPERTYa=2=3"]%string)))) = [].
Proof. vm_compute. repeat split. Qed.
Print Assumptions C92_del_refuted.
