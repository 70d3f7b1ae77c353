(** Property C53: notmuch address. *)
From Verif Require Import Bytes Terms XQuery DocSet Thread Query QuerySpec QueryProofs Reply ReplySpec SearchCmd SearchCmdSpec SearchCmdProofs Address AddressSpec AddressProofs P_Query.
From Coq Require Import Sorted Permutation.
Local Open Scope nat_scope.

Lemma list_sum_perm l l' : Permutation l l' -> list_sum l = list_sum l'.
Proof.
  induction 1 as [|x l l' P IH|x y l|l l' l'' P IH Q IH']; [reflexivity|change (x + list_sum l = x + list_sum l'); lia|
    change (y + (x + list_sum l) = x + (y + list_sum l)); lia|congruence].
Qed.
Lemma headers_wanted a : headers_of (with_default a) = wanted (d_sender a) (d_recipients a).
Proof. unfold headers_of, with_default, wanted. destruct (d_sender a) eqn:S, (d_recipients a) eqn:R; cbn; rewrite ?S, ?R; reflexivity. Qed.
Lemma default_dedup a : d_dedup (with_default a) = d_dedup a /\ d_count (with_default a) = d_count a /\ full_pass (with_default a) = full_pass a.
Proof. unfold with_default. destruct (d_sender a || d_recipients a); auto. Qed.

(** The messages looked at: each selected one once. *)
Definition looked_at (db : list xdoc) (x : xq) (tags : list bytes) (a : address_args) (l : list xdoc) : Prop :=
  NoDup l /\ (forall d, In d l <-> selected db x tags (in_force (d_exclude a) O_MESSAGES) d) /\
  (d_count a = false -> d_dedup a <> DEDUP_ADDRESS -> Sorted (in_order (d_sort a)) l).

Lemma command_inv db header x tags a : ids_ok db -> ~ (d_count a = true /\ d_dedup a = DEDUP_NONE) ->
  exists l, looked_at db x tags a l /\
  let st := fold_left (abox (with_default a)) (occurrences (wanted (d_sender a) (d_recipients a)) header l) ([], []) in
  forall r, address_command db header (Some x) tags a r <->
    exists entries, Permutation entries (fst st) /\
      r = if full_pass a then match print_hash (with_default a) entries with Some l => Out (snd st ++ l) | None => Undef end else Out (snd st).
Proof.
  intros I ND.
  set (sa := {| s_exclude := d_exclude a; s_sort := d_sort a; s_output := O_MESSAGES; s_offset := 0; s_limit := -1; s_dupe := -1 |}).
  set (so := if full_pass a then SORT_UNSORTED else d_sort a).
  assert (P : address_prepare (Some x) tags a = Some (configure (Some x) (tags_in_force sa tags) (lib_mode sa) so)).
  { unfold address_prepare. fold sa. rewrite prepare_eq. f_equal. unfold so, configure. cbn [s_sort sa]. destruct (full_pass a); reflexivity. }
  destruct (search_ok db x (tags_in_force sa tags) (lib_mode sa) so I) as (ms & l & E & _ & D & N & S & H).
  exists (ms_docs ms). split; [split; [|split]|].
  - rewrite D. eapply NoDup_map_inv; exact N.
  - intros d. change (in_force (d_exclude a) O_MESSAGES) with (in_force (s_exclude sa) (s_output sa)). rewrite <- selected_in_force.
    rewrite D, in_map_iff. split; [intros ((e & b) & <- & Hb); now apply H in Hb|]. intros Hs.
    exists (d, false). split; [reflexivity|]. apply H. split; [exact Hs|]. split; [discriminate|].
    intros (X & _). unfold lib_mode, in_force in X. cbn in X. destruct (d_exclude a); discriminate X.
  - intros C A. rewrite D. replace so with (d_sort a) in S; [exact S|]. unfold so, full_pass. rewrite C. destruct (d_dedup a); [reflexivity..|congruence].
  - cbv zeta. rewrite <- headers_wanted, <- run_occurrences. intros r. split.
    + intros R. inversion R as [C1 C2|C1 C2|q ms' entries st C1 C2 C3 C4 C5]; subst.
      * exfalso. auto.
      * rewrite P, E in C2. discriminate C2.
      * rewrite P in C2. injection C2 as <-. rewrite E in C3. injection C3 as <-. exists entries. split; [exact C5|reflexivity].
    + intros (entries & Pe & ->). apply (ac_run db header (Some x) tags a _ ms entries _ ND P E eq_refl Pe).
Qed.

Definition plain (b : box) : shown_box := {| p_name := fst b; p_addr := snd b; p_count := None |}.

(** C53.  --deduplicate=no: every mailbox of the requested headers of the selected messages,
    in order. *)
Theorem C53_no_dedup :
  forall db header x tags a, ids_ok db -> d_dedup a = DEDUP_NONE -> d_count a = false ->
  exists l, looked_at db x tags a l /\
  forall r, address_command db header (Some x) tags a r <->
    r = Out (map plain (occurrences (wanted (d_sender a) (d_recipients a)) header l)).
Proof.
  intros db header x tags a I D C. destruct (command_inv db header x tags a I) as (l & L & H); [rewrite C; intros (X & _); discriminate X|].
  exists l. split; [exact L|]. cbv zeta in H. destruct (default_dedup a) as (D' & C' & F').
  assert (F : full_pass a = false) by (unfold full_pass; now rewrite C, D).
  rewrite run_none in H by congruence. intros r. rewrite H, F. cbn [snd fst].
  assert (E : shown_plain (with_default a) = plain) by (unfold shown_plain, print_mailbox; now rewrite C', C). rewrite E.
  split; [now intros (e & _ & ->)|]. intros ->. exists []. split; [constructor|reflexivity].
Qed.
Print Assumptions C53_no_dedup.

(** --deduplicate=mailbox: each mailbox (name and address, exactly as written) at its first
    occurrence only. *)
Theorem C53_mailbox :
  forall db header x tags a, ids_ok db -> d_dedup a = DEDUP_MAILBOX -> d_count a = false ->
  exists l, looked_at db x tags a l /\
  forall r, address_command db header (Some x) tags a r <->
    r = Out (map plain (firsts (occurrences (wanted (d_sender a) (d_recipients a)) header l))).
Proof.
  intros db header x tags a I D C. destruct (command_inv db header x tags a I) as (l & L & H); [rewrite C; intros (X & _); discriminate X|].
  exists l. split; [exact L|]. cbv zeta in H. destruct (default_dedup a) as (D' & C' & F').
  assert (F : full_pass a = false) by (unfold full_pass; now rewrite C, D).
  rewrite run_dedup in H by congruence. rewrite F', F in H. intros r. rewrite H. cbn [snd fst].
  assert (E : shown_plain (with_default a) = plain) by (unfold shown_plain, print_mailbox; now rewrite C', C). rewrite E.
  split; [now intros (e & _ & ->)|]. intros ->. eexists. split; [apply Permutation_refl|reflexivity].
Qed.
Print Assumptions C53_mailbox.

(** With --output=count: each mailbox once, with the number of its occurrences, in any
    order; the counts add up to the number of all occurrences. *)
Theorem C53_mailbox_count :
  forall db header x tags a, ids_ok db -> d_dedup a = DEDUP_MAILBOX -> d_count a = true ->
  exists l, looked_at db x tags a l /\
  let occs := occurrences (wanted (d_sender a) (d_recipients a)) header l in
  (exists r, address_command db header (Some x) tags a r) /\
  forall r, address_command db header (Some x) tags a r -> exists out, r = Out out /\
    Permutation out (map (fun b => {| p_name := fst b; p_addr := snd b; p_count := Some (times occs b) |}) (firsts occs)) /\
    list_sum (map (fun p => match p_count p with Some n => n | None => 0 end) out) = length occs.
Proof.
  intros db header x tags a I D C. destruct (command_inv db header x tags a I) as (l & L & H); [rewrite D; intros (_ & X); discriminate X|].
  exists l. split; [exact L|]. cbv zeta in *. destruct (default_dedup a) as (D' & C' & F').
  assert (F : full_pass a = true) by (unfold full_pass; now rewrite C).
  rewrite run_dedup in H by congruence. rewrite F', F in H. cbn [fst snd app] in H. set (occs := occurrences _ _ _) in *. split.
  - eexists. apply H. eexists. split; [apply Permutation_refl|reflexivity].
  - intros r R. apply H in R as (entries & P & ->). rewrite print_hash_mailbox by congruence. eexists. split; [reflexivity|].
    assert (Q : Permutation (concat (map (fun e : bytes * list mailbox => map (fun m => print_mailbox (with_default a) (x_name m) (x_addr m) (x_count m)) (snd e)) entries))
      (map (fun b => {| p_name := fst b; p_addr := snd b; p_count := Some (times occs b) |}) (firsts occs))).
    { eapply Permutation_trans; [apply concat_perm; exact P|].
      pose proof (Permutation_map (fun m => print_mailbox (with_default a) (x_name m) (x_addr m) (x_count m)) (all_variants occs)) as V.
      rewrite map_map in V. cbn [x_name x_addr x_count] in V. unfold print_mailbox in V at 2. rewrite C', C in V.
      rewrite concat_map, map_map in V. exact V. }
    split; [exact Q|]. rewrite (list_sum_perm _ _ (Permutation_map _ Q)), map_map. cbn [p_count].
    apply list_sum_times; [apply firsts_NoDup|]. intros b Hb. now apply firsts_In.
Qed.
Print Assumptions C53_mailbox_count.

(** --deduplicate=address: for every address, however its letters are cased, one mailbox: the
    variant that occurs most often (the first of these); the count is that of all variants. *)
Theorem C53_address :
  forall db header x tags a, ids_ok db -> d_dedup a = DEDUP_ADDRESS ->
  exists l, looked_at db x tags a l /\
  let occs := occurrences (wanted (d_sender a) (d_recipients a)) header l in
  (exists r, address_command db header (Some x) tags a r) /\
  forall r, address_command db header (Some x) tags a r -> exists out, r = Out out /\
    (forall p, In p out -> favourite occs (p_name p, p_addr p) /\
       p_count p = if d_count a then Some (times_address occs (p_addr p)) else None) /\
    NoDup (map (fun p => map tolower (p_addr p)) out) /\
    (forall b, In b occs -> exists p, In p out /\ same_but_case (p_addr p) (snd b)).
Proof.
  intros db header x tags a I D. destruct (command_inv db header x tags a I) as (l & L & H); [rewrite D; intros (_ & X); discriminate X|].
  exists l. split; [exact L|]. cbv zeta in *. destruct (default_dedup a) as (D' & C' & F').
  assert (F : full_pass a = true) by (unfold full_pass; rewrite D; apply orb_true_r).
  rewrite run_dedup in H by congruence. rewrite F', F in H. cbn [fst snd app] in H. set (occs := occurrences _ _ _) in *. split.
  { eexists. apply H. eexists. split; [apply Permutation_refl|reflexivity]. }
  intros r R. apply H in R as (entries & P & ->).
  assert (EX : exists ks, Permutation ks (keys occs) /\ entries = map (fun k => (k, variants k occs)) ks).
  { unfold table_of in P. apply Permutation_map_inv in P as (ks & -> & P). exists ks. split; [now apply Permutation_sym|reflexivity]. }
  destruct EX as (ks & Pk & ->).
  assert (KN : NoDup (map (map tolower) ks)).
  { apply (Permutation_NoDup (l := map (map tolower) (keys occs))); [apply Permutation_map; now apply Permutation_sym|].
    generalize (keys_distinct occs). generalize (keys occs). intros k Dk. induction Dk as [|y k Hk Dk IH]; [constructor|]. cbn [map]. constructor; [|exact IH].
    intros X. apply in_map_iff in X as (z & Ez & Hz). pose proof (Hk z Hz) as S. assert (T : same y z = true) by (apply same_spec; unfold same_but_case; now symmetry). congruence. }
  assert (KI : forall k, In k ks -> existsb (fun b : box => same (snd b) k) occs = true).
  { intros k Hk. apply (Permutation_in _ Pk) in Hk. apply keys_In in Hk as (b & Hb & <-). apply existsb_exists. exists b. split; [exact Hb|apply same_refl]. }
  assert (G : exists out, print_hash (with_default a) (map (fun k => (k, variants k occs)) ks) = Some out /\
    Forall2 (fun p k => same (p_addr p) k = true /\ favourite occs (p_name p, p_addr p) /\
       p_count p = if d_count a then Some (times_address occs k) else None) out ks).
  { clear - KI D' C' D. induction ks as [|k ks IH]; [exists []; split; [reflexivity|constructor]|].
    destruct IH as (out & E & F2); [intros; apply KI; now right|].
    destruct (print_popular_spec (with_default a) occs k) as (b & Ep & Sb & Fb); [apply KI; now left|].
    cbn [map print_hash]. unfold print_hash_value. rewrite D', D, Ep, E. eexists. split; [reflexivity|]. constructor; [|exact F2].
    unfold print_mailbox. cbn [p_name p_addr p_count]. rewrite C'. split; [exact Sb|]. split; [now destruct b|reflexivity]. }
  destruct G as (out & -> & F2). exists out. split; [reflexivity|]. split; [|split].
  - intros p Hp. clear - F2 Hp. induction F2 as [|q k out ks (S & Fa & Cq) F2 IH]; [destruct Hp|]. destruct Hp as [<- |Hp]; [|now apply IH].
    split; [exact Fa|]. rewrite Cq. destruct (d_count a); [|reflexivity]. f_equal. unfold times_address. f_equal. apply filter_ext. intros b.
    apply same_spec in S. unfold same_but_case in S. now rewrite S.
  - replace (map (fun p => map tolower (p_addr p)) out) with (map (map tolower) ks); [exact KN|].
    clear - F2. induction F2 as [|q k out ks (S & _) F2 IH]; [reflexivity|]. cbn [map]. rewrite IH. f_equal. symmetry. now apply same_spec.
  - intros b Hb. pose proof (keys_cover occs b Hb) as K. apply existsb_exists in K as (k & Hk & Sk).
    apply (Permutation_in _ (Permutation_sym Pk)) in Hk. clear - F2 Hk Sk. induction F2 as [|q k' out ks (S & _) F2 IH]; [destruct Hk|].
    destruct Hk as [-> |Hk]; [exists q; split; [now left|]|destruct (IH Hk) as (p & Hp & E); exists p; split; [now right|exact E]].
    apply same_spec in S, Sk. unfold same_but_case in *. congruence.
Qed.
Print Assumptions C53_address.

(** --output=count with --deduplicate=no, and unparsable queries, are refused; nothing else is. *)
Theorem C53_refused :
  forall db header parse tags a, ids_ok db ->
  (d_count a = true /\ d_dedup a = DEDUP_NONE \/ parse = None ->
   forall r, address_command db header parse tags a r <-> r = Fail) /\
  (~ (d_count a = true /\ d_dedup a = DEDUP_NONE) -> parse <> None ->
   ~ address_command db header parse tags a Fail).
Proof.
  intros db header parse tags a I. split.
  - intros H.
    assert (N : parse = None -> match address_prepare parse tags a with Some q => search_messages db q | None => None end = None).
    { intros ->. unfold address_prepare, search_prepare. cbv zeta. cbn [s_exclude s_output s_sort output_eqb].
      destruct (d_exclude a), tags as [|t tgs]; cbn; try (destruct (full_pass a)); reflexivity. }
    intros r. split.
    + intros R. destruct R as [C1 C2|C1 C2|q ms entries st C1 C2 C3 C4 C5]; try reflexivity.
      destruct H as [H| ->]; [now destruct C1|]. specialize (N eq_refl). rewrite C2 in N. congruence.
    + intros ->. destruct (bool_dec (d_count a) true) as [C|C].
      * destruct (d_dedup a) eqn:D; [now apply ac_count|..]; (apply ac_query; [intros (_ & X); congruence|apply N; destruct H as [(_ & X)|X]; congruence]).
      * apply ac_query; [tauto|]. apply N. destruct H as [(X & _)|X]; [contradiction|exact X].
  - intros ND P R. destruct parse as [x|]; [|congruence]. destruct (command_inv db header x tags a I ND) as (l & _ & H). cbv zeta in H. destruct (proj1 (H Fail) R) as (entries & _ & E).
    destruct (full_pass a); [|discriminate E]. destruct (print_hash _ entries); discriminate E.
Qed.
Print Assumptions C53_refused.

(** The hash of an address does not depend on the case of its letters, so variants meet in
    one list. *)
Theorem C53_hash :
  forall a b, same_but_case a b -> strcase_hash a = strcase_hash b.
Proof. intros a b H. now apply hash_same, same_spec. Qed.
Print Assumptions C53_hash.

Definition ex_header (d : xdoc) (h : hname) : list address :=
  match h with
  | H_FROM => if N.eqb (xd_id d) 3 then [Mailbox (Some (lit "Ann")) (lit "A@x")]
              else if N.eqb (xd_id d) 9 then [Mailbox None (lit "b@x")] else [Mailbox (Some (lit "Ann")) (lit "a@x")]
  | H_TO => [Group [Mailbox None (lit "c@x"); Mailbox None (lit "d@x")]; Mailbox None (lit "c@x")]
  | _ => []
  end.
Definition ex_args (s r c : bool) (dd : dedup_t) : address_args :=
  {| d_sender := s; d_recipients := r; d_count := c; d_address := false; d_dedup := dd; d_exclude := EXCLUDE_TRUE; d_sort := SORT_OLDEST_FIRST |}.
Definition ex_box (n : option bytes) (a : bytes) (c : option nat) : shown_box := {| p_name := n; p_addr := a; p_count := c |}.
Example C53_example :
  address_command ex_db ex_header (Some ex_query) [] (ex_args false false false DEDUP_MAILBOX)
    (Out [ex_box (Some (lit "Ann")) (lit "a@x") None; ex_box (Some (lit "Ann")) (lit "A@x") None; ex_box None (lit "b@x") None]) /\
  address_command ex_db ex_header (Some ex_query) [] (ex_args true false true DEDUP_ADDRESS)
    (Out [ex_box (Some (lit "Ann")) (lit "a@x") (Some 3); ex_box None (lit "b@x") (Some 1)]) /\
  address_command ex_db ex_header (Some ex_query) [] (ex_args false true true DEDUP_MAILBOX)
    (Out [ex_box None (lit "d@x") (Some 4); ex_box None (lit "c@x") (Some 8)]).
Proof.
  split; [|split].
  - assert (E : exists q ms, address_prepare (Some ex_query) [] (ex_args false false false DEDUP_MAILBOX) = Some q /\ search_messages ex_db q = Some ms /\
      snd (fold_left (process_message (with_default (ex_args false false false DEDUP_MAILBOX)) ex_header) (ms_docs ms) ([], [])) =
      [ex_box (Some (lit "Ann")) (lit "a@x") None; ex_box (Some (lit "Ann")) (lit "A@x") None; ex_box None (lit "b@x") None]).
    { eexists _, _. split; [vm_compute; reflexivity|]. split; [vm_compute; reflexivity|]. vm_compute; reflexivity. }
    destruct E as (q & ms & E1 & E2 & E3).
    pose proof (ac_run ex_db ex_header (Some ex_query) [] (ex_args false false false DEDUP_MAILBOX) q ms _ _ ltac:(intros (X & _); discriminate X) E1 E2 eq_refl (Permutation_refl _)) as R.
    rewrite E3 in R. exact R.
  - assert (E : exists q ms, address_prepare (Some ex_query) [] (ex_args true false true DEDUP_ADDRESS) = Some q /\ search_messages ex_db q = Some ms /\
      (let st := fold_left (process_message (with_default (ex_args true false true DEDUP_ADDRESS)) ex_header) (ms_docs ms) ([], []) in
       snd st = [] /\ print_hash (with_default (ex_args true false true DEDUP_ADDRESS)) (fst st) =
       Some [ex_box (Some (lit "Ann")) (lit "a@x") (Some 3); ex_box None (lit "b@x") (Some 1)])).
    { eexists _, _. split; [vm_compute; reflexivity|]. split; [vm_compute; reflexivity|]. split; vm_compute; reflexivity. }
    destruct E as (q & ms & E1 & E2 & E3 & E4).
    pose proof (ac_run ex_db ex_header (Some ex_query) [] (ex_args true false true DEDUP_ADDRESS) q ms _ _ ltac:(intros (_ & X); discriminate X) E1 E2 eq_refl (Permutation_refl _)) as R.
    rewrite E4, E3 in R. exact R.
  - assert (E : exists q ms k1 k2 l1 l2, address_prepare (Some ex_query) [] (ex_args false true true DEDUP_MAILBOX) = Some q /\ search_messages ex_db q = Some ms /\
      (let st := fold_left (process_message (with_default (ex_args false true true DEDUP_MAILBOX)) ex_header) (ms_docs ms) ([], []) in
       snd st = [] /\ fst st = [(k1, l1); (k2, l2)] /\ print_hash (with_default (ex_args false true true DEDUP_MAILBOX)) [(k2, l2); (k1, l1)] =
       Some [ex_box None (lit "d@x") (Some 4); ex_box None (lit "c@x") (Some 8)])).
    { eexists _, _, _, _, _, _. split; [vm_compute; reflexivity|]. split; [vm_compute; reflexivity|]. cbv zeta. split; [vm_compute; reflexivity|]. split; [vm_compute; reflexivity|]. vm_compute; reflexivity. }
    destruct E as (q & ms & k1 & k2 & l1 & l2 & E1 & E2 & E3 & E4 & E5).
    pose proof (ac_run ex_db ex_header (Some ex_query) [] (ex_args false true true DEDUP_MAILBOX) q ms [(k2, l2); (k1, l1)] _ ltac:(intros (_ & X); discriminate X) E1 E2 eq_refl) as R.
    rewrite E4, E3, E5 in R. apply R. apply perm_swap.
Qed.
