From Verif Require Import Bytes XQuery Thread Query Reply ReplySpec SearchCmd Address AddressSpec.
From Coq Require Import Permutation.
Local Open Scope nat_scope.

(** ** Keys *)
Definition same (a b : bytes) : bool := bseq (map tolower a) (map tolower b).
Lemma same_spec a b : same a b = true <-> same_but_case a b.
Proof. unfold same, same_but_case. apply bseq_eq. Qed.
Lemma same_refl a : same a a = true. Proof. now apply same_spec. Qed.
Lemma same_sym a b : same a b = same b a.
Proof. apply eq_true_iff_eq. rewrite !same_spec. unfold same_but_case. split; congruence. Qed.
Lemma same_cong a b c : same a b = true -> same a c = same b c.
Proof. intros H. apply same_spec in H. unfold same_but_case in H. unfold same. now rewrite H. Qed.
Lemma strcaseeq_same a : forall b, strcaseeq a b = same a b.
Proof.
  unfold same. induction a as [|x a IH]; intros [|y b]; try reflexivity. cbn [strcaseeq map]. rewrite IH. apply eq_true_iff_eq.
  rewrite andb_true_iff, !bseq_eq. unfold beq. rewrite Ascii.eqb_eq. split; [intros (-> & ->); reflexivity|intros H; injection H; auto].
Qed.
Lemma hash_same s t : same s t = true -> strcase_hash s = strcase_hash t.
Proof.
  unfold same, strcase_hash. intros H. apply bseq_eq in H. generalize 5381%Z. revert t H.
  induction s as [|x s IH]; intros [|y t] H h; try discriminate H; [reflexivity|]. cbn [map] in H. injection H as H1 H2. cbn [hash_from]. rewrite H1. now apply IH.
Qed.
Lemma key_is_same a k : key_is a k = same k a.
Proof.
  unfold key_is, strcase_equal. rewrite strcaseeq_same. destruct (same k a) eqn:E; [|apply andb_false_r].
  rewrite (hash_same k a E), Z.eqb_refl. reflexivity.
Qed.

(** ** First occurrences *)
Lemma firsts_In x l : In x (firsts l) <-> In x l.
Proof.
  induction l as [|y l IH]; [reflexivity|]. cbn [firsts In]. rewrite filter_In, IH. split.
  - intros [H|(H & _)]; auto.
  - intros [H|H]; [auto|]. destruct (box_dec y x); auto.
Qed.
Lemma firsts_NoDup l : NoDup (firsts l).
Proof.
  induction l as [|y l IH]; cbn [firsts]; constructor; [|now apply NoDup_filter].
  rewrite filter_In. intros (_ & H). destruct (box_dec y y); [discriminate H|congruence].
Qed.
Definition isin (x : box) (l : list box) : bool := if in_dec box_dec x l then true else false.
Lemma isin_spec x l : isin x l = true <-> In x l.
Proof. unfold isin. destruct (in_dec box_dec x l); split; auto; discriminate. Qed.
Lemma firsts_snoc l x : firsts (l ++ [x]) = firsts l ++ (if isin x l then [] else [x]).
Proof.
  induction l as [|y l IH]; [reflexivity|]. cbn [firsts app]. rewrite IH, filter_app. f_equal. f_equal.
  assert (E : isin x (y :: l) = if box_dec y x then true else isin x l).
  { apply eq_true_iff_eq. rewrite isin_spec. cbn [In]. destruct (box_dec y x) as [->|N]; [tauto|]. rewrite isin_spec. tauto. }
  rewrite E. destruct (isin x l); [now destruct (box_dec y x)|]. cbn [filter]. now destruct (box_dec y x).
Qed.

(** ** The table *)
Definition variants (k : bytes) (occs : list box) : list mailbox :=
  map (fun b : box => {| x_name := fst b; x_addr := snd b; x_count := times occs b |}) (firsts (filter (fun b : box => same (snd b) k) occs)).
Definition add_key (ks : list bytes) (b : box) : list bytes :=
  if existsb (fun k => same k (snd b)) ks then ks else ks ++ [snd b].
Definition keys (occs : list box) : list bytes := fold_left add_key occs [].
Definition table_of (occs : list box) : table := map (fun k => (k, variants k occs)) (keys occs).

Inductive distinct : list bytes -> Prop :=
| dn : distinct []
| dc k l : (forall x, In x l -> same k x = false) -> distinct l -> distinct (k :: l).
Lemma distinct_snoc l x : distinct l -> (forall k, In k l -> same k x = false) -> distinct (l ++ [x]).
Proof.
  intros D. induction D as [|k l H D IH]; intros N; cbn [app]; [repeat constructor; intros ? []|].
  constructor; [|apply IH; intros; apply N; now right]. intros y Hy. apply in_app_iff in Hy as [Hy|[<-|[]]]; [now apply H|]. apply N. now left.
Qed.
Lemma keys_snoc occs b : keys (occs ++ [b]) = add_key (keys occs) b.
Proof. unfold keys. now rewrite fold_left_app. Qed.
Lemma keys_distinct occs : distinct (keys occs).
Proof.
  induction occs as [|b occs IH] using rev_ind; [constructor|]. rewrite keys_snoc. unfold add_key.
  destruct (existsb _ _) eqn:E; [exact IH|]. apply distinct_snoc; [exact IH|]. intros k Hk.
  destruct (same k (snd b)) eqn:S; [|reflexivity]. rewrite <- E. symmetry. apply existsb_exists. eauto.
Qed.
Lemma keys_cover occs b : In b occs -> existsb (fun k => same k (snd b)) (keys occs) = true.
Proof.
  induction occs as [|c occs IH] using rev_ind; [intros []|]. rewrite keys_snoc. intros H. apply in_app_iff in H as [H|[->|[]]].
  - apply IH in H. unfold add_key. destruct (existsb (fun k => same k (snd c)) (keys occs)); [exact H|]. rewrite existsb_app, H. reflexivity.
  - unfold add_key. destruct (existsb (fun k => same k (snd b)) (keys occs)) eqn:E; [exact E|]. rewrite existsb_app. cbn. now rewrite same_refl, orb_true_r.
Qed.
Lemma keys_In occs k : In k (keys occs) -> exists b, In b occs /\ snd b = k.
Proof.
  induction occs as [|c occs IH] using rev_ind; [intros []|]. rewrite keys_snoc. unfold add_key. destruct (existsb _ _).
  - intros H. destruct (IH H) as (b & Hb & E). exists b. split; [apply in_or_app; now left|exact E].
  - intros H. apply in_app_iff in H as [H|[<-|[]]].
    + destruct (IH H) as (b & Hb & E). exists b. split; [apply in_or_app; now left|exact E].
    + exists c. split; [apply in_or_app; right; now left|reflexivity].
Qed.
Lemma variants_same k k' occs : same k k' = true -> variants k occs = variants k' occs.
Proof.
  intros H. unfold variants. f_equal. f_equal. apply filter_ext. intros b. rewrite (same_sym _ k), (same_sym _ k'). now apply same_cong.
Qed.
Lemma lookup_table occs a : lookup (table_of occs) a =
  if existsb (fun k => same k a) (keys occs) then Some (variants a occs) else None.
Proof.
  unfold lookup, table_of. generalize (keys occs). intros ks. induction ks as [|k ks IH]; [reflexivity|]. cbn [map find fst existsb].
  rewrite key_is_same. destruct (same k a) eqn:E; cbn [orb]; [now rewrite (variants_same k a)|exact IH].
Qed.
Lemma replace_table occs a l : replace_list (table_of occs) a l =
  map (fun k => (k, if same k a then l else variants k occs)) (keys occs).
Proof.
  unfold table_of. generalize (keys_distinct occs). generalize (keys occs). intros ks D. induction D as [|k ks H D IH]; [reflexivity|].
  cbn [map replace_list]. rewrite key_is_same. destruct (same k a) eqn:E; [|now rewrite IH]. f_equal.
  apply map_ext_in. intros x Hx. rewrite (same_sym x a), <- (same_cong k a x E), (H x Hx). reflexivity.
Qed.
Lemma times_snoc occs x b : times (occs ++ [x]) b = times occs b + (if box_dec x b then 1 else 0).
Proof. unfold times. rewrite count_occ_app. cbn. now destruct (box_dec x b). Qed.
Lemma variants_other k occs x : same (snd x) k = false -> variants k (occs ++ [x]) = variants k occs.
Proof.
  intros H. unfold variants. rewrite filter_app. cbn [filter]. rewrite H, app_nil_r. apply map_ext_in. intros b Hb. f_equal.
  rewrite times_snoc. destruct (box_dec x b) as [->|N]; [|lia]. rewrite firsts_In, filter_In in Hb. destruct Hb as (_ & Hb). congruence.
Qed.
Lemma mailbox_same_spec x m : mailbox_same (fst x) (snd x) m = true <-> (x_name m, x_addr m) = x.
Proof.
  unfold mailbox_same. rewrite andb_true_iff, bseq_eq. destruct x as [n a]. cbn [fst snd]. split.
  - intros (H & ->). f_equal. destruct (x_name m), n; cbn in H; try discriminate H; [|reflexivity]. apply bseq_eq in H. now subst.
  - intros H. injection H as -> ->. split; [|reflexivity]. destruct n; [|reflexivity]. now apply bseq_eq.
Qed.
Lemma count_up_spec occs x l : NoDup l -> (forall b, In b l -> In b occs) ->
  let f occs := map (fun b : box => {| x_name := fst b; x_addr := snd b; x_count := times occs b |}) in
  count_up (fst x) (snd x) (f occs l) = if isin x l then Some (f (occs ++ [x]) l) else None.
Proof.
  intros N Hin f. induction N as [|b l Nb N IH]; [reflexivity|]. cbn [map f count_up].
  assert (E : isin x (b :: l) = if box_dec b x then true else isin x l).
  { apply eq_true_iff_eq. rewrite isin_spec. cbn [In]. destruct (box_dec b x) as [->|M]; [tauto|]. rewrite isin_spec. tauto. }
  rewrite E. destruct (mailbox_same _ _ _) eqn:M.
  - apply mailbox_same_spec in M. cbn [x_name x_addr] in M. rewrite <- surjective_pairing in M. subst b.
    destruct (box_dec x x) as [_|C]; [|congruence]. f_equal. f_equal.
    + f_equal. rewrite times_snoc. destruct (box_dec x x); [cbn [x_count]; lia|congruence].
    + apply map_ext_in. intros c Hc. f_equal. rewrite times_snoc. destruct (box_dec x c) as [<-|]; [contradiction|lia].
  - assert (D : b <> x). { intros ->. assert (T : mailbox_same (fst x) (snd x) {| x_name := fst x; x_addr := snd x; x_count := times occs x |} = true) by (apply mailbox_same_spec; now destruct x). congruence. }
    destruct (box_dec b x) as [C|_]; [contradiction|]. fold (f occs). rewrite IH by (intros; apply Hin; now right).
    destruct (isin x l); [|reflexivity]. f_equal. cbn [f map]. f_equal. f_equal. rewrite times_snoc. destruct (box_dec x b); [congruence|lia].
Qed.
(** One more mailbox. *)
Lemma is_duplicate_table occs x : is_duplicate (table_of occs) (fst x) (snd x) = (isin x occs, table_of (occs ++ [x])).
Proof.
  unfold is_duplicate. rewrite lookup_table.
  assert (I : isin x (firsts (filter (fun b : box => same (snd b) (snd x)) occs)) = isin x occs).
  { apply eq_true_iff_eq. rewrite !isin_spec, firsts_In, filter_In. split; [tauto|]. intros H. split; [exact H|apply same_refl]. }
  assert (V : forall l, (variants (snd x) (occs ++ [x]) = l) -> existsb (fun k => same k (snd x)) (keys occs) = true ->
     replace_list (table_of occs) (snd x) l = table_of (occs ++ [x])).
  { intros l <- E. rewrite replace_table. unfold table_of at 1. rewrite keys_snoc. unfold add_key. rewrite E.
    apply map_ext. intros k. f_equal. destruct (same k (snd x)) eqn:S; [symmetry; now apply variants_same|].
    symmetry. apply variants_other. now rewrite same_sym. }
  destruct (existsb (fun k => same k (snd x)) (keys occs)) eqn:E.
  - unfold variants at 1. rewrite (count_up_spec occs x) by (apply firsts_NoDup || (intros b Hb; rewrite firsts_In, filter_In in Hb; tauto)).
    rewrite I. destruct (isin x occs) eqn:X.
    + f_equal. apply V; [|reflexivity]. unfold variants. rewrite filter_app. cbn [filter]. rewrite same_refl, firsts_snoc.
      match goal with |- context [isin x ?l] => replace (isin x l) with true end; [now rewrite app_nil_r|].
      symmetry. apply isin_spec, filter_In. split; [now apply isin_spec|apply same_refl].
    + f_equal. apply V; [|reflexivity]. unfold variants. rewrite filter_app. cbn [filter]. rewrite same_refl, firsts_snoc.
      match goal with |- context [isin x ?l] => replace (isin x l) with false end.
      2:{ symmetry. apply not_true_iff_false. rewrite isin_spec, filter_In. intros (H & _). apply isin_spec in H. congruence. }
      rewrite map_app. f_equal.
      * apply map_ext_in. intros b Hb. f_equal. rewrite times_snoc. destruct (box_dec x b) as [<-|]; [|lia].
        rewrite firsts_In, filter_In in Hb. destruct Hb as (Hb & _). apply isin_spec in Hb. congruence.
      * cbn [map]. unfold new_mailbox. f_equal. f_equal. rewrite times_snoc. destruct (box_dec x x); [|congruence].
        unfold times. assert (~ In x occs) as H by (rewrite <- isin_spec; congruence). apply (count_occ_not_In box_dec) in H. now rewrite H.
  - assert (N : isin x occs = false).
    { apply not_true_iff_false. rewrite isin_spec. intros H. apply keys_cover in H. congruence. }
    rewrite N. f_equal. unfold table_of. rewrite keys_snoc. unfold add_key. rewrite E, map_app. f_equal.
    + apply map_ext_in. intros k Hk. f_equal. symmetry. apply variants_other. rewrite same_sym.
      destruct (same k (snd x)) eqn:S; [|reflexivity]. rewrite <- E. symmetry. apply existsb_exists. eauto.
    + cbn [map]. unfold new_mailbox. f_equal. f_equal. unfold variants. rewrite filter_app. cbn [filter]. rewrite same_refl.
      assert (F : filter (fun b : box => same (snd b) (snd x)) occs = []).
      { clear - E. assert (G : forall b, In b occs -> same (snd b) (snd x) = false).
        { intros b Hb. pose proof (keys_cover occs b Hb) as K. apply existsb_exists in K as (k & Hk & Sk).
          rewrite (same_sym _ (snd x)). destruct (same (snd x) (snd b)) eqn:S; [|reflexivity]. rewrite <- E. symmetry. apply existsb_exists.
          exists k. split; [exact Hk|]. rewrite (same_sym k). rewrite (same_cong _ _ k S). now rewrite same_sym. }
        induction occs as [|b l IH]; [reflexivity|]. cbn [filter]. rewrite (G b) by now left. apply IH; [|intros; apply G; now right].
        clear - G. apply not_true_iff_false. intros H. apply existsb_exists in H as (k & Hk & Sk). apply keys_In in Hk as (c & Hc & <-).
        rewrite (G c) in Sk; [discriminate Sk|now right]. }
      rewrite F. cbn [app firsts filter map]. f_equal. rewrite times_snoc. destruct (box_dec x x); [|congruence].
      unfold times. assert (~ In x occs) as H by (rewrite <- isin_spec; congruence). apply (count_occ_not_In box_dec) in H. now rewrite H.
Qed.

(** ** The run *)
Definition abox (a : address_args) (st : astate) (b : box) : astate := process_address a (Mailbox (fst b) (snd b)) st.
Lemma fold_concat {A B C} (g : A -> B -> A) (f : C -> list B) l : forall st,
  fold_left (fun st c => fold_left g (f c) st) l st = fold_left g (concat (map f l)) st.
Proof. induction l as [|c l IH]; intros st; [reflexivity|]. cbn [fold_left map concat]. now rewrite fold_left_app, IH. Qed.
Lemma process_boxes a : forall ia st, process_address a ia st = fold_left (abox a) (boxes_of ia) st.
Proof.
  fix IH 1. intros [n x|members] st; [reflexivity|]. cbn [process_address boxes_of]. rewrite <- fold_concat.
  revert st. induction members as [|m ms IHm]; intros st; [reflexivity|]. cbn [fold_left]. rewrite IH. apply IHm.
Qed.
Lemma fold_left_ext {A B} (f g : A -> B -> A) l : (forall s x, f s x = g s x) -> forall st, fold_left f l st = fold_left g l st.
Proof. intros H. induction l as [|x l IH]; intros st; [reflexivity|]. cbn [fold_left]. rewrite H. apply IH. Qed.
Lemma run_occurrences a header l :
  fold_left (process_message a header) l ([], []) = fold_left (abox a) (occurrences (headers_of a) header l) ([], []).
Proof.
  unfold occurrences. rewrite <- fold_concat. apply fold_left_ext. intros st d. unfold process_message. rewrite <- fold_concat.
  apply fold_left_ext. intros st' h. unfold process_address_list, boxes. rewrite <- fold_concat. apply fold_left_ext. intros s x. apply process_boxes.
Qed.
Definition shown_plain (a : address_args) (b : box) : shown_box := print_mailbox a (fst b) (snd b) 0.
Lemma run_none a occs : d_dedup a = DEDUP_NONE -> full_pass a = false ->
  fold_left (abox a) occs ([], []) = ([], map (shown_plain a) occs).
Proof.
  intros D F. induction occs as [|x occs IH] using rev_ind; [reflexivity|]. rewrite fold_left_app, IH, map_app. cbn [fold_left].
  unfold abox. cbn [process_address]. now rewrite D, F.
Qed.
Lemma run_dedup a occs : d_dedup a <> DEDUP_NONE ->
  fold_left (abox a) occs ([], []) = (table_of occs, if full_pass a then [] else map (shown_plain a) (firsts occs)).
Proof.
  intros D. induction occs as [|x occs IH] using rev_ind; [now destruct (full_pass a)|]. rewrite fold_left_app, IH. cbn [fold_left].
  unfold abox. cbn [process_address fst snd]. rewrite firsts_snoc, map_app.
  assert (E : match d_dedup a with DEDUP_NONE => (false, table_of occs) | _ => is_duplicate (table_of occs) (fst x) (snd x) end = (isin x occs, table_of (occs ++ [x]))).
  { rewrite <- is_duplicate_table. now destruct (d_dedup a). }
  rewrite E. destruct (isin x occs), (full_pass a); cbn [map]; rewrite ?app_nil_r; reflexivity.
Qed.

(** ** Printing the table *)
Lemma print_hash_mailbox a entries : d_dedup a = DEDUP_MAILBOX ->
  print_hash a entries = Some (concat (map (fun e => map (fun m => print_mailbox a (x_name m) (x_addr m) (x_count m)) (snd e)) entries)).
Proof.
  intros D. induction entries as [|(k, l) r IH]; [reflexivity|]. cbn [print_hash map concat snd]. unfold print_hash_value. now rewrite D, IH.
Qed.
Lemma concat_perm {A B} (f : A -> list B) l l' : Permutation l l' -> Permutation (concat (map f l)) (concat (map f l')).
Proof. intros P. induction P; cbn [map concat]; [constructor|now apply Permutation_app_head| |etransitivity; eauto]. rewrite !app_assoc. apply Permutation_app_tail, Permutation_app_comm. Qed.
Lemma NoDup_app_intro {A} (a b : list A) : NoDup a -> NoDup b -> (forall x, In x a -> In x b -> False) -> NoDup (a ++ b).
Proof.
  intros Na Nb D. induction Na as [|x a Nx Na IH]; [exact Nb|]. cbn [app]. constructor.
  - intros H. apply in_app_iff in H as [H|H]; [contradiction|]. apply (D x); [now left|exact H].
  - apply IH. intros y Hy. apply D. now right.
Qed.
(** The variants of all keys together. *)
Lemma all_variants occs : Permutation (concat (map snd (table_of occs)))
  (map (fun b : box => {| x_name := fst b; x_addr := snd b; x_count := times occs b |}) (firsts occs)).
Proof.
  assert (E : concat (map snd (table_of occs)) =
    map (fun b : box => {| x_name := fst b; x_addr := snd b; x_count := times occs b |})
      (concat (map (fun k => firsts (filter (fun b : box => same (snd b) k) occs)) (keys occs)))).
  { unfold table_of. generalize (keys occs). intros ks. induction ks as [|k ks IH]; [reflexivity|]. cbn [map concat snd]. rewrite IH, map_app. reflexivity. }
  rewrite E. apply Permutation_map, NoDup_Permutation.
  - generalize (keys_distinct occs). generalize (keys occs). intros ks D. induction D as [|k ks H D IH]; [constructor|]. cbn [map concat].
    apply NoDup_app_intro; [apply firsts_NoDup|exact IH|]. intros b Hb Hc. rewrite firsts_In, filter_In in Hb.
    apply in_concat in Hc as (l & Hl & Hb'). apply in_map_iff in Hl as (k' & <- & Hk'). rewrite firsts_In, filter_In in Hb'.
    destruct Hb as (_ & Hb), Hb' as (_ & Hb'). rewrite (same_sym _ k) in Hb. rewrite <- (same_cong _ _ k' Hb) in Hb'. rewrite H in Hb'; [discriminate Hb'|exact Hk'].
  - apply firsts_NoDup.
  - intros b. rewrite firsts_In, in_concat. split.
    + intros (l & Hl & Hb). apply in_map_iff in Hl as (k & <- & _). rewrite firsts_In, filter_In in Hb. tauto.
    + intros Hb. pose proof (keys_cover occs b Hb) as K. apply existsb_exists in K as (k & Hk & Sk).
      eexists. split; [apply in_map_iff; exists k; split; [reflexivity|exact Hk]|]. rewrite firsts_In, filter_In. split; [exact Hb|now rewrite same_sym].
Qed.

(** The most popular variant. *)
Lemma popular_spec l : forall best max total, (match best with Some m => x_count m = max | None => max = 0 end) ->
  match popular l best max total with
  | None => best = None /\ Forall (fun m => x_count m = 0) l
  | Some (m, t) => t = total + list_sum (map x_count l) /\
      ((best = Some m /\ Forall (fun m' => x_count m' <= x_count m) l) \/
       exists pre post, l = pre ++ m :: post /\ max < x_count m /\ Forall (fun m' => x_count m' < x_count m) pre /\ Forall (fun m' => x_count m' <= x_count m) post)
  end.
Proof.
  induction l as [|c l IH]; intros best max total Hb; cbn [popular].
  - destruct best as [m|]; [|split; [reflexivity|constructor]]. cbn. split; [lia|]. left. split; [reflexivity|constructor].
  - destruct (max <? x_count c) eqn:E.
    + apply Nat.ltb_lt in E. specialize (IH (Some c) (x_count c) (total + x_count c) eq_refl). destruct (popular _ _ _ _) as [(m, t)|]; [|destruct IH as (X & _); discriminate X].
      destruct IH as (-> & IH). split; [change (list_sum (map x_count (c :: l))) with (x_count c + list_sum (map x_count l)); lia|]. right. destruct IH as [(X & F)|(pre & post & -> & L & F & G)].
      * injection X as <-. exists [], l. cbn. repeat split; [lia|constructor|exact F].
      * exists (c :: pre), post. cbn. repeat split; [lia|constructor; [lia|exact F]|exact G].
    + apply Nat.ltb_ge in E. specialize (IH best max (total + x_count c) Hb). destruct (popular _ _ _ _) as [(m, t)|].
      * destruct IH as (-> & IH). split; [change (list_sum (map x_count (c :: l))) with (x_count c + list_sum (map x_count l)); lia|]. destruct IH as [(X & F)|(pre & post & -> & L & F & G)].
        -- left. split; [exact X|]. constructor; [|exact F]. subst best. lia.
        -- right. exists (c :: pre), post. cbn. repeat split; [lia|constructor; [lia|exact F]|exact G].
      * destruct IH as (-> & F). split; [reflexivity|]. constructor; [|exact F]. lia.
Qed.
Lemma firsts_order l : forall pre b post c, firsts l = pre ++ b :: post -> In c post -> before l b c.
Proof.
  induction l as [|x l IH]; intros pre b post c E Hc; [destruct pre; discriminate E|]. cbn [firsts] in E.
  destruct pre as [|p pre]; cbn [app] in E; injection E as -> E.
  - exists [], l. split; [reflexivity|intros []].
  - assert (S : exists pre' post', firsts l = pre' ++ b :: post' /\ In c post').
    { clear IH. revert pre E Hc. generalize (firsts l). intros k. induction k as [|y k IHk]; intros pre E Hc; cbn [filter] in E; [destruct pre; discriminate E|].
      destruct (box_dec p y) as [<-|N].
      - destruct (IHk pre E Hc) as (pre' & post' & -> & H). exists (p :: pre'), post'. auto.
      - destruct pre as [|q pre]; cbn [app] in E; injection E as -> E.
        + exists [], k. split; [reflexivity|]. rewrite <- E in Hc. apply filter_In in Hc. tauto.
        + destruct (IHk pre E Hc) as (pre' & post' & -> & H). exists (q :: pre'), post'. auto. }
    destruct S as (pre' & post' & S & Hc'). destruct (IH pre' b post' c S Hc') as (u & v & -> & N). exists (p :: u), v. split; [reflexivity|].
    intros [->|X]; [|now apply N].
    assert (In c (filter (fun y => if box_dec c y then false else true) (firsts (u ++ b :: v)))) as H by (rewrite E; apply in_or_app; right; now right).
    apply filter_In in H as (_ & H). destruct (box_dec c c); [discriminate H|congruence].
Qed.
Lemma before_filter p l b c : before (filter p l) b c -> p c = true -> before l b c.
Proof.
  intros (pre & post & E & N) Hc. revert pre E N. induction l as [|x l IH]; intros pre E N; cbn [filter] in E; [destruct pre; discriminate E|].
  destruct (p x) eqn:P.
  - destruct pre as [|q pre]; cbn [app] in E; injection E as -> E.
    + exists [], l. split; [reflexivity|intros []].
    + destruct (IH pre E) as (u & v & -> & M); [intros H; apply N; now right|]. exists (q :: u), v. split; [reflexivity|].
      intros [->|H]; [apply N; now left|now apply M].
  - destruct (IH pre E N) as (u & v & -> & M). exists (x :: u), v. split; [reflexivity|]. intros [->|H]; [congruence|now apply M].
Qed.
Lemma list_sum_times l : forall occs, NoDup l -> (forall b, In b occs -> In b l) -> list_sum (map (times occs) l) = length occs.
Proof.
  induction l as [|x l IH]; intros occs N H.
  - destruct occs as [|b occs]; [reflexivity|]. destruct (H b). now left.
  - inversion N as [|? ? Nx Nl]; subst. cbn [map list_sum fold_right].
    set (o2 := filter (fun y => if box_dec x y then false else true) occs).
    assert (L : length occs = times occs x + length o2).
    { unfold o2. clear. induction occs as [|y occs IH]; [reflexivity|]. cbn [length filter]. unfold times in *. cbn [count_occ].
      destruct (box_dec y x) as [->|M]; destruct (box_dec x _) as [E|E]; try congruence; cbn [length]; lia. }
    rewrite L. change (times occs x + list_sum (map (times occs) l) = times occs x + length o2). f_equal. rewrite <- (IH o2 Nl).
    + f_equal. apply map_ext_in. intros y Hy. unfold o2, times. clear - Nx Hy. induction occs as [|z occs IH]; [reflexivity|]. cbn [count_occ filter].
      destruct (box_dec z y) as [->|M].
      * destruct (box_dec x y) as [->|]; [contradiction|]. cbn [count_occ]. destruct (box_dec y y); [now rewrite IH|congruence].
      * destruct (box_dec x z); [exact IH|]. cbn [count_occ]. destruct (box_dec z y); [contradiction|exact IH].
    + intros b Hb. apply filter_In in Hb as (Hb & D). destruct (H b Hb) as [->|]; [|assumption]. destruct (box_dec b b); [discriminate D|congruence].
Qed.
Lemma times_filter p occs b : p b = true -> times (filter p occs) b = times occs b.
Proof.
  intros P. unfold times. induction occs as [|x occs IH]; [reflexivity|]. cbn [filter count_occ]. destruct (box_dec x b) as [->|N].
  - rewrite P. cbn [count_occ]. destruct (box_dec b b); [now rewrite IH|congruence].
  - destruct (p x); [|exact IH]. cbn [count_occ]. destruct (box_dec x b); [contradiction|exact IH].
Qed.
Lemma times_pos occs b : In b occs -> 0 < times occs b.
Proof. unfold times. intros H. now apply (count_occ_In box_dec). Qed.
(** What is printed for a key. *)
Lemma print_popular_spec a occs k : existsb (fun b : box => same (snd b) k) occs = true ->
  exists b, print_popular a (variants k occs) = Some [print_mailbox a (fst b) (snd b) (times_address occs k)] /\
    same (snd b) k = true /\ favourite occs b.
Proof.
  intros NE. unfold print_popular, variants.
  set (V := firsts (filter (fun b : box => same (snd b) k) occs)).
  set (f := fun b : box => {| x_name := fst b; x_addr := snd b; x_count := times occs b |}).
  pose proof (popular_spec (map f V) None 0 0 eq_refl) as P. destruct (popular _ _ _ _) as [(m, t)|].
  - destruct P as (-> & [(X & _)|(pre & post & E & _ & F & G)]); [discriminate X|].
    apply map_eq_app in E as (p1 & p2 & EV & <- & E2). destruct p2 as [|b p2]; [discriminate E2|]. cbn [map] in E2. injection E2 as <- <-.
    assert (Hb : In b (filter (fun b : box => same (snd b) k) occs)) by (apply firsts_In; fold V; rewrite EV; apply in_or_app; right; now left).
    apply filter_In in Hb as (Hb & Sb). exists b. split; [|split; [exact Sb|split; [exact Hb|]]].
    + cbn [f x_name x_addr]. do 3 f_equal. cbn [Nat.add]. rewrite map_map. cbn [f x_count].
      rewrite (map_ext_in _ (times (filter (fun b : box => same (snd b) k) occs))).
      * rewrite list_sum_times; [reflexivity|apply firsts_NoDup|]. intros c Hc. now apply firsts_In.
      * intros c Hc. unfold V in Hc. rewrite firsts_In, filter_In in Hc. symmetry. now apply times_filter.
    + intros c Hc Sc. assert (Sk : same (snd c) k = true) by (apply same_spec in Sc; now rewrite (same_cong _ _ k Sc)).
      assert (HV : In c V) by (apply firsts_In, filter_In; now split). rewrite EV in HV. apply in_app_iff in HV as [HV|[<-|HV]].
      * left. rewrite Forall_forall in F. exact (F (f c) (in_map f _ _ HV)).
      * right. split; [reflexivity|]. apply (in_split b) in Hb. destruct Hb as (u & v & ->).
        destruct (in_dec box_dec b u) as [I|I]; [|exists u, v; auto].
        clear - b. revert u. 
        assert (G : forall l, In b l -> exists pre post, l = pre ++ b :: post /\ ~ In b pre).
        { induction l as [|y l IH]; [intros []|]. intros H. destruct (box_dec y b) as [->|N]; [exists [], l; auto|].
          destruct H as [H|H]; [contradiction|]. destruct (IH H) as (pre & post & -> & M). exists (y :: pre), post. split; [reflexivity|].
          intros [X|X]; contradiction. }
        intros u. apply G. apply in_or_app. right. now left.
      * rewrite Forall_forall in G. pose proof (G (f c) (in_map f _ _ HV)) as L. cbn [f x_count] in L.
        destruct (Nat.eq_dec (times occs c) (times occs b)) as [Q|Q]; [|left; lia]. right. split; [exact Q|].
        apply (before_filter (fun b : box => same (snd b) k)); [|exact Sk]. eapply firsts_order; [exact EV|exact HV].
  - exfalso. destruct P as (_ & F). apply existsb_exists in NE as (b & Hb & Sb).
    assert (HV : In b V) by (apply firsts_In, filter_In; now split). rewrite Forall_forall in F. pose proof (F (f b) (in_map f _ _ HV)) as Z.
    cbn [f x_count] in Z. pose proof (times_pos occs b Hb). lia.
Qed.
