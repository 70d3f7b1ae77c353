From Verif Require Import Bytes Terms XQuery DocSet Thread Query QuerySpec StrUtil StrUtilSpec StrUtilProofs QueryProofs SearchCmd SearchCmdSpec.
From Coq Require Import Sorted.
Local Open Scope nat_scope.

(** ** Offset and limit *)
Lemma slice_eq {A} (l : list A) : forall i o lim, (0 <= i)%Z -> (lim < 0 \/ o + lim <= INT_MAX)%Z ->
  messages_slice l i o lim =
  Out (let rest := skipn (Z.to_nat (o - i)) l in
       if (lim <? 0)%Z then rest else firstn (Z.to_nat (o + lim - Z.max i o)) rest).
Proof.
  induction l as [|d l IH]; intros i o lim Hi H.
  - cbn [messages_slice]. rewrite skipn_nil, firstn_nil. now destruct (lim <? 0)%Z.
  - cbn [messages_slice]. unfold below_limit. destruct (lim <? 0)%Z eqn:L.
    + rewrite IH by lia. rewrite L. destruct (i <? o)%Z eqn:E.
      * replace (Z.to_nat (o - i)) with (S (Z.to_nat (o - (i + 1)))) by lia. reflexivity.
      * replace (Z.to_nat (o - i)) with 0 by lia. replace (Z.to_nat (o - (i + 1))) with 0 by lia. reflexivity.
    + replace (INT_MAX <? o + lim)%Z with false by lia. destruct (i <? o + lim)%Z eqn:B.
      * rewrite IH by lia. rewrite L. destruct (i <? o)%Z eqn:E.
        -- replace (Z.to_nat (o - i)) with (S (Z.to_nat (o - (i + 1)))) by lia. cbn [skipn].
           replace (Z.max (i + 1) o) with o by lia. replace (Z.max i o) with o by lia. reflexivity.
        -- replace (Z.to_nat (o - i)) with 0 by lia. replace (Z.to_nat (o - (i + 1))) with 0 by lia. cbn [skipn].
           replace (Z.to_nat (o + lim - Z.max i o)) with (S (Z.to_nat (o + lim - Z.max (i + 1) o))) by lia. reflexivity.
      * replace (Z.to_nat (o + lim - Z.max i o)) with 0 by lia. reflexivity.
Qed.
Lemma threads_slice_eq db : forall fuel t l i o lim, threads_loop fuel db t = Some l ->
  threads_slice fuel db t i o lim = messages_slice l i o lim.
Proof.
  induction fuel as [|f IH]; intros t l i o lim H; [discriminate H|]. cbn [threads_loop threads_slice] in *.
  destruct (threads_valid t) as [[[|] t1]|]; [|injection H as <-; reflexivity|discriminate H].
  destruct (threads_get db t1) as [[[th|] t2]|] eqn:G; try discriminate H.
  destruct (threads_loop f db (threads_next t2)) as [l'|] eqn:L; [|discriminate H]. injection H as <-. cbn [messages_slice].
  destruct (below_limit i o lim) as [[|]|]; try reflexivity. rewrite (IH _ _ _ _ _ L). reflexivity.
Qed.
Lemma fix_offset_eq o (n : nat) : (- 2 ^ 31 <= o < 0)%Z -> (Z.of_nat n < 2 ^ 31)%Z ->
  fix_offset o n = Z.max 0 (o + Z.of_nat n).
Proof.
  intros Ho Hn. unfold fix_offset, to_int, INT_MAX.
  destruct (Z_lt_le_dec (o + Z.of_nat n) 0) as [N|N].
  - replace ((o + Z.of_nat n) mod 2 ^ 32)%Z with (o + Z.of_nat n + 2 ^ 32)%Z.
    + replace (o + Z.of_nat n + 2 ^ 32 <=? 2 ^ 31 - 1)%Z with false by lia. replace (o + Z.of_nat n + 2 ^ 32 - 2 ^ 32 <? 0)%Z with true by lia. lia.
    + apply (Z.mod_unique _ _ (-1)); lia.
  - rewrite Z.mod_small by lia. replace (o + Z.of_nat n <=? 2 ^ 31 - 1)%Z with true by lia. replace (o + Z.of_nat n <? 0)%Z with false by lia. lia.
Qed.
(** The offset the loop works with. *)
Definition start_of (offset : Z) (n : nat) : Z := if (offset <? 0)%Z then Z.max 0 (offset + Z.of_nat n) else offset.
Lemma window_slice {A} (l : list A) o lim : (lim < 0 \/ start_of o (length l) + lim <= INT_MAX)%Z ->
  messages_slice l 0 (start_of o (length l)) lim = Out (window o lim l).
Proof.
  intros H. assert (S0 : (0 <= start_of o (length l))%Z) by (unfold start_of; destruct (o <? 0)%Z eqn:E; lia).
  rewrite slice_eq by (auto; lia). f_equal. unfold window.
  replace (if (0 <=? o)%Z then Z.to_nat o else length l - Z.to_nat (- o)) with (Z.to_nat (start_of o (length l) - 0))
    by (unfold start_of; destruct (o <? 0)%Z eqn:E; [replace (0 <=? o)%Z with false by lia|replace (0 <=? o)%Z with true by lia]; lia).
  destruct (lim <? 0)%Z; [reflexivity|]. cbv zeta. f_equal. lia.
Qed.

Lemma In_firstn {A} (d : A) n l : In d (firstn n l) -> In d l.
Proof. intros H. rewrite <- (firstn_skipn n l). apply in_or_app. now left. Qed.
Lemma In_skipn {A} (d : A) n l : In d (skipn n l) -> In d l.
Proof. intros H. rewrite <- (firstn_skipn n l). apply in_or_app. now right. Qed.
Lemma window_In {A} (d : A) o lim l : In d (window o lim l) -> In d l.
Proof. unfold window. intros H. destruct (lim <? 0)%Z; [|apply In_firstn in H]; now apply In_skipn in H. Qed.
Lemma skipn_add {A} a : forall b (l : list A), skipn a (skipn b l) = skipn (a + b) l.
Proof. induction b as [|b IH]; intros l; [now rewrite Nat.add_0_r|]. destruct l; [now rewrite !skipn_nil|]. rewrite Nat.add_succ_r. apply IH. Qed.
Lemma window_split {A} (l : list A) o n : (0 <= o)%Z -> (0 <= n)%Z -> window o n l ++ window (o + n) (-1) l = window o (-1) l.
Proof.
  intros Ho Hn. unfold window. replace (0 <=? o)%Z with true by lia. replace (0 <=? o + n)%Z with true by lia.
  replace (n <? 0)%Z with false by lia. change (-1 <? 0)%Z with true. cbv zeta iota.
  replace (Z.to_nat (o + n)) with (Z.to_nat n + Z.to_nat o) by lia. rewrite <- skipn_add. apply firstn_skipn.
Qed.

(** ** The query *)
Lemma add_excludes_eq x tags : forall q, q_parse q = Some x ->
  add_excludes q tags = Some (fold_left (fun q t => fst (add_tag_exclude q t)) tags q).
Proof.
  induction tags as [|t tags IH]; intros q H; [reflexivity|]. cbn [add_excludes fold_left].
  destruct (add_tag_exclude q t) as [q' st] eqn:E. cbn [fst].
  assert (P : q_parse q' = Some x /\ st <> EX_ERROR).
  { unfold add_tag_exclude in E. rewrite H in E. destruct (tmem _ _); injection E as <- <-; (split; [first [exact H|reflexivity]|intros X; discriminate X]). }
  destruct P as [P N]. destruct st; [|now apply IH|congruence]. now apply IH.
Qed.
Lemma excl_sort s tags : forall q, fold_left (fun q t => fst (add_tag_exclude q t)) tags (set_sort q s) =
  set_sort (fold_left (fun q t => fst (add_tag_exclude q t)) tags q) s.
Proof.
  induction tags as [|t tags IH]; intros q; [reflexivity|]. cbn [fold_left].
  replace (fst (add_tag_exclude (set_sort q s) t)) with (set_sort (fst (add_tag_exclude q t)) s); [apply IH|].
  destruct q as [[x|] ex om so]; cbn; [|reflexivity]. now destruct (tmem _ _).
Qed.
Definition tags_in_force (a : search_args) (tags : list bytes) : list bytes :=
  match in_force (s_exclude a) (s_output a) with EXCLUDE_FALSE => [] | _ => tags end.
Definition lib_mode (a : search_args) : omit_mode :=
  match in_force (s_exclude a) (s_output a) with EXCLUDE_FALSE => EXCLUDE_TRUE | m => m end.
Lemma prepare_eq x tags a :
  search_prepare (Some x) tags a = Some (configure (Some x) (tags_in_force a tags) (lib_mode a) (s_sort a)).
Proof.
  unfold search_prepare. cbv zeta.
  assert (E : match s_exclude a with
              | EXCLUDE_FLAG => if output_eqb (s_output a) O_SUMMARY then EXCLUDE_FLAG else EXCLUDE_FALSE
              | m => m end = in_force (s_exclude a) (s_output a)).
  { unfold in_force. destruct (s_exclude a), (s_output a); reflexivity. }
  rewrite E. unfold tags_in_force, lib_mode, configure. destruct (in_force (s_exclude a) (s_output a)).
  - reflexivity.
  - rewrite (add_excludes_eq x) by reflexivity. rewrite excl_sort. reflexivity.
  - rewrite (add_excludes_eq x) by reflexivity. rewrite excl_sort. reflexivity.
  - rewrite (add_excludes_eq x) by reflexivity. rewrite excl_sort. reflexivity.
Qed.
Lemma selected_in_force db x tags a d :
  selected db x (tags_in_force a tags) (lib_mode a) d <-> selected db x tags (in_force (s_exclude a) (s_output a)) d.
Proof.
  unfold tags_in_force, lib_mode, selected. destruct (in_force (s_exclude a) (s_output a)); [|reflexivity|reflexivity|reflexivity].
  unfold excluded. split; [tauto|]. intros (A & B & C & _). repeat split; auto. intros (t & [] & _).
Qed.

(** ** Tags *)
Lemma fold_tadd_spec l : forall acc, tsorted acc ->
  tsorted (fold_left (fun acc t => tadd t acc) l acc) /\
  forall t, In t (fold_left (fun acc t => tadd t acc) l acc) <-> In t acc \/ In t l.
Proof.
  induction l as [|x l IH]; intros acc S; cbn [fold_left]; [split; [exact S|]; cbn; tauto|].
  destruct (IH (tadd x acc) (tadd_sorted x acc S)) as [A B]. split; [exact A|]. intros t. rewrite B, tadd_In. cbn. intuition.
Qed.
Lemma collect_tags_spec l : tsorted (collect_tags l) /\ forall t, In t (collect_tags l) <-> exists d, In d l /\ has_tag d t.
Proof.
  unfold collect_tags. assert (G : forall l acc, tsorted acc ->
    tsorted (fold_left (fun acc d => fold_left (fun acc t => tadd t acc) (doc_tags (xd_terms d)) acc) l acc) /\
    forall t, In t (fold_left (fun acc d => fold_left (fun acc t => tadd t acc) (doc_tags (xd_terms d)) acc) l acc) <-> In t acc \/ exists d, In d l /\ has_tag d t).
  { clear l. induction l as [|d l IH]; intros acc S; cbn [fold_left].
    - split; [exact S|]. intros t. split; [auto|]. intros [H|(d & [] & _)]. exact H.
    - destruct (fold_tadd_spec (doc_tags (xd_terms d)) acc S) as [A B]. destruct (IH _ A) as [C D]. split; [exact C|].
      intros t. rewrite D, B, doc_tags_In. split.
      + intros [[H|H]|(e & H & H')]; [auto|right; exists d; split; [now left|exact H]|right; exists e; split; [now right|exact H']].
      + intros [H|(e & [<-|H] & H')]; [auto|left; right; exact H'|right; now exists e]. }
  destruct (G l [] ltac:(constructor)) as [A B]. split; [exact A|]. intros t. rewrite B. cbn. intuition.
Qed.

(** ** The printed list *)
Lemma ended_by_item sep s : forall cur r, ~ In sep s -> ended_by sep cur (s ++ sep :: r) = (cur ++ s) :: ended_by sep [] r.
Proof.
  induction s as [|c s IH]; intros cur r N; cbn [app ended_by].
  - rewrite beq_refl. now rewrite app_nil_r.
  - destruct (beq_spec c sep) as [->|]; [destruct N; now left|]. rewrite IH by (intros X; apply N; now right). now rewrite <- app_assoc.
Qed.
Lemma print_text_split p sep items :
  (forall c, In c p -> c <> sep) -> sep <> ":"%char -> Forall (fun s => ~ In sep s) items ->
  ended_by sep [] (print_text (Some p) sep items) = map (fun s => p ++ ":"%char :: s) items.
Proof.
  intros Hp Hs F. unfold print_text. induction F as [|s items N F IH]; [reflexivity|]. cbn [map concat].
  rewrite <- !app_assoc. cbn [app]. replace (p ++ ":"%char :: s ++ sep :: concat (map (fun s => (p ++ [":"%char]) ++ s ++ [sep]) items))
    with ((p ++ ":"%char :: s) ++ sep :: concat (map (fun s => (p ++ [":"%char]) ++ s ++ [sep]) items)) by (rewrite <- app_assoc; reflexivity).
  rewrite ended_by_item.
  - cbn [app]. f_equal. exact IH.
  - intros X. apply in_app_iff in X as [X|[X|X]]; [exact (Hp _ X eq_refl)|congruence|exact (N X)].
Qed.
Lemma print_text_split_plain sep items : Forall (fun s => ~ In sep s) items -> ended_by sep [] (print_text None sep items) = items.
Proof.
  intros F. unfold print_text. induction F as [|s items N F IH]; [reflexivity|]. cbn [map concat app].
  rewrite <- app_assoc. cbn [app]. rewrite ended_by_item by exact N. cbn [app]. f_equal. exact IH.
Qed.

(** ** Thread queries *)
Lemma term_text_make id : exists body, make_boolean_term (Some (lit "id")) id = lit "id:" ++ body /\ term_text body id.
Proof.
  destruct (make_bare_or_quoted (Some (lit "id")) id) as [(E & N & H)|(d & D & E)].
  - exists id. split; [exact E|]. apply tt_bare.
    + intros c Hc. apply H in Hc. tauto.
    + intros r ->. destruct (H """"%char (or_introl eq_refl)) as (_ & X & _). congruence.
  - exists (""""%char :: d ++ [""""%char]). split; [exact E|]. now constructor.
Qed.
Lemma ids_query_snoc s ids id body : ids_query s ids -> term_text body id -> ids_query (s ++ lit " id:" ++ body) (ids ++ [id]).
Proof.
  intros H T. induction H as [b i Tb|b i rest ids Tb H IH].
  - change ([i] ++ [id]) with (i :: [id]). rewrite <- app_assoc. change (lit " id:" ++ body) with (" "%char :: lit "id:" ++ body).
    apply iq_more; [exact Tb|]. now apply iq_one.
  - cbn [app]. rewrite <- !app_assoc. cbn [app]. apply iq_more; assumption.
Qed.
Definition reads (buf : option bytes) (ids : list bytes) : Prop :=
  match buf with None => ids = [] | Some s => ids_query s ids end.
Lemma append_query_reads buf ids id : reads buf ids -> reads (append_query buf id) (ids ++ [id]).
Proof.
  intros H. unfold append_query. destruct (term_text_make id) as (body & -> & T). destruct buf as [b|]; cbn [reads] in *.
  - apply (ids_query_snoc b ids id body H T).
  - subst ids. now apply iq_one.
Qed.
Lemma thread_query_reads l : forall m u ms us, reads m ms -> reads u us ->
  reads (fst (get_thread_query l m u)) (ms ++ map fst (filter (fun p => snd p) l)) /\
  reads (snd (get_thread_query l m u)) (us ++ map fst (filter (fun p => negb (snd p)) l)).
Proof.
  induction l as [|[id [|]] l IH]; intros m u ms us Hm Hu; cbn [get_thread_query filter snd negb map fst].
  - rewrite !app_nil_r. auto.
  - destruct (IH _ u _ us (append_query_reads m ms id Hm) Hu) as [A B]. rewrite <- app_assoc in A. auto.
  - destruct (IH m _ ms _ Hm (append_query_reads u us id Hu)) as [A B]. rewrite <- app_assoc in B. auto.
Qed.
(** The reading is unambiguous. *)
Lemma doubled_unique d : forall t d' t' r r', doubled t d -> doubled t' d' ->
  (forall x, r <> """"%char :: x) -> (forall x, r' <> """"%char :: x) ->
  d ++ """"%char :: r = d' ++ """"%char :: r' -> t = t' /\ r = r'.
Proof.
  induction d as [d IH] using length_ind. intros t d' t' r r' D D' Hr Hr' E. inversion D; subst; inversion D'; subst; cbn [app] in E.
  - injection E as E. auto.
  - injection E as E. destruct (Hr _ E).
  - injection E as E _. congruence.
  - injection E as E. symmetry in E. destruct (Hr' _ E).
  - injection E as E. edestruct IH as [X Y]; [|exact H|exact H0|exact Hr|exact Hr'|exact E|]; [cbn; lia|]. subst. auto.
  - injection E as E _. congruence.
  - injection E as E _. congruence.
  - injection E as E _. congruence.
  - injection E as <- E. edestruct IH as [X Y]; [|exact H0|exact H2|exact Hr|exact Hr'|exact E|]; [cbn; lia|]. subst. auto.
Qed.
Lemma bare_split t : forall t' r r', (forall c, In c t -> (32 < N_of_ascii c)%N) -> (forall c, In c t' -> (32 < N_of_ascii c)%N) ->
  (r = [] \/ exists x, r = " "%char :: x) -> (r' = [] \/ exists x, r' = " "%char :: x) -> t ++ r = t' ++ r' -> t = t' /\ r = r'.
Proof.
  assert (B : (32 < N_of_ascii " "%char)%N -> False) by (cbn; lia).
  induction t as [|c t IH]; intros t' r r' H H' Hr Hr' E.
  - destruct t' as [|c' t']; [auto|]. cbn in E. exfalso. destruct Hr as [->|(x & ->)]; [discriminate E|]. injection E as <- _. apply B, H'. now left.
  - destruct t' as [|c' t'].
    + cbn in E. exfalso. destruct Hr' as [->|(x & ->)]; [discriminate E|]. injection E as -> _. apply B, H. now left.
    + cbn in E. injection E as <- E. destruct (IH t' r r') as [-> ->]; auto; intros x Hx; [apply H|apply H']; now right.
Qed.
Lemma term_text_split b t b' t' r r' : term_text b t -> term_text b' t' ->
  (r = [] \/ exists x, r = " "%char :: x) -> (r' = [] \/ exists x, r' = " "%char :: x) -> b ++ r = b' ++ r' -> t = t' /\ r = r'.
Proof.
  intros T T' Hr Hr' E.
  assert (Q : forall r, (r = [] \/ exists x, r = " "%char :: x) -> forall x, r <> """"%char :: x).
  { intros s [->|(x & ->)] y; discriminate. }
  assert (Mixed : forall d t r r', (forall x, t <> """"%char :: x) -> (r' = [] \/ exists x, r' = " "%char :: x) ->
            (""""%char :: d ++ [""""%char]) ++ r = t ++ r' -> False).
  { intros d s x y N Hy E'. destruct s as [|c s]; cbn in E'.
    - destruct Hy as [->|(z & ->)]; discriminate E'.
    - injection E' as E' _. apply (N s). now rewrite <- E'. }
  inversion T as [s d D|s F N]; inversion T' as [s' d' D'|s' F' N']; subst.
  - cbn [app] in E. injection E as E. rewrite <- !app_assoc in E. cbn [app] in E.
    exact (doubled_unique d t d' t' r r' D D' (Q _ Hr) (Q _ Hr') E).
  - exfalso. exact (Mixed d t' r r' N' Hr' E).
  - exfalso. symmetry in E. exact (Mixed d' t r' r N Hr E).
  - apply (bare_split t t' r r'); auto; intros c Hc; [apply F|apply F']; exact Hc.
Qed.
Lemma ids_query_functional s : forall l l', ids_query s l -> ids_query s l' -> l = l'.
Proof.
  assert (G : forall s l, ids_query s l -> forall s' l', s = s' -> ids_query s' l' -> l = l').
  { clear s. intros s l H. induction H as [b i T|b i rest ids T H IH]; intros s' l' E H'; inversion H' as [b' i' T' E1 E2|b' i' rest' ids' T' H'' E1 E2]; rewrite <- E1 in E; clear E1.
    - apply app_inv_head in E. destruct (term_text_split b i b' i' [] [] T T') as [-> _]; auto. now rewrite !app_nil_r.
    - apply app_inv_head in E. destruct (term_text_split b i b' i' [] (" "%char :: rest') T T') as [_ X]; eauto; [now rewrite app_nil_r|discriminate X].
    - apply app_inv_head in E. destruct (term_text_split b i b' i' (" "%char :: rest) [] T T') as [_ X]; eauto; [now rewrite app_nil_r|discriminate X].
    - apply app_inv_head in E. destruct (term_text_split b i b' i' (" "%char :: rest) (" "%char :: rest') T T') as [-> X]; eauto.
      injection X as ->. f_equal. eapply IH; [reflexivity|exact H'']. }
  intros l l' H H'. exact (G s l H s l' eq_refl H').
Qed.
