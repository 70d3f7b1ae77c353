From Verif Require Import Bytes Hex StrUtil Terms Meta StringMap DocMap Db Props
  TagOps TagLine Dump DumpSpec DumpProofs DumpProofs2 DumpProofs3 PropsSpec NmGit NmGitSpec NmGitProofs NmGitProofs2 NmGitProofs3.
Local Open Scope nat_scope.

Section S.
Variable hash : bytes -> bytes.
Hypothesis Hh : hash_ok hash.
Variable v : fmt.
Variable prefix : bytes.
Variable cfg : list (bytes * bytes).
Variable props : bytes -> list (bytes * bytes).
Hypothesis Hp : prefix_ok prefix.
Hypothesis Hcfg : Forall cfg_item_ok cfg.
Local Notation tp := (tag_path hash v).
Local Notation ip := (id_path hash v).

Lemma holds_iff tree id t : holds hash v tree id t <-> In (tp id t) tree.
Proof.
  unfold holds. split.
  - intros (p & P & H). apply path_for_iff in P as ->; assumption.
  - intros H. exists (tp id t). split; [now apply path_for_iff|exact H].
Qed.
Lemma format_line : unpack_line v (lit "FORMAT" ++ [NL]) = U_skip.
Proof. destruct v; reflexivity. Qed.
Lemma unpack_lines_ok l : (forall p, In p l -> p = lit "FORMAT" \/ exists i t, p = tp i t) ->
  exists d, unpack_lines v (map (fun p => p ++ [NL]) l) = Some d /\ forall i t, In (i, t) d <-> In (tp i t) l.
Proof.
  induction l as [|p l IH]; intros H; cbn [map unpack_lines].
  - exists []. split; [reflexivity|]. intros i t. split; intros [].
  - destruct (IH (fun q X => H q (or_intror X))) as (d & E & D). destruct (H p (or_introl eq_refl)) as [->|(i & t & ->)].
    + rewrite format_line. exists d. split; [exact E|]. intros i t. rewrite D. split; [now right|]. intros [X|X]; [|exact X].
      exfalso. pose proof (path_tags hash v i t) as Y. rewrite <- X in Y. discriminate Y.
    + rewrite unpack_path by exact Hh. rewrite E. cbn [option_map]. exists ((i, t) :: d). split; [reflexivity|]. intros i' t'. cbn [In]. rewrite D.
      split; [intros [[= <- <-]|X]; auto|]. intros [X|X]; [|auto]. left. apply tag_path_inj in X as [-> ->]; [reflexivity|exact Hh].
Qed.
Lemma diff_ok a b : (forall p, In p a -> p = lit "FORMAT" \/ exists i t, p = tp i t) ->
  exists d, diff_names v a b = Some d /\ forall i t, In (i, t) d <-> In (tp i t) a /\ ~ In (tp i t) b.
Proof.
  intros H. unfold diff_names. destruct (unpack_lines_ok (filter (fun p => negb (tmem p b)) a)) as (d & E & D).
  - intros p X. apply filter_In in X as (X & _). now apply H.
  - exists d. split; [exact E|]. intros i t. rewrite D, filter_In, negb_true_iff, tmem_false. reflexivity.
Qed.
Lemma tree_shape tree : tree_ok hash v prefix tree -> forall p, In p tree -> p = lit "FORMAT" \/ exists i t, p = tp i t.
Proof.
  intros (_ & H) p X. destruct (H p X) as [->|(i & t & P & _)]; [now left|right]. exists i, t. now apply path_for_iff in P.
Qed.
Lemma known_iff db id : known db id = true <-> in_database db id.
Proof.
  unfold known, in_database. rewrite existsb_exists. split; intros (m & A & B); exists m; (split; [exact A|]); now apply bseq_eq.
Qed.

Local Notation get_status := (get_status hash v prefix cfg props known).

Lemma status_ok r db db' : db_ok props db -> usable prefix db -> tree_ok hash v prefix (r_head r) -> cache_valid hash v prefix r db ->
  exists idx s, get_status r db db' =
    ({| r_head := r_head r; r_priv := Some idx;
        r_cache := Some {| gc_prefix := prefix; gc_uuid := g_uuid db'; gc_lastmod := g_rev db'; gc_sum := Some idx |};
        r_index := r_index r; r_icache := r_icache r |}, Some s) /\
    tsorted idx /\ (forall p, In p idx <-> exists id t, tracked prefix db id t /\ p = tp id t) /\
    status_exact hash v prefix (r_head r) db s.
Proof.
  intros Hd Hu Ht Hc. destruct (index_exact hash Hh v prefix cfg props Hp Hcfg r db Hd Hu Hc) as (idx & E & Hs & Hi).
  unfold NmGit.get_status. rewrite E.
  destruct (diff_ok (r_head r) idx (tree_shape _ Ht)) as (d & Ed & Dd).
  destruct (diff_ok idx (r_head r)) as (a & Ea & Da).
  { intros p X. apply Hi in X as (i & t & _ & ->). right. now exists i, t. }
  rewrite Ed, Ea. eexists idx, _. split; [reflexivity|]. split; [exact Hs|]. split; [exact Hi|].
  assert (T : forall i t, In (tp i t) idx <-> tracked prefix db i t).
  { intros i t. rewrite Hi. split; [|intros X; now exists i, t]. intros (i' & t' & X & Y). apply tag_path_inj in Y as [-> ->]; [exact X|exact Hh]. }
  split; [|split]; intros id tag; cbn.
  - rewrite Da, T, holds_iff. reflexivity.
  - rewrite filter_In, Dd, T, holds_iff. cbn. rewrite known_iff. tauto.
  - rewrite filter_In, Dd, T, holds_iff. cbn. rewrite negb_true_iff. split.
    + intros ((A & B) & C). split; [exact A|]. intros X. apply known_iff in X. congruence.
    + intros (A & B). repeat split; auto.
      * intros (m & X & _ & Y & _). apply B. now exists m.
      * destruct (known db id) eqn:K; [|reflexivity]. apply known_iff in K. contradiction.
Qed.

Lemma status_cache r db : db_ok props db -> usable prefix db -> tree_ok hash v prefix (r_head r) -> cache_valid hash v prefix r db ->
  cache_valid hash v prefix (fst (get_status r db db)) db.
Proof.
  intros Hd Hu Ht Hc. destruct (status_ok r db db Hd Hu Ht Hc) as (idx & s & E & Hs & Hi & _). rewrite E. unfold cache_valid. cbn [fst r_cache gc_sum gc_prefix gc_uuid gc_lastmod r_priv].
  split; [discriminate|]. intros _ _. split; [reflexivity|]. split; [lia|]. intros x [= <-]. split; [exact Hs|]. split.
  - intros p X. apply Hi in X as (id & t & T & ->). pose proof (Hu id t T) as (F1 & F2). destruct T as (m & A & B & <- & C).
    exists m, t. repeat split; try assumption; try apply F1; try apply F2; auto. now apply path_for_iff.
  - intros m t A B _ C. exists (tp (g_id m) t). split; [now apply path_for_iff|]. apply Hi. exists (g_id m), t. split; [now exists m|reflexivity].
Qed.

Lemma cache_evolves r db db' : db_ok props db' -> cache_valid hash v prefix r db -> evolves db db' -> (g_rev db <= g_rev db')%N -> cache_valid hash v prefix r db'.
Proof.
  intros Hd Hc (E1 & E2 & E3) Hr. unfold cache_valid in *. destruct (r_cache r) as [c|]; [|exact I]. destruct Hc as (C1 & C2). split; [exact C1|].
  intros P S0. destruct (C2 P S0) as (U & L & C). split; [congruence|]. split; [lia|]. intros idx Ei. destruct (C idx Ei) as (Hs & A & B). split; [exact Hs|]. split.
  - intros p X. destruct (A p X) as (m & t & M1 & M2 & M3 & M4 & M5 & M6). destruct (E2 m M1 M2) as (m' & N1 & N2 & N3 & N4).
    exists m', t. rewrite N2. split; [exact N1|]. split; [exact N3|]. split; [exact M3|]. split; [exact M4|]. split; [exact M5|].
    destruct N4 as [->|N4]; [exact M6|]. intros X'. lia.
  - intros m' t M1 M2 M3 M4. destruct (E3 m' M1 M2) as [N|N]; [|lia]. now apply B.
Qed.

(** ** Commit *)
Lemma read_tree_head r : commit_cache_valid r -> read_tree r = r_head r.
Proof.
  intros H. unfold read_tree. destruct (r_icache r) as [(h & [s|])|] eqn:E; try reflexivity; destruct (r_index r) as [i|]; try reflexivity.
  destruct (bsl_eq h (r_head r) && bsl_eq s i) eqn:Q; [|reflexivity]. apply andb_true_iff in Q as (Q1 & Q2). apply bsl_eq_eq in Q1, Q2. subst.
  symmetry. now apply H.
Qed.
Lemma update_dels d idx p : tsorted idx -> (forall id t, In (id, t) d -> path_ok (tp id t) = true) ->
  In p (iapply_all (flat_map (fun q => del_ops hash v (fst q) (snd q)) (dict_of d)) idx) <-> In p idx /\ ~ exists id t, In (id, t) d /\ p = tp id t.
Proof.
  intros Hs Hk.
  assert (E : flat_map (fun q => del_ops hash v (fst q) (snd q)) (dict_of d) = map I_del (map (fun q => tp (fst q) (snd q)) (pairs_of (dict_of d)))).
  { unfold pairs_of. induction (dict_of d) as [|(i & ts) l IH]; [reflexivity|]. cbn [flat_map fst snd]. rewrite !map_app, IH. f_equal.
    unfold del_ops. rewrite !map_map. reflexivity. }
  rewrite E, dels_In by exact Hs. split; intros (A & B); (split; [exact A|]).
  - intros (id & t & X & ->). apply B. split; [|now apply Hk]. apply in_map_iff. exists (id, t). split; [reflexivity|]. now apply dict_of_In.
  - intros (X & Y). apply in_map_iff in X as ((i & t) & <- & X). apply (proj1 (dict_of_In _ _ _)) in X. apply B. now exists i, t.
Qed.
Lemma update_adds d idx p : (forall id t, In (id, t) d -> path_ok (tp id t) = true) ->
  In p (iapply_all (flat_map (fun q => add_ops hash v (fst q) (snd q)) (dict_of d)) idx) <-> In p idx \/ exists id t, In (id, t) d /\ p = tp id t.
Proof.
  intros Hk.
  assert (E : flat_map (fun q => add_ops hash v (fst q) (snd q)) (dict_of d) = map I_add (map (fun q => tp (fst q) (snd q)) (pairs_of (dict_of d)))).
  { unfold pairs_of. induction (dict_of d) as [|(i & ts) l IH]; [reflexivity|]. cbn [flat_map fst snd]. rewrite !map_app, IH. f_equal.
    unfold add_ops. rewrite !map_map. reflexivity. }
  rewrite E, adds_In. split; (intros [A|B]; [now left|right]).
  - destruct B as (X & Y). apply in_map_iff in X as ((i & t) & <- & X). apply (proj1 (dict_of_In _ _ _)) in X. now exists i, t.
  - destruct B as (id & t & X & ->). split; [|now apply Hk]. apply in_map_iff. exists (id, t). split; [reflexivity|]. now apply dict_of_In.
Qed.

Variable excluded : gmsg -> bool.
Variable safe_num safe_den : N.
Local Notation commit := (commit hash v prefix cfg props known excluded safe_num safe_den).
Local Notation checkout := (checkout hash v prefix cfg props known excluded safe_num safe_den).

Lemma commit_done force r db r' : db_ok props db -> usable prefix db -> tree_ok hash v prefix (r_head r) -> cache_valid hash v prefix r db ->
  commit_cache_valid r -> commit force r db = (r', C_done) ->
  (forall p, In p (r_head r') <-> (exists id t, p = tp id t /\ (tracked prefix db id t \/ (In p (r_head r) /\ ~ in_database db id))) \/ (p = lit "FORMAT" /\ In p (r_head r))) /\
  tsorted (r_head r') /\ cache_valid hash v prefix r' db /\ commit_cache_valid r'.
Proof.
  intros Hd Hu Ht Hc Hi. unfold NmGit.commit. pose proof (status_cache r db Hd Hu Ht Hc) as Hc'.
  destruct (status_ok r db db Hd Hu Ht Hc) as (idx & s & E & Hs & Hx & (S1 & S2 & S3)). rewrite E in *. cbn [fst] in Hc'.
  destruct (is_committed s); [discriminate|]. destruct (negb force && _); [discriminate|]. intros [= <-].
  cbn [r_head r_icache r_priv r_cache]. unfold read_tree at 1 2. cbn [r_icache r_index r_head].
  assert (RT : read_tree {| r_head := r_head r; r_priv := Some idx;
        r_cache := Some {| gc_prefix := prefix; gc_uuid := g_uuid db; gc_lastmod := g_rev db; gc_sum := Some idx |};
        r_index := r_index r; r_icache := r_icache r |} = r_head r) by (rewrite read_tree_head; [reflexivity|exact Hi]).
  unfold read_tree in RT. cbn [r_icache r_index r_head] in RT. rewrite RT.
  assert (Ts : tsorted (r_head r)) by apply Ht.
  assert (Sh : forall p, In p (iapply_all (update_ops hash v s) (r_head r)) <-> (In p (r_head r) /\ ~ exists id t, In (id, t) (s_deleted s) /\ p = tp id t) \/ exists id t, In (id, t) (s_added s) /\ p = tp id t).
  { intros p. unfold update_ops. rewrite iapply_all_app, update_adds, update_dels; [reflexivity|exact Ts| |].
    - intros id t X. apply S2 in X as (X & _). apply path_accepted; [exact Hh|]. apply holds_iff in X. destruct Ht as (_ & Ht). destruct (Ht _ X) as [Y|(i & u & P & F1 & F2 & _)].
      + exfalso. pose proof (path_tags hash v id t) as Z. rewrite Y in Z. discriminate Z.
      + apply path_for_iff in P; [|exact Hh]. apply tag_path_inj in P as [-> ->]; auto.
    - intros id t X. apply S1 in X as (X & _). apply path_accepted; [exact Hh|]. now apply Hu. }
  split; [|split; [now apply iapply_all_sorted|split; [exact Hc'|intros h sum [= <- <-]; reflexivity]]].
  intros p. rewrite Sh. split.
  - intros [(A & B)|(id & t & A & ->)].
    + destruct (tree_shape _ Ht p A) as [->|(id & t & ->)]; [right; auto|]. left. exists id, t. split; [reflexivity|].
      destruct (in_dec (list_eq_dec ascii_dec) (tp id t) idx) as [X|X].
      * left. apply Hx in X as (i & u & X & Y). apply tag_path_inj in Y as [-> ->]; auto.
      * right. split; [exact A|]. intros K. apply B. exists id, t. split; [|reflexivity]. apply S2. rewrite holds_iff. repeat split; auto.
        intros T. apply X, Hx. now exists id, t.
    + left. exists id, t. split; [reflexivity|]. left. now apply S1 in A.
  - intros [(id & t & -> & [T|(A & K)])|(-> & A)].
    + destruct (in_dec (list_eq_dec ascii_dec) (tp id t) (r_head r)) as [X|X].
      * left. split; [exact X|]. intros (i & u & D & Y). apply tag_path_inj in Y as [-> ->]; [|exact Hh]. apply S2 in D. tauto.
      * right. exists id, t. split; [|reflexivity]. apply S1. rewrite holds_iff. auto.
    + left. split; [exact A|]. intros (i & u & D & Y). apply tag_path_inj in Y as [-> ->]; [|exact Hh]. apply S2 in D. tauto.
    + left. split; [exact A|]. intros (i & u & D & Y). pose proof (path_tags hash v i u) as Z. rewrite <- Y in Z. discriminate Z.
Qed.

(** ** Tagging *)
Lemma apply_sorted ops ts : tsorted ts -> tsorted (fold_left apply_op ops ts).
Proof.
  revert ts. induction ops as [|o ops IH]; intros ts H; [exact H|]. apply IH. unfold apply_op. destruct (to_remove o); auto using tadd_sorted, trem_sorted.
Qed.
Lemma apply_ops_In rm tags ts x : tsorted ts ->
  In x (fold_left apply_op (map (mkop rm prefix) tags) ts) <->
  if rm then In x ts /\ ~ (exists t, In t tags /\ x = prefix ++ t) else In x ts \/ (exists t, In t tags /\ x = prefix ++ t).
Proof.
  revert ts. induction tags as [|t tags IH]; intros ts H; cbn [map fold_left].
  - destruct rm; [split; [intros X; split; [exact X|intros (? & [] & _)]|tauto]|split; [auto|intros [X|(? & [] & _)]; exact X]].
  - rewrite IH by (unfold apply_op; cbn; destruct rm; auto using tadd_sorted, trem_sorted). unfold apply_op. cbn [mkop to_remove to_tag]. destruct rm.
    + rewrite trem_In by now apply tsorted_nodup. split.
      * intros ((A & B) & C). split; [exact A|]. intros (u & [<-|X] & Y); [congruence|]. apply C. now exists u.
      * intros (A & B). split; [split; [exact A|]|].
        -- intros ->. apply B. exists t. split; [now left|reflexivity].
        -- intros (u & X & Y). apply B. exists u. split; [now right|exact Y].
    + rewrite tadd_In. split.
      * intros [[->|X]|(u & X & Y)]; [right; exists t; split; [now left|reflexivity]|now left|right; exists u; split; [now right|exact Y]].
      * intros [X|(u & [<-|X] & Y)]; [auto|auto|right; now exists u].
Qed.

Lemma Forall2_impl {A B} (R Q : A -> B -> Prop) l l' : (forall x y, R x y -> Q x y) -> Forall2 R l l' -> Forall2 Q l l'.
Proof. intros H. induction 1; constructor; auto. Qed.
(** What tagging does to the list of messages. *)
Definition retag (f : gmsg -> list bytes) (rev : N) (m m' : gmsg) : Prop :=
  g_id m' = g_id m /\ g_mail m' = g_mail m /\ g_tags m' = f m /\ (m' = m \/ (rev < g_mod m')%N).
Lemma tag_messages_spec id ops ms : forall rev rev' ms', tag_messages id ops rev ms = (rev', ms') ->
  (rev <= rev')%N /\
  Forall2 (retag (fun m => if g_mail m && bseq (g_id m) id then fold_left apply_op ops (g_tags m) else g_tags m) rev) ms ms' /\
  ((forall m, In m ms -> (g_mod m <= rev)%N) -> forall m', In m' ms' -> (g_mod m' <= rev')%N).
Proof.
  induction ms as [|m ms IH]; intros rev rev' ms'; cbn [tag_messages].
  - intros [= <- <-]. split; [lia|]. split; [constructor|]. intros _ m' [].
  - destruct (g_mail m && bseq (g_id m) id && negb (bsl_eq (fold_left apply_op ops (g_tags m)) (g_tags m))) eqn:E.
    + destruct (tag_messages id ops (rev + 1)%N ms) as [r l] eqn:R. intros [= <- <-]. destruct (IH _ _ _ R) as (A & B & C). split; [lia|]. split.
      * constructor.
        -- apply andb_true_iff in E as (E & _). unfold retag. cbn. rewrite E. apply andb_true_iff in E as (E & _). repeat split; auto. right. lia.
        -- eapply Forall2_impl; [|exact B]. intros x y (X1 & X2 & X3 & [X4|X4]); repeat split; auto. right. lia.
      * intros H m' [<-|X]; [cbn; lia|]. apply C; [|exact X]. intros y Y. specialize (H y (or_intror Y)). lia.
    + destruct (tag_messages id ops rev ms) as [r l] eqn:R. intros [= <- <-]. destruct (IH _ _ _ R) as (A & B & C). split; [exact A|]. split.
      * constructor; [|exact B]. unfold retag. repeat split; auto. destruct (g_mail m && bseq (g_id m) id) eqn:Q; [|reflexivity].
        cbn in E. apply negb_false_iff, bsl_eq_eq in E. now rewrite E.
      * intros H m' [<-|X]; [specialize (H m (or_introl eq_refl)); lia|]. apply C; [|exact X]. intros y Y. apply H. now right.
Qed.

(** The effect of a list of (remove, id, tags) on the tags of a message. *)
Definition req := (bool * (bytes * list bytes))%type.
Definition req_line (q : req) : bytes := batch_line_of (act_of (fst q)) prefix (fst (snd q)) (snd (snd q)).
Definition req_ops (q : req) : list tagop := map (mkop (fst q) prefix) (snd (snd q)).
Definition req_ok (q : req) : Prop :=
  snd (snd q) <> [] /\ ~ In NL (fst (snd q)) /\ Forall (fun t => cstr (prefix ++ t) /\ legal_tag (prefix ++ t)) (snd (snd q)).
Definition after (qs : list req) (m : gmsg) : list bytes :=
  fold_left (fun ts q => if g_mail m && bseq (g_id m) (fst (snd q)) then fold_left apply_op (req_ops q) ts else ts) qs (g_tags m).

Lemma run_line_ok q db : req_ok q ->
  run_batch_line db (req_line q) =
  (let '(rev, ms) := tag_messages (fst (snd q)) (req_ops q) (g_rev db) (g_msgs db) in {| g_msgs := ms; g_rev := rev; g_uuid := g_uuid db |}).
Proof.
  destruct q as (rm & id & tags). intros (A & B & C). cbn [fst snd] in *. unfold run_batch_line, req_line, req_ops. cbn [fst snd].
  destruct (batch_line_parses rm prefix id tags A B C) as (q & -> & ->). reflexivity.
Qed.
Lemma Forall2_in_l {A B} (R : A -> B -> Prop) l l' x : Forall2 R l l' -> In x l -> exists y, In y l' /\ R x y.
Proof. induction 1 as [|a b l l' H F IH]; [intros []|]. intros [<-|X]; [exists b; split; [now left|exact H]|]. destruct (IH X) as (y & Y & Z). exists y. split; [now right|exact Z]. Qed.
Lemma Forall2_in_r {A B} (R : A -> B -> Prop) l l' y : Forall2 R l l' -> In y l' -> exists x, In x l /\ R x y.
Proof. induction 1 as [|a b l l' H F IH]; [intros []|]. intros [<-|X]; [exists a; split; [now left|exact H]|]. destruct (IH X) as (z & Y & Z). exists z. split; [now right|exact Z]. Qed.

Lemma run_batch_spec qs : Forall req_ok qs -> forall db,
  (forall m, In m (g_msgs db) -> (g_mod m <= g_rev db)%N) ->
  let db' := run_batch (map req_line qs) db in
  g_uuid db' = g_uuid db /\ (g_rev db <= g_rev db')%N /\ (forall m, In m (g_msgs db') -> (g_mod m <= g_rev db')%N) /\
  Forall2 (retag (after qs) (g_rev db)) (g_msgs db) (g_msgs db').
Proof.
  induction 1 as [|q qs Hq _ IH]; intros db Hm; cbn [map run_batch fold_left].
  - split; [reflexivity|]. split; [lia|]. split; [exact Hm|]. induction (g_msgs db) as [|m l IHl]; constructor; [|apply IHl; intros y Y; apply Hm; now right].
    unfold retag, after. cbn. auto.
  - rewrite run_line_ok by exact Hq. destruct (tag_messages (fst (snd q)) (req_ops q) (g_rev db) (g_msgs db)) as [rev ms] eqn:E.
    destruct (tag_messages_spec _ _ _ _ _ _ E) as (A & B & C). specialize (C Hm).
    destruct (IH {| g_msgs := ms; g_rev := rev; g_uuid := g_uuid db |} C) as (I1 & I2 & I3 & I4). unfold run_batch in *. cbn [g_uuid g_rev g_msgs] in *.
    split; [exact I1|]. split; [lia|]. split; [exact I3|]. clear - A B I4. revert B I4. generalize (g_msgs (fold_left run_batch_line (map req_line qs) {| g_msgs := ms; g_rev := rev; g_uuid := g_uuid db |})). intros l'' B.
    revert l''. induction B as [|m m1 l l1 H _ IHl]; intros l'' F; inversion F as [|? m2 ? l2 H2 F2]; subst; constructor; [|now apply IHl].
    destruct H as (H1 & H3 & H4 & H5), H2 as (K1 & K3 & K4 & K5). unfold retag. split; [congruence|]. split; [congruence|]. split.
    + rewrite K4. unfold after. cbn [fold_left]. rewrite H1, H3, H4. reflexivity.
    + destruct K5 as [->|K5]; [|right; lia]. exact H5.
Qed.

Lemma after_sorted qs m : tsorted (g_tags m) -> tsorted (after qs m).
Proof.
  unfold after. generalize (g_tags m). induction qs as [|q qs IH]; intros ts H; cbn [fold_left]; [exact H|]. apply IH.
  destruct (g_mail m && _); [now apply apply_sorted|exact H].
Qed.
(** removals of [a] followed by additions of [d]. *)
Definition reqs (s : gstatus) : list req := map (pair true) (dict_of (s_added s)) ++ map (pair false) (dict_of (s_deleted s)).
Lemma reqs_lines s : checkout_lines prefix s = map req_line (reqs s).
Proof. unfold checkout_lines, reqs. rewrite map_app, !map_map. reflexivity. Qed.
Definition carried (d : list (bytes * list bytes)) (id x : bytes) : Prop := exists ts t, In (id, ts) d /\ In t ts /\ x = prefix ++ t.
Lemma carried_dict l id x : carried (dict_of l) id x <-> exists t, In (id, t) l /\ x = prefix ++ t.
Proof.
  unfold carried. split.
  - intros (ts & t & A & B & ->). exists t. split; [|reflexivity]. apply dict_of_In. unfold pairs_of. apply in_flat_map. exists (id, ts). split; [exact A|]. cbn. now apply in_map.
  - intros (t & A & ->). apply (proj2 (dict_of_In _ _ _)) in A. unfold pairs_of in A. apply in_flat_map in A as ((i & ts) & A & B). cbn in B. apply in_map_iff in B as (u & [= <- <-] & B).
    exists ts, u. auto.
Qed.
Lemma after_phase rm d m ts x : tsorted ts -> g_mail m = true ->
  In x (fold_left (fun ts q => if g_mail m && bseq (g_id m) (fst (snd q)) then fold_left apply_op (req_ops q) ts else ts) (map (pair rm) d) ts) <->
  if rm then In x ts /\ ~ carried d (g_id m) x else In x ts \/ carried d (g_id m) x.
Proof.
  intros Hs Hm. rewrite Hm. cbn [andb]. revert ts Hs. induction d as [|(i & us) d IH]; intros ts Hs; cbn [map fold_left fst snd].
  - destruct rm; [split; [intros X; split; [exact X|intros (? & ? & [] & _)]|tauto]|split; [auto|intros [X|(? & ? & [] & _)]; exact X]].
  - assert (Q : carried ((i, us) :: d) (g_id m) x <-> (g_id m = i /\ exists t, In t us /\ x = prefix ++ t) \/ carried d (g_id m) x).
    { unfold carried. split.
      - intros (ts' & t & [[= -> ->]|A] & B); [left; split; [reflexivity|now exists t]|right; now exists ts', t].
      - intros [(-> & t & A)|(ts' & t & A & B)]; [exists us, t; split; [now left|exact A]|exists ts', t; split; [now right|exact B]]. }
    rewrite IH by (destruct (bseq (g_id m) i); [now apply apply_sorted|exact Hs]). unfold req_ops. cbn [fst snd].
    destruct (bseq_spec (g_id m) i) as [E|E].
    + destruct rm; rewrite Q, apply_ops_In by exact Hs; tauto.
    + destruct rm; rewrite Q; tauto.
Qed.
Lemma after_mail s m x : tsorted (g_tags m) -> g_mail m = true ->
  In x (after (reqs s) m) <->
  (In x (g_tags m) /\ ~ (exists t, In (g_id m, t) (s_added s) /\ x = prefix ++ t)) \/ (exists t, In (g_id m, t) (s_deleted s) /\ x = prefix ++ t).
Proof.
  intros Hs Hm. unfold after, reqs. rewrite fold_left_app. rewrite after_phase; [|clear - Hs|exact Hm].
  - rewrite after_phase by assumption. rewrite !carried_dict. reflexivity.
  - revert Hs. generalize (g_tags m). induction (map (pair true) (dict_of (s_added s))) as [|q l IH]; intros ts H; cbn [fold_left]; [exact H|].
    apply IH. destruct (g_mail m && _); [now apply apply_sorted|exact H].
Qed.
Lemma after_ghost qs m : g_mail m = false -> after qs m = g_tags m.
Proof. intros H. unfold after. rewrite H. cbn [andb]. induction qs as [|q qs IH]; [reflexivity|exact IH]. Qed.

Lemma checkout_done force r db r' db' : db_ok props db -> usable prefix db -> tags_legal prefix db -> tree_ok hash v prefix (r_head r) -> cache_valid hash v prefix r db ->
  checkout force r db = (r', db', C_done) ->
  r_head r' = r_head r /\ r_icache r' = r_icache r /\
  g_uuid db' = g_uuid db /\ (g_rev db <= g_rev db')%N /\ db_ok props db' /\ cache_valid hash v prefix r' db' /\
  Forall2 (fun m m' => g_id m' = g_id m /\ g_mail m' = g_mail m /\ (m' = m \/ (g_rev db < g_mod m')%N) /\
             (g_mail m = false -> g_tags m' = g_tags m) /\
             (g_mail m = true -> forall x, In x (g_tags m') <->
                (exists t, x = prefix ++ t /\ holds hash v (r_head r) (g_id m) t) \/ ((forall t, x <> prefix ++ t) /\ In x (g_tags m)))) (g_msgs db) (g_msgs db').
Proof.
  intros Hd Hu Hl Ht Hc. unfold NmGit.checkout. pose proof (status_cache r db Hd Hu Ht Hc) as Hc'.
  destruct (status_ok r db db Hd Hu Ht Hc) as (idx & s & E & Hs & Hx & (S1 & S2 & S3)). rewrite E in *. cbn [fst] in Hc'.
  destruct (negb force && _); [discriminate|]. intros [= <- <-]. cbn [r_head r_icache]. rewrite reqs_lines.
  assert (Rq : Forall req_ok (reqs s)).
  { unfold reqs. apply Forall_app.
    assert (G : forall rm l, (forall id t, In (id, t) l -> ~ In NL id /\ cstr (prefix ++ t) /\ legal_tag (prefix ++ t)) -> Forall req_ok (map (pair rm) (dict_of l))).
    { intros rm l H. apply Forall_forall. intros q X. apply in_map_iff in X as ((i & ts) & <- & X). destruct (dict_ids l) as (_ & F). rewrite Forall_forall in F. specialize (F _ X). cbn in F.
      assert (Y : forall t, In t ts -> In (i, t) l).
      { intros t T. apply dict_of_In. unfold pairs_of. apply in_flat_map. exists (i, ts). split; [exact X|]. cbn. now apply in_map. }
      unfold req_ok. cbn [fst snd]. split; [exact F|]. split; [destruct ts as [|t ts]; [congruence|apply (H i t), Y; now left]|].
      apply Forall_forall. intros t T. apply (H i t), Y, T. }
    assert (Nl : forall id, in_database db id -> ~ In NL id).
    { intros id (m & A & <-). destruct Hd as (_ & _ & Hd). destruct (Hd m A) as ((_ & X) & _). intros Y. now apply X in Y. }
    split; apply G; intros id t X.
    - apply S1 in X as (T & _). split; [apply Nl; destruct T as (m & A & _ & B & _); now exists m|]. split; [|now apply (Hl id t)].
      destruct T as (m & A & _ & _ & B). destruct Hd as (_ & _ & Hd). now destruct (Hd m A) as (_ & _ & _ & _ & _ & X & _); apply X.
    - apply S2 in X as (T & _ & K). split; [now apply Nl|]. apply holds_iff in T. destruct Ht as (_ & Ht). destruct (Ht _ T) as [Y|(i & u & P & _ & _ & C1 & _ & C2)].
      + exfalso. pose proof (path_tags hash v id t) as Z. rewrite Y in Z. discriminate Z.
      + apply path_for_iff in P; [|exact Hh]. apply tag_path_inj in P as [-> ->]; auto. }
  destruct Hd as (Hn & Hne & Hd).
  assert (Hmod : forall m, In m (g_msgs db) -> (g_mod m <= g_rev db)%N) by (intros m X; apply Hd in X; tauto).
  destruct (run_batch_spec (reqs s) Rq db Hmod) as (U & R & M & F).
  set (db' := run_batch (map req_line (reqs s)) db) in *.
  assert (Ids : map g_id (g_msgs db') = map g_id (g_msgs db)).
  { clear - F. induction F as [|m m' l l' (H & _) _ IH]; [reflexivity|]. cbn. congruence. }
  assert (Em : forall m, In m (g_msgs db) -> forall m', In m' (g_msgs db) -> g_id m = g_id m' -> m = m').
  { clear - Hn. induction (g_msgs db) as [|x l IH]; [intros ? []|]. cbn [map] in Hn. inversion Hn as [|? ? N1 N2]; subst.
    intros m [<-|A] m' [<-|B] E; auto; exfalso; apply N1; [rewrite E|rewrite <- E]; now apply in_map. }
  assert (Tg : forall m, In m (g_msgs db) -> g_mail m = true -> forall x, In x (after (reqs s) m) <->
     (exists t, x = prefix ++ t /\ holds hash v (r_head r) (g_id m) t) \/ ((forall t, x <> prefix ++ t) /\ In x (g_tags m))).
  { intros m A B x. rewrite after_mail; [|now apply Hd in A|exact B].
    assert (Tr : forall t, tracked prefix db (g_id m) t <-> In (prefix ++ t) (g_tags m)).
    { intros t. split; [|intros X; now exists m]. intros (m' & X1 & X2 & X3 & X4). now rewrite (Em m A m' X1 (eq_sym X3)). }
    split.
    - intros [(X & Y)|(t & X & ->)].
      + destruct (strip_prefix prefix x) as [t|] eqn:P.
        * apply strip_prefix_Some in P as ->. left. exists t. split; [reflexivity|]. destruct (in_dec (list_eq_dec ascii_dec) (tp (g_id m) t) (r_head r)) as [Z|Z]; [now apply holds_iff|].
          exfalso. apply Y. exists t. split; [|reflexivity]. apply S1. rewrite holds_iff. split; [now apply Tr|exact Z].
        * right. split; [|exact X]. intros t ->. rewrite strip_prefix_app in P. discriminate.
      + left. exists t. split; [reflexivity|]. now apply S2 in X.
    - intros [(t & -> & X)|(X & Y)].
      + destruct (in_dec (list_eq_dec ascii_dec) (prefix ++ t) (g_tags m)) as [Z|Z].
        * left. split; [exact Z|]. intros (u & W & Q). apply app_inv_head in Q as <-. apply S1 in W. tauto.
        * right. exists t. split; [|reflexivity]. apply S2. rewrite Tr. repeat split; auto. now exists m.
      + left. split; [exact Y|]. intros (t & _ & ->). now apply (X t). }
  split; [reflexivity|]. split; [reflexivity|]. split; [exact U|]. split; [exact R|].
  assert (D' : db_ok props db').
  { split; [now rewrite Ids|]. split; [congruence|]. intros m' X. destruct (Forall2_in_r _ _ _ _ F X) as (m & A & (B1 & B2 & B3 & _)).
    destruct (Hd m A) as (D1 & D2 & D3 & _ & D5 & D6 & D7). rewrite B1. split; [exact D1|]. split; [exact D2|]. split; [exact D3|]. split; [now apply M|].
    rewrite B3. split; [now apply after_sorted|]. split; [|exact D7]. intros t T. destruct (g_mail m) eqn:Gm; [|rewrite after_ghost in T by exact Gm; now apply D6].
    apply Tg in T; auto. destruct T as [(u & -> & Hu')|(_ & T)]; [|now apply D6]. apply holds_iff in Hu'. destruct Ht as (_ & Ht). destruct (Ht _ Hu') as [Y|(i & w & P & _ & _ & C1 & C2 & _)].
    - exfalso. pose proof (path_tags hash v (g_id m) u) as Z. rewrite Y in Z. discriminate Z.
    - apply path_for_iff in P; [|exact Hh]. apply tag_path_inj in P as [_ ->]; auto. }
  split; [exact D'|]. split.
  - apply cache_evolves with db; auto. split; [exact U|]. split.
    + intros m A B. destruct (Forall2_in_l _ _ _ _ F A) as (m' & X & (B1 & B2 & B3 & B4)). exists m'. repeat split; auto; congruence.
    + intros m' A B. destruct (Forall2_in_r _ _ _ _ F A) as (m & X & (B1 & B2 & B3 & [->|B4])); auto.
  - assert (G : forall L L', (forall m, In m L -> In m (g_msgs db)) -> Forall2 (retag (after (reqs s)) (g_rev db)) L L' ->
      Forall2 (fun m m' => g_id m' = g_id m /\ g_mail m' = g_mail m /\ (m' = m \/ (g_rev db < g_mod m')%N) /\
             (g_mail m = false -> g_tags m' = g_tags m) /\
             (g_mail m = true -> forall x, In x (g_tags m') <->
                (exists t, x = prefix ++ t /\ holds hash v (r_head r) (g_id m) t) \/ ((forall t, x <> prefix ++ t) /\ In x (g_tags m)))) L L').
    { intros L L' HL. induction 1 as [|m m' l l' (B1 & B2 & B3 & B4) _ IH]; constructor.
      - split; [exact B1|]. split; [exact B2|]. split; [exact B4|]. split.
        + intros K. rewrite B3. now apply after_ghost.
        + intros K x. rewrite B3. apply Tg; [apply HL; now left|exact K].
      - apply IH. intros y Y. apply HL. now right. }
    apply G; auto.
Qed.
End S.
