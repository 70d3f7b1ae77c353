(** Proofs about maildir flags (C15, C16). *)
From Verif Require Import Bytes Maildir MaildirSpec MaildirProofs.
From Coq Require Import Sorting.Sorted FinFun.
Local Open Scope nat_scope.
Local Notation lt_code := (fun a b : ascii => (code a < code b)%N).

Lemma scan_Some flags : forall last m n m' n', scan_flags flags last m n = Some (m', n') ->
  Forall (fun c => (code c < 128)%N /\ (last <= code c)%N /\ m (code c) = false) flags /\ StronglySorted lt_code flags /\
  (forall j, m' j = true <-> m j = true \/ exists c, In c flags /\ code c = j) /\ n' = (n + Z.of_nat (length flags))%Z.
Proof.
  induction flags as [|c flags IH]; intros last m n m' n'; cbn [scan_flags].
  - intros [= <- <-]. split; [constructor|]. split; [constructor|]. split; [|cbn; lia]. intros j. split; [auto|]. intros [X|(c & [] & _)]; exact X.
  - destruct (N.ltb_spec (code c) last) as [|L1]; [discriminate|]. destruct (N.ltb_spec 127 (code c)) as [|L2]; [discriminate|]. destruct (m (code c)) eqn:Em; [discriminate|].
    intros H. destruct (IH _ _ _ _ _ H) as (F & S & M & ->). rewrite Forall_forall in F. split; [|split; [|split]].
    + constructor; [split; [lia|auto]|]. rewrite Forall_forall. intros x Hx. destruct (F x Hx) as (F1 & F2 & F3). split; [exact F1|]. split; [lia|].
      unfold fset in F3. destruct (N.eqb (code x) (code c)); [discriminate|exact F3].
    + constructor; [exact S|]. rewrite Forall_forall. intros x Hx. destruct (F x Hx) as (F1 & F2 & F3). unfold fset in F3. destruct (N.eqb_spec (code x) (code c)); [discriminate|lia].
    + intros j. rewrite M. unfold fset. destruct (N.eqb_spec j (code c)) as [->|Hne].
      * split; [intros _; right; exists c; split; [now left|reflexivity]|auto].
      * split; [intros [X|(x & X1 & X2)]; [auto|right; exists x; split; [now right|exact X2]]|].
        intros [X|(x & [<-|X1] & X2)]; [auto|congruence|right; eauto].
    + cbn [length]. lia.
Qed.
Lemma scan_intro flags : forall last m n, StronglySorted lt_code flags ->
  Forall (fun c => (code c < 128)%N /\ (last <= code c)%N /\ m (code c) = false) flags -> exists r, scan_flags flags last m n = Some r.
Proof.
  induction flags as [|c flags IH]; intros last m n S F; cbn [scan_flags]; [eauto|].
  apply StronglySorted_inv in S as [S1 S2]. apply Forall_cons_iff in F as [(F1 & F2 & F3) F]. rewrite Forall_forall in *.
  destruct (N.ltb_spec (code c) last); [lia|]. destruct (N.ltb_spec 127 (code c)); [lia|]. rewrite F3.
  apply IH; [exact S1|]. rewrite Forall_forall. intros x Hx. destruct (F x Hx) as (G1 & G2 & G3). specialize (S2 x Hx). split; [exact G1|]. split; [lia|].
  unfold fset. destruct (N.eqb_spec (code x) (code c)); [lia|exact G3].
Qed.

Definition count (m : fmap) : nat := length (filter m (map N.of_nat (seq 0 128))).
Lemma codes_NoDup : NoDup (map N.of_nat (seq 0 128)).
Proof. apply Injective_map_NoDup; [intros a b; apply Nnat.Nat2N.inj|apply seq_NoDup]. Qed.
Lemma codes_In j : In j (map N.of_nat (seq 0 128)) <-> (j < 128)%N.
Proof.
  rewrite in_map_iff. split.
  - intros (x & <- & H). apply in_seq in H. lia.
  - intros H. exists (N.to_nat j). rewrite Nnat.N2Nat.id. split; [reflexivity|]. apply in_seq. lia.
Qed.
Lemma filter_fset_out (i : N) v m l : ~ In i l -> filter (fset i v m) l = filter m l.
Proof.
  induction l as [|x l IH]; intros H; cbn; [reflexivity|]. unfold fset at 1. destruct (N.eqb_spec x i) as [->|]; [exfalso; apply H; now left|].
  rewrite IH; [reflexivity|]. intros X. apply H. now right.
Qed.
Lemma count_set i m : (i < 128)%N -> m i = false -> count (fset i true m) = S (count m).
Proof.
  intros Hi Hm. unfold count. apply codes_In in Hi. pose proof codes_NoDup as Nd. revert Hi Nd. generalize (map N.of_nat (seq 0 128)).
  induction l as [|x l IH]; intros Hi Nd; [destruct Hi|]. apply NoDup_cons_iff in Nd as [Nx Nd]. cbn. unfold fset at 1. destruct (N.eqb_spec x i) as [->|Hne].
  - rewrite Hm. cbn. now rewrite filter_fset_out.
  - destruct Hi as [Hi|Hi]; [congruence|]. destruct (m x); cbn; rewrite (IH Hi Nd); reflexivity.
Qed.
Lemma count_clear i m : (i < 128)%N -> m i = true -> S (count (fset i false m)) = count m.
Proof.
  intros Hi Hm. unfold count. apply codes_In in Hi. pose proof codes_NoDup as Nd. revert Hi Nd. generalize (map N.of_nat (seq 0 128)).
  induction l as [|x l IH]; intros Hi Nd; [destruct Hi|]. apply NoDup_cons_iff in Nd as [Nx Nd]. cbn. unfold fset at 1. destruct (N.eqb_spec x i) as [->|Hne].
  - rewrite Hm. cbn. now rewrite filter_fset_out.
  - destruct Hi as [Hi|Hi]; [congruence|]. destruct (m x); cbn; rewrite <- (IH Hi Nd); reflexivity.
Qed.
Lemma count_none : count (fun _ => false) = 0.
Proof. reflexivity. Qed.

Definition ascii7 (flags : bytes) : Prop := Forall (fun c => (code c < 128)%N) flags.
Lemma set_flags_spec flags : forall m n ch m' n' ch', ascii7 flags -> set_flags flags m n ch = (m', n', ch') ->
  (forall j, m' j = true <-> m j = true \/ exists c, In c flags /\ code c = j) /\
  (n' - Z.of_nat (count m') = n - Z.of_nat (count m))%Z /\
  (ch' = true <-> ch = true \/ exists c, In c flags /\ m (code c) = false).
Proof.
  induction flags as [|c flags IH]; intros m n ch m' n' ch' Ha; cbn [set_flags].
  - intros [= <- <- <-]. split; [|split; [reflexivity|]].
    + intros j. split; [auto|]. intros [X|(c & [] & _)]; exact X.
    + split; [auto|]. intros [X|(c & [] & _)]; exact X.
  - apply Forall_cons_iff in Ha as [Hc Ha]. destruct (m (code c)) eqn:Em; intros H; destruct (IH _ _ _ _ _ _ Ha H) as (M & Nn & C).
    + split; [|split; [exact Nn|]].
      * intros j. rewrite M. split; [intros [X|(x & X1 & X2)]; [auto|right; exists x; split; [now right|exact X2]]|].
        intros [X|(x & [<-|X1] & X2)]; [auto|left; congruence|right; eauto].
      * rewrite C. split; [intros [X|(x & X1 & X2)]; [auto|right; exists x; split; [now right|exact X2]]|].
        intros [X|(x & [<-|X1] & X2)]; [auto|congruence|right; eauto].
    + split; [|split].
      * intros j. rewrite M. unfold fset. destruct (N.eqb_spec j (code c)) as [->|Hne].
        -- split; [intros _; right; exists c; split; [now left|reflexivity]|auto].
        -- split; [intros [X|(x & X1 & X2)]; [auto|right; exists x; split; [now right|exact X2]]|].
           intros [X|(x & [<-|X1] & X2)]; [auto|congruence|right; eauto].
      * rewrite (count_set (code c) m Hc Em) in Nn. lia.
      * rewrite C. split; [intros _; right; exists c; split; [now left|exact Em]|auto].
Qed.
Lemma clear_flags_spec flags : forall m n ch m' n' ch', ascii7 flags -> clear_flags flags m n ch = (m', n', ch') ->
  (forall j, m' j = true <-> m j = true /\ ~ exists c, In c flags /\ code c = j) /\
  (n' - Z.of_nat (count m') = n - Z.of_nat (count m))%Z /\
  (ch' = true <-> ch = true \/ exists c, In c flags /\ m (code c) = true).
Proof.
  induction flags as [|c flags IH]; intros m n ch m' n' ch' Ha; cbn [clear_flags].
  - intros [= <- <- <-]. split; [|split; [reflexivity|]].
    + intros j. split; [intros X; split; [exact X|]; intros (c & [] & _)|tauto].
    + split; [auto|]. intros [X|(c & [] & _)]; exact X.
  - apply Forall_cons_iff in Ha as [Hc Ha]. destruct (m (code c)) eqn:Em; intros H; destruct (IH _ _ _ _ _ _ Ha H) as (M & Nn & C).
    + split; [|split].
      * intros j. rewrite M. unfold fset. destruct (N.eqb_spec j (code c)) as [->|Hne].
        -- split; [intros [X _]; discriminate|]. intros [_ X]. exfalso. apply X. exists c. split; [now left|reflexivity].
        -- split; intros [X Y]; (split; [exact X|]).
           ++ intros (x & [<-|X1] & X2); [congruence|]. apply Y. eauto.
           ++ intros (x & X1 & X2). apply Y. exists x. split; [now right|exact X2].
      * pose proof (count_clear (code c) m Hc Em). lia.
      * rewrite C. split; [intros _; right; exists c; split; [now left|exact Em]|auto].
    + split; [|split; [exact Nn|]].
      * intros j. rewrite M. split; intros [X Y]; (split; [exact X|]).
        -- intros (x & [<-|X1] & X2); [congruence|]. apply Y. eauto.
        -- intros (x & X1 & X2). apply Y. exists x. split; [now right|exact X2].
      * rewrite C. split; [intros [X|(x & X1 & X2)]; [auto|right; exists x; split; [now right|exact X2]]|].
        intros [X|(x & [<-|X1] & X2)]; [auto|congruence|right; eauto].
Qed.

Lemma map_flags_In m c : In c (map_flags m) <-> (code c < 128)%N /\ m (code c) = true.
Proof.
  unfold map_flags. rewrite in_map_iff. split.
  - intros (j & <- & H). apply filter_In in H as [H1 H2]. apply codes_In in H1. rewrite code_chr by lia. auto.
  - intros [H1 H2]. exists (code c). rewrite chr_code. split; [reflexivity|]. apply filter_In. split; [now apply codes_In|exact H2].
Qed.
Lemma map_flags_length m : length (map_flags m) = count m.
Proof. unfold map_flags, count. apply map_length. Qed.
Lemma seq_sorted a n : StronglySorted N.lt (map N.of_nat (seq a n)).
Proof.
  revert a. induction n as [|n IH]; intros a; cbn; constructor; [apply IH|]. rewrite Forall_forall. intros x Hx. apply in_map_iff in Hx as (y & <- & Hy). apply in_seq in Hy. lia.
Qed.
Lemma filter_sorted {A} (R : A -> A -> Prop) p l : StronglySorted R l -> StronglySorted R (filter p l).
Proof.
  induction 1 as [|x l S IH F]; cbn; [constructor|]. destruct (p x); [|exact IH]. constructor; [exact IH|]. rewrite Forall_forall in *. intros y Hy. apply filter_In in Hy as [Hy _]. auto.
Qed.
Lemma map_flags_sorted m : StronglySorted lt_code (map_flags m).
Proof.
  unfold map_flags. assert (S : StronglySorted N.lt (filter m (map N.of_nat (seq 0 128)))) by apply filter_sorted, seq_sorted.
  assert (F : Forall (fun j => (j < 128)%N) (filter m (map N.of_nat (seq 0 128)))). { rewrite Forall_forall. intros j Hj. apply filter_In in Hj as [Hj _]. now apply codes_In. }
  revert S F. generalize (filter m (map N.of_nat (seq 0 128))). induction l as [|x l IH]; intros S F; cbn [map]; constructor.
  - apply IH; [now inversion S|now inversion F].
  - apply StronglySorted_inv in S as [_ S]. apply Forall_cons_iff in F as [Fx F]. rewrite Forall_forall in *. intros c Hc. apply in_map_iff in Hc as (y & <- & Hy).
    rewrite !code_chr; [now apply S|specialize (F y Hy); lia|lia].
Qed.
(** Strictly ordered lists with the same members are equal. *)
Lemma sorted_ext a : forall b, StronglySorted lt_code a -> StronglySorted lt_code b -> (forall c, In c a <-> In c b) -> a = b.
Proof.
  induction a as [|x a IH]; intros b Sa Sb H.
  - destruct b as [|y b]; [reflexivity|]. exfalso. apply (H y). now left.
  - destruct b as [|y b]; [exfalso; apply (H x); now left|].
    apply StronglySorted_inv in Sa as [Sa Fa]. apply StronglySorted_inv in Sb as [Sb Fb]. rewrite Forall_forall in *.
    assert (x = y).
    { destruct (proj1 (H x) (or_introl eq_refl)) as [E|E]; [congruence|]. destruct (proj2 (H y) (or_introl eq_refl)) as [E'|E']; [congruence|].
      specialize (Fa y E'). specialize (Fb x E). lia. }
    subst y. f_equal. apply IH; [exact Sa|exact Sb|]. intros c. split; intros Hc.
    + destruct (proj1 (H c) (or_intror Hc)) as [<-|X]; [|exact X]. specialize (Fa x Hc). lia.
    + destruct (proj2 (H c) (or_intror Hc)) as [<-|X]; [|exact X]. specialize (Fb x Hc). lia.
Qed.

(** What the flag computation does, for a name with flags [flags]. *)
Definition new_flags (flags to_set to_clear : bytes) (f' : bytes) : Prop :=
  StronglySorted lt_code f' /\ ascii7 f' /\ forall c, In c f' <-> (In c flags \/ In c to_set) /\ ~ In c to_clear.

Lemma firstn_pre {A} (a b : list A) : firstn (length a) (a ++ b) = a.
Proof. rewrite firstn_app, Nat.sub_diag, firstn_all. cbn. apply app_nil_r. Qed.
Lemma skipn_pre {A} (a b : list A) n : skipn (length a + n) (a ++ b) = skipn n b.
Proof. rewrite skipn_app. replace (length a + n - length a) with n by lia. rewrite skipn_all2 by lia. reflexivity. Qed.
Lemma good_ascii flags : good_flags flags -> ascii7 flags.
Proof. intros [_ F]. unfold ascii7. rewrite Forall_forall in *. intros c Hc. specialize (F c Hc). lia. Qed.
Lemma good_scan flags : good_flags flags -> exists m, scan_flags flags 0 (fun _ => false) 0 = Some (m, Z.of_nat (length flags)) /\
  (forall j, m j = true <-> exists c, In c flags /\ code c = j).
Proof.
  intros [S F]. destruct (scan_intro flags 0 (fun _ => false) 0%Z S) as ([m n] & E).
  - rewrite Forall_forall in *. intros c Hc. specialize (F c Hc). repeat split; lia.
  - destruct (scan_Some _ _ _ _ _ _ E) as (_ & _ & M & ->). exists m. split; [exact E|]. intros j. rewrite M. split; [intros [X|X]; [discriminate|exact X]|auto].
Qed.
Lemma code_ex c flags : (exists x, In x flags /\ code x = code c) <-> In c flags.
Proof. split; [intros (x & H & E); now rewrite <- (code_inj _ _ E)|eauto]. Qed.

Lemma new_name_spec root sub unique info to_set to_clear :
  maildir_name root sub unique info -> good_flags (flags_of info) -> ascii7 to_set -> ascii7 to_clear -> ~ In SLASH to_set ->
  exists f', new_flags (flags_of info) to_set to_clear f' /\
  new_maildir_filename (maildir_path root sub unique info) to_set to_clear =
    Some (match info with
          | None => if bseq sub (lit "new") then match to_set with [] => maildir_path root sub unique info | _ => maildir_path root (lit "cur") unique (Some f') end
                    else maildir_path root (lit "cur") unique (Some f')
          | Some _ => maildir_path root (lit "cur") unique (Some f')
          end).
Proof.
  intros Hn Hg Hs Hc Hsl. pose proof Hn as (H1 & H2 & H3 & H4 & H5).
  unfold new_maildir_filename, new_maildir_filename_buf. change (lit ":2,") with INFO. rewrite (strstr_path _ _ _ _ Hn).
  destruct (path_in_maildir _ _ _ _ Hn) as (P1 & P2).
  set (info_pos := match match info with Some _ => Some (length (pre root sub unique)) | None => None end with Some i => i | None => length (maildir_path root sub unique info) end).
  assert (Ei : info_pos = length (pre root sub unique)).
  { unfold info_pos. destruct info; [reflexivity|]. rewrite path_eq, app_nil_r. reflexivity. }
  destruct (good_scan (flags_of info) Hg) as (m0 & E0 & M0).
  assert (Escan : match match info with Some _ => Some (length (pre root sub unique)) | None => None end with
                  | Some i => scan_flags (skipn (i + 3) (maildir_path root sub unique info)) 0 (fun _ => false) 0
                  | None => Some (fun _ => false, 0%Z) end = Some (m0, Z.of_nat (length (flags_of info)))
                 \/ info = None).
  { destruct info as [f|]; [left|auto]. rewrite path_eq, skipn_pre. exact E0. }
  assert (Escan2 : exists m, match match info with Some _ => Some (length (pre root sub unique)) | None => None end with
                  | Some i => scan_flags (skipn (i + 3) (maildir_path root sub unique info)) 0 (fun _ => false) 0
                  | None => Some (fun _ => false, 0%Z) end = Some (m, Z.of_nat (length (flags_of info))) /\ (forall j, m j = true <-> exists c, In c (flags_of info) /\ code c = j)).
  { destruct Escan as [Q|Q]; [exists m0; auto|]. subst info. exists (fun _ => false). split; [reflexivity|]. intros j. split; [discriminate|]. intros (c & [] & _). }
  clear E0 M0 Escan m0. destruct Escan2 as (m0 & E0 & M0). rewrite E0. clear E0.
  destruct (set_flags to_set m0 (Z.of_nat (length (flags_of info))) false) as [[m1 n1] ch1] eqn:E1.
  destruct (clear_flags to_clear m1 n1 ch1) as [[m2 n2] ch2] eqn:E2.
  destruct (set_flags_spec _ _ _ _ _ _ _ Hs E1) as (M1 & _ & C1). destruct (clear_flags_spec _ _ _ _ _ _ _ Hc E2) as (M2 & _ & C2).
  exists (map_flags m2). split.
  { split; [apply map_flags_sorted|]. split; [unfold ascii7; rewrite Forall_forall; intros c Q; now apply map_flags_In in Q|].
    intros c. rewrite map_flags_In, M2, M1, M0. rewrite !code_ex. split; [tauto|]. intros [Q1 Q2]. split; [|tauto].
    destruct Q1 as [Q1|Q1]; [apply good_ascii in Hg|]; unfold ascii7 in *; rewrite Forall_forall in *; auto. }
  rewrite P1, P2, Ei.
  assert (Efn : firstn (length (pre root sub unique)) (maildir_path root sub unique info) = pre root sub unique) by (rewrite path_eq; apply firstn_pre).
  rewrite Efn.
  assert (Hn2 : maildir_name root sub unique (Some (map_flags m2))).
  { repeat (split; [assumption|]). intros X. apply map_flags_In in X as [_ X]. apply M2 in X as [X _]. apply M1 in X.
    rewrite M0 in X. assert (In SLASH (flags_of info) \/ In SLASH to_set) as [Y|Y] by (destruct X as [X|X]; rewrite code_ex in X; auto).
    - destruct info; [now apply H5|destruct Y].
    - contradiction. }
  assert (Enew : pre root sub unique ++ INFO ++ map_flags m2 = maildir_path root sub unique (Some (map_flags m2))) by (rewrite path_eq; reflexivity).
  rewrite Enew. destruct (path_in_maildir _ _ _ _ Hn2) as (P3 & P4). rewrite P3, P4.
  assert (Elen : Nat.eqb (length (pre root sub unique)) (length (maildir_path root sub unique info)) = match info with Some _ => false | None => true end).
  { rewrite path_eq, app_length. destruct info as [f|]; cbn.
    - apply Nat.eqb_neq. lia.
    - rewrite Nat.add_0_r. apply Nat.eqb_refl. }
  rewrite Elen.
  assert (Ech : info = None -> ch2 = match to_set with [] => false | _ => true end).
  { intros ->. destruct to_set as [|c0 ts].
    - cbn in E1. injection E1 as <- <- <-. destruct ch2; [|reflexivity]. destruct (proj1 C2 eq_refl) as [X|(c & X1 & X2)]; [discriminate|].
      apply M0 in X2 as (x & [] & _).
    - apply C2. left. apply C1. right. exists c0. split; [now left|]. destruct (m0 (code c0)) eqn:Q; [|reflexivity]. apply M0 in Q as (x & [] & _). }
  assert (Emove : starts_with (lit "new/") (sub ++ lit "/" ++ unique ++ INFO ++ map_flags m2) = bseq sub (lit "new")).
  { destruct H2 as [->| ->]; reflexivity. }
  assert (Emove' : starts_with (lit "new/") (sub ++ lit "/" ++ unique ++ match info with Some flags => INFO ++ flags | None => [] end) = bseq sub (lit "new")).
  { destruct H2 as [->| ->]; reflexivity. }
  change (lit ":2,") with INFO. rewrite Emove, Emove'.
  assert (Ecur : (if bseq sub (lit "new") then firstn (S (length root)) (maildir_path root sub unique (Some (map_flags m2))) ++ lit "cur/" ++ skipn (S (length root) + 4) (maildir_path root sub unique (Some (map_flags m2)))
     else maildir_path root sub unique (Some (map_flags m2))) = maildir_path root (lit "cur") unique (Some (map_flags m2))).
  { destruct H2 as [->| ->]; cbn [bseq]; [reflexivity|]. change (bseq (lit "new") (lit "new")) with true. cbn iota.
    generalize (map_flags m2). intros F. unfold maildir_path.
    assert (Q : root ++ lit "/" ++ lit "new" ++ lit "/" ++ unique ++ lit ":2," ++ F = (root ++ lit "/") ++ lit "new/" ++ unique ++ lit ":2," ++ F) by (rewrite <- app_assoc; reflexivity).
    rewrite Q. replace (S (length root)) with (length (root ++ lit "/")) by (rewrite app_length; cbn; lia). rewrite firstn_pre, skipn_pre. rewrite <- app_assoc. reflexivity. }
  rewrite Ecur. destruct info as [f|]; cbn [andb].
  - rewrite andb_false_r. reflexivity.
  - rewrite (Ech eq_refl), andb_true_r. destruct (bseq sub (lit "new")); cbn [andb]; [|reflexivity]. destruct to_set; reflexivity.
Qed.

(** Names that are not renamed. *)
Lemma bad_flags_null root sub unique flags to_set to_clear : maildir_name root sub unique (Some flags) -> cstr flags -> ~ good_flags flags ->
  new_maildir_filename (maildir_path root sub unique (Some flags)) to_set to_clear = None.
Proof.
  intros Hn Hz Hb. unfold new_maildir_filename, new_maildir_filename_buf. change (lit ":2,") with INFO. rewrite (strstr_path _ _ _ _ Hn).
  rewrite path_eq, skipn_pre. change (skipn 3 (INFO ++ flags)) with flags. destruct (scan_flags flags 0 _ 0) as [[m n]|] eqn:E; [|reflexivity].
  exfalso. apply Hb. destruct (scan_Some _ _ _ _ _ _ E) as (F & S & _). split; [exact S|]. rewrite Forall_forall in *. intros c Hc. destruct (F c Hc) as (F1 & _).
  split; [|exact F1]. pose proof (cstr_In flags c Hz Hc). destruct (N.eq_dec (code c) 0) as [Q|Q]; [|lia]. exfalso. apply H. apply code_inj. rewrite Q. reflexivity.
Qed.
Lemma sorted_app_r {A} (R : A -> A -> Prop) a b : StronglySorted R (a ++ b) -> StronglySorted R b.
Proof. induction a; cbn; [auto|]. intros H. apply StronglySorted_inv in H as [H _]. auto. Qed.
Lemma dir_info_null f i root sub base to_set to_clear : f = root ++ lit "/" ++ sub ++ lit "/" ++ base -> (sub = lit "cur" \/ sub = lit "new") ->
  occurs INFO root -> filename_is_in_maildir f = Some i -> new_maildir_filename f to_set to_clear = None.
Proof.
  intros -> Hs Ho _. unfold new_maildir_filename, new_maildir_filename_buf. change (lit ":2,") with INFO.
  destruct (strstr INFO root) as [p|] eqn:E; [|apply strstr_None in E; contradiction].
  assert (Q : forall r, strstr INFO (root ++ r) = Some p).
  { clear Ho. revert p E. induction root as [|c root IH]; intros p E r; [discriminate|].
    change (strstr INFO (c :: root)) with (if starts_with INFO (c :: root) then Some 0 else match strstr INFO root with Some i => Some (S i) | None => None end) in E.
    change (strstr INFO ((c :: root) ++ r)) with (if starts_with INFO ((c :: root) ++ r) then Some 0 else match strstr INFO (root ++ r) with Some i => Some (S i) | None => None end).
    destruct (starts_with INFO (c :: root)) eqn:S1.
    - apply starts_with_app in S1 as (x & S1). rewrite S1, <- app_assoc. rewrite (proj2 (starts_with_app INFO _)); eauto.
    - destruct (strstr INFO root) as [q|] eqn:E2; [|discriminate]. rewrite (IH q eq_refl r).
      destruct (starts_with INFO ((c :: root) ++ r)) eqn:S2; [|exact E]. exfalso.
      (* INFO begins at the head but does not fit into c :: root, although it occurs in root *)
      apply starts_with_app in S2 as (x & S2). unfold INFO in S2. cbn in S2. injection S2 as -> S2.
      apply strstr_Some in E2 as (a & b & -> & _ & _). destruct a as [|a0 a]; cbn in S2; [discriminate|]. injection S2 as -> S2.
      destruct a as [|a1 a]; cbn in S2; [discriminate|]. injection S2 as -> S2.
      assert (starts_with INFO (":"%char :: ("2"%char :: ","%char :: a) ++ INFO ++ b) = true) by (apply starts_with_app; exists (a ++ INFO ++ b); reflexivity). congruence. }
  rewrite Q. destruct (scan_flags _ 0 _ 0) as [[m n]|] eqn:E2; [|reflexivity]. exfalso.
  destruct (scan_Some _ _ _ _ _ _ E2) as (_ & S & _).
  apply strstr_Some in E as (a & b & -> & L & _). rewrite <- L in S. rewrite <- app_assoc in S. rewrite skipn_pre in S.
  rewrite <- app_assoc in S. change (skipn 3 (INFO ++ ?x)) with x in S. apply sorted_app_r in S.
  apply StronglySorted_inv in S as [S _]. destruct Hs as [->| ->]; cbn in S.
  - apply StronglySorted_inv in S as [S _]. apply StronglySorted_inv in S as [_ S]. apply Forall_cons_iff in S as [S _]. vm_compute in S. discriminate.
  - apply StronglySorted_inv in S as [_ S]. apply Forall_cons_iff in S as [S _]. vm_compute in S. discriminate.
Qed.

(** The allocated size is exactly the length written. *)
Lemma buffer_exact f to_set to_clear name size : ascii7 to_set -> ascii7 to_clear ->
  new_maildir_filename_buf f to_set to_clear = NM_new name size -> size = (Z.of_nat (length name) + 1)%Z.
Proof.
  intros Hs Hc. unfold new_maildir_filename_buf. change (lit ":2,") with INFO.
  set (scan := match strstr INFO f with Some i => _ | None => _ end). set (info := match strstr INFO f with Some i => i | None => length f end).
  assert (Hscan : forall m n, scan = Some (m, n) -> n = Z.of_nat (count m)).
  { intros m n E. unfold scan in E. destruct (strstr INFO f) as [i|]; [|injection E as <- <-; reflexivity].
    assert (G : forall flags last m0 n0, n0 = Z.of_nat (count m0) -> scan_flags flags last m0 n0 = Some (m, n) -> n = Z.of_nat (count m)).
    { clear E. induction flags as [|c flags IH]; intros last m0 n0 E0; cbn [scan_flags]; [intros [= <- <-]; exact E0|].
      destruct (N.ltb (code c) last); [discriminate|]. destruct (N.ltb_spec 127 (code c)); [discriminate|]. destruct (m0 (code c)) eqn:Q; [discriminate|].
      apply IH. rewrite count_set; [lia|lia|exact Q]. }
    apply (G _ _ _ _ (eq_refl : 0%Z = Z.of_nat (count (fun _ => false))) E). }
  assert (Hinfo : length (firstn info f) = info).
  { apply firstn_length_le. unfold info. destruct (strstr INFO f) as [i|] eqn:E; [|lia]. apply strstr_Some in E as (a & b & -> & <- & _). rewrite app_length. lia. }
  destruct scan as [[m0 n0]|]; [|discriminate]. specialize (Hscan m0 n0 eq_refl).
  destruct (set_flags to_set m0 n0 false) as [[m1 n1] ch1] eqn:E1. destruct (clear_flags to_clear m1 n1 ch1) as [[m2 n2] ch2] eqn:E2.
  destruct (set_flags_spec _ _ _ _ _ _ _ Hs E1) as (_ & N1 & _). destruct (clear_flags_spec _ _ _ _ _ _ _ Hc E2) as (_ & N2 & _).
  destruct (_ && _ && _); [discriminate|]. intros E. assert (Es := f_equal (fun x => match x with NM_new _ z => z | _ => 0%Z end) E). assert (En := f_equal (fun x => match x with NM_new n _ => n | _ => [] end) E). cbn beta iota in Es, En. clear E. subst name size.
  assert (L : length (firstn info f ++ INFO ++ map_flags m2) = info + 3 + count m2).
  { rewrite !app_length, Hinfo, map_flags_length. change (length INFO) with 3. lia. }
  set (fn := firstn info f ++ INFO ++ map_flags m2) in *.
  assert (G : length (match filename_is_in_maildir fn with Some dir => if starts_with (lit "new/") (skipn dir fn) then firstn dir fn ++ lit "cur/" ++ skipn (dir + 4) fn else fn | None => fn end) = length fn).
  { destruct (filename_is_in_maildir fn) as [dir|] eqn:D; [|reflexivity]. destruct (starts_with _ _); [|reflexivity].
    apply in_maildir_elim in D as (root & sub & base & E & Hsub & _ & ->). assert (Ls : length sub = 3) by (destruct Hsub as [->| ->]; reflexivity).
    assert (Lf : length fn = length root + 1 + 3 + 1 + length base) by (rewrite E, !app_length, Ls; cbn; lia).
    rewrite !app_length, firstn_length, skipn_length, Lf. cbn [length lit list_ascii_of_string]. lia. }
  rewrite G, L. lia.
Qed.

(** A name determines its parts. *)
Lemma path_inj root sub unique info root' sub' unique' info' : maildir_name root sub unique info -> maildir_name root' sub' unique' info' ->
  maildir_path root sub unique info = maildir_path root' sub' unique' info' -> root = root' /\ sub = sub' /\ unique = unique' /\ info = info'.
Proof.
  intros H H' E. destruct (path_in_maildir _ _ _ _ H) as (P1 & P2). destruct (path_in_maildir _ _ _ _ H') as (P1' & P2').
  rewrite E, P1' in P1. injection P1 as L. pose proof (strstr_path _ _ _ _ H) as S. pose proof (strstr_path _ _ _ _ H') as S'. rewrite E, S' in S.
  assert (Ls : length sub = 3) by (destruct H as (_ & [->| ->] & _); reflexivity). assert (Ls' : length sub' = 3) by (destruct H' as (_ & [->| ->] & _); reflexivity).
  assert (Lu : length unique = length unique').
  { unfold pre in S. rewrite !app_length, Ls, Ls', L in S. destruct info, info'; try discriminate; [injection S as S; lia|].
    apply (f_equal (@length ascii)) in E. unfold maildir_path in E. rewrite !app_length, Ls, Ls', L in E. cbn in E. lia. }
  unfold maildir_path in E. assert (G : forall (a b c d : bytes), length a = length c -> a ++ b = c ++ d -> a = c /\ b = d).
  { induction a as [|x a IH]; intros b c d Hl He; destruct c as [|y c]; try discriminate; [auto|]. cbn in *. injection He as -> He. destruct (IH b c d ltac:(lia) He) as [-> ->]. auto. }
  destruct (G _ _ _ _ (eq_sym L) E) as [-> E1]. apply (G (lit "/") _ (lit "/") _ eq_refl) in E1 as [_ E1].
  destruct (G sub _ sub' _ ltac:(congruence) E1) as [-> E2]. apply (G (lit "/") _ (lit "/") _ eq_refl) in E2 as [_ E2].
  destruct (G unique _ unique' _ Lu E2) as [-> E3]. repeat (split; [reflexivity|]).
  destruct info, info'; cbn in E3; try discriminate; [injection E3 as ->; reflexivity|reflexivity].
Qed.
