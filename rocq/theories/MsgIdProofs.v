From Verif Require Import Bytes StrUtil MsgId MsgIdSpec.
Local Open Scope nat_scope.

Lemma skip_comment_text a : comment_text a -> forall n r, skip_sc (S n) (a ++ r) = skip_sc (S n) r.
Proof.
  induction 1 as [|c s H1 H2 H3 H IH|c s H IH|a s Ha IHa Hs IHs]; intros n r.
  - reflexivity.
  - cbn. destruct (beq_spec c "("%char); [congruence|]. destruct (beq_spec c ")"%char); [congruence|].
    destruct (beq_spec c "\"%char); [congruence|]. apply IH.
  - cbn. apply IH.
  - cbn. rewrite <- app_assoc. rewrite IHa. cbn. apply IHs.
Qed.
Lemma skip_cfws w : cfws w -> forall r, skip_space_and_comments (w ++ r) = skip_space_and_comments r.
Proof.
  unfold skip_space_and_comments. induction 1 as [|c s Hc H IH|a s Ha H IH]; intros r.
  - reflexivity.
  - cbn. rewrite Hc. apply IH.
  - cbn. rewrite <- app_assoc. rewrite skip_comment_text by exact Ha. cbn. apply IH.
Qed.
Definition starts_plain (s : bytes) : Prop := match s with [] => True | c :: _ => isspace c = false /\ c <> "("%char end.
Lemma skip_plain s : starts_plain s -> skip_space_and_comments s = s.
Proof.
  destruct s as [|c s]; [reflexivity|]. intros [H1 H2]. unfold skip_space_and_comments. cbn. rewrite H1.
  destruct (beq_spec c "("%char); [congruence|reflexivity].
Qed.
Lemma skip_sc_suffix s : forall n, exists p, s = p ++ skip_sc n s.
Proof.
  induction s as [s IH] using length_ind. intros n. destruct s as [|c s]; [exists []; destruct n; reflexivity|].
  assert (L : forall m, exists p, c :: s = p ++ skip_sc m s).
  { intros m. destruct (IH s ltac:(cbn; lia) m) as (p & E). exists (c :: p). cbn. now rewrite <- E. }
  destruct n as [|n]; cbn.
  - destruct (isspace c); [apply L|]. destruct (beq c "("%char); [apply L|]. now exists [].
  - destruct (beq c "("%char); [apply L|]. destruct (beq c ")"%char); [apply L|]. destruct (beq c "\"%char); [|apply L].
    destruct s as [|d s]; [exists [c]; reflexivity|]. destruct (IH s ltac:(cbn; lia) (S n)) as (p & E). exists (c :: d :: p). cbn. now rewrite <- E.
Qed.
Lemma skip_sc_plain s : forall n, starts_plain (skip_sc n s).
Proof.
  induction s as [s IH] using length_ind. intros n. destruct s as [|c s]; [exact I|].
  assert (L : forall m, starts_plain (skip_sc m s)) by (intros m; apply IH; cbn; lia).
  destruct n as [|n]; cbn.
  - destruct (isspace c) eqn:E; [apply L|]. destruct (beq_spec c "("%char); [apply L|]. split; assumption.
  - destruct (beq c "("%char); [apply L|]. destruct (beq c ")"%char); [apply L|]. destruct (beq c "\"%char); [|apply L].
    destruct s as [|d s]; [exact I|]. apply IH. cbn. lia.
Qed.

Lemma collapse_noblank s : ~ In " "%char s -> ~ In (ascii_of_N 9) s -> collapse s = s.
Proof.
  induction s as [|c s IH]; intros H1 H2; [reflexivity|]. cbn. unfold blank.
  destruct (beq_spec c " "%char) as [->|_]; [exfalso; apply H1; now left|].
  destruct (beq_spec c (chr 9)) as [->|_]; [exfalso; apply H2; now left|]. cbn. f_equal. apply IH; cbn in *; tauto.
Qed.
Lemma collapse_nonempty c s : blank c = false -> collapse (c :: s) <> [].
Proof. intros H. cbn. rewrite H. discriminate. Qed.
Lemma isspace_blank c : isspace c = false -> blank c = false.
Proof.
  intros H. unfold blank. destruct (beq_spec c " "%char) as [->|_]; [discriminate|].
  destruct (beq_spec c (chr 9)) as [->|_]; [discriminate|reflexivity].
Qed.
Lemma collapse_incl s : forall c, In c (collapse s) -> In c s.
Proof.
  induction s as [s IH] using length_ind. destruct s as [|a s]; [auto|]. cbn. intros c. destruct (blank a).
  - destruct s as [|b s]; [intros []|]. cbn. intros [->|H]; [auto|]. right. right. apply IH; [cbn; lia|exact H].
  - cbn. intros [->|H]; [auto|]. right. apply IH; [cbn; lia|exact H].
Qed.

(** Progress, non-emptiness and shape, for every input. *)
Lemma message_id_parse_spec s : s <> [] -> exists r next, message_id_parse s = (r, Some next) /\ length next < length s /\
  (forall id, r = Some id -> id <> [] /\ ~ In ">"%char id /\ starts_plain id /\ forall c, In c id -> In c s).
Proof.
  intros Hs. unfold message_id_parse. destruct s as [|c0 s0] eqn:Es; [congruence|]. rewrite <- Es in *. clear Hs.
  assert (Hlen : 0 < length s) by (rewrite Es; cbn; lia). clear Es c0 s0.
  unfold skip_space_and_comments. destruct (skip_sc_suffix s 0) as (p & Ep).
  set (a := skip_sc 0 s) in *. pose proof (take_drop (fun c => negb (beq c "<"%char)) a) as Td.
  destruct (dropwhile (fun c => negb (beq c "<"%char)) a) as [|lt b] eqn:Ed.
  - exists None, []. split; [reflexivity|]. split; [exact Hlen|]. discriminate.
  - destruct (skip_sc_suffix b 0) as (q & Eq). pose proof (skip_sc_plain b 0) as Hpl. set (d := skip_sc 0 b) in *.
    assert (Ld : length d < length s).
    { rewrite Ep, <- Td, Eq, !app_length. cbn [length]. rewrite app_length. lia. }
    assert (Id : forall c, In c d -> In c s).
    { intros c Hc. rewrite Ep, <- Td, Eq. apply in_or_app. right. apply in_or_app. right. right. apply in_or_app. now right. }
    rewrite span_eq. pose proof (take_drop (fun c => negb (beq c ">"%char)) d) as Te.
    pose proof (takewhile_all (fun c => negb (beq c ">"%char)) d) as Ta.
    set (body := takewhile _ d) in *. destruct (dropwhile (fun c => negb (beq c ">"%char)) d) as [|gt nx].
    + eexists. exists []. split; [reflexivity|]. split; [exact Hlen|]. rewrite app_nil_r in Te.
      intros id Hid. rewrite Te in Hid, Ta. clear Te. destruct d as [|x d']; [discriminate|]. assert (Hid2 : id = collapse (x :: d')) by congruence. subst id. clear Hid. destruct Hpl as [P1 P2].
      assert (Hb : blank x = false) by now apply isspace_blank.
      split; [now apply collapse_nonempty|]. split.
      * intros H. apply collapse_incl in H. rewrite forallb_forall in Ta. apply Ta in H. now rewrite beq_refl in H.
      * split; [cbn; rewrite Hb; split; assumption|]. intros c Hc. apply Id, collapse_incl. exact Hc.
    + exists (match body with [] | [_] => None | _ => Some (collapse body) end), nx. split; [reflexivity|].
      split; [apply (f_equal (@length _)) in Te; rewrite app_length in Te; cbn in Te; lia|].
      intros id Hid. destruct body as [|x [|y body']] eqn:Eb; [discriminate|discriminate|]. assert (Hid2 : id = collapse (x :: y :: body')) by congruence. subst id. clear Hid.
      assert (E0 : exists d', d = x :: d') by (eexists; rewrite <- Te; reflexivity). destruct E0 as (d' & E0).
      rewrite E0 in Hpl. destruct Hpl as [P1 P2]. assert (Hb : blank x = false) by now apply isspace_blank.
      split; [now apply collapse_nonempty|]. split.
      * intros H. apply collapse_incl in H. rewrite forallb_forall in Ta. apply Ta in H. now rewrite beq_refl in H.
      * split; [cbn; rewrite Hb; split; assumption|]. intros c Hc. apply Id. rewrite <- Te. apply in_or_app. left. now apply collapse_incl.
Qed.

Lemma dropwhile_not_lt t r : ~ In "<"%char t -> dropwhile (fun c => negb (beq c "<"%char)) (t ++ "<"%char :: r) = "<"%char :: r.
Proof.
  induction t as [|c t IH]; intros H; [reflexivity|]. cbn. destruct (beq_spec c "<"%char) as [->|_]; [exfalso; apply H; now left|].
  cbn. apply IH. intros X. apply H. now right.
Qed.
Lemma span_not_gt t r : ~ In ">"%char t -> span (fun c => negb (beq c ">"%char)) (t ++ ">"%char :: r) = (t, ">"%char :: r).
Proof.
  induction t as [|c t IH]; intros H; [reflexivity|]. cbn. destruct (beq_spec c ">"%char) as [->|_]; [exfalso; apply H; now left|].
  cbn. rewrite IH; [reflexivity|]. intros X. apply H. now right.
Qed.
Lemma parse_one w t w' id rest : cfws w -> free_text t -> cfws w' -> regular_id id ->
  message_id_parse (w ++ t ++ "<"%char :: w' ++ id ++ ">"%char :: rest) = (Some id, Some rest).
Proof.
  intros Hw [Ht1 Ht2] Hw' (L & Hgt & Hsp & Htab & Hst). unfold message_id_parse.
  destruct (w ++ t ++ _) as [|c0 s0] eqn:E.
  { exfalso. apply app_eq_nil in E as [_ E]. apply app_eq_nil in E as [_ E]. discriminate. }
  rewrite <- E. rewrite skip_cfws by exact Hw. rewrite skip_plain.
  2:{ destruct t as [|c t]; [split; [reflexivity|discriminate]|exact Ht2]. }
  rewrite dropwhile_not_lt by exact Ht1. rewrite skip_cfws by exact Hw'. rewrite skip_plain.
  2:{ destruct id as [|c id]; [cbn in L; lia|exact Hst]. }
  rewrite span_not_gt by exact Hgt. destruct id as [|x [|y id]]; [cbn in L; lia|cbn in L; lia|].
  now rewrite collapse_noblank.
Qed.
Lemma parse_none w t : cfws w -> free_text t -> w ++ t <> [] -> message_id_parse (w ++ t) = (None, Some []).
Proof.
  intros Hw [Ht1 Ht2] Hne. unfold message_id_parse. destruct (w ++ t) as [|c0 s0] eqn:E; [congruence|]. rewrite <- E.
  rewrite skip_cfws by exact Hw. rewrite skip_plain by exact Ht2.
  rewrite dropwhile_forall; [reflexivity|]. apply forallb_forall. intros c Hc. destruct (beq_spec c "<"%char) as [->|]; [contradiction|reflexivity].
Qed.

(** The hash table. *)
Definition hadd (self : bytes) (hash : list bytes) (id : bytes) : list bytes :=
  if bseq id self then hash else if existsb (bseq id) hash then hash else hash ++ [id].
Lemma existsb_bseq x l : existsb (bseq x) l = true <-> In x l.
Proof.
  rewrite existsb_exists. split; [intros (y & H1 & H2); apply bseq_eq in H2; now subst|]. intros H. exists x. split; [exact H|apply bseq_refl].
Qed.
Lemma hadd_In self hash id x : In x (hadd self hash id) <-> In x hash \/ (x = id /\ id <> self).
Proof.
  unfold hadd. destruct (bseq_spec id self) as [->|Hne]; [intuition|]. destruct (existsb (bseq id) hash) eqn:E.
  - apply existsb_bseq in E. split; [auto|]. intros [H|[-> _]]; assumption.
  - rewrite in_app_iff. cbn. intuition.
Qed.
Lemma hadd_NoDup self hash id : NoDup hash -> NoDup (hadd self hash id).
Proof.
  intros H. unfold hadd. destruct (bseq id self); [exact H|]. destruct (existsb (bseq id) hash) eqn:E; [exact H|].
  assert (N : ~ In id hash) by (intros X; apply existsb_bseq in X; congruence). clear E.
  induction H as [|a l Ha H IH]; cbn; [repeat constructor; auto|]. cbn in N. constructor; [|apply IH; tauto].
  rewrite in_app_iff. cbn. intuition.
Qed.
Definition hadds (self : bytes) (hash ids : list bytes) : list bytes := fold_left (hadd self) ids hash.
Lemma hadds_In self ids : forall hash x, In x (hadds self hash ids) <-> In x hash \/ (In x ids /\ x <> self).
Proof.
  induction ids as [|i ids IH]; intros hash x; cbn; [intuition|]. unfold hadds in IH. rewrite IH, hadd_In.
  split; [intros [[H|[-> H]]|H]; intuition|]. intros [H|[[<-|H] Hn]]; intuition.
Qed.
Lemma hadds_NoDup self ids : forall hash, NoDup hash -> NoDup (hadds self hash ids).
Proof. induction ids as [|i ids IH]; intros hash H; cbn; [exact H|]. apply IH. now apply hadd_NoDup. Qed.

(** For every input: the loop is a fold over the ids read. *)
Fixpoint ids_fuel (fuel : nat) (refs : bytes) : list bytes :=
  match fuel with
  | O => []
  | S f => match refs with
           | [] => []
           | _ => match message_id_parse refs with
                  | (Some r, Some next) => r :: ids_fuel f next
                  | (None, Some next) => ids_fuel f next
                  | _ => []
                  end
           end
  end.
Lemma ids_fuel_more f : forall g refs, length refs <= f -> length refs <= g -> ids_fuel f refs = ids_fuel g refs.
Proof.
  induction f as [|f IH]; intros g refs Hf Hg.
  - destruct refs; [|cbn in Hf; lia]. destruct g; reflexivity.
  - destruct g as [|g]; [destruct refs; [reflexivity|cbn in Hg; lia]|]. cbn. destruct refs as [|c refs]; [reflexivity|].
    destruct (message_id_parse_spec (c :: refs)) as (r & next & E & L & _); [discriminate|]. rewrite E. cbn in *.
    rewrite (IH g next) by lia. reflexivity.
Qed.
Definition last_or (self : bytes) (ids : list bytes) (d : option bytes) : option bytes :=
  match last_of self ids with Some x => Some x | None => d end.
Lemma parse_loop_eq f : forall self refs hash last_ref, length refs <= f ->
  parse_references_loop f self refs hash last_ref = Some (hadds self hash (ids_fuel f refs), last_or self (ids_fuel f refs) last_ref).
Proof.
  induction f as [|f IH]; intros self refs hash last_ref Hl.
  - destruct refs; [reflexivity|cbn in Hl; lia].
  - cbn [parse_references_loop ids_fuel]. destruct refs as [|c refs]; [reflexivity|].
    destruct (message_id_parse_spec (c :: refs)) as (r & next & E & L & _); [discriminate|]. rewrite E. cbn [length] in *.
    destruct r as [r|]; [|apply IH; lia]. destruct (bseq_spec r self) as [->|Hne].
    + rewrite IH by lia. cbn. unfold hadd at 2. rewrite bseq_refl. unfold last_or. cbn. rewrite bseq_refl.
      destruct (last_of self _); reflexivity.
    + rewrite IH by lia. cbn. unfold hadd at 2. rewrite (proj2 (bseq_neq r self) Hne). unfold last_or. cbn.
      rewrite (proj2 (bseq_neq r self) Hne). destruct (last_of self _); reflexivity.
Qed.
(** The ids of a header, as the code reads them. *)
Definition ids_of_header (refs : bytes) : list bytes := ids_fuel (length refs) refs.
Lemma parse_references_eq self refs hash :
  parse_references self refs hash = Some (hadds self hash (ids_of_header refs), last_of self (ids_of_header refs)).
Proof.
  unfold parse_references. rewrite parse_loop_eq by lia. unfold last_or, ids_of_header. destruct (last_of self _); reflexivity.
Qed.
Lemma ids_of_header_step c s : let s := c :: s in exists r next, message_id_parse s = (r, Some next) /\
  ids_of_header s = match r with Some i => i :: ids_of_header next | None => ids_of_header next end.
Proof.
  cbn zeta. destruct (message_id_parse_spec (c :: s)) as (r & next & E & L & _); [discriminate|]. exists r, next. split; [exact E|].
  unfold ids_of_header. cbn [length ids_fuel]. rewrite E. cbn in L. rewrite (ids_fuel_more (length s) (length next) next) by lia.
  reflexivity.
Qed.
Lemma ids_of_header_shape refs : forall id, In id (ids_of_header refs) -> id <> [] /\ ~ In ">"%char id.
Proof.
  induction refs as [refs IH] using length_ind. destruct refs as [|c s]; [intros id []|].
  destruct (message_id_parse_spec (c :: s)) as (r & next & E & L & P); [discriminate|].
  destruct (ids_of_header_step c s) as (r' & next' & E' & S). rewrite E in E'. injection E' as <- <-.
  intros id H. rewrite S in H. destruct r as [i|]; [|now apply (IH next L)].
  destruct H as [<-|H]; [|now apply (IH next L)]. destruct (P i eq_refl) as (P1 & P2 & _). split; assumption.
Qed.
Lemma ids_of_regular_header ids s : header ids s -> ids_of_header s = ids.
Proof.
  induction 1 as [w t Hw Ht|w t w' id ids rest Hw Ht Hw' Hid H IH].
  - destruct (w ++ t) as [|c s] eqn:E; [reflexivity|]. destruct (ids_of_header_step c s) as (r & next & E1 & E2).
    rewrite <- E in E1. rewrite parse_none in E1; [|assumption|assumption|rewrite E; discriminate]. injection E1 as <- <-. exact E2.
  - pose proof (parse_one w t w' id rest Hw Ht Hw' Hid) as P. destruct (w ++ t ++ _) as [|c s] eqn:E.
    { exfalso. apply app_eq_nil in E as [_ E]. apply app_eq_nil in E as [_ E]. discriminate. }
    destruct (ids_of_header_step c s) as (r & next & E1 & E2). rewrite P in E1. injection E1 as <- <-. rewrite E2. now rewrite IH.
Qed.
