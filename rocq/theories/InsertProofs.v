From Verif Require Import Bytes StrUtil StrUtilProofs Fs FsProofs Insert InsertSpec.
Local Open Scope nat_scope.

Lemma append_spec t d b w f : Forall (only t d) (seen w) -> now w t = Some f ->
  Forall (only t d) (seen (sys_append t b w)) /\ now (sys_append t b w) t = Some {| content := content f ++ b; synced := false |}.
Proof. intros H E. split; [now apply only_append|]. unfold sys_append. rewrite E. apply upd_same. Qed.
Lemma write_buf_spec t d ws : forall buf w f, Forall (only t d) (seen w) -> now w t = Some f ->
  let '(ok, _, w') := write_buf ws t buf w in
  Forall (only t d) (seen w') /\ exists f', now w' t = Some f' /\ (ok = true -> content f' = content f ++ buf).
Proof.
  induction ws as [|x ws IH]; intros buf w f H E; cbn [write_buf].
  - destruct buf as [|c buf].
    + split; [exact H|]. exists f. split; [exact E|discriminate].
    + destruct (append_spec t d (c :: buf) w f H E) as [H1 E1]. split; [exact H1|]. eexists. split; [exact E1|]. reflexivity.
  - destruct x as [n| |].
    + destruct (firstn n buf) as [|c b] eqn:Ef.
      * split; [exact H|]. exists f. split; [exact E|discriminate].
      * destruct (append_spec t d (c :: b) w f H E) as [H1 E1]. pose proof (firstn_skipn n buf) as FS. rewrite Ef in FS. destruct (skipn n buf) as [|c' b'] eqn:Es.
        -- split; [exact H1|]. eexists. split; [exact E1|]. intros _. cbn [content]. rewrite app_nil_r in FS. now rewrite FS.
        -- specialize (IH (c' :: b') _ _ H1 E1). destruct (write_buf ws t (c' :: b') _) as [[ok ws'] w']. destruct IH as (I1 & f' & I2 & I3). split; [exact I1|]. exists f'. split; [exact I2|].
           intros Hok. rewrite (I3 Hok). cbn [content]. rewrite <- app_assoc, FS. reflexivity.
    + destruct buf as [|c buf].
      * split; [exact H|]. exists f. split; [exact E|]. intros _. now rewrite app_nil_r.
      * apply IH; assumption.
    + split; [exact H|]. exists f. split; [exact E|discriminate].
Qed.
(** The bytes written for the reads, chunk by chunk. *)
Fixpoint rewritten (first : bool) (rs : list rd) : bytes :=
  match rs with
  | [] | R_data [] :: _ => []
  | R_data b :: rs => (if first && starts_with From_ b then header ++ skipn 5 b else b) ++ rewritten false rs
  | R_eintr :: rs => rewritten first rs
  | _ => []
  end.
(** No error and no interruption up to end of file. *)
Fixpoint clean (rs : list rd) : Prop :=
  match rs with
  | [] | R_data [] :: _ => True
  | R_data _ :: rs | R_eintr :: rs => clean rs
  | _ => False
  end.
Lemma copy_spec t d rs : forall ws lt first empty w f, Forall (only t d) (seen w) -> now w t = Some f ->
  let '(ok, w') := copy_fd rs ws lt first empty t w in
  Forall (only t d) (seen w') /\ exists f', now w' t = Some f' /\
    (ok = true -> content f' = content f ++ rewritten first rs /\ clean rs /\ lt = false /\ (empty = true -> input_of rs <> [])).
Proof.
  induction rs as [|x rs IH]; intros ws lt first empty w f H E.
  - cbn. split; [exact H|]. exists f. split; [exact E|]. intros Hok. apply andb_true_iff in Hok as [H1 H2]. rewrite app_nil_r. destruct lt, empty; try discriminate. repeat split; discriminate.
  - destruct x as [[|c b]| | |].
    + cbn. split; [exact H|]. exists f. split; [exact E|]. intros Hok. apply andb_true_iff in Hok as [H1 H2]. rewrite app_nil_r. destruct lt, empty; try discriminate. repeat split; discriminate.
    + cbn [copy_fd rewritten clean input_of].
      set (pre := if first && starts_with From_ (c :: b) then header else []).
      set (p := if first && starts_with From_ (c :: b) then skipn 5 (c :: b) else c :: b).
      assert (A : let '(ok, ws1, p1, w1) := from_line first ws t (c :: b) w in
         Forall (only t d) (seen w1) /\ p1 = p /\ exists f1, now w1 t = Some f1 /\ (ok = true -> content f1 = content f ++ pre)).
      { unfold from_line, pre, p. destruct (first && starts_with From_ (c :: b)).
        - pose proof (write_buf_spec t d ws header w f H E) as W. destruct (write_buf ws t header w) as [[ok ws1] w1]. destruct W as (W1 & f1 & W2 & W3). split; [exact W1|]. split; [reflexivity|]. exists f1. auto.
        - split; [exact H|]. split; [reflexivity|]. exists f. split; [exact E|]. intros _. now rewrite app_nil_r. }
      destruct (from_line first ws t (c :: b) w) as [[[ok ws1] p1] w1]. destruct A as (A1 & -> & f1 & A2 & A3). destruct ok; cbn [negb].
      2:{ split; [exact A1|]. exists f1. split; [exact A2|discriminate]. }
      pose proof (write_buf_spec t d ws1 p w1 f1 A1 A2) as W. destruct (write_buf ws1 t p w1) as [[ok ws2] w2]. destruct W as (W1 & f2 & W2 & W3). destruct ok; cbn [negb].
      2:{ split; [exact W1|]. exists f2. split; [exact W2|discriminate]. }
      specialize (IH ws2 lt false false w2 f2 W1 W2). destruct (copy_fd rs ws2 lt false false t w2) as [ok w']. destruct IH as (I1 & f' & I2 & I3). split; [exact I1|]. exists f'. split; [exact I2|].
      intros Hok. destruct (I3 Hok) as (J1 & J2 & J3 & _). split; [|split; [exact J2|split; [exact J3|discriminate]]].
      rewrite J1, (W3 eq_refl), (A3 eq_refl), <- !app_assoc. f_equal. unfold pre, p. destruct (first && starts_with From_ (c :: b)); rewrite <- ?app_assoc; reflexivity.
    + cbn [copy_fd rewritten clean input_of]. apply IH; assumption.
    + cbn. split; [exact H|]. exists f. split; [exact E|discriminate].
    + cbn. split; [exact H|]. exists f. split; [exact E|discriminate].
Qed.
Lemma rewritten_rest rs : clean rs -> rewritten false rs = input_of rs.
Proof.
  induction rs as [|x rs IH]; [reflexivity|]. destruct x as [[|c b]| | |]; cbn; try contradiction; try reflexivity; auto. intros H. now rewrite (IH H).
Qed.
Lemma starts_prefix a b : 5 <= length a -> starts_with From_ (a ++ b) = true -> starts_with From_ a = true.
Proof.
  destruct a as [|a1 [|a2 [|a3 [|a4 [|a5 a]]]]]; cbn [length]; try lia. intros _. unfold starts_with, From_, lit. cbn [app list_ascii_of_string strip_prefix].
  destruct (beq "F" a1), (beq "r" a2), (beq "o" a3), (beq "m" a4), (beq " " a5); auto.
Qed.
Lemma starts_delivered s : delivered s = if starts_with From_ s then header ++ skipn 5 s else s.
Proof.
  unfold delivered, starts_with. change (lit "From ") with From_. destruct (strip_prefix From_ s) as [r|] eqn:E; [|reflexivity].
  apply strip_prefix_Some in E. subst. reflexivity.
Qed.
Lemma rewritten_delivered rs : clean rs -> (starts_with From_ (input_of rs) = true -> 5 <= length (first_read rs)) -> rewritten true rs = delivered (input_of rs).
Proof.
  induction rs as [|x rs IH]; intros C H; [reflexivity|]. destruct x as [[|c b]| | |]; cbn [clean] in C; try contradiction; try reflexivity.
  - cbn [rewritten input_of first_read] in *. rewrite starts_delivered. rewrite (rewritten_rest rs C). cbn [andb].
    destruct (starts_with From_ ((c :: b) ++ input_of rs)) eqn:E.
    + specialize (H eq_refl). rewrite (starts_prefix _ _ H E). rewrite <- app_assoc. f_equal. rewrite skipn_app. f_equal. replace (5 - length (c :: b)) with 0 by lia. reflexivity.
    + destruct (starts_with From_ (c :: b)) eqn:E'; [|reflexivity]. exfalso. apply starts_with_app in E' as (r & E'). rewrite E', <- app_assoc in E.
      assert (X : starts_with From_ (From_ ++ r ++ input_of rs) = true) by (apply starts_with_app; eauto). congruence.
  - cbn [rewritten input_of first_read] in *. auto.
Qed.

(** Temporary names. *)
Definition temp (r : run) (maildir p : bytes) : Prop := exists n, In n (names r) /\ p = tmp_path maildir n.
Lemma mktemp_spec ok maildir w ns :
  match maildir_mktemp ok ns maildir w with
  | (None, w') => w' = w
  | (Some p, w') => (exists n, In n ns /\ p = tmp_path maildir n) /\ now w p = None /\ w' = sys_create p w
  end.
Proof.
  induction ns as [|n ns IH]; cbn; [reflexivity|]. destruct (now w (tmp_path maildir n)) eqn:E.
  - destruct (maildir_mktemp ok ns maildir w) as [[p|] w']; [|exact IH]. destruct IH as ((n' & I1 & I2) & I3). split; [exists n'; auto|exact I3].
  - destruct ok; [|reflexivity]. split; [exists n; auto|]. auto.
Qed.
Definition quiet (r : run) (maildir : bytes) (d : fs) (w : world) : Prop := forall s p, In s (seen w) -> ~ temp r maildir p -> s p = d p.
Definition untouched (d : fs) (w : world) : Prop := forall p, now w p = d p.
Lemma only_quiet r maildir t d w : temp r maildir t -> Forall (only t d) (seen w) -> quiet r maildir d w.
Proof. intros Ht H s p Hs Hp. rewrite Forall_forall in H. apply (H s Hs). intros ->. auto. Qed.
Lemma cleanup_spec r t d w : Forall (only t d) (seen w) -> Forall (only t d) (seen (cleanup r t w)) /\ (unlink_ok r = true -> d t = None -> untouched d (cleanup r t w)).
Proof.
  intros H. unfold cleanup. destruct (unlink_ok r); [|split; [exact H|discriminate]]. pose proof (only_unlink t d w H) as H1. split; [exact H1|]. intros _ Hd p.
  destruct (bytes_eq_dec p t) as [->|N]; [unfold sys_unlink; cbn; rewrite upd_same; now rewrite Hd|]. exact (Forall_now _ _ H1 p N).
Qed.
Lemma write_tmp_spec r maildir d :
  match maildir_write_tmp r maildir (start d) with
  | (None, w) => quiet r maildir d w /\ (unlink_ok r = true -> untouched d w)
  | (Some t, w) => temp r maildir t /\ d t = None /\ Forall (only t d) (seen w) /\
      now w t = Some {| content := rewritten true (reads r); synced := true |} /\ clean (reads r) /\ input_of (reads r) <> []
  end.
Proof.
  unfold maildir_write_tmp. pose proof (mktemp_spec (open_ok r) maildir (start d) (names r)) as M. destruct (maildir_mktemp (open_ok r) (names r) maildir (start d)) as [[t|] w1].
  - destruct M as (T & D & ->). cbn in D.
    assert (H1 : Forall (only t d) (seen (sys_create t (start d)))) by (apply only_create; constructor; [intros p _; reflexivity|constructor]).
    assert (E1 : now (sys_create t (start d)) t = Some {| content := []; synced := false |}) by apply upd_same.
    pose proof (copy_spec t d (reads r) (writes r) (late r) true true _ _ H1 E1) as C. destruct (copy_fd (reads r) (writes r) (late r) true true t _) as [ok w2]. destruct C as (C1 & f2 & C2 & C3).
    assert (F : quiet r maildir d (cleanup r t w2) /\ (unlink_ok r = true -> untouched d (cleanup r t w2))).
    { destruct (cleanup_spec r t d w2 C1) as [K1 K2]. split; [eapply only_quiet; eauto|]. auto. }
    destruct ok; cbn [negb]; [|exact F]. destruct (fsync_ok r); cbn [negb]; [|exact F].
    destruct (C3 eq_refl) as (J1 & J2 & _ & J4). cbn [content app] in J1. split; [exact T|]. split; [exact D|]. split; [now apply only_fsync|]. split; [|split; [exact J2|apply J4; reflexivity]].
    unfold sys_fsync. rewrite C2, J1. apply upd_same.
  - subst w1. split; [|intros _ p; reflexivity]. intros s p [<-|[]] _. reflexivity.
Qed.
Definition new_path (maildir name : bytes) : bytes := maildir ++ lit "/new/" ++ name.
Lemma overlay_spec maildir n : overlay_new maildir (tmp_path maildir n) = new_path maildir n.
Proof.
  unfold overlay_new, tmp_path, new_path. rewrite firstn_app, firstn_all2 by lia. replace (length maildir + 1 - length maildir) with 1 by lia.
  rewrite skipn_app, skipn_all2 by lia. replace (length maildir + 4 - length maildir) with 4 by lia. cbn. rewrite <- app_assoc. reflexivity.
Qed.
Lemma new_not_tmp maildir n n' : new_path maildir n <> tmp_path maildir n'.
Proof. unfold new_path, tmp_path. intros H. apply app_inv_head in H. discriminate. Qed.
(** States seen while delivering: outside the temporary names only the new file differs,
    and it is complete. *)
Definition good_state (r : run) (maildir : bytes) (d : fs) (s : fs) : Prop := forall p, ~ temp r maildir p -> s p = d p \/
  exists n, In n (names r) /\ p = new_path maildir n /\ s p = Some {| content := rewritten true (reads r); synced := true |} /\ clean (reads r) /\ input_of (reads r) <> [].
Lemma write_new_spec r maildir d : (forall n, In n (names r) -> d (new_path maildir n) = None) ->
  match maildir_write_new r maildir (start d) with
  | (None, w) => Forall (good_state r maildir d) (seen w) /\ (unlink_ok r = true -> untouched d w)
  | (Some q, w) => Forall (good_state r maildir d) (seen w) /\ (exists n, In n (names r) /\ q = new_path maildir n) /\
      now w q = Some {| content := rewritten true (reads r); synced := true |} /\ (forall p, p <> q -> now w p = d p) /\ clean (reads r) /\ input_of (reads r) <> []
  end.
Proof.
  intros Hn. unfold maildir_write_new. pose proof (write_tmp_spec r maildir d) as T. destruct (maildir_write_tmp r maildir (start d)) as [[t|] w1].
  - destruct T as ((n & In_n & ->) & D & H1 & E1 & Cl & Ne). rewrite overlay_spec. cbn zeta. set (t := tmp_path maildir n) in *. set (q := new_path maildir n).
    assert (Ht : temp r maildir t) by (exists n; auto).
    assert (G : forall w, Forall (only t d) (seen w) -> Forall (good_state r maildir d) (seen w)).
    { intros w H. rewrite Forall_forall in *. intros s Hs p Hp. left. apply (H s Hs). intros ->. auto. }
    destruct (rename_ok r); cbn [negb].
    2:{ destruct (cleanup_spec r t d w1 H1) as [K1 K2]. split; [now apply G|]. auto. }
    assert (Ntq : t <> q) by (intros X; symmetry in X; exact (new_not_tmp _ _ _ X)).
    assert (S2 : sys_rename t q w1 = goto (upd t None (upd q (Some {| content := rewritten true (reads r); synced := true |}) (now w1))) w1).
    { unfold sys_rename. rewrite E1. destruct (bseq_spec t q); [contradiction|reflexivity]. }
    rewrite S2. set (w2 := goto _ w1).
    assert (Q2 : now w2 q = Some {| content := rewritten true (reads r); synced := true |}) by (cbn; rewrite upd_other by congruence; apply upd_same).
    assert (O2 : forall p, p <> q -> now w2 p = d p).
    { intros p Hp. cbn. destruct (bytes_eq_dec p t) as [->|Np]; [rewrite upd_same; auto|]. rewrite upd_other by exact Np. rewrite upd_other by exact Hp. exact (Forall_now _ _ H1 p Np). }
    assert (G2 : Forall (good_state r maildir d) (seen w2)).
    { unfold w2. rewrite seen_goto. apply Forall_app. split; [now apply G|]. constructor; [|constructor]. intros p Hp. destruct (bytes_eq_dec p q) as [->|Nq].
      - right. exists n. split; [exact In_n|]. split; [reflexivity|]. split; [exact Q2|]. auto.
      - left. exact (O2 p Nq). }
    destruct (syncdir_ok r); cbn [negb].
    + split; [exact G2|]. split; [exists n; auto|]. auto.
    + unfold cleanup. destruct (unlink_ok r); [|split; [exact G2|discriminate]].
      assert (U : forall p, now (sys_unlink q w2) p = d p).
      { intros p. cbn [sys_unlink goto now]. destruct (bytes_eq_dec p q) as [->|Np]; [rewrite upd_same; symmetry; apply Hn, In_n|]. rewrite upd_other by exact Np. auto. }
      split; [|intros _; exact U]. unfold sys_unlink. rewrite seen_goto. apply Forall_app. split; [exact G2|]. constructor; [|constructor]. intros p _. left. exact (U p).
  - destruct T as [T1 T2]. split; [|exact T2]. rewrite Forall_forall. intros s Hs p Hp. left. now apply T1.
Qed.

(** Liveness: without errors the copy succeeds. *)
Definition wr_good (x : wr) : Prop := match x with W_ok n => 0 < n | W_eintr => True | W_error => False end.
Lemma write_buf_live t ws : forall buf w, Forall wr_good ws -> buf <> [] -> let '(ok, ws', _) := write_buf ws t buf w in ok = true /\ Forall wr_good ws'.
Proof.
  induction ws as [|x ws IH]; intros buf w H Nb; cbn [write_buf].
  - destruct buf; [congruence|]. auto.
  - apply Forall_cons_iff in H as [Hx H]. destruct x as [n| |]; cbn in Hx; [| |contradiction].
    + destruct n as [|n]; [lia|]. destruct buf as [|c buf]; [congruence|]. cbn [firstn skipn]. destruct (skipn n buf) as [|c' b'] eqn:E; [auto|]. apply IH; [exact H|discriminate].
    + destruct buf; [congruence|]. apply IH; assumption.
Qed.
Lemma copy_live t rs : forall ws first empty w, clean rs -> Forall wr_good ws -> (first = true -> first_read rs <> From_) -> (empty = true -> input_of rs <> []) ->
  fst (copy_fd rs ws false first empty t w) = true.
Proof.
  induction rs as [|x rs IH]; intros ws first empty w C G F E.
  - cbn. destruct empty; [exfalso; now apply E|reflexivity].
  - destruct x as [[|c b]| | |]; cbn [clean] in C; try contradiction.
    + cbn. destruct empty; [exfalso; now apply E|reflexivity].
    + cbn [copy_fd]. 
      assert (A : let '(ok, ws1, p1, w1) := from_line first ws t (c :: b) w in ok = true /\ Forall wr_good ws1 /\ p1 <> []).
      { unfold from_line. destruct (first && starts_with From_ (c :: b)) eqn:Ef.
        - pose proof (write_buf_live t ws header w G ltac:(discriminate)) as W. destruct (write_buf ws t header w) as [[ok ws1] w1]. destruct W as [W1 W2]. split; [exact W1|]. split; [exact W2|].
          apply andb_true_iff in Ef as [F1 F2]. apply starts_with_app in F2 as (r & F2). specialize (F F1). cbn [first_read] in F. rewrite F2 in *. intros X. apply F. change (skipn 5 (From_ ++ r)) with r in X. rewrite X. reflexivity.
        - split; [reflexivity|]. split; [exact G|discriminate]. }
      destruct (from_line first ws t (c :: b) w) as [[[ok ws1] p1] w1]. destruct A as (-> & A2 & A3). cbn [negb].
      pose proof (write_buf_live t ws1 p1 w1 A2 A3) as W. destruct (write_buf ws1 t p1 w1) as [[ok ws2] w2]. destruct W as [-> W2]. cbn [negb]. apply IH; auto; discriminate.
    + cbn [copy_fd]. apply IH; auto.
Qed.
