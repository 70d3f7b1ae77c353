(** Lemmas for C91: lines and regions. *)
From Verif Require Import Bytes Db TagOps SearchCmd EmacsTag EmacsSearch EmacsSearchSpec.
Local Open Scope nat_scope.

Section Lines.
Variable draw : result -> nat.
Notation width := (width draw).
Definition W (l : list result) : nat := list_sum (map width l).
Lemma W_cons r l : W (r :: l) = width r + W l. Proof. reflexivity. Qed.
Lemma W_app a b : W (a ++ b) = W a + W b. Proof. unfold W. now rewrite map_app, list_sum_app. Qed.
Lemma W_nil : W [] = 0. Proof. reflexivity. Qed.
Lemma W_snoc pre r : 1 + W (pre ++ [r]) = 1 + W pre + width r. Proof. rewrite W_app, W_cons, W_nil. lia. Qed.
Lemma width_pos r : 0 < width r. Proof. unfold EmacsSearch.width. lia. Qed.

Lemma line_at_here s pre : forall r post pos, s + W pre <= pos < s + W pre + width r ->
  line_at draw s (pre ++ r :: post) pos = Some (s + W pre, s + W pre + width r, r).
Proof.
  revert s. induction pre as [|x pre IH]; intros s r post pos H; cbn [app line_at].
  - cbn in H. replace (s + W []) with s in * by (cbn; lia). destruct (Nat.ltb_spec pos s); [lia|]. destruct (Nat.ltb_spec pos (s + width r)); [|lia]. reflexivity.
  - rewrite W_cons in *. destruct (Nat.ltb_spec pos s); [pose proof (width_pos x); lia|]. destruct (Nat.ltb_spec pos (s + width x)); [lia|].
    rewrite IH by lia. replace (s + width x + W pre) with (s + (width x + W pre)) by lia. reflexivity.
Qed.
Lemma line_at_inv l : forall s pos b e r, line_at draw s l pos = Some (b, e, r) ->
  exists pre post, l = pre ++ r :: post /\ b = s + W pre /\ e = b + width r /\ b <= pos < e.
Proof.
  induction l as [|x l IH]; intros s pos b e r; cbn [line_at]; [discriminate|]. destruct (Nat.ltb_spec pos s); [discriminate|]. destruct (Nat.ltb_spec pos (s + width x)).
  - intros X. injection X as <- <- <-. exists [], l. cbn. repeat split; try lia; auto.
  - intros X. destruct (IH _ _ _ _ _ X) as (pre & post & -> & -> & -> & C). exists (x :: pre), post. rewrite W_cons. repeat split; lia.
Qed.
Lemma line_at_none l : forall s pos, line_at draw s l pos = None -> pos < s \/ s + W l <= pos.
Proof.
  induction l as [|x l IH]; intros s pos; cbn [line_at]; [cbn; intros _; lia|]. destruct (Nat.ltb_spec pos s); [auto|]. destruct (Nat.ltb_spec pos (s + width x)); [discriminate|].
  intros X. apply IH in X. rewrite W_cons. lia.
Qed.
Lemma line_at_end l s : line_at draw s l (s + W l) = None.
Proof. destruct (line_at draw s l (s + W l)) as [[[b e] r]|] eqn:E; [|reflexivity]. apply line_at_inv in E. destruct E as (pre & post & -> & -> & -> & C). rewrite W_app, W_cons in C. lia. Qed.
Lemma set_line_here s pre : forall r post r' pos, s + W pre <= pos < s + W pre + width r -> set_line draw s (pre ++ r :: post) pos r' = pre ++ r' :: post.
Proof.
  revert s. induction pre as [|x pre IH]; intros s r post r' pos H; cbn [app set_line].
  - cbn in H. destruct (Nat.ltb_spec pos (s + width r)); [reflexivity|lia].
  - rewrite W_cons in H. destruct (Nat.ltb_spec pos (s + width x)); [lia|]. f_equal. apply IH. lia.
Qed.

(** The lines visited when the first of [l] begins at [s] and the marker is at [m]. *)
Fixpoint taken (s m : nat) (l : list result) : list result :=
  match l with [] => [] | r :: l => if s <? m then r :: taken (s + width r) m l else [] end.
Definition taken1 (s m : nat) (l : list result) : list result := match l with [] => [] | r :: l => r :: taken (s + width r) m l end.
Lemma taken_shift l : forall s m k, taken (s + k) (m + k) l = taken s m l.
Proof.
  induction l as [|r l IH]; intros s m k; cbn [taken]; [reflexivity|]. replace (s + k + width r) with (s + width r + k) by lia. rewrite IH.
  destruct (Nat.ltb_spec (s + k) (m + k)), (Nat.ltb_spec s m); try lia; reflexivity.
Qed.
Lemma taken_prefix l : forall s m, exists post, l = taken s m l ++ post.
Proof. induction l as [|r l IH]; intros s m; [now exists []|]. cbn [taken]. destruct (s <? m); [|now exists (r :: l)]. destruct (IH (s + width r) m) as (post & E). exists post. cbn. now rewrite <- E. Qed.
Lemma taken1_step s m r l : (if (s <? m) || true then taken1 s m (r :: l) else []) = taken1 s m (r :: l).
Proof. now rewrite orb_true_r. Qed.

Definition next_taken (first : bool) (s m : nat) (l : list result) : list result := if first then taken1 s m l else taken s m l.
Lemma next_taken_cons first s m r l : next_taken first s m (r :: l) = if (s <? m) || first then r :: taken (s + width r) m l else [].
Proof. destruct first; cbn; [now rewrite orb_true_r|now rewrite orb_false_r]. Qed.

Definition collector (p : nat) (st : view * nat * list (option bytes * option bytes)) : view * nat * list (option bytes * option bytes) :=
  let '(v, m, out) := st in (v, m, match get_result draw v p with Some r => r_query r :: out | None => out end).
Lemma collect_loop todo : forall fuel pre rest m out first, S (length todo) < fuel ->
  foreach_loop draw collector fuel (Some (1 + W pre)) first ({| v_lines := pre ++ todo; v_rest := rest |}, m, out) =
  ({| v_lines := pre ++ todo; v_rest := rest |}, m, rev (map r_query (next_taken first (1 + W pre) m todo)) ++ out).
Proof.
  induction todo as [|r todo IH]; intros fuel pre rest m out first L; (destruct fuel as [|fuel]; [lia|]); cbn [foreach_loop].
  - assert (E : line_at draw 1 (pre ++ []) (1 + W pre) = None) by (rewrite app_nil_r; apply line_at_end).
    assert (G : get_result draw {| v_lines := pre ++ []; v_rest := rest |} (1 + W pre) = None) by (unfold get_result; cbn [v_lines]; now rewrite E).
    assert (R : result_end draw {| v_lines := pre ++ []; v_rest := rest |} (1 + W pre) = None) by (unfold result_end; cbn [v_lines]; now rewrite E).
    rewrite G. destruct ((1 + W pre <? m) || first); [rewrite R; destruct fuel|]; destruct first; reflexivity.
  - rewrite next_taken_cons. destruct ((1 + W pre <? m) || first); [|reflexivity].
    assert (E : line_at draw 1 (pre ++ r :: todo) (1 + W pre) = Some (1 + W pre, 1 + W pre + width r, r)) by (apply line_at_here; pose proof (width_pos r); lia).
    assert (G : get_result draw {| v_lines := pre ++ r :: todo; v_rest := rest |} (1 + W pre) = Some r) by (unfold get_result; cbn [v_lines]; now rewrite E).
    assert (R : result_end draw {| v_lines := pre ++ r :: todo; v_rest := rest |} (1 + W pre) = Some (1 + W pre + width r)) by (unfold result_end; cbn [v_lines]; now rewrite E).
    rewrite G. unfold collector at 1 3. rewrite G, R. clear G R.
    replace (pre ++ r :: todo) with ((pre ++ [r]) ++ todo) by now rewrite <- app_assoc.
    rewrite <- W_snoc.
    rewrite IH by (cbn in L; lia). cbn [next_taken map rev]. f_equal. now rewrite <- app_assoc.
Qed.

Definition retagger (changes : list bytes) (p : nat) (st : view * nat * unit) : view * nat * unit :=
  let '(v, m, u) := st in
  match get_result draw v p with
  | Some r => let '(v, m) := update_result draw p (new_tags changes r) v m in (v, m, u)
  | None => (v, m, u)
  end.
Lemma retag_loop changes todo : forall fuel pre rest m first, S (length todo) < fuel ->
  exists m', foreach_loop draw (retagger changes) fuel (Some (1 + W pre)) first ({| v_lines := pre ++ todo; v_rest := rest |}, m, tt) =
  ({| v_lines := pre ++ map (new_tags changes) (next_taken first (1 + W pre) m todo) ++ skipn (length (next_taken first (1 + W pre) m todo)) todo; v_rest := rest |}, m', tt).
Proof.
  induction todo as [|r todo IH]; intros fuel pre rest m first L; (destruct fuel as [|fuel]; [lia|]); cbn [foreach_loop].
  - assert (E : line_at draw 1 (pre ++ []) (1 + W pre) = None) by (rewrite app_nil_r; apply line_at_end).
    assert (G : get_result draw {| v_lines := pre ++ []; v_rest := rest |} (1 + W pre) = None) by (unfold get_result; cbn [v_lines]; now rewrite E).
    assert (R : result_end draw {| v_lines := pre ++ []; v_rest := rest |} (1 + W pre) = None) by (unfold result_end; cbn [v_lines]; now rewrite E).
    exists m. rewrite G. destruct ((1 + W pre <? m) || first); [rewrite R; destruct fuel|]; destruct first; reflexivity.
  - rewrite next_taken_cons. destruct ((1 + W pre <? m) || first) eqn:C; [|exists m; reflexivity].
    assert (E : line_at draw 1 (pre ++ r :: todo) (1 + W pre) = Some (1 + W pre, 1 + W pre + width r, r)) by (apply line_at_here; pose proof (width_pos r); lia).
    set (r' := new_tags changes r). set (m1 := move_marker m (1 + W pre) (1 + W pre + width r) (width r')).
    assert (R : retagger changes (1 + W pre) ({| v_lines := pre ++ r :: todo; v_rest := rest |}, m, tt) = ({| v_lines := pre ++ r' :: todo; v_rest := rest |}, m1, tt)).
    { unfold retagger, get_result, update_result. cbn [v_lines v_rest]. rewrite E. cbn [option_map snd]. fold r'. rewrite set_line_here by (pose proof (width_pos r); lia). reflexivity. }
    assert (E' : line_at draw 1 (pre ++ r' :: todo) (1 + W pre) = Some (1 + W pre, 1 + W pre + width r', r')) by (apply line_at_here; pose proof (width_pos r'); lia).
    assert (G : get_result draw {| v_lines := pre ++ r :: todo; v_rest := rest |} (1 + W pre) = Some r) by (unfold get_result; cbn [v_lines]; now rewrite E).
    assert (Re : result_end draw {| v_lines := pre ++ r' :: todo; v_rest := rest |} (1 + W pre) = Some (1 + W pre + width r')) by (unfold result_end; cbn [v_lines]; now rewrite E').
    rewrite G, R, Re. clear G R Re.
    replace (pre ++ r' :: todo) with ((pre ++ [r']) ++ todo) by now rewrite <- app_assoc.
    rewrite <- (W_snoc pre r').
    destruct (IH fuel (pre ++ [r']) rest m1 false) as (m' & ->); [cbn in L; lia|]. exists m'.
    assert (T : next_taken false (1 + W (pre ++ [r'])) m1 todo = taken (1 + W pre + width r) m todo).
    { cbn [next_taken]. rewrite (W_snoc pre r'). unfold m1, move_marker. pose proof (width_pos r).
      replace (1 + W pre + width r - (1 + W pre)) with (width r) by lia.
      destruct (Nat.leb_spec m (1 + W pre)).
      - destruct (Nat.ltb_spec (1 + W pre) m); [lia|]. destruct todo; cbn [taken]; [reflexivity|]. destruct (Nat.ltb_spec (1 + W pre + width r') m), (Nat.ltb_spec (1 + W pre + width r) m); try lia; reflexivity.
      - destruct (Nat.ltb_spec m (1 + W pre + width r)).
        + rewrite Nat.ltb_irrefl. destruct todo; cbn [taken]; [reflexivity|]. destruct (Nat.ltb_spec (1 + W pre + width r') (1 + W pre)), (Nat.ltb_spec (1 + W pre + width r) m); try lia; reflexivity.
        + destruct (Nat.ltb_spec (1 + W pre) (m - width r)).
          * rewrite <- (taken_shift todo (1 + W pre + width r) m (width r')). rewrite <- (taken_shift todo (1 + W pre + width r') (m - width r + width r') (width r)). f_equal; lia.
          * destruct todo as [|x todo']; cbn [taken]; [reflexivity|]. destruct (Nat.ltb_spec (1 + W pre + width r') (m - width r)), (Nat.ltb_spec (1 + W pre + width r) m); try lia; reflexivity. }
    rewrite T. cbn [map length skipn app]. rewrite <- app_assoc. reflexivity.
Qed.

(** The lines visited are those that meet the region. *)
Lemma taken_length l : forall s m i, i < length l -> (i < length (taken s m l) <-> s + W (firstn i l) < m).
Proof.
  induction l as [|r l IH]; intros s m i L; [cbn in L; lia|]. cbn [taken]. destruct i as [|i].
  - cbn [firstn]. replace (s + W []) with s by (cbn; lia). destruct (Nat.ltb_spec s m); cbn; lia.
  - cbn [firstn]. rewrite W_cons. cbn in L. specialize (IH (s + width r) m i). destruct (Nat.ltb_spec s m).
    + cbn [length]. rewrite <- Nat.succ_lt_mono, IH by lia. lia.
    + cbn [length]. lia.
Qed.
Lemma start_W l i : start draw l i = 1 + W (firstn i l). Proof. reflexivity. Qed.
Lemma W_firstn_mono l i j : i <= j -> W (firstn i l) <= W (firstn j l).
Proof.
  revert i j. induction l as [|r l IH]; intros [|i] [|j] H; cbn [firstn]; rewrite ?W_cons, ?W_nil; [lia..|]. specialize (IH i j). lia.
Qed.
Lemma W_firstn_step l i r : nth_error l i = Some r -> W (firstn (S i) l) = W (firstn i l) + width r.
Proof.
  revert i. induction l as [|x l IH]; intros [|i] E; try discriminate.
  - injection E as ->. change (firstn 1 (r :: l)) with (r :: firstn 0 l). change (firstn 0 (r :: l)) with (@nil result). change (firstn 0 l) with (@nil result). rewrite W_cons, W_nil. lia.
  - change (firstn (S (S i)) (x :: l)) with (x :: firstn (S i) l). change (firstn (S i) (x :: l)) with (x :: firstn i l). rewrite !W_cons. rewrite (IH i E). lia.
Qed.

Lemma visited l beg end_ : 1 <= beg ->
  exists pre mid post, l = pre ++ mid ++ post /\
  (forall i, meets draw l beg end_ i <-> length pre <= i < length pre + length mid) /\
  (match option_map (fun x => fst (fst x)) (line_at draw 1 l beg) with
   | Some p => p = 1 + W pre /\ mid = taken1 (1 + W pre) end_ (mid ++ post) /\ mid <> []
   | None => mid = []
   end).
Proof.
  intros Hb. destruct (line_at draw 1 l beg) as [[[b e] r]|] eqn:E; cbn [option_map fst].
  - apply line_at_inv in E. destruct E as (pre & tl & -> & -> & -> & C).
    destruct (taken_prefix tl (1 + W pre + width r) end_) as (post & Et). exists pre, (r :: taken (1 + W pre + width r) end_ tl), post. cbn [app]. rewrite <- Et.
    split; [reflexivity|]. split.
    + intros i. assert (Lt : length tl = length (taken (1 + W pre + width r) end_ tl) + length post) by (rewrite Et at 1; now rewrite app_length). cbn [length].
      assert (F : forall k, firstn (length pre + S k) (pre ++ r :: tl) = (pre ++ [r]) ++ firstn k tl).
      { intros k. rewrite firstn_app. replace (length pre + S k - length pre) with (S k) by lia. rewrite firstn_all2 by lia. cbn [firstn]. now rewrite <- app_assoc. }
      assert (F0 : firstn (length pre) (pre ++ r :: tl) = pre). { rewrite firstn_app, Nat.sub_diag, firstn_all. cbn. apply app_nil_r. }
      unfold meets. rewrite !start_W. split.
      * intros (Li & p & P1 & P2 & P3). rewrite app_length in Li. cbn [length] in Li.
        assert (G : length pre <= i).
        { destruct (Nat.le_gt_cases (length pre) i) as [G|G]; [exact G|]. exfalso. assert (X := W_firstn_mono (pre ++ r :: tl) (S i) (length pre)). rewrite F0 in X. lia. }
        split; [exact G|]. destruct (Nat.eq_dec i (length pre)) as [->|N]; [lia|]. set (k := i - length pre - 1). assert (Hi : i = length pre + S k) by lia. rewrite Hi in P3. rewrite F in P3.
        rewrite !W_app, W_cons in P3. cbn [W map list_sum fold_right] in P3. replace (W []) with 0 in P3 by reflexivity.
        assert (X : k < length (taken (1 + W pre + width r) end_ tl)); [|lia]. apply taken_length; [lia|]. lia.
      * intros [G1 G2]. rewrite app_length. cbn [length]. split; [lia|]. destruct (Nat.eq_dec i (length pre)) as [->|N].
        -- exists beg. split; [lia|]. split; [now left|]. replace (S (length pre)) with (length pre + 1) by lia. rewrite F0, (F 0). cbn [firstn]. rewrite app_nil_r, W_app, W_cons.
           replace (W []) with 0 by reflexivity. lia.
        -- set (k := i - length pre - 1). assert (Hi : i = length pre + S k) by lia. rewrite Hi. replace (S (length pre + S k)) with (length pre + S (S k)) by lia. rewrite !F.
           assert (X : k < length (taken (1 + W pre + width r) end_ tl)) by lia. apply taken_length in X; [|lia].
           exists (1 + W pre + width r + W (firstn k tl)). split; [lia|]. split; [right; lia|]. rewrite !W_app, !W_cons. replace (W []) with 0 by reflexivity.
           destruct (nth_error tl k) as [y|] eqn:Ny; [|apply nth_error_None in Ny; lia]. rewrite (W_firstn_step tl k y Ny). pose proof (width_pos y). lia.
    + split; [reflexivity|]. split; [|discriminate]. cbn [taken1]. reflexivity.
  - exists l, [], []. rewrite app_nil_r. split; [reflexivity|]. split; [|reflexivity]. intros i. cbn [length]. split; [|lia]. intros (Li & p & P1 & P2 & P3). exfalso. apply line_at_none in E. rewrite !start_W in P3.
    assert (X := W_firstn_mono l (S i) (length l)). rewrite firstn_all in X. destruct E as [E|E]; [|lia].
    assert (X0 := W_firstn_mono l 0 i). lia.
Qed.
End Lines.
