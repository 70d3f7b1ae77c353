From Verif Require Import Bytes StrUtil Reply Mime MimeSpec.
Local Open Scope nat_scope.

(** ** The walk without the numbers *)
Section walk.
  Variable go : node -> mcrypto -> option (list node * mcrypto).
  Fixpoint walk_children (c : cctx) (par : option obj) (i : nat) (todo : list obj) (m : mcrypto) : option (list node * mcrypto) :=
    match todo with
    | [] => Some ([], m)
    | o :: todo' =>
        match set_up_part c o par i m with
        | None => None
        | Some (n, m1) =>
            match go n m1 with
            | None => None
            | Some (l, m2) =>
                match walk_children c par (S i) todo' m2 with
                | None => None
                | Some (l', m3) => Some (n :: l ++ l', m3)
                end
            end
        end
    end.
End walk.
Fixpoint walk (fuel : nat) (c : cctx) (n : node) (m : mcrypto) : option (list node * mcrypto) :=
  match fuel with
  | O => None
  | S f => walk_children (walk f c) c (n_part n) 0 (n_children n) m
  end.
Definition walk_obj (fuel : nat) (c : cctx) (par : option obj) (i : nat) (o : obj) (m : mcrypto) : option (list node * mcrypto) :=
  match set_up_part c o par i m with
  | None => None
  | Some (n, m1) => match walk fuel c n m1 with Some (l, m2) => Some (n :: l, m2) | None => None end
  end.
Lemma walk_children_cons f c par i o todo m : walk_children (walk f c) c par i (o :: todo) m =
  match walk_obj f c par i o m with
  | None => None
  | Some (l, m1) => match walk_children (walk f c) c par (S i) todo m1 with Some (l', m2) => Some (l ++ l', m2) | None => None end
  end.
Proof.
  cbn [walk_children]. unfold walk_obj. destruct (set_up_part c o par i m) as [(n, m1)|]; [|reflexivity].
  destruct (walk f c n m1) as [(l, m2)|]; [|reflexivity]. now destruct (walk_children _ _ _ _ _ _) as [(l', m3)|].
Qed.

Definition erase (r : option (list (option nat * node) * wstate)) : option (list node * mcrypto) :=
  match r with Some (l, (m, _)) => Some (map snd l, m) | None => None end.
Lemma visit_children_erase f c p : (forall n st, erase (visit f c n st) = walk f c n (fst st)) ->
  forall todo i st, i + todo = length (n_children p) ->
  erase (visit_children (visit f c) c p i todo st) = walk_children (walk f c) c (n_part p) i (skipn i (n_children p)) (fst st).
Proof.
  intros IH. induction todo as [|todo IHt]; intros i st E; cbn [visit_children].
  - rewrite skipn_all2 by lia. now destruct st.
  - unfold mime_node_child. destruct (nth_error (n_children p) i) as [sub|] eqn:N; [|apply nth_error_None in N; lia].
    assert (SK : skipn i (n_children p) = sub :: skipn (S i) (n_children p)).
    { clear - N. revert i N. induction (n_children p) as [|y l IH]; intros [|i] N; cbn in *; try discriminate N; [now injection N as ->|]. now apply IH. }
    rewrite SK. cbn [walk_children]. destruct (set_up_part c sub (n_part p) i (fst st)) as [(n, m1)|]; [|reflexivity].
    destruct (number_child _ _ _) as ((num, fs), fr). specialize (IH n (m1, fr :: fs)). cbn [fst] in IH.
    destruct (visit f c n (m1, fr :: fs)) as [(l, (m2, fs2))|]; cbn [erase] in IH; rewrite <- IH; [|reflexivity].
    specialize (IHt (S i) (m2, tl fs2) ltac:(lia)). cbn [fst] in IHt.
    destruct (visit_children _ _ _ _ _ _) as [(l', (m3, fs3))|]; cbn [erase] in IHt; rewrite <- IHt; [|reflexivity].
    cbn [erase map snd]. now rewrite map_app.
Qed.
Lemma visit_erase f c : forall n st, erase (visit f c n st) = walk f c n (fst st).
Proof.
  induction f as [|f IH]; intros n st; [reflexivity|]. cbn [visit walk]. rewrite visit_children_erase; auto.
Qed.

(** ** Numbers *)
Lemma renumber_same r k : forall k', renumber (renumber r k) k' = renumber r k'.
Proof.
  intros k'. induction r as [|f r IH]; [reflexivity|]. cbn [renumber]. destruct (f_next f =? f_n f) eqn:E.
  - cbn [renumber]. rewrite E. now rewrite IH.
  - cbn [renumber f_next f_n]. now rewrite E.
Qed.
Lemma visit_children_S go c p i todo st : visit_children go c p i (S todo) st =
  match mime_node_child c p i st with
  | None => None
  | Some (num, n, st1) =>
      match go n st1 with
      | None => None
      | Some (l, (m, fs)) =>
          match visit_children go c p (S i) todo (m, tl fs) with
          | None => None
          | Some (l', st2) => Some ((num, n) :: l ++ l', st2)
          end
      end
  end.
Proof. reflexivity. Qed.
Definition after_visit (nch : nat) (r : list frame) (k : nat) (l : list (option nat * node)) (fs : list frame) : Prop :=
  map fst l = map Some (seq k (length l)) /\
  (if nch =? 0 then l = [] /\ fs = {| f_n := 0; f_next := 0; f_num := Some k |} :: r
   else fs = {| f_n := nch; f_next := nch; f_num := None |} :: renumber r (k + length l)).
Lemma visit_numbers f c : forall n m r k l m' fs,
  visit f c n (m, {| f_n := length (n_children n); f_next := 0; f_num := Some k |} :: r) = Some (l, (m', fs)) ->
  after_visit (length (n_children n)) r k l fs.
Proof.
  induction f as [|f IH]; intros n m r k l m' fs H; [discriminate H|]. cbn [visit] in H.
  assert (G : forall todo i k m l m' fs, i + S todo = length (n_children n) ->
     visit_children (visit f c) c n i (S todo) (m, {| f_n := length (n_children n); f_next := i; f_num := Some k |} :: r) = Some (l, (m', fs)) ->
     map fst l = map Some (seq k (length l)) /\
     fs = {| f_n := length (n_children n); f_next := length (n_children n); f_num := None |} :: renumber r (k + length l)).
  { clear H k m l m' fs. induction todo as [|todo IHt]; intros i k m l m' fs E H; rewrite visit_children_S in H;
      unfold mime_node_child in H; destruct (nth_error (n_children n) i) as [sub|] eqn:NE; try discriminate H;
      destruct (set_up_part c sub (n_part n) i _) as [(n1, m1)|]; try discriminate H;
      cbn [snd number_child f_num f_next f_n] in H; rewrite Nat.eqb_refl in H.
    - destruct (visit f c n1 _) as [(l1, (m2, fs2))|] eqn:V; [|discriminate H]. cbn [visit_children] in H. injection H as <- <- <-. rewrite app_nil_r.
      apply IH in V as (N & A). cbn [map fst length seq]. rewrite N. split; [reflexivity|].
      replace (k + S (length l1)) with (S k + length l1) by lia.
      assert (Q : S i = length (n_children n)) by lia.
      destruct (length (n_children n1) =? 0) eqn:Z.
      + destruct A as (-> & ->). cbn [tl renumber f_next f_n length]. rewrite Q, Nat.eqb_refl. now rewrite Nat.add_0_r.
      + subst fs2. cbn [tl renumber f_next f_n]. now rewrite Q, Nat.eqb_refl.
    - destruct (visit f c n1 _) as [(l1, (m2, fs2))|] eqn:V; [|discriminate H].
      destruct (visit_children _ _ _ _ _ _) as [(l2, (m3, fs3))|] eqn:VC; [|discriminate H]. injection H as <- <- <-.
      apply IH in V as (N & A).
      assert (Q : (S i =? length (n_children n)) = false) by (apply Nat.eqb_neq; lia).
      assert (T : tl fs2 = {| f_n := length (n_children n); f_next := S i; f_num := Some (S k + length l1) |} :: r).
      { destruct (length (n_children n1) =? 0) eqn:Z.
        + destruct A as (-> & ->). cbn [tl renumber f_next f_n length]. rewrite Q. now rewrite Nat.add_0_r.
        + subst fs2. cbn [tl renumber f_next f_n]. now rewrite Q. }
      rewrite T in VC. apply IHt in VC as (N2 & ->); [|lia].
      cbn [map fst length seq]. rewrite map_app, N, N2, app_length, seq_app, map_app. split; [reflexivity|].
      do 2 f_equal. lia. }
  unfold after_visit. destruct (length (n_children n)) as [|todo] eqn:Z.
  - cbn in H. injection H as <- <- <-. cbn. auto.
  - cbn [Nat.eqb]. eapply (G todo 0); [lia|]. exact H.
Qed.

(** ** Setting up a part *)
Definition upd (b : bool) (m : mcrypto) : mcrypto := if b then successful_decryption m else m.
Definition decs (l : list node) : bool := existsb n_decrypted l.
Definition parts (c : cctx) (n : node) : list (option obj) := n_part n :: map Some (concat (map (preorder c) (n_children n))).
Lemma as_payload_pay o ch par i m : m_payload m = true -> as_payload o ch par i m = SetUp (plain_node o ch) m.
Proof. intros P. unfold as_payload, potential_payload. now rewrite P. Qed.
Lemma potential_sig_pay m s : m_payload m = true -> potential_sig_list m s = m.
Proof. intros P. unfold potential_sig_list. now rewrite P. Qed.
Lemma succ_pay m : m_payload (successful_decryption m) = m_payload m. Proof. reflexivity. Qed.
Lemma repair_shape o r : repair_mixed_up o = Some r ->
  exists i k p0 p1 p2 sg d i', o = OMulti i k [p0; p1; p2] sg d /\ r = OMulti i' MEncrypted [p1; p2] None d /\
    o_protocol i' = Some (lit "application/pgp-encrypted").
Proof.
  destruct o as [|i k ch sg d| |]; try discriminate. destruct ch as [|p0 [|p1 [|p2 [|]]]]; try discriminate.
  cbn [repair_mixed_up]. destruct (_ && _); [|discriminate]. intros E. injection E as <-. do 8 eexists. repeat split.
Qed.

(** Setting up a part that is not the payload. *)
Definition plain_step (c : cctx) (o : obj) (n : node) : Prop := map Some (preorder c o) = parts c n.
Ltac parts_tac := unfold plain_step, parts; cbn [preorder plain_node n_part n_children map concat]; rewrite ?app_nil_r; try reflexivity.

Lemma set_up_pay c o par i m n m1 : m_payload m = true -> set_up_part c o par i m = Some (n, m1) ->
  plain_step c o n /\ m1 = upd (n_decrypted n) m.
Proof.
  intros P. unfold set_up_part.
  assert (G : forall n m1, set_up_part1 c o par i m = SetUp n m1 -> plain_step c o n /\ m1 = upd (n_decrypted n) m).
  2:{ destruct (set_up_part1 c o par i m) as [n1 m2|o2 m2] eqn:E; [intros H; injection H as <- <-; now apply G|].
      exfalso. clear G. revert E. destruct o as [|oi k ch sg d| |oi [] (sg, u) d]; cbn [set_up_part1]; rewrite ?as_payload_pay by assumption; try discriminate.
      2:{ destruct (c_decrypt c); [|rewrite ?as_payload_pay by assumption; discriminate]. destruct (node_decrypt_and_verify _ _ _ _ _); discriminate. }
      destruct (match repair_mixed_up _ with Some r => r | None => _ end) as [|? [] ch' ? ?| |]; rewrite ?as_payload_pay by assumption; try discriminate.
      - destruct (c_verify c); [|discriminate]. destruct ch' as [|? [|? [|]]]; discriminate.
      - destruct (c_decrypt c); [|discriminate]. destruct ch' as [|? [|? [|]]]; try discriminate. destruct (node_decrypt_and_verify _ _ _ _ _); discriminate. }
  clear n m1. intros n m1.
  destruct o as [|oi k ch sg d| |oi [] (sg, u) d]; cbn [set_up_part1]; rewrite ?as_payload_pay by assumption.
  - intros H; injection H as <- <-. split; [parts_tac|reflexivity].
  - destruct (repair_mixed_up (OMulti oi k ch sg d)) as [r|] eqn:R.
    + destruct (repair_shape _ _ R) as (i0 & k0 & p0 & p1 & p2 & sg0 & d0 & i' & E & -> & _). injection E as -> -> -> -> ->.
      destruct (c_decrypt c) eqn:D.
      * unfold node_decrypt_and_verify. destruct d0 as [(cc, s0)|]; intros H; injection H as <- <-.
        -- split.
           ++ unfold plain_step. cbn [preorder]. rewrite R, D. unfold parts. cbn. now rewrite app_nil_r.
           ++ cbn [n_decrypted upd]. destruct s0; [|reflexivity]. now apply potential_sig_pay.
        -- split; [|reflexivity]. unfold plain_step. cbn [preorder]. rewrite R, D. unfold parts. cbn. now rewrite app_nil_r.
      * rewrite ?as_payload_pay by assumption. intros H; injection H as <- <-. split; [|reflexivity].
        unfold plain_step. cbn [preorder]. rewrite R, D. unfold parts. cbn. now rewrite app_nil_r.
    + destruct k.
      * rewrite ?as_payload_pay by assumption. intros H; injection H as <- <-. split; [|reflexivity]. unfold plain_step. cbn [preorder]. rewrite R. reflexivity.
      * destruct (c_verify c).
        -- destruct ch as [|c0 [|c1 [|c2 ch]]]; intros H; injection H as <- <-; (split; [unfold plain_step; cbn [preorder]; rewrite R; reflexivity|]); try reflexivity.
           cbn. now apply potential_sig_pay.
        -- rewrite ?as_payload_pay by assumption. intros H; injection H as <- <-. split; [|reflexivity]. unfold plain_step. cbn [preorder]. rewrite R. reflexivity.
      * destruct (c_decrypt c) eqn:D.
        -- destruct ch as [|c0 [|c1 [|c2 ch]]].
           1,2,4: intros H; injection H as <- <-; (split; [unfold plain_step; cbn [preorder]; rewrite R, ?D; reflexivity|reflexivity]).
           unfold node_decrypt_and_verify. destruct d as [(cc, s0)|]; intros H; injection H as <- <-.
           ++ split; [unfold plain_step; cbn [preorder]; rewrite R, D; unfold parts; cbn; now rewrite app_nil_r|].
              cbn [n_decrypted upd]. destruct s0; [|reflexivity]. now apply potential_sig_pay.
           ++ split; [|reflexivity]. unfold plain_step; cbn [preorder]; rewrite R, D; reflexivity.
        -- rewrite ?as_payload_pay by assumption. intros H; injection H as <- <-. split; [|reflexivity]. unfold plain_step. cbn [preorder]. rewrite R, D. reflexivity.
  - intros H; injection H as <- <-. split; [parts_tac|reflexivity].
  - cbn [node_verify]. intros H; injection H as <- <-. split; [destruct u; parts_tac|]. cbn. now apply potential_sig_pay.
  - destruct (c_decrypt c) eqn:D.
    + unfold node_decrypt_and_verify. destruct d as [(cc, s0)|]; intros H; injection H as <- <-.
      * split; [parts_tac; rewrite D; cbn; now rewrite ?app_nil_r|]. cbn [n_decrypted upd]. destruct s0; [|reflexivity]. now apply potential_sig_pay.
      * split; [parts_tac; now rewrite D|reflexivity].
    + rewrite ?as_payload_pay by assumption. intros H; injection H as <- <-. split; [parts_tac; now rewrite D|reflexivity].
  - intros H; injection H as <- <-. split; [parts_tac|reflexivity].
Qed.

(** ** Any part *)
Definition inv (m : mcrypto) : Prop :=
  (m_payload m = false -> m_dec m <> DEC_PARTIAL /\ m_psubject m = None) /\
  (m_psubject m <> None -> m_dec m = DEC_FULL \/ m_sigs m <> None) /\
  (m_sigenc m = true -> m_dec m = DEC_FULL).
Definition grow (m : mcrypto) (l : list node) (m1 : mcrypto) : Prop :=
  (m_payload m = true -> m_payload m1 = true /\ m_sigs m1 = m_sigs m /\ m_psubject m1 = m_psubject m /\ m_sigenc m1 = m_sigenc m) /\
  (m_dec m1 <> DEC_NONE <-> m_dec m <> DEC_NONE \/ decs l = true) /\
  (m_dec m = DEC_FULL -> m_dec m1 = DEC_FULL) /\
  (forall s, m_sigs m1 = Some s -> m_sigs m = Some s \/ exists n, In n l /\ n_sigs n = Some s) /\
  (inv m -> inv m1).
Lemma grow_refl m : grow m [] m.
Proof. unfold grow. split; [auto|]. split; [cbn; intuition congruence|]. auto. Qed.
Lemma grow_app m l m1 l' m2 : grow m l m1 -> grow m1 l' m2 -> grow m (l ++ l') m2.
Proof.
  intros (A1 & A2 & A3 & A4 & A5) (B1 & B2 & B3 & B4 & B5). unfold grow. split; [|split; [|split; [|split]]].
  - intros P. destruct (A1 P) as (Q & ? & ? & ?). destruct (B1 Q) as (R & ? & ? & ?). repeat split; congruence.
  - unfold decs in *. rewrite existsb_app, orb_true_iff. tauto.
  - auto.
  - intros s H. destruct (B4 s H) as [H1|(n & I & N)]; [destruct (A4 s H1) as [|(n & I & N)]; [now left|]|];
      right; exists n; rewrite in_app_iff; auto.
  - auto.
Qed.
Lemma grow_upd m n : grow m [n] (upd (n_decrypted n) m).
Proof.
  unfold grow, decs, upd. cbn [existsb]. rewrite orb_false_r. destruct (n_decrypted n).
  - split; [auto|]. split; [|split; [|split]].
    + split; [auto|]. intros _. unfold successful_decryption; cbn. destruct (m_payload m), (m_dec m); discriminate.
    + unfold successful_decryption; cbn. intros ->. now destruct (m_payload m).
    + auto.
    + unfold successful_decryption, inv; cbn. intros (A & B & C). split; [|split].
      * intros P. rewrite P. split; [discriminate|]. now apply A.
      * intros P. destruct (B P) as [Q|Q]; [|auto]. left. rewrite Q. now destruct (m_payload m).
      * intros P. rewrite (C P). now destruct (m_payload m).
  - split; [auto|]. split; [intuition congruence|]. auto.
Qed.
Lemma grow_sig m n : n_decrypted n = false -> grow m [n] (potential_sig_list m (n_sigs n)).
Proof.
  intros D. unfold grow, decs. cbn [existsb]. rewrite D. unfold potential_sig_list. destruct (m_payload m) eqn:P.
  - split; [auto|]. split; [cbn; intuition congruence|]. auto.
  - split; [discriminate|]. split; [cbn; intuition congruence|]. split; [cbn; auto|]. split.
    + cbn. intros s H. right. exists n. auto.
    + unfold inv. cbn. rewrite P. intros (A & B & C). destruct (A eq_refl) as (A1 & A2).
      split; [auto|]. split; [congruence|]. destruct (m_dec m); cbn; auto.
Qed.
Lemma grow_dec_sig m n : n_decrypted n = true ->
  grow m [n] (match n_sigs n with Some _ => potential_sig_list (successful_decryption m) (n_sigs n) | None => successful_decryption m end).
Proof.
  intros D. assert (G := grow_upd m n). rewrite D in G. cbn [upd] in G. destruct (n_sigs n) as [s0|] eqn:S; [|exact G].
  set (m1 := successful_decryption m) in *. clearbody m1. destruct G as (G1 & G2 & G3 & G4 & G5). unfold potential_sig_list.
  destruct (m_payload m1) eqn:P; [split; [intros Q; destruct (G1 Q) as (_ & R); now split|auto]|]. split; [intros Q; destruct (G1 Q) as (X & _); cbn in X; congruence|].
  split; [exact G2|]. split; [exact G3|]. split.
  - cbn. intros s H. right. exists n. rewrite S. auto.
  - intros I. specialize (G5 I). revert G5. unfold inv. cbn. rewrite P. intros (A & B & C). destruct (A eq_refl) as (A1 & A2).
    split; [auto|]. split; [congruence|]. destruct (m_dec m1); cbn; auto.
Qed.
(** The payload. *)
Definition pay (m : mcrypto) (o : obj) : mcrypto :=
  if negb (is_full (m_dec m)) && match m_sigs m with None => true | Some _ => false end
  then {| m_dec := m_dec m; m_sigs := m_sigs m; m_payload := true; m_psubject := m_psubject m; m_sigenc := m_sigenc m |}
  else {| m_dec := m_dec m; m_sigs := m_sigs m; m_payload := true;
          m_psubject := match exported_subject o with Some s => Some s | None => m_psubject m end; m_sigenc := m_sigenc m |}.
Lemma as_payload_eq o ch par i m : m_payload m = false ->
  as_payload o ch par i m =
  if is_control par i o then SetUp (plain_node o ch) m
  else match (if is_full (m_dec m) then skip_legacy_display o else None) with
       | Some clean => Again clean (pay m o)
       | None => SetUp (plain_node o ch) (pay m o)
       end.
Proof.
  intros P. unfold as_payload, potential_payload, pay. rewrite P. destruct (is_control par i o); [reflexivity|].
  destruct (is_full (m_dec m)) eqn:F; cbn [negb andb].
  - cbn [m_dec]. rewrite F. now destruct (skip_legacy_display o).
  - destruct (m_sigs m); cbn [m_dec andb]; rewrite ?F; reflexivity.
Qed.
Lemma pay_pay m o : m_payload (pay m o) = true /\ m_dec (pay m o) = m_dec m /\ m_sigs (pay m o) = m_sigs m /\ m_sigenc (pay m o) = m_sigenc m.
Proof. unfold pay. now destruct (negb _ && _). Qed.
Lemma inv_pay m o : inv m -> inv (pay m o).
Proof.
  unfold inv. intros (I1 & I2 & I3). unfold pay. destruct (m_dec m) eqn:F, (m_sigs m) eqn:S; cbn;
    (split; [discriminate|split; [|intros Q; rewrite ?F; now apply I3]]); rewrite ?F; auto; try (intros _; right; discriminate).
Qed.
Lemma grow_pay0 m o : m_payload m = false -> grow m [] (pay m o).
Proof.
  intros P. destruct (pay_pay m o) as (A & B & C & E). unfold grow, decs. cbn [existsb]. rewrite B, C.
  split; [congruence|]. split; [intuition congruence|]. split; [auto|]. split; [auto|apply inv_pay].
Qed.
Lemma grow_pay m n o : m_payload m = false -> n_decrypted n = false -> grow m [n] (pay m o).
Proof.
  intros P D. change [n] with ([] ++ [n]). eapply grow_app; [now apply grow_pay0|].
  assert (G := grow_upd (pay m o) n). rewrite D in G. exact G.
Qed.
Lemma grow_again m n o : m_payload m = false -> grow m [n] (upd (n_decrypted n) (pay m o)).
Proof.
  intros P. change [n] with ([] ++ [n]). eapply grow_app; [now apply grow_pay0|apply grow_upd].
Qed.
Definition hides (c : cctx) (o : list obj) (l : list node) : Prop :=
  exists a b x q, o = a ++ preorder c x ++ b /\ skip_legacy_display x = Some q /\ map n_part l = map Some (a ++ preorder c q ++ b).
Lemma set_up_any c o par i m n m1 : set_up_part c o par i m = Some (n, m1) -> grow m [n] m1 /\
  (plain_step c o n \/
   m_payload m = false /\ m_payload m1 = true /\ m_dec m1 = DEC_FULL /\ exists q, skip_legacy_display o = Some q /\ plain_step c q n).
Proof.
  destruct (m_payload m) eqn:P.
  { intros H. apply set_up_pay in H as (A & ->); [|assumption]. split; [apply grow_upd|now left]. }
  intros H.
  assert (PL : forall o' ch, (plain_step c o' (plain_node o' ch) -> plain_step c o (plain_node o' ch)) ->
     set_up_part1 c o par i m = as_payload o' ch par i m ->
     plain_step c o' (plain_node o' ch) -> (skip_legacy_display o' <> None -> o' = o) ->
     grow m [n] m1 /\ (plain_step c o n \/
        false = false /\ m_payload m1 = true /\ m_dec m1 = DEC_FULL /\ exists q, skip_legacy_display o = Some q /\ plain_step c q n)).
  { intros o' ch SS E S SK. unfold set_up_part in H. rewrite E, as_payload_eq in H by assumption.
    assert (GM : grow m [plain_node o' ch] m).
    { apply (grow_upd m (plain_node o' ch)). }
    destruct (is_control par i o').
    { injection H as <- <-. split; [exact GM|]. left. auto. }
    destruct (is_full (m_dec m)) eqn:F.
    2:{ injection H as <- <-. split; [now apply grow_pay|]. left. auto. }
    destruct (skip_legacy_display o') as [q|] eqn:K.
    2:{ injection H as <- <-. split; [now apply grow_pay|]. left. auto. }
    assert (o' = o) as -> by (apply SK; discriminate).
    destruct (pay_pay m o) as (Q1 & Q2 & Q3 & Q4).
    assert (H' : set_up_part c q par i (pay m o) = Some (n, m1)).
    { unfold set_up_part. destruct (set_up_part1 c q par i (pay m o)); [exact H|discriminate H]. }
    apply set_up_pay in H' as (S' & ->); [|assumption]. split; [now apply grow_again|]. right. repeat split; auto.
    - destruct (n_decrypted n); cbn; auto.
    - unfold upd. destruct (m_dec m) eqn:DD; try discriminate F. destruct (n_decrypted n); [|exact Q2].
      unfold successful_decryption. cbn. now rewrite Q1, Q2.
    - exists q. auto. }
  destruct o as [oi t|oi k ch sg d|oi sj body|oi [] (sg, u) d].
  - apply (PL (OPart oi t) []); auto. parts_tac.
  - revert H PL. unfold set_up_part. cbn [set_up_part1]. destruct (repair_mixed_up (OMulti oi k ch sg d)) as [r|] eqn:R.
    + destruct (repair_shape _ _ R) as (i0 & k0 & p0 & p1 & p2 & sg0 & d0 & i' & E & -> & _). injection E as -> -> -> -> ->.
      assert (SS : forall n, plain_step c (OMulti i' MEncrypted [p1; p2] None d0) n -> plain_step c (OMulti i0 k0 [p0; p1; p2] sg0 d0) n).
      { intros n0. unfold plain_step. cbn [preorder]. rewrite R. cbn [repair_mixed_up]. intros <-. cbn [map concat].
        destruct (c_decrypt c), d0 as [(uu, s0)|]; cbn; now rewrite ?app_nil_r. }
      destruct (c_decrypt c) eqn:D; cbn [set_up_part1].
      * unfold node_decrypt_and_verify. destruct d0 as [(cc, s0)|]; intros H PL; injection H as <- <-; (split; [|left; apply SS]).
        -- apply (grow_dec_sig m {| n_part := _; n_children := _; n_verify := _; n_sigs := _; n_decrypted := true |} eq_refl).
        -- unfold plain_step. cbn [preorder repair_mixed_up]. rewrite D. unfold parts; cbn. now rewrite app_nil_r.
        -- apply (grow_upd m (plain_node _ _)).
        -- unfold plain_step. cbn [preorder repair_mixed_up]. now rewrite D.
      * intros H PL. apply (PL (OMulti i' MEncrypted [p1; p2] None d0) [p1; p2]); auto.
        -- unfold plain_step. cbn [preorder repair_mixed_up]. now rewrite D.
        -- intros X. exfalso. apply X. cbn [skip_legacy_display]. destruct (repair_shape _ _ R) as (? & ? & ? & ? & ? & ? & ? & ? & _ & RR & _).
           cbn [repair_mixed_up] in R. destruct (_ && _) in R; [|discriminate R]. injection R as <-. reflexivity.
    + destruct k.
      * intros H PL. apply (PL (OMulti oi MPlain ch sg d) ch); auto. unfold plain_step. cbn [preorder]. now rewrite R.
      * destruct (c_verify c) eqn:D.
        -- destruct ch as [|c0 [|c1 [|c2 ch]]]; intros H PL; injection H as <- <-; (split; [|left; unfold plain_step; cbn [preorder]; rewrite R; reflexivity]);
             try apply (grow_upd m (plain_node _ _)).
           apply (grow_sig m {| n_part := _; n_children := _; n_verify := _; n_sigs := _; n_decrypted := false |} eq_refl).
        -- intros H PL. apply (PL (OMulti oi MSigned ch sg d) ch); auto. unfold plain_step. cbn [preorder]. now rewrite R.
      * destruct (c_decrypt c) eqn:D.
        -- destruct ch as [|c0 [|c1 [|c2 ch]]].
           1,2,4: intros H PL; injection H as <- <-; (split; [apply (grow_upd m (plain_node _ _))|left; unfold plain_step; cbn [preorder]; rewrite R, ?D; reflexivity]).
           unfold node_decrypt_and_verify. destruct d as [(cc, s0)|]; intros H PL; injection H as <- <-; (split; [|left]).
           ++ apply (grow_dec_sig m {| n_part := _; n_children := _; n_verify := _; n_sigs := _; n_decrypted := true |} eq_refl).
           ++ unfold plain_step; cbn [preorder]; rewrite R, D; unfold parts; cbn; now rewrite app_nil_r.
           ++ apply (grow_upd m (plain_node _ _)).
           ++ unfold plain_step; cbn [preorder]; rewrite R, D; reflexivity.
        -- intros H PL. apply (PL (OMulti oi MEncrypted ch sg d) ch); auto. unfold plain_step. cbn [preorder]. now rewrite R, D.
  - apply (PL (OMessage oi sj body) [body]); auto. parts_tac.
  - cbn in H. injection H as <- <-. split; [|left; destruct u; parts_tac].
    apply (grow_sig m {| n_part := _; n_children := _; n_verify := _; n_sigs := _; n_decrypted := false |} eq_refl).
  - destruct (c_decrypt c) eqn:D.
    + unfold set_up_part in H. cbn [set_up_part1] in H. rewrite D in H. unfold node_decrypt_and_verify in H. destruct d as [(cc, s0)|]; injection H as <- <-; (split; [|left]).
      * apply (grow_dec_sig m {| n_part := _; n_children := _; n_verify := _; n_sigs := _; n_decrypted := true |} eq_refl).
      * parts_tac. rewrite D. cbn. now rewrite ?app_nil_r.
      * apply (grow_upd m (plain_node _ _)).
      * parts_tac. now rewrite D.
    + apply (PL (OPkcs7 oi SM_enveloped (sg, u) d) []); auto; [cbn [set_up_part1]; now rewrite D|]. parts_tac. now rewrite D.
  - apply (PL (OPkcs7 oi SM_other (sg, u) d) []); auto. parts_tac.
Qed.

(** ** Walking *)
Lemma walk_obj_S f c par i o m : walk_obj (S f) c par i o m =
  match set_up_part c o par i m with
  | None => None
  | Some (n, m1) => match walk_children (walk f c) c (n_part n) 0 (n_children n) m1 with Some (l, m2) => Some (n :: l, m2) | None => None end
  end.
Proof. reflexivity. Qed.
Lemma hides_ext c a o b la l lb : map n_part la = map Some a -> map n_part lb = map Some b -> hides c o l -> hides c (a ++ o ++ b) (la ++ l ++ lb).
Proof.
  intros A B (a0 & b0 & x & q & -> & S & L). exists (a ++ a0), (b0 ++ b), x, q. split; [now rewrite !app_assoc|]. split; [exact S|].
  rewrite !map_app in *. rewrite A, B, L. now rewrite !app_assoc.
Qed.
Definition shown (c : cctx) (o : list obj) (m : mcrypto) (l : list node) (m1 : mcrypto) : Prop :=
  grow m l m1 /\ (map n_part l = map Some o \/ m_payload m = false /\ m_payload m1 = true /\ m_dec m1 = DEC_FULL /\ hides c o l).
Lemma shown_app c o m l m1 o' l' m2 : shown c o m l m1 -> shown c o' m1 l' m2 -> shown c (o ++ o') m (l ++ l') m2.
Proof.
  intros (G & [A|(P & P1 & D & H)]) (G' & [A'|(P' & P1' & D' & H')]); (split; [eapply grow_app; eassumption|]).
  - left. now rewrite !map_app, A, A'.
  - right. repeat split; auto.
    + destruct (m_payload m) eqn:Q; [|reflexivity]. destruct G as (G & _). destruct (G Q). congruence.
    + apply (hides_ext c o o' [] l l' []) in H'; auto. now rewrite !app_nil_r in H'.
  - right. destruct G' as (G1 & _ & G3 & _). repeat split; auto; [now apply G1|].
    apply (hides_ext c [] o o' [] l l' eq_refl A') in H. exact H.
  - congruence.
Qed.
Lemma walk_children_shown f c (IH : forall par i o m l m1, walk_obj f c par i o m = Some (l, m1) -> shown c (preorder c o) m l m1) :
  forall todo par i m l m1, walk_children (walk f c) c par i todo m = Some (l, m1) -> shown c (concat (map (preorder c) todo)) m l m1.
Proof.
  induction todo as [|o todo IHt]; intros par i m l m1 H.
  - cbn in H. injection H as <- <-. split; [apply grow_refl|now left].
  - rewrite walk_children_cons in H. destruct (walk_obj f c par i o m) as [(l1, m2)|] eqn:W; [|discriminate H].
    destruct (walk_children _ _ _ _ _ _) as [(l2, m3)|] eqn:WC; [|discriminate H]. injection H as <- <-.
    cbn [map concat]. eapply shown_app; [eapply IH; eassumption|eapply IHt; eassumption].
Qed.
Lemma walk_shown f c : forall par i o m l m1, walk_obj f c par i o m = Some (l, m1) -> shown c (preorder c o) m l m1.
Proof.
  induction f as [|f IH]; intros par i o m l m1 H.
  - unfold walk_obj in H. destruct (set_up_part c o par i m) as [(n, m2)|]; discriminate H.
  - rewrite walk_obj_S in H. destruct (set_up_part c o par i m) as [(n, m2)|] eqn:S; [|discriminate H].
    destruct (walk_children _ _ _ _ _ _) as [(l2, m3)|] eqn:WC; [|discriminate H]. injection H as <- <-.
    apply (walk_children_shown f c IH) in WC. apply set_up_any in S as (G & [P|(P & P1 & D & q & SK & PS)]).
    + destruct WC as (G2 & [L|(Q & Q1 & QD & HD)]); (split; [apply (grow_app m [n] m2 l2 m3 G G2)|]).
      * left. unfold plain_step, parts in P. cbn [map]. now rewrite L, P.
      * right. repeat split; auto.
        -- destruct (m_payload m) eqn:X; [|reflexivity]. destruct G as (G & _). destruct (G X). congruence.
        -- unfold plain_step, parts in P. destruct (preorder c o) as [|o1 rest] eqn:PO; [discriminate P|]. cbn [map] in P. injection P as P0 PR.
           assert (rest = concat (map (preorder c) (n_children n))) as ->.
           { clear - PR. revert PR. generalize (concat (map (preorder c) (n_children n))). induction rest as [|x r IH]; intros [|y l] E; try discriminate E; [reflexivity|].
             cbn in E. injection E as -> E. f_equal. auto. }
           apply (hides_ext c [o1] _ [] [n] l2 []) in HD; [now rewrite !app_nil_r in HD|cbn; now rewrite P0|reflexivity].
    + destruct WC as (G2 & [L|(Q & _)]); [|congruence]. split; [apply (grow_app m [n] m2 l2 m3 G G2)|]. right.
      destruct G2 as (G1 & _ & G3 & _). repeat split; auto; [now apply G1|].
      exists [], [], o, q. rewrite !app_nil_r. split; [reflexivity|]. split; [exact SK|]. unfold plain_step, parts in PS. cbn [map app]. now rewrite L, PS.
Qed.
(** After the payload. *)
Lemma walk_children_pay f c (IH : forall par i o m l m1, m_payload m = true -> walk_obj f c par i o m = Some (l, m1) -> m1 = upd (decs l) m) :
  forall todo par i m l m1, m_payload m = true -> walk_children (walk f c) c par i todo m = Some (l, m1) -> m1 = upd (decs l) m.
Proof.
  induction todo as [|o todo IHt]; intros par i m l m1 P H.
  - cbn in H. now injection H as <- <-.
  - rewrite walk_children_cons in H. destruct (walk_obj f c par i o m) as [(l1, m2)|] eqn:W; [|discriminate H].
    destruct (walk_children _ _ _ _ _ _) as [(l2, m3)|] eqn:WC; [|discriminate H]. injection H as <- <-.
    apply IH in W; [|assumption]. apply IHt in WC; [|subst m2; unfold upd; now destruct (decs l1)]. subst m2 m3.
    unfold decs. rewrite existsb_app. fold (decs l1) (decs l2).
    destruct (decs l1), (decs l2); cbn; auto. unfold successful_decryption; cbn. rewrite P. now destruct (m_dec m).
Qed.
Lemma walk_pay f c : forall par i o m l m1, m_payload m = true -> walk_obj f c par i o m = Some (l, m1) -> m1 = upd (decs l) m.
Proof.
  induction f as [|f IH]; intros par i o m l m1 P H.
  - unfold walk_obj in H. destruct (set_up_part c o par i m) as [(n, m2)|]; discriminate H.
  - rewrite walk_obj_S in H. destruct (set_up_part c o par i m) as [(n, m2)|] eqn:S; [|discriminate H].
    destruct (walk_children _ _ _ _ _ _) as [(l2, m3)|] eqn:WC; [|discriminate H]. injection H as <- <-.
    apply set_up_pay in S as (_ & E); [|assumption]. subst m2. apply (walk_children_pay f c IH) in WC; [|unfold upd; now destruct (n_decrypted n)].
    subst m3. cbn [decs existsb]. fold (decs l2). destruct (n_decrypted n), (decs l2); cbn; auto. unfold successful_decryption; cbn. rewrite P. now destruct (m_dec m).
Qed.

(** ** Totality *)
Lemma depth_pos o : 0 < depth o. Proof. destruct o as [| | |? ? (?, ?) ?]; cbn; lia. Qed.
Lemma list_max_in x l : In x l -> x <= list_max l.
Proof. intros I. assert (H := proj1 (list_max_le l (list_max l)) (le_n _)). rewrite Forall_forall in H. now apply H. Qed.
Lemma depth_child x ch : In x ch -> depth x <= list_max (map depth ch).
Proof. intros I. apply list_max_in. now apply in_map. Qed.
Lemma depth_repair o r : repair_mixed_up o = Some r -> depth r <= depth o.
Proof. intros R. destruct (repair_shape _ _ R) as (i0 & k0 & p0 & p1 & p2 & sg0 & d0 & i' & -> & -> & _). cbn. lia. Qed.
Lemma depth_skip o q : skip_legacy_display o = Some q -> depth q < depth o.
Proof.
  destruct o as [|i k ch sg d| |]; try discriminate. destruct k; try discriminate. destruct ch as [|p0 [|p1 [|p2 ch]]]; try discriminate.
  cbn [skip_legacy_display]. destruct (_ && _); [|discriminate]. intros E. injection E as <-. cbn. lia.
Qed.
Definition small (o : obj) (n : node) : Prop := forall x, In x (n_children n) -> depth x < depth o.
Lemma as_payload_small o ch par i m : small o (plain_node o ch) ->
  match as_payload o ch par i m with
  | SetUp n m1 => small o n
  | Again q m1 => m_payload m1 = true /\ depth q < depth o
  end.
Proof.
  intros S. destruct (m_payload m) eqn:P.
  - now rewrite as_payload_pay.
  - rewrite as_payload_eq by assumption. destruct (is_control par i o); [exact S|]. destruct (is_full (m_dec m)); [|exact S].
    destruct (skip_legacy_display o) as [q|] eqn:K; [|exact S]. split; [apply pay_pay|now apply depth_skip].
Qed.
Lemma set_up1_small c o par i m :
  match set_up_part1 c o par i m with
  | SetUp n m1 => small o n
  | Again q m1 => m_payload m1 = true /\ depth q < depth o
  end.
Proof.
  destruct o as [oi t|oi k ch sg d|oi sj body|oi [] (sg, u) d]; cbn [set_up_part1].
  - apply as_payload_small. intros x [].
  - destruct (repair_mixed_up (OMulti oi k ch sg d)) as [r|] eqn:R.
    + assert (RD := depth_repair _ _ R).
      destruct (repair_shape _ _ R) as (i0 & k0 & p0 & p1 & p2 & sg0 & d0 & i' & E & -> & _). injection E as -> -> -> -> ->.
      set (big := OMulti i0 k0 [p0; p1; p2] sg0 d0) in *. destruct (c_decrypt c).
      * unfold node_decrypt_and_verify. destruct d0 as [(u, s0)|]; intros x; cbn; intuition subst; cbn; lia.
      * assert (A := as_payload_small (OMulti i' MEncrypted [p1; p2] None d0) [p1; p2] par i m).
        destruct (as_payload _ _ _ _ _) as [n m1|q m1].
        -- intros x I. enough (depth x < depth (OMulti i' MEncrypted [p1; p2] None d0)) by lia. apply A; [|exact I].
           intros y; cbn; intuition subst; lia.
        -- destruct A as (A1 & A2); [|split; [exact A1|lia]]. intros y; cbn; intuition subst; lia.
    + assert (S : small (OMulti oi k ch sg d) (plain_node (OMulti oi k ch sg d) ch)).
      { intros x I. cbn in I. apply depth_child in I. cbn. lia. }
      destruct k.
      * now apply as_payload_small.
      * destruct (c_verify c); [|now apply as_payload_small]. destruct ch as [|c0 [|c1 [|c2 ch]]]; exact S.
      * destruct (c_decrypt c); [|now apply as_payload_small]. destruct ch as [|c0 [|c1 [|c2 ch]]]; try exact S.
        unfold node_decrypt_and_verify. destruct d as [(u, s0)|]; [|exact S]. intros x; cbn; intuition subst; lia.
  - apply as_payload_small. intros x [<-|[]]. cbn. lia.
  - cbn. intros x. destruct u; cbn; [|tauto]. intros [<-|[]]. lia.
  - destruct (c_decrypt c); [|apply as_payload_small; intros x []].
    unfold node_decrypt_and_verify. destruct d as [(uu, s0)|]; [|intros x []]. intros x [<-|[]]. cbn. lia.
  - apply as_payload_small. intros x [].
Qed.
Lemma set_up_total c o par i m : exists n m1, set_up_part c o par i m = Some (n, m1) /\ small o n.
Proof.
  unfold set_up_part. assert (A := set_up1_small c o par i m). destruct (set_up_part1 c o par i m) as [n m1|q m1]; [eauto|].
  destruct A as (P & D). assert (B := set_up1_small c q par i m1). destruct (set_up_part1 c q par i m1) as [n m2|q' m2] eqn:E.
  - exists n, m2. split; [reflexivity|]. intros x I. specialize (B x I). lia.
  - exfalso. clear B. revert E. destruct q as [|oi k ch sg d| |oi [] (sg, u) d]; cbn [set_up_part1]; rewrite ?as_payload_pay by assumption; try discriminate.
    2:{ destruct (c_decrypt c); rewrite ?as_payload_pay by assumption; [|discriminate]. destruct (node_decrypt_and_verify _ _ _ _ _); discriminate. }
    destruct (match repair_mixed_up _ with Some r => r | None => _ end) as [|? [] ch' ? ?| |]; rewrite ?as_payload_pay by assumption; try discriminate.
    + destruct (c_verify c); [|discriminate]. destruct ch' as [|? [|? [|]]]; discriminate.
    + destruct (c_decrypt c); [|discriminate]. destruct ch' as [|? [|? [|]]]; try discriminate. destruct (node_decrypt_and_verify _ _ _ _ _); discriminate.
Qed.
Lemma walk_total c f : forall n m, 0 < f -> (forall x, In x (n_children n) -> depth x < f) -> exists l m1, walk f c n m = Some (l, m1).
Proof.
  induction f as [|f IH]; intros n m F H; [lia|]. cbn [walk]. generalize 0 as i. revert m. generalize (n_part n) as par.
  induction (n_children n) as [|o todo IHt]; intros par m i; [cbn; eauto|].
  rewrite walk_children_cons. unfold walk_obj. destruct (set_up_total c o par i m) as (n1 & m1 & -> & S).
  destruct (IH n1 m1) as (l1 & m2 & ->).
  - specialize (H o (or_introl eq_refl)). assert (X := depth_pos o). lia.
  - intros x I. specialize (S x I). specialize (H o (or_introl eq_refl)). lia.
  - destruct (IHt (fun x I => H x (or_intror I)) par m2 (Datatypes.S i)) as (l2 & m3 & ->). eauto.
Qed.
Lemma walk_obj_total c f par i o m : depth o <= f -> exists l m1, walk_obj f c par i o m = Some (l, m1).
Proof.
  intros D. unfold walk_obj. destruct (set_up_total c o par i m) as (n1 & m1 & -> & S).
  destruct (walk_total c f n1 m1) as (l & m2 & ->); eauto.
  - assert (X := depth_pos o). lia.
  - intros x I. specialize (S x I). lia.
Qed.

(** ** The envelope *)
Definition settled (m : mcrypto) (ls : list layer) (p : obj) (l : list node) (m' : mcrypto) : Prop :=
  m_payload m' = true /\
  m_sigs m' = match innermost ls with Some s => Some s | None => m_sigs m end /\
  m_dec m' = (if is_full (m_dec m) || encrypted ls then DEC_FULL else if decs l then DEC_PARTIAL else DEC_NONE) /\
  m_sigenc m' = m_sigenc m || (if is_full (m_dec m) then match innermost ls with Some _ => true | None => false end else signed_inside ls) /\
  m_psubject m' = if is_full (m_dec m) || encrypted ls || match innermost ls, m_sigs m with None, None => false | _, _ => true end
                  then match exported_subject p with Some s => Some s | None => m_psubject m end else m_psubject m.
Lemma upd_settled b m : m_payload m = true -> m_dec m <> DEC_PARTIAL ->
  upd b m = {| m_dec := if is_full (m_dec m) then DEC_FULL else if b then DEC_PARTIAL else DEC_NONE;
               m_sigs := m_sigs m; m_payload := true; m_psubject := m_psubject m; m_sigenc := m_sigenc m |}.
Proof.
  intros P D. unfold upd, successful_decryption. destruct m as [d s p ps se]; cbn in *. subst p. destruct b, d; cbn; congruence.
Qed.
Lemma not_crypto_set_up c p par i m : repair_mixed_up p = None -> not_crypto c p -> m_payload m = false ->
  (forall x, is_control par i x = false) ->
  exists n m1, set_up_part c p par i m = Some (n, m1) /\
    plain_step c (if is_full (m_dec m) then without_legacy_display p else p) n /\ m1 = upd (n_decrypted n) (pay m p).
Proof.
  intros R N P C. destruct (set_up_total c p par i m) as (n & m1 & E & _). exists n, m1. split; [exact E|].
  assert (PL : forall ch, set_up_part1 c p par i m = as_payload p ch par i m -> plain_step c p (plain_node p ch) ->
     plain_step c (if is_full (m_dec m) then without_legacy_display p else p) n /\ m1 = upd (n_decrypted n) (pay m p)).
  { intros ch S PS. unfold set_up_part in E. rewrite S, as_payload_eq, C in E by assumption. unfold without_legacy_display.
    destruct (is_full (m_dec m)); [destruct (skip_legacy_display p) as [q|]|]; [|injection E as <- <-; auto|injection E as <- <-; auto].
    assert (H' : set_up_part c q par i (pay m p) = Some (n, m1)).
    { unfold set_up_part. destruct (set_up_part1 c q par i (pay m p)); [exact E|discriminate E]. }
    apply set_up_pay in H'; [assumption|apply pay_pay]. }
  destruct p as [oi t|oi k ch sg d|oi sj body|oi [] (sg, u) d]; cbn [not_crypto] in N.
  - apply (PL []); [reflexivity|parts_tac].
  - apply (PL ch); [cbn [set_up_part1]; rewrite R; destruct k; rewrite ?N; reflexivity|].
    unfold plain_step. cbn [preorder]. rewrite R. destruct k; rewrite ?N; reflexivity.
  - apply (PL [body]); [reflexivity|parts_tac].
  - contradiction.
  - apply (PL []); [cbn [set_up_part1]; now rewrite N|parts_tac; now rewrite N].
  - apply (PL []); [reflexivity|parts_tac].
Qed.
Lemma walk_control f c i k ch sg d vi vt m l m1 : o_protocol i = Some (o_mime vi) -> k = MEncrypted ->
  walk_obj f c (Some (OMulti i k ch sg d)) 0 (OPart vi vt) m = Some (l, m1) -> m1 = m /\ map n_part l = [Some (OPart vi vt)] /\ decs l = false.
Proof.
  intros P ->. unfold walk_obj, set_up_part. cbn [set_up_part1].
  assert (E : as_payload (OPart vi vt) [] (Some (OMulti i MEncrypted ch sg d)) 0 m = SetUp (plain_node (OPart vi vt) []) m).
  { destruct (m_payload m) eqn:Q; [now apply as_payload_pay|]. rewrite as_payload_eq by assumption. cbn [is_control Nat.eqb info_of andb]. rewrite P. cbn [param_is].
    now rewrite bseq_refl. }
  rewrite E. destruct f; [discriminate|]. cbn. intros H. now injection H as <- <-.
Qed.
Lemma decs_app a b : decs (a ++ b) = decs a || decs b. Proof. apply existsb_app. Qed.

Lemma upd_upd a b m : m_payload m = true -> upd b (upd a m) = upd (a || b) m.
Proof. intros P. destruct a, b; cbn; auto. unfold successful_decryption; cbn. rewrite P. now destruct (m_dec m). Qed.
Lemma upd_payload b m : m_payload (upd b m) = m_payload m. Proof. now destruct b. Qed.
Lemma settled_upd m ls p l m' b l2 : settled m ls p l m' -> decs l2 = decs l || b -> settled m ls p l2 (upd b m').
Proof.
  intros (P & S & D & E & U) L. unfold settled. rewrite L. destruct b; cbn [upd].
  - rewrite orb_true_r. unfold successful_decryption; cbn. rewrite P, S, D, E, U. repeat split.
    destruct (is_full (m_dec m) || encrypted ls); [reflexivity|]. now destruct (decs l).
  - rewrite orb_false_r. now repeat split.
Qed.
Lemma walk_control' f c par i vi vt m l m1 : is_control par i (OPart vi vt) = true ->
  walk_obj f c par i (OPart vi vt) m = Some (l, m1) -> m1 = m /\ map n_part l = [Some (OPart vi vt)] /\ decs l = false.
Proof.
  intros P. unfold walk_obj, set_up_part. cbn [set_up_part1].
  assert (E : as_payload (OPart vi vt) [] par i m = SetUp (plain_node (OPart vi vt) []) m).
  { destruct (m_payload m) eqn:Q; [now apply as_payload_pay|]. rewrite as_payload_eq by assumption. now rewrite P. }
  rewrite E. destruct f; [discriminate|]. cbn. intros H. now injection H as <- <-.
Qed.
(** One layer of encryption. *)
Lemma settled_encrypted m s ls p n l1 m2 : m_payload m = false -> n_decrypted n = true ->
  settled (match s with Some _ => potential_sig_list (successful_decryption m) s | None => successful_decryption m end) ls p l1 m2 ->
  forall l2, settled m (LEncrypted s :: ls) p l2 m2.
Proof.
  intros P N (A & B & C & D & E) l2. unfold settled. cbn [innermost encrypted existsb signature_in signed_inside]. fold (encrypted ls).
  assert (F : is_full (m_dec (match s with Some _ => potential_sig_list (successful_decryption m) s | None => successful_decryption m end)) = true).
  { destruct s; unfold potential_sig_list; cbn; rewrite P; reflexivity. }
  rewrite F in *. cbn [orb] in *. split; [exact A|]. split.
  { rewrite B. destruct (innermost ls); [reflexivity|]. destruct s; [|reflexivity]. unfold potential_sig_list. cbn. now rewrite P. }
  split; [rewrite C; now rewrite orb_true_r|]. split.
  { rewrite D. destruct s; unfold potential_sig_list; cbn; rewrite ?P; destruct (innermost ls), (is_full (m_dec m)), (m_sigenc m); reflexivity. }
  rewrite E. rewrite orb_true_r. cbn [orb]. destruct s; unfold potential_sig_list; cbn; rewrite ?P; reflexivity.
Qed.
Lemma settled_signed m s ls p l1 m2 : m_payload m = false -> settled (potential_sig_list m (Some s)) ls p l1 m2 ->
  forall l2, decs l2 = decs l1 -> settled m (LSigned s :: ls) p l2 m2.
Proof.
  intros P. unfold potential_sig_list. rewrite P. intros (A & B & C & D & E) l2 L. cbn in *. unfold settled. cbn [innermost encrypted existsb signature_in signed_inside]. fold (encrypted ls).
  cbn [orb]. split; [exact A|]. split; [rewrite B; now destruct (innermost ls)|]. split; [now rewrite C, L|]. split.
  - rewrite D. destruct (is_full (m_dec m)); [|reflexivity]. destruct (innermost ls); now rewrite ?orb_true_r.
  - rewrite E. destruct (innermost ls); now rewrite ?orb_true_r.
Qed.
Lemma envelope_walk c o ls before p after : envelope c o ls before p after -> forall f par i m l m',
  m_payload m = false -> m_dec m <> DEC_PARTIAL -> (forall x, is_control par i x = false) ->
  walk_obj f c par i o m = Some (l, m') ->
  map n_part l = map Some (before ++ preorder c (if is_full (m_dec m) || encrypted ls then without_legacy_display p else p) ++ after) /\
  settled m ls p l m'.
Proof.
  induction 1 as [p R N|i content si st s d ls before p after V o E IH|i vi vt e sg content s ls before p after V o PR E IH
    |i k p0 vi vt e sg content s r ls before p after V o R MT E IH|i content s d ls before p after o E IH|i v content s ls before p after V o E IH];
    intros f par i0 m l m' P D C W;
    (destruct f as [|f]; [unfold walk_obj in W; destruct (set_up_part _ _ _ _ _) as [(n, m1)|]; discriminate W|]).
  - rewrite walk_obj_S in W. destruct (not_crypto_set_up c p par i0 m R N P C) as (n & m1 & SU & PS & ->). rewrite SU in W.
    destruct (walk_children _ _ _ _ _ _) as [(l2, m3)|] eqn:WC; [|discriminate W]. injection W as <- <-.
    destruct (pay_pay m p) as (Q1 & Q2 & Q3 & Q4).
    assert (M1 : m_payload (upd (n_decrypted n) (pay m p)) = true) by now rewrite upd_payload.
    assert (S := WC). apply (walk_children_pay f c (walk_pay f c)) in WC; [|exact M1]. subst m3. rewrite upd_upd by assumption.
    apply (walk_children_shown f c (walk_shown f c)) in S as (_ & [S|(X & _)]); [|congruence].
    cbn [app encrypted existsb]. rewrite orb_false_r, app_nil_r. split; [unfold plain_step, parts in PS; cbn [map]; now rewrite S, PS|].
    rewrite upd_settled by (rewrite ?Q2; assumption). unfold settled. cbn [m_payload m_sigs m_dec m_sigenc m_psubject innermost signed_inside encrypted existsb decs].
    rewrite Q2, Q3, Q4, !orb_false_r. fold (decs l2). split; [reflexivity|]. split; [reflexivity|]. split; [reflexivity|].
    split; [destruct (is_full (m_dec m)); now rewrite orb_false_r|].
    unfold pay. destruct (is_full (m_dec m)), (m_sigs m); reflexivity.
  - rewrite walk_obj_S in W. unfold set_up_part in W. unfold o in W. cbn [set_up_part1 repair_mixed_up] in W. rewrite V in W.
    cbn [node_verify n_part n_children] in W. rewrite walk_children_cons in W.
    destruct (walk_obj f c _ 0 content _) as [(l1, m2)|] eqn:W1; [|discriminate W]. rewrite walk_children_cons in W.
    destruct (walk_obj f c _ 1 (OPart si st) m2) as [(l2, m3)|] eqn:W2; [|discriminate W]. cbn [walk_children] in W. injection W as <- <-.
    apply IH in W1 as (S1 & ST); [|unfold potential_sig_list; now rewrite P|unfold potential_sig_list; now rewrite P|reflexivity].
    assert (F : is_full (m_dec (potential_sig_list m (Some s))) = is_full (m_dec m)) by (unfold potential_sig_list; now rewrite P). rewrite F in S1.
    assert (Q := proj1 ST). assert (W2' := W2). apply walk_pay in W2 as ->; [|assumption].
    apply walk_shown in W2' as (_ & [S2|(X & _)]); [|congruence]. split.
    + cbn [map n_part]. rewrite app_nil_r, map_app, S1, S2. cbn [map encrypted existsb orb app]. fold (encrypted ls). f_equal. rewrite <- map_app. f_equal. now rewrite <- !app_assoc.
    + assert (forall x, settled m (LSigned s :: ls) p (x ++ l1) m2 \/ decs x = true) by (intros x; destruct (decs x) eqn:DX; [now right|left; eapply settled_signed; eauto; now rewrite decs_app, DX]).
      destruct (H []) as [H0|H0]; [|discriminate H0]. eapply settled_upd; [exact H0|]. rewrite app_nil_r. cbn. now rewrite existsb_app.
  - rewrite walk_obj_S in W. unfold set_up_part in W. unfold o in W. cbn [set_up_part1 repair_mixed_up] in W. rewrite V in W.
    cbn [node_decrypt_and_verify n_part n_children] in W. rewrite walk_children_cons in W.
    destruct (walk_obj f c _ 0 (OPart vi vt) _) as [(l0, m0)|] eqn:W0; [|discriminate W]. rewrite walk_children_cons in W.
    destruct (walk_obj f c _ 1 content m0) as [(l1, m2)|] eqn:W1; [|discriminate W]. cbn [walk_children] in W. injection W as <- <-.
    apply walk_control' in W0 as (-> & S0 & D0); [|cbn; rewrite PR; cbn; apply bseq_refl].
    assert (F : is_full (m_dec (match s with Some _ => potential_sig_list (successful_decryption m) s | None => successful_decryption m end)) = true).
    { destruct s; unfold potential_sig_list; cbn; rewrite P; reflexivity. }
    apply IH in W1 as (S1 & ST); [|destruct s; unfold potential_sig_list; cbn; now rewrite P|intros X; rewrite X in F; discriminate F|reflexivity].
    rewrite F in S1. split.
    + cbn [map n_part]. rewrite app_nil_r, map_app, S0, S1. cbn [map encrypted existsb orb app]. now rewrite orb_true_r.
    + eapply settled_encrypted in ST; [exact ST|assumption|]. instantiate (1 := {| n_part := None; n_children := []; n_verify := false; n_sigs := None; n_decrypted := true |}). reflexivity.
  - rewrite walk_obj_S in W. unfold set_up_part in W. unfold o in W. cbn [set_up_part1] in W. fold o in W. rewrite R in W.
    assert (RS := R). cbn [repair_mixed_up o] in R. destruct (_ && _) in R; [|discriminate R]. injection R as RE. rewrite <- RE in W. cbv iota beta in W. rewrite V in W.
    cbn [node_decrypt_and_verify n_part n_children] in W. rewrite walk_children_cons in W.
    destruct (walk_obj f c _ 0 (OPart vi vt) _) as [(l0, m0)|] eqn:W0; [|discriminate W]. rewrite walk_children_cons in W.
    destruct (walk_obj f c _ 1 content m0) as [(l1, m2)|] eqn:W1; [|discriminate W]. cbn [walk_children] in W. injection W as <- <-.
    apply walk_control' in W0 as (-> & S0 & D0); [|cbn [is_control Nat.eqb andb o_protocol param_is info_of]; rewrite MT; apply bseq_refl].
    assert (F : is_full (m_dec (match s with Some _ => potential_sig_list (successful_decryption m) s | None => successful_decryption m end)) = true).
    { destruct s; unfold potential_sig_list; cbn; rewrite P; reflexivity. }
    apply IH in W1 as (S1 & ST); [|destruct s; unfold potential_sig_list; cbn; now rewrite P|intros X; rewrite X in F; discriminate F|reflexivity].
    rewrite F in S1. split.
    + cbn [map n_part]. rewrite app_nil_r, map_app, S0, S1. cbn [map encrypted existsb orb app]. rewrite <- RE, orb_true_r; reflexivity.
    + eapply settled_encrypted in ST; [exact ST|assumption|]. instantiate (1 := {| n_part := None; n_children := []; n_verify := false; n_sigs := None; n_decrypted := true |}). reflexivity.
  - rewrite walk_obj_S in W. unfold set_up_part in W. unfold o in W. cbn [set_up_part1] in W.
    cbn [node_verify n_part n_children] in W. rewrite walk_children_cons in W.
    destruct (walk_obj f c _ 0 content _) as [(l1, m2)|] eqn:W1; [|discriminate W]. cbn [walk_children] in W. injection W as <- <-.
    apply IH in W1 as (S1 & ST); [|unfold potential_sig_list; now rewrite P|unfold potential_sig_list; now rewrite P|reflexivity].
    assert (F : is_full (m_dec (potential_sig_list m (Some s))) = is_full (m_dec m)) by (unfold potential_sig_list; now rewrite P). rewrite F in S1.
    split.
    + cbn [map n_part]. rewrite app_nil_r, S1. reflexivity.
    + eapply settled_signed; eauto. rewrite app_nil_r. reflexivity.
  - rewrite walk_obj_S in W. unfold set_up_part in W. unfold o in W. cbn [set_up_part1] in W. destruct v as (v1, v2). rewrite V in W.
    cbn [node_decrypt_and_verify n_part n_children] in W. rewrite walk_children_cons in W.
    destruct (walk_obj f c _ 0 content _) as [(l1, m2)|] eqn:W1; [|discriminate W]. cbn [walk_children] in W. injection W as <- <-.
    assert (F : is_full (m_dec (match s with Some _ => potential_sig_list (successful_decryption m) s | None => successful_decryption m end)) = true).
    { destruct s; unfold potential_sig_list; cbn; rewrite P; reflexivity. }
    apply IH in W1 as (S1 & ST); [|destruct s; unfold potential_sig_list; cbn; now rewrite P|intros X; rewrite X in F; discriminate F|reflexivity].
    rewrite F in S1. split.
    + cbn [map n_part]. rewrite app_nil_r, S1. cbn [map encrypted existsb orb app]. now rewrite orb_true_r.
    + eapply settled_encrypted in ST; [exact ST|assumption|]. instantiate (1 := {| n_part := None; n_children := []; n_verify := false; n_sigs := None; n_decrypted := true |}). reflexivity.
Qed.

(** ** Looking for a part by number *)
Lemma visit_children_mono c (go go' : node -> wstate -> option (list (option nat * node) * wstate)) p :
  (forall n st r, go n st = Some r -> go' n st = Some r) -> forall todo i st r,
  visit_children go c p i todo st = Some r -> visit_children go' c p i todo st = Some r.
Proof.
  intros H. induction todo as [|todo IH]; intros i st r; [auto|]. rewrite !visit_children_S.
  destruct (mime_node_child c p i st) as [((num, n), st1)|]; [|discriminate]. destruct (go n st1) as [(l, (m, fs))|] eqn:G; [|discriminate].
  rewrite (H _ _ _ G). destruct (visit_children go c p (S i) todo (m, tl fs)) as [(l', st2)|] eqn:V; [|discriminate]. now rewrite (IH _ _ _ V).
Qed.
Lemma visit_mono c f : forall n st r, visit f c n st = Some r -> visit (S f) c n st = Some r.
Proof.
  induction f as [|f IH]; intros n st r H; [discriminate H|].
  change (visit_children (visit (S f) c) c n 0 (length (n_children n)) st = Some r). eapply visit_children_mono; [exact IH|exact H].
Qed.
Lemma seek_children_S go c p i todo k st : seek_children go c p i (S todo) k st =
  match mime_node_child c p i st with
  | None => None
  | Some (_, n, st1) =>
      match go n k st1 with
      | None => None
      | Some (inl r) => Some (inl r)
      | Some (inr (k', (m, fs))) => seek_children go c p (S i) todo k' (m, tl fs)
      end
  end.
Proof. reflexivity. Qed.
Definition found (f : nat) (c : cctx) (l : list (option nat * node)) (k : nat) (num : option nat) (n : node) (r : option ((node * wstate) + (nat * wstate))) : Prop :=
  exists st' sub stx rest, r = Some (inl (n, st')) /\ visit f c n st' = Some (sub, stx) /\ skipn (S k) l = sub ++ rest.
Lemma seek_visit f c : forall n st l st2, visit f c n st = Some (l, st2) -> forall k,
  match nth_error l k with
  | Some (num, n') => found f c l k num n' (seek_dfs f c n (S k) st)
  | None => seek_dfs f c n (S k) st = Some (inr (k - length l, st2))
  end.
Proof.
  induction f as [|f IH]; intros n st l st2 H; [discriminate H|]. cbn [visit] in H.
  intros k. change (seek_dfs (S f) c n (S k) st) with (seek_children (seek_dfs f c) c n 0 (length (n_children n)) k st).
  revert st l st2 H k. generalize 0 as i. induction (length (n_children n)) as [|todo IHt]; intros i st l st2 H k.
  - cbn in H. injection H as <- <-. replace (nth_error [] k) with (@None (option nat * node)) by now destruct k. cbn [seek_children length]. now rewrite Nat.sub_0_r.
  - rewrite visit_children_S in H. rewrite seek_children_S. destruct (mime_node_child c n i st) as [((num, n1), st1)|]; [|discriminate H].
    destruct (visit f c n1 st1) as [(l1, (m, fs))|] eqn:V; [|discriminate H].
    destruct (visit_children (visit f c) c n (S i) todo (m, tl fs)) as [(l2, st3)|] eqn:VC; [|discriminate H]. injection H as <- <-.
    destruct k as [|k].
    + cbn [nth_error]. exists st1, l1, (m, fs), l2.
      replace (seek_dfs f c n1 0 st1) with (Some (@inl (node * wstate) (nat * wstate) (n1, st1))) by now destruct f.
      split; [reflexivity|]. split; [now apply visit_mono|reflexivity].
    + cbn [nth_error]. specialize (IH _ _ _ _ V k). destruct (nth_error l1 k) as [(num', n')|] eqn:E.
      * rewrite nth_error_app1 by (apply nth_error_Some; congruence). rewrite E.
        destruct IH as (st' & sub & stx & rest & S1 & S2 & S3). exists st', sub, stx, (rest ++ l2). rewrite S1. split; [reflexivity|].
        split; [now apply visit_mono|]. change (skipn (S (S k)) ((num, n1) :: l1 ++ l2)) with (skipn (S k) (l1 ++ l2)).
        assert (L : k < length l1) by (apply nth_error_Some; congruence).
        rewrite skipn_app, S3. replace (S k - length l1) with 0 by lia. now rewrite <- app_assoc.
      * rewrite IH. assert (L : length l1 <= k) by now apply nth_error_None.
        rewrite nth_error_app2 by assumption. specialize (IHt _ _ _ _ VC (k - length l1)).
        destruct (nth_error l2 (k - length l1)) as [(num', n')|].
        -- destruct IHt as (st' & sub & stx & rest & S1 & S2 & S3). exists st', sub, stx, rest. split; [exact S1|]. split; [exact S2|].
           change (skipn (S (S k)) ((num, n1) :: l1 ++ l2)) with (skipn (S k) (l1 ++ l2)). rewrite skipn_app, skipn_all2 by lia. cbn [app].
           now replace (S k - length l1) with (S (k - length l1)) by lia.
        -- rewrite IHt. cbn [length]. rewrite app_length. do 3 f_equal. lia.
Qed.

(** ** From the root *)
Lemma walk_root f c body : walk (S f) c (fst (mime_node_root body)) mcrypto_new =
  match walk_obj f c None 0 body mcrypto_new with Some (l, m) => Some (l, m) | None => None end.
Proof. cbn [walk mime_node_root fst n_part n_children]. rewrite walk_children_cons. destruct (walk_obj _ _ _ _ _ _) as [(l, m)|]; [|reflexivity]. cbn. now rewrite app_nil_r. Qed.
Lemma visit_root f c body : depth body < f -> exists l m fs,
  visit f c (fst (mime_node_root body)) (snd (mime_node_root body)) = Some (l, (m, fs)) /\
  walk_obj (f - 1) c None 0 body mcrypto_new = Some (map snd l, m) /\ map fst l = map Some (seq 1 (length l)).
Proof.
  intros D. destruct f as [|f]; [lia|]. assert (V := visit_erase (S f) c (fst (mime_node_root body)) (snd (mime_node_root body))).
  change (fst (snd (mime_node_root body))) with mcrypto_new in V. rewrite walk_root in V.
  destruct (walk_obj_total c f None 0 body mcrypto_new) as (l' & m' & W); [lia|]. rewrite W in V.
  destruct (visit (S f) c _ _) as [(l, (m, fs))|] eqn:E; [|discriminate V]. cbn [erase] in V. injection V as V1 V2. subst l' m'.
  exists l, m, fs. split; [reflexivity|]. replace (S f - 1) with f by lia. split; [exact W|].
  exact (proj1 (visit_numbers (S f) c (fst (mime_node_root body)) mcrypto_new [] 1 l m fs E)).
Qed.
