From Verif Require Import Bytes Hex HexSpec.
Local Open Scope N_scope.

Lemma escape_digits c :
  isxdigit (hexdigit (code c / 16)) = true /\ isxdigit (hexdigit (code c mod 16)) = true /\
  chr (16 * xval (hexdigit (code c / 16)) + xval (hexdigit (code c mod 16))) = c.
Proof.
  assert (H : forall c, isxdigit (hexdigit (code c / 16)) && isxdigit (hexdigit (code c mod 16)) &&
   beq (chr (16 * xval (hexdigit (code c / 16)) + xval (hexdigit (code c mod 16)))) c = true)
   by (apply byte_sweep; vm_compute; reflexivity).
  specialize (H c). rewrite !andb_true_iff, beq_eq in H. tauto.
Qed.

Lemma is_output_not_escape c : is_output c = true -> beq c escape_char = false.
Proof.
  assert (H : forall c, implb (is_output c) (negb (beq c escape_char)) = true)
    by (apply byte_sweep; vm_compute; reflexivity).
  specialize (H c). intros E. rewrite E in H. now apply negb_true_iff in H.
Qed.

Lemma decode_encode s : hex_decode_internal (hex_encode s) = (s, true).
Proof.
  unfold hex_encode. induction s as [|c s IH]; [reflexivity|]. cbn [hex_encode_loop].
  destruct (is_output c) eqn:E.
  - cbn [hex_decode_internal]. rewrite (is_output_not_escape c E), IH. reflexivity.
  - destruct (escape_digits c) as (Ha & Hb & Hc).
    unfold escape_byte. cbn [app hex_decode_internal]. rewrite beq_refl, Ha, Hb, IH.
    cbn [andb]. now rewrite Hc.
Qed.

Lemma safe_sweep c : is_output c = true -> c <> NUL -> safe_char c.
Proof.
  assert (H : forall c, implb (is_output c && nonul c)
     (mem c (lit "ABCDEFGHIJKLMNOPQRSTUVWXYZ") || mem c (lit "abcdefghijklmnopqrstuvwxyz") ||
      mem c (lit "0123456789") || mem c (lit "+-_@=.,%")) = true)
    by (apply byte_sweep; vm_compute; reflexivity).
  intros Ho Hn. specialize (H c). rewrite Ho in H.
  unfold nonul in H. apply beq_neq in Hn. rewrite Hn in H. cbn [implb andb negb] in H.
  rewrite !orb_true_iff, !mem_In in H. unfold safe_char. tauto.
Qed.

Lemma safe_digits c : safe_char (hexdigit (code c / 16)) /\ safe_char (hexdigit (code c mod 16)).
Proof.
  assert (H : forall c, let t d := 
     (mem d (lit "ABCDEFGHIJKLMNOPQRSTUVWXYZ") || mem d (lit "abcdefghijklmnopqrstuvwxyz") ||
      mem d (lit "0123456789") || mem d (lit "+-_@=.,%")) in
      t (hexdigit (code c / 16)) && t (hexdigit (code c mod 16)) = true)
    by (apply byte_sweep; vm_compute; reflexivity).
  specialize (H c). cbv zeta in H. rewrite andb_true_iff, !orb_true_iff, !mem_In in H.
  unfold safe_char. tauto.
Qed.

Lemma encode_safe s : cstr s -> Forall safe_char (hex_encode s).
Proof.
  unfold hex_encode. induction s as [|c s IH]; cbn [hex_encode_loop]; intros Hs; [constructor|].
  apply cstr_cons in Hs as [Hc Hs]. specialize (IH Hs).
  destruct (is_output c) eqn:E.
  - constructor; auto. apply safe_sweep; auto.
  - destruct (safe_digits c) as [Ha Hb]. unfold escape_byte. cbn [app].
    apply Forall_cons; [right; right; right; apply mem_In; reflexivity|].
    apply Forall_cons; [exact Ha|]. apply Forall_cons; [exact Hb|exact IH].
Qed.

Lemma safe_char_facts c : safe_char c ->
  c <> NUL /\ isspace c = false /\ c <> """"%char /\ 33 <= code c <= 126 /\ c <> "#"%char /\
  c <> "("%char /\ c <> ")"%char /\ c <> ":"%char.
Proof.
  assert (H : forall c,
    implb (mem c (lit "ABCDEFGHIJKLMNOPQRSTUVWXYZ") || mem c (lit "abcdefghijklmnopqrstuvwxyz") ||
      mem c (lit "0123456789") || mem c (lit "+-_@=.,%"))
     (negb (beq c NUL) && negb (isspace c) && negb (beq c """"%char) && ((33 <=? code c) && (code c <=? 126))
      && negb (beq c "#"%char) && negb (beq c "("%char) && negb (beq c ")"%char) && negb (beq c ":"%char))
    = true) by (apply byte_sweep; vm_compute; reflexivity).
  intros Hs. specialize (H c). unfold safe_char in Hs. rewrite <- !mem_In in Hs.
  assert (E : (mem c (lit "ABCDEFGHIJKLMNOPQRSTUVWXYZ") || mem c (lit "abcdefghijklmnopqrstuvwxyz") ||
      mem c (lit "0123456789") || mem c (lit "+-_@=.,%")) = true) by (rewrite !orb_true_iff; tauto).
  rewrite E in H. cbn [implb] in H.
  rewrite !andb_true_iff, !negb_true_iff, !beq_neq in H.
  destruct H as (((((((H1&H2)&H3)&(H4&H4'))&H5)&H6)&H7)&H8).
  apply N.leb_le in H4, H4'. repeat split; auto.
Qed.

(** Sizes. *)
Lemma needed_loop_acc p n : hex_encode_needed_loop n p = (n + length (hex_encode p))%nat.
Proof.
  unfold hex_encode. revert n; induction p as [|c p IH]; intros n; cbn [hex_encode_needed_loop hex_encode_loop]; [cbn; lia|].
  rewrite IH. destruct (is_output c); cbn [length app escape_byte]; lia.
Qed.
Lemma encode_needed_exact p : hex_encode_needed p = S (length (hex_encode p)).
Proof. unfold hex_encode_needed. now rewrite needed_loop_acc. Qed.

Lemma encode_into_ok p : forall real pos acc,
  (pos + length (hex_encode p) < real)%nat ->
  encode_into real pos p acc = Written real (acc ++ hex_encode p).
Proof.
  unfold hex_encode. induction p as [|c p IH]; intros real pos acc H; cbn [encode_into hex_encode_loop] in *.
  - cbn in H. rewrite (proj2 (Nat.ltb_lt _ _)) by lia. now rewrite app_nil_r.
  - destruct (is_output c).
    + cbn [length] in H. rewrite (proj2 (Nat.ltb_lt _ _)) by lia. rewrite IH by lia.
      now rewrite <- app_assoc.
    + rewrite app_length in H. cbn [length escape_byte] in H.
      rewrite (proj2 (Nat.ltb_lt _ _)) by lia. rewrite IH by lia. now rewrite <- app_assoc.
Qed.

Lemma encode_mem_ok isnull recorded real p :
  (isnull = false -> recorded <= real)%nat ->
  exists real', hex_encode_mem isnull recorded real p = Written real' (hex_encode p) /\
                (length (hex_encode p) < real')%nat.
Proof.
  intros Hr. unfold hex_encode_mem, maybe_realloc. rewrite encode_needed_exact.
  destruct isnull.
  - rewrite (proj2 (Nat.ltb_lt _ _)) by lia.
    rewrite encode_into_ok by lia. cbn. eexists; split; [reflexivity|lia].
  - specialize (Hr eq_refl). destruct (Nat.ltb_spec recorded (S (length (hex_encode p)))).
    + rewrite encode_into_ok by lia. cbn. eexists; split; [reflexivity|lia].
    + rewrite encode_into_ok by lia. cbn. eexists; split; [reflexivity|lia].
Qed.

(** Decoder size. *)
Lemma isxdigit_not_escape a : isxdigit a = true -> beq a escape_char = false.
Proof.
  assert (H : forall c, implb (isxdigit c) (negb (beq c escape_char)) = true)
    by (apply byte_sweep; vm_compute; reflexivity).
  intros E. specialize (H a). rewrite E in H. now apply negb_true_iff in H.
Qed.
Lemma isxdigit_NUL : isxdigit NUL = false.
Proof. reflexivity. Qed.

Lemma decode_needed_acc p : forall n,
  (n + Z.of_nat (length (fst (hex_decode_internal p))) <= hex_decode_needed_loop n p)%Z.
Proof.
  induction p as [p IH] using length_ind. intros n.
  destruct p as [|c r]; [cbn; lia|].
  cbn [hex_decode_internal hex_decode_needed_loop].
  destruct (beq c escape_char) eqn:Ec; cbn [andb].
  - destruct r as [|a r]; [cbn; lia|].
    destruct r as [|b r'].
    + cbn [peek tl hex_decode_needed_loop]. rewrite isxdigit_NUL, andb_false_r, andb_false_r.
      cbn [fst length]. destruct (beq a escape_char && isxdigit NUL && false); lia.
    + cbn [peek tl].
      destruct (isxdigit a) eqn:Ea; [destruct (isxdigit b) eqn:Eb|]; cbn [andb].
      * cbn [hex_decode_needed_loop]. rewrite (isxdigit_not_escape a Ea), (isxdigit_not_escape b Eb).
        cbn [andb]. destruct (hex_decode_internal r') as [o st] eqn:Er.
        specialize (IH r'). rewrite Er in IH. cbn [fst length] in *.
        assert (Hl : (length r' < length (c :: a :: b :: r'))%nat) by (cbn; lia).
        specialize (IH Hl (n - 1 + 1 + 1)%Z). lia.
      * cbn [fst length]. assert (Hl : (length (a :: b :: r') < length (c :: a :: b :: r'))%nat) by (cbn; lia).
        specialize (IH _ Hl (n + 1)%Z). lia.
      * cbn [fst length]. assert (Hl : (length (a :: b :: r') < length (c :: a :: b :: r'))%nat) by (cbn; lia).
        specialize (IH _ Hl (n + 1)%Z). lia.
  - destruct (hex_decode_internal r) as [o st] eqn:Er.
    assert (Hl : (length r < length (c :: r))%nat) by (cbn; lia).
    specialize (IH r Hl (n + 1)%Z). rewrite Er in IH. cbn [fst length] in *. lia.
Qed.

Lemma decode_fits p :
  (Z.of_nat (length (fst (hex_decode_internal p))) < hex_decode_needed p)%Z.
Proof. unfold hex_decode_needed. pose proof (decode_needed_acc p 1). lia. Qed.

Lemma decode_needed_exact_acc p : forall o n, hex_decode_internal p = (o, true) ->
  (hex_decode_needed_loop n p = n + Z.of_nat (length o))%Z.
Proof.
  induction p as [p IH] using length_ind. intros o n.
  destruct p as [|c r]; [cbn; intros [= <-]; cbn; lia|].
  cbn [hex_decode_internal hex_decode_needed_loop].
  destruct (beq c escape_char) eqn:Ec; cbn [andb].
  - destruct r as [|a r]; [congruence|].
    destruct r as [|b r']; [congruence|]. cbn [peek tl].
    destruct (isxdigit a) eqn:Ea; [destruct (isxdigit b) eqn:Eb|]; cbn [andb]; try congruence.
    cbn [hex_decode_needed_loop]. rewrite (isxdigit_not_escape a Ea), (isxdigit_not_escape b Eb).
    cbn [andb]. destruct (hex_decode_internal r') as [o' st] eqn:Er. intros [= <- ->].
    rewrite (IH r' ltac:(cbn; lia) o' _ Er). cbn [length]. lia.
  - destruct (hex_decode_internal r) as [o' st] eqn:Er. intros [= <- ->].
    rewrite (IH r ltac:(cbn; lia) o' _ Er). cbn [length]. lia.
Qed.

(** Decoder against the specification relation. *)
Lemma xval_table c : isxdigit c = true -> is_digit_of c (xval c).
Proof.
  assert (H : forall c, implb (isxdigit c)
     (existsb (fun '(d, v) => beq d c && (v =? xval c)) digit_table) = true)
    by (apply byte_sweep; vm_compute; reflexivity).
  intros E. specialize (H c). rewrite E in H. cbn [implb] in H.
  apply existsb_exists in H as ([d v] & Hin & Hdv).
  apply andb_true_iff in Hdv as [Hd Hv]. apply beq_eq in Hd. apply N.eqb_eq in Hv. subst. exact Hin.
Qed.
Lemma table_xval c v : is_digit_of c v -> isxdigit c = true /\ xval c = v.
Proof.
  assert (H : forallb (fun '(d, v) => isxdigit d && (xval d =? v)) digit_table = true)
    by (vm_compute; reflexivity).
  unfold is_digit_of. intros Hin. apply (forallb_In _ _ _ H) in Hin. cbn in Hin.
  apply andb_true_iff in Hin as [? Hv]. apply N.eqb_eq in Hv. auto.
Qed.

Lemma decode_denotes e s : hex_decode_internal e = (s, true) <-> denotes e s.
Proof.
  split.
  - revert s. induction e as [e IH] using length_ind. intros s H.
    destruct e as [|c r]; cbn [hex_decode_internal] in H; [injection H as <-; constructor|].
    destruct (beq_spec c escape_char) as [Ec|Ec].
    + destruct r as [|a [|b r']]; try congruence.
      destruct (isxdigit a) eqn:Ea; [destruct (isxdigit b) eqn:Eb|]; cbn [andb] in H; try congruence.
      destruct (hex_decode_internal r') as [o st] eqn:Er. injection H as <- ->. subst c.
      apply den_escape; auto using xval_table. apply IH; auto; cbn; lia.
    + destruct (hex_decode_internal r) as [o st] eqn:Er. injection H as <- ->.
      apply den_plain; [assumption|]. apply IH; [cbn; lia|assumption].
  - induction 1 as [|c e s Hc H IH|a b va vb e s Ha Hb H IH]; cbn [hex_decode_internal]; auto.
    + rewrite (proj2 (beq_neq c escape_char) Hc), IH. reflexivity.
    + apply table_xval in Ha as [Ha <-], Hb as [Hb <-]. cbn [beq].
      unfold escape_char at 1. rewrite beq_refl, Ha, Hb, IH. reflexivity.
Qed.

(** In-place decoding. *)
Lemma set_nth_length j v m : length (set_nth j v m) = length m.
Proof. revert j; induction m; intros [|j]; cbn; auto. Qed.
Lemma set_nth_app j v a x b : length a = j -> set_nth j v (a ++ x :: b) = a ++ v :: b.
Proof. revert j; induction a; intros [|j]; cbn; intros; try lia; auto. f_equal. auto. Qed.
Lemma nth_error_mid {A} (a b : list A) x i : length a = i -> nth_error (a ++ x :: b) i = Some x.
Proof. intros <-. rewrite nth_error_app2, Nat.sub_diag by lia. reflexivity. Qed.

(** Loop invariant: memory is [done ++ gap ++ rest ++ NUL :: slack]. *)
Lemma decode_inplace_inv rest : forall fuel done gap slack,
  cstr rest -> (length rest < fuel)%nat ->
  exists m' ok,
    decode_inplace_loop fuel (length done + length gap) (length done)
       (done ++ gap ++ rest ++ NUL :: slack) = IPDone m' ok /\
    ok = snd (hex_decode_internal rest) /\
    length m' = length (done ++ gap ++ rest ++ NUL :: slack) /\
    firstn (length done + length (fst (hex_decode_internal rest))) m' =
      done ++ fst (hex_decode_internal rest) /\
    (ok = true -> exists tail, m' = done ++ fst (hex_decode_internal rest) ++ NUL :: tail).
Proof.
  induction rest as [rest IH] using length_ind. intros fuel done gap slack Hc Hf.
  destruct fuel as [|fuel]; [lia|]. cbn [decode_inplace_loop].
  destruct rest as [|c r].
  - cbn [app]. rewrite app_assoc, nth_error_mid by (rewrite app_length; lia).
    rewrite beq_refl, (proj2 (Nat.ltb_lt _ _)) by (rewrite !app_length; cbn; lia).
    rewrite <- app_assoc. cbn [hex_decode_internal fst snd].
    eexists _, _. split; [reflexivity|]. split; [reflexivity|].
    rewrite set_nth_length, app_nil_r. split; [reflexivity|].
    destruct gap as [|g gap]; cbn [app];
      rewrite (set_nth_app (length done)) by reflexivity.
    + split.
      * replace (length done + length (@nil ascii))%nat with (length done) by (cbn; lia).
        rewrite firstn_app, firstn_all, Nat.sub_diag. cbn. now rewrite app_nil_r.
      * intros _. exists slack. reflexivity.
    + split.
      * replace (length done + length (@nil ascii))%nat with (length done) by (cbn; lia).
        rewrite firstn_app, firstn_all, Nat.sub_diag. cbn. now rewrite app_nil_r.
      * intros _. eexists. reflexivity.
  - apply cstr_cons in Hc as [Hc Hcr].
    rewrite app_assoc. cbn [app]. rewrite nth_error_mid by (rewrite app_length; lia).
    rewrite (proj2 (beq_neq c NUL) Hc).
    assert (Hlt : (length done <? length ((done ++ gap) ++ c :: r ++ NUL :: slack))%nat = true)
      by (apply Nat.ltb_lt; rewrite !app_length; cbn; lia).
    rewrite Hlt. clear Hlt.
    destruct (beq_spec c escape_char) as [Ec|Ec].
    + subst c. cbn [hex_decode_internal]. rewrite beq_refl.
      assert (N1 : nth_error ((done ++ gap) ++ escape_char :: r ++ NUL :: slack)
                     (length done + length gap + 1) = Some (peek r)).
      { rewrite nth_error_app2 by (rewrite app_length; lia).
        rewrite app_length. replace (_ - _)%nat with 1%nat by lia. destruct r; reflexivity. }
      rewrite N1. clear N1.
      destruct r as [|a r]; cbn [peek].
      { rewrite isxdigit_NUL. cbn [app fst snd]. exists ((done ++ gap) ++ escape_char :: NUL :: slack), false.
        split; [reflexivity|]. split; [reflexivity|]. split; [reflexivity|].
        split; [|congruence].
        replace (length done + length (@nil ascii))%nat with (length done) by (cbn; lia).
        rewrite <- app_assoc, firstn_app, firstn_all, Nat.sub_diag. cbn. now rewrite app_nil_r. }
      assert (Hfail : exists m' ok,
         IPDone ((done ++ gap) ++ escape_char :: (a :: r) ++ NUL :: slack) false = IPDone m' ok /\
         ok = false /\ length m' = length ((done ++ gap) ++ escape_char :: (a :: r) ++ NUL :: slack) /\
         firstn (length done + length (@nil ascii)) m' = done ++ [] /\
         (ok = true -> exists tail, m' = done ++ [] ++ NUL :: tail)).
      { eexists _, _. split; [reflexivity|]. split; [reflexivity|]. split; [reflexivity|].
        split; [|congruence].
        replace (length done + length (@nil ascii))%nat with (length done) by (cbn; lia).
        rewrite <- app_assoc, firstn_app, firstn_all, Nat.sub_diag. cbn. now rewrite app_nil_r. }
      destruct (isxdigit a) eqn:Ea.
      2:{ destruct r as [|b r']; cbn [andb fst snd]; apply Hfail. }
      assert (N2 : nth_error ((done ++ gap) ++ escape_char :: (a :: r) ++ NUL :: slack)
                     (length done + length gap + 2) = Some (peek r)).
      { rewrite nth_error_app2 by (rewrite app_length; lia).
        rewrite app_length. replace (_ - _)%nat with 2%nat by lia. destruct r; reflexivity. }
      rewrite N2. clear N2.
      destruct r as [|b r']; cbn [peek].
      { rewrite isxdigit_NUL. cbn [fst snd]. apply Hfail. }
      destruct (isxdigit b) eqn:Eb; cbn [andb fst snd]; [|apply Hfail].
      clear Hfail. set (v := chr (16 * xval a + xval b)).
      destruct (hex_decode_internal r') as [o st] eqn:Er. cbn [fst snd].
      apply cstr_cons in Hcr as [_ Hcr]. apply cstr_cons in Hcr as [_ Hcr].
      destruct gap as [|g gap].
      * rewrite app_nil_r. cbn [app]. rewrite (set_nth_app (length done)) by reflexivity.
        destruct (IH r' ltac:(cbn; lia) fuel (done ++ [v]) [a; b] slack Hcr ltac:(cbn in Hf; lia))
          as (m' & ok & E1 & E2 & E3 & E4 & E5).
        rewrite app_length in E1. cbn [length] in E1.
        replace (length done + length (@nil ascii) + 3)%nat with (length done + 1 + 2)%nat by (cbn; lia).
        rewrite <- app_assoc in E1. cbn [app] in E1. exists m', ok.
        split; [exact E1|]. rewrite Er in *. cbn [fst snd] in *.
        split; [exact E2|]. split; [rewrite E3; len|].
        rewrite app_length in E4. cbn [length] in E4 |- *.
        replace (length done + S (length o))%nat with (length done + 1 + length o)%nat by lia.
        rewrite E4, <- app_assoc. split; [reflexivity|].
        intros Hok. destruct (E5 Hok) as [tl Ht]. exists tl. rewrite Ht, <- app_assoc. reflexivity.
      * rewrite <- app_assoc. cbn [app]. rewrite (set_nth_app (length done)) by reflexivity.
        destruct (IH r' ltac:(cbn; lia) fuel (done ++ [v]) (gap ++ [escape_char; a; b]) slack Hcr ltac:(cbn in Hf; lia))
          as (m' & ok & E1 & E2 & E3 & E4 & E5).
        rewrite !app_length in E1. cbn [length] in E1.
        replace (length done + length (g :: gap) + 3)%nat with (length done + 1 + (length gap + 3))%nat by (cbn; lia).
        rewrite <- !app_assoc in E1. cbn [app] in E1. exists m', ok.
        split; [exact E1|]. rewrite Er in *. cbn [fst snd] in *.
        split; [exact E2|]. split; [rewrite E3; len|].
        rewrite app_length in E4. cbn [length] in E4 |- *.
        replace (length done + S (length o))%nat with (length done + 1 + length o)%nat by lia.
        rewrite E4, <- app_assoc. split; [reflexivity|].
        intros Hok. destruct (E5 Hok) as [tl Ht]. exists tl. rewrite Ht, <- app_assoc. reflexivity.
    + cbn [hex_decode_internal]. rewrite (proj2 (beq_neq c escape_char) Ec).
      destruct (hex_decode_internal r) as [o st] eqn:Er. cbn [fst snd].
      destruct gap as [|g gap].
      * rewrite app_nil_r. cbn [app]. rewrite (set_nth_app (length done)) by reflexivity.
        destruct (IH r ltac:(cbn; lia) fuel (done ++ [c]) [] slack Hcr ltac:(cbn in Hf; lia))
          as (m' & ok & E1 & E2 & E3 & E4 & E5).
        rewrite app_length in E1. cbn [length] in E1.
        replace (length done + length (@nil ascii) + 1)%nat with (length done + 1 + 0)%nat by (cbn; lia).
        rewrite <- app_assoc in E1. cbn [app] in E1. exists m', ok.
        split; [exact E1|]. rewrite Er in *. cbn [fst snd] in *.
        split; [exact E2|]. split; [rewrite E3; len|].
        rewrite app_length in E4. cbn [length] in E4 |- *.
        replace (length done + S (length o))%nat with (length done + 1 + length o)%nat by lia.
        rewrite E4, <- app_assoc. split; [reflexivity|].
        intros Hok. destruct (E5 Hok) as [tl Ht]. exists tl. rewrite Ht, <- app_assoc. reflexivity.
      * rewrite <- app_assoc. cbn [app]. rewrite (set_nth_app (length done)) by reflexivity.
        destruct (IH r ltac:(cbn; lia) fuel (done ++ [c]) (gap ++ [c]) slack Hcr ltac:(cbn in Hf; lia))
          as (m' & ok & E1 & E2 & E3 & E4 & E5).
        rewrite !app_length in E1. cbn [length] in E1.
        replace (length done + length (g :: gap) + 1)%nat with (length done + 1 + (length gap + 1))%nat by (cbn; lia).
        rewrite <- !app_assoc in E1. cbn [app] in E1. exists m', ok.
        split; [exact E1|]. rewrite Er in *. cbn [fst snd] in *.
        split; [exact E2|]. split; [rewrite E3; len|].
        rewrite app_length in E4. cbn [length] in E4 |- *.
        replace (length done + S (length o))%nat with (length done + 1 + length o)%nat by lia.
        rewrite E4, <- app_assoc. split; [reflexivity|].
        intros Hok. destruct (E5 Hok) as [tl Ht]. exists tl. rewrite Ht, <- app_assoc. reflexivity.
Qed.

Lemma decode_inplace_ok s slack : cstr s ->
  exists m' ok,
    hex_decode_inplace (s ++ NUL :: slack) = IPDone m' ok /\
    ok = snd (hex_decode_internal s) /\
    length m' = length (s ++ NUL :: slack) /\
    firstn (length (fst (hex_decode_internal s))) m' = fst (hex_decode_internal s) /\
    (ok = true -> exists tail, m' = fst (hex_decode_internal s) ++ NUL :: tail).
Proof.
  intros Hc. unfold hex_decode_inplace.
  apply (decode_inplace_inv s (S (length (s ++ NUL :: slack))) [] [] slack Hc).
  rewrite app_length. lia.
Qed.

Lemma c_string_of_app s tail : cstr s -> c_string_of (s ++ NUL :: tail) = s.
Proof.
  intros H. unfold c_string_of. apply takewhile_app_stop; [exact H|]. left. reflexivity.
Qed.

Lemma encode_inplace_roundtrip s slack : cstr s -> exists m',
  hex_decode_inplace (hex_encode s ++ NUL :: slack) = IPDone m' true /\ c_string_of m' = s.
Proof.
  intros Hs.
  assert (He : cstr (hex_encode s)).
  { apply encode_safe in Hs. unfold cstr. apply forallb_forall. intros c Hin.
    rewrite Forall_forall in Hs. apply Hs, safe_char_facts in Hin.
    unfold nonul. apply negb_true_iff, beq_neq. tauto. }
  destruct (decode_inplace_ok (hex_encode s) slack He) as (m' & ok & E1 & E2 & _ & _ & E5).
  rewrite decode_encode in *. cbn [fst snd] in *. subst ok.
  destruct (E5 eq_refl) as [tl ->]. eexists. split; [exact E1|]. now apply c_string_of_app.
Qed.

Lemma encode_cstr s : cstr s -> cstr (hex_encode s).
Proof.
  intros Hs. apply encode_safe in Hs. unfold cstr. apply forallb_forall. intros c Hin.
  rewrite Forall_forall in Hs. apply Hs, safe_char_facts in Hin.
  unfold nonul. apply negb_true_iff, beq_neq. tauto.
Qed.

Lemma decode_inplace_total s slack : cstr s ->
  exists m' ok, hex_decode_inplace (s ++ NUL :: slack) = IPDone m' ok /\
    length m' = length (s ++ NUL :: slack) /\
    (ok = true -> exists t tail, denotes s t /\ m' = t ++ NUL :: tail) /\
    (ok = false -> ~ exists t, denotes s t).
Proof.
  intros Hs. destruct (decode_inplace_ok s slack Hs) as (m' & ok & E1 & E2 & E3 & _ & E5).
  exists m', ok. split; [exact E1|]. split; [exact E3|]. split.
  - intros H. destruct (E5 H) as [tl Ht]. eexists _, tl. split; [|exact Ht].
    apply decode_denotes. destruct (hex_decode_internal s); cbn in *. congruence.
  - intros H [t Ht]. apply decode_denotes in Ht. rewrite Ht in E2. cbn in E2. congruence.
Qed.
