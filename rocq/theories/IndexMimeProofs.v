From Verif Require Import Bytes StrUtil Reply Mime MimeSpec MimeProofs IndexMime IndexMimeSpec.
Local Open Scope nat_scope.

(** ** The events of a part, with what is opened given beforehand *)
Definition etype (o : obj) : event := EType (o_mime (info_of o)).
Definition success : event := EProperty (lit "index.decryption") (lit "success").
Definition failure : event := EProperty (lit "index.decryption") (lit "failure").
Definition repaired : event := EProperty (lit "index.repaired") (lit "skip-protected-headers-legacy-display").
Definition mixedup : event := EProperty (lit "index.repaired") (lit "mixedup").
Definition part_events (G : gpg) (i : info) : list event :=
  match o_attachment i with
  | Some file => ETag (lit "attachment") :: EAttachment file :: (if g_astext G (o_mime i) then [EText (o_text i)] else [])
  | None => [EText (o_text i)]
  end.
Section events.
  Variables (G : gpg) (att : bool) (op : obj -> bool).
  Definition enc_events (o : obj) (d : option (list event)) : list event :=
    if att then match d with Some l => if op o then l ++ [success] else [failure] | None => [failure] end else [].
  Fixpoint events (o : obj) : list event :=
    match o with
    | OPart i _ => etype o :: part_events G i
    | OMessage _ _ body => etype o :: events body
    | OPkcs7 _ SM_signed (Some _, Some u) _ => etype o :: etype o :: ETag (lit "signed") :: events u
    | OPkcs7 _ SM_signed (Some _, None) _ => [etype o; etype o; ETag (lit "signed")]
    | OPkcs7 _ SM_signed (None, _) _ => [etype o; etype o]
    | OPkcs7 _ SM_enveloped _ d => etype o :: etype o :: ETag (lit "encrypted") ::
        enc_events o match d with Some (u, _) => Some (events u) | None => None end
    | OPkcs7 _ SM_other _ _ => [etype o; etype o]
    | OMulti _ k ch _ d =>
        match repair_mixed_up o with
        | Some r => mixedup :: etype r :: ETag (lit "encrypted") ::
            match ch with
            | [_; p1; p2] => [etype p1; etype p2] ++ enc_events r match d with Some (u, _) => Some (events u) | None => None end
            | _ => []
            end
        | None =>
            etype o ::
            match k, ch with
            | MPlain, _ => concat (map events ch)
            | MSigned, c0 :: c1 :: rest => ETag (lit "signed") :: events c0 ++ etype c1 :: concat (map events rest)
            | MSigned, _ => ETag (lit "signed") :: concat (map events ch)
            | MEncrypted, c0 :: c1 :: rest => ETag (lit "encrypted") :: etype c0 :: etype c1 ::
                enc_events o match d with Some (u, _) => Some (events u) | None => None end ++ map etype rest
            | MEncrypted, _ => ETag (lit "encrypted") :: map etype ch
            end
        end
    end.
End events.

Lemma policy_cases (pl : option policy) :
  pl = None \/ pl = Some DECRYPT_FALSE \/ pl = Some DECRYPT_AUTO \/ pl = Some DECRYPT_NOSTASH \/ pl = Some DECRYPT_TRUE.
Proof. destruct pl as [[]|]; auto 10. Qed.
Section run.
  Variables (G : gpg) (pl : option policy) (keys0 : list bytes).
  Let op := opened G pl keys0.
  Let att := tries pl keys0.
  Hypothesis noleak : pl = Some DECRYPT_TRUE -> forall o k o', g_session G o = Some k -> g_opens G o' k = true -> op o' = true.

  Definition kinv (keys : list bytes) : Prop :=
    incl keys0 keys /\ (pl <> Some DECRYPT_TRUE -> keys = keys0) /\
    (may_stashed pl = true -> forall o, existsb (g_opens G o) keys = true -> op o = true).
  Lemma kinv0 : kinv keys0.
  Proof.
    split; [apply incl_refl|]. split; [auto|]. intros S o H. unfold op, opened. now rewrite S, H.
  Qed.
  Definition hidesE (EV E : list event) : Prop :=
    exists a b x q, EV = a ++ events G att op x ++ b /\ skip_legacy_display x = Some q /\ E = a ++ repaired :: events G att op q ++ b.
  (** The status and the keys over some time in which the encrypted parts [L] were met. *)
  Definition growX (L : list obj) (st st' : ist) : Prop :=
    kinv (x_keys st') /\ incl (x_keys st) (x_keys st') /\
    (forall k, In k (x_keys st') -> In k (x_keys st) \/
       pl = Some DECRYPT_TRUE /\ exists e, In e L /\ decrypts e = true /\ g_secret G e = true /\ g_session G e = Some k) /\
    (pl = Some DECRYPT_TRUE -> forall e, In e L -> decrypts e = true -> op e = true ->
       existsb (g_opens G e) (x_keys st') = true \/ forall k, g_session G e = Some k -> In k (x_keys st')) /\
    (m_payload (x_mc st) = true -> m_payload (x_mc st') = true) /\
    (m_dec (x_mc st) = DEC_FULL -> m_dec (x_mc st') = DEC_FULL) /\
    (m_sigs (x_mc st) = None -> m_sigs (x_mc st') = None) /\
    (pl <> Some DECRYPT_TRUE -> m_dec (x_mc st') = m_dec (x_mc st)) /\
    (m_sigs (x_mc st) = None -> m_psubject (x_mc st') = m_psubject (x_mc st) \/ m_dec (x_mc st') = DEC_FULL).
  Definition R (EV : list event) (L : list obj) (st st' : ist) : Prop :=
    exists E, x_out st' = x_out st ++ E /\ growX L st st' /\
    (E = EV \/ m_payload (x_mc st) = false /\ m_payload (x_mc st') = true /\ m_dec (x_mc st') = DEC_FULL /\ hidesE EV E).

  Lemma growX_app L1 L2 st st1 st2 : growX L1 st st1 -> growX L2 st1 st2 -> growX (L1 ++ L2) st st2.
  Proof.
    intros (A1 & A2 & A3 & A4 & A5 & A6 & A7 & A8 & A9) (B1 & B2 & B3 & B4 & B5 & B6 & B7 & B8 & B9).
    split; [exact B1|]. split; [eapply incl_tran; eassumption|]. split; [|split; [|split; [|split; [|split; [|split]]]]]; auto.
    - intros k I. destruct (B3 k I) as [I1|(P & e & Q & X)]; [|right; split; [exact P|exists e; rewrite in_app_iff; auto]].
      destruct (A3 k I1) as [|(P & e & Q & X)]; [now left|right; split; [exact P|exists e; rewrite in_app_iff; auto]].
    - intros P e I D O. rewrite in_app_iff in I. destruct I as [I|I]; [|now apply B4].
      destruct (A4 P e I D O) as [X|X]; [left|right; auto]. apply existsb_exists in X as (k & X & Y). apply existsb_exists. eauto.
    - intros P. now rewrite (B8 P), (A8 P).
    - intros S. destruct (B9 (A7 S)) as [X|X]; [|auto]. destruct (A9 S) as [Y|Y]; [left; congruence|right; auto].
  Qed.
  Lemma hidesE_ext a b EV E : hidesE EV E -> hidesE (a ++ EV ++ b) (a ++ E ++ b).
  Proof.
    intros (a0 & b0 & x & q & -> & S & ->). exists (a ++ a0), (b0 ++ b), x, q. split; [now rewrite !app_assoc|]. split; [exact S|].
    rewrite <- !app_assoc. cbn [app]. rewrite <- !app_assoc. reflexivity.
  Qed.
  Lemma R_app EV1 L1 EV2 L2 st st1 st2 : R EV1 L1 st st1 -> R EV2 L2 st1 st2 -> R (EV1 ++ EV2) (L1 ++ L2) st st2.
  Proof.
    intros (E1 & O1 & G1 & C1) (E2 & O2 & G2 & C2). exists (E1 ++ E2). split; [now rewrite O2, O1, app_assoc|].
    split; [eapply growX_app; eassumption|].
    destruct C1 as [-> |(P1 & P1' & D1 & H1)], C2 as [-> |(P2 & P2' & D2 & H2)].
    - now left.
    - right. split; [|split; [|split]]; auto.
      + destruct (m_payload (x_mc st)) eqn:Q; [|reflexivity]. destruct G1 as (_ & _ & _ & _ & G1 & _). specialize (G1 Q). congruence.
      + apply (hidesE_ext EV1 []) in H2. now rewrite !app_nil_r in H2.
    - right. destruct G2 as (_ & _ & _ & _ & G2 & G3 & _). split; [|split; [|split]]; auto. apply (hidesE_ext [] EV2) in H1. exact H1.
    - congruence.
  Qed.
  Lemma growX_refl st : kinv (x_keys st) -> growX [] st st.
  Proof.
    intros K. split; [exact K|]. split; [apply incl_refl|]. split; [auto|]. split; [intros _ e []|]. auto 10.
  Qed.
  Lemma R_refl st : kinv (x_keys st) -> R [] [] st st.
  Proof. intros K. exists []. split; [now rewrite app_nil_r|]. split; [now apply growX_refl|now left]. Qed.
  Lemma R_emit e st : kinv (x_keys st) -> R [e] [] st (emit e st).
  Proof. intros K. exists [e]. split; [reflexivity|]. split; [|now left]. exact (growX_refl st K). Qed.
  Lemma R_cons e EV L st st' : kinv (x_keys st) -> R EV L (emit e st) st' -> R (e :: EV) L st st'.
  Proof. intros K H. change (e :: EV) with ([e] ++ EV). change L with ([] ++ L). eapply R_app; [now apply R_emit|exact H]. Qed.
  Lemma R_kinv EV L st st' : R EV L st st' -> kinv (x_keys st').
  Proof. intros (E & _ & (K & _) & _). exact K. Qed.

  Lemma skip_encs x q : skip_legacy_display x = Some q -> encs op x = encs op q.
  Proof.
    destruct x as [|i k ch sg d| |]; try discriminate. destruct ch as [|p0 [|p1 [|]]]; try (destruct k; discriminate).
    cbn [skip_legacy_display]. destruct k; try discriminate. destruct (_ && _) eqn:B; [|discriminate]. intros E. injection E as <-.
    apply andb_true_iff in B as (_ & B). destruct p0 as [? []| | |]; try discriminate B. cbn. now rewrite app_nil_r.
  Qed.
  (** Checking for the payload, then indexing. *)
  Lemma R_payload go (IH : forall o st st', kinv (x_keys st) -> go o st = Some st' -> R (events G att op o) (encs op o) st st') o par i st q st1 st2 :
    kinv (x_keys st) -> payload_check o par i st = (q, st1) -> go q st1 = Some st2 -> R (events G att op o) (encs op o) st st2.
  Proof.
    intros K. unfold payload_check, potential_payload. destruct (m_payload (x_mc st)) eqn:P.
    { cbn [andb]. intros H; injection H as <- <-. intros W. apply IH in W; [|exact K]. destruct W as (E & O & GX & C). exists E. split; [exact O|]. split; [|exact C]. exact GX. }
    destruct (is_control (Some par) i o).
    { cbn [andb]. intros H; injection H as <- <-. intros W. apply IH in W; [|exact K]. destruct W as (E & O & GX & C). exists E. split; [exact O|]. split; [|exact C]. exact GX. }
    assert (GP : forall m, m_payload m = true -> m_dec m = m_dec (x_mc st) -> m_sigs m = m_sigs (x_mc st) ->
       (m_psubject m = m_psubject (x_mc st) \/ m_dec m = DEC_FULL \/ m_sigs m <> None) -> growX [] st (with_mc m st)).
    { intros m M1 M2 M3 M4. split; [exact K|]. split; [apply incl_refl|]. split; [auto|]. split; [intros _ e []|]. cbn. split; [auto|]. split; [congruence|]. split; [congruence|].
      split; [auto|]. intros S. destruct M4 as [M4|[M4|M4]]; [now left|now right|congruence]. }
    assert (GO : forall m, m_payload m = true -> growX [] st (with_mc m st) -> go o (with_mc m st) = Some st2 -> R (events G att op o) (encs op o) st st2).
    { intros m M GX W. apply IH in W; [|exact K]. destruct W as (E & O & GX2 & C). exists E. split; [exact O|]. split; [exact (growX_app [] _ _ _ _ GX GX2)|].
      destruct C as [C|(C1 & _)]; [now left|]. cbn in C1. congruence. }
    destruct (negb (is_full (m_dec (x_mc st))) && match m_sigs (x_mc st) with Some _ => false | None => true end) eqn:B.
    { cbn [andb]. intros H; injection H as <- <-. apply GO; [reflexivity|]. apply GP; cbn; auto. }
    cbn [m_dec andb]. destruct (is_full (m_dec (x_mc st))) eqn:F.
    2:{ intros H; injection H as <- <-. apply GO; [reflexivity|]. apply GP; cbn; auto. right; right. destruct (m_sigs (x_mc st)); [discriminate|cbn in B; discriminate B]. }
    assert (FD : m_dec (x_mc st) = DEC_FULL) by (destruct (m_dec (x_mc st)); try discriminate F; reflexivity).
    destruct (skip_legacy_display o) as [q'|] eqn:K'.
    2:{ intros H; injection H as <- <-. apply GO; [reflexivity|]. apply GP; cbn; auto. }
    intros H; injection H as <- <-. intros W. apply IH in W; [|exact K].
    set (m := {| m_dec := m_dec (x_mc st); m_sigs := m_sigs (x_mc st); m_payload := true; m_psubject := match exported_subject o with Some s => Some s | None => m_psubject (x_mc st) end; m_sigenc := m_sigenc (x_mc st) |}) in *.
    destruct W as (E & O & GX & C). exists (repaired :: E).
    split; [rewrite O; cbn [emit x_out with_mc]; now rewrite <- app_assoc|].
    assert (GX0 : growX [] st (with_mc m st)) by (apply GP; cbn; auto).
    rewrite (skip_encs _ _ K'). split; [exact (growX_app [] _ _ _ _ GX0 GX)|].
    destruct C as [-> |(C1 & _)]; [|discriminate C1]. right. destruct GX as (_ & _ & _ & _ & GX1 & GX2 & _).
    split; [exact P|]. split; [now apply GX1|]. split; [now apply GX2|]. exists [], [], o, q'. rewrite !app_nil_r. auto.
  Qed.
  Lemma with_keys_eq o keys : with_keys G o keys = if existsb (g_opens G o) keys then cleartext o else None.
  Proof.
    induction keys as [|k r IH]; [reflexivity|]. cbn [with_keys existsb]. unfold with_key. rewrite IH. destruct (g_opens G o k); cbn [orb]; [|reflexivity].
    destruct (cleartext o); [reflexivity|]. now destruct (existsb _ _).
  Qed.
  Lemma existsb_incl o a b : incl a b -> existsb (g_opens G o) a = true -> existsb (g_opens G o) b = true.
  Proof. intros I H. apply existsb_exists in H as (k & X & Y). apply existsb_exists. eauto. Qed.
  Lemma crypto_eq p keys o : pl = Some p -> p <> DECRYPT_FALSE -> kinv keys ->
    exists tried session, crypto_decrypt G p keys o = (if op o then cleartext o else None, tried, session) /\ tried = att /\
      (op o = true -> decrypts o = true -> tried = true) /\
      (session <> None -> p = DECRYPT_TRUE /\ session = g_session G o /\ g_secret G o = true) /\
      (op o = true -> p = DECRYPT_TRUE -> decrypts o = true -> existsb (g_opens G o) keys = true \/ session = g_session G o).
  Proof.
    intros PL NF (KI & KE & KO). unfold crypto_decrypt. rewrite with_keys_eq.
    assert (OP : op o = (existsb (g_opens G o) keys0 || may_secret pl && g_secret G o)) by (unfold op, opened; rewrite PL; now destruct p).
    destruct p; [contradiction| | |].
    - assert (keys = keys0) as -> by (apply KE; congruence). rewrite PL in OP. cbn [may_secret andb] in OP. rewrite orb_false_r in OP. rewrite <- OP.
      assert (AT : att = match keys0 with [] => false | _ => true end) by (unfold att, tries; now rewrite PL).
      destruct (op o) eqn:O.
      + assert (NE : match keys0 with [] => false | _ => true end = true) by (destruct keys0; [discriminate OP|reflexivity]). rewrite NE in *.
        destruct (cleartext o) as [u|] eqn:CT; do 2 eexists; (split; [reflexivity|]); (split; [now symmetry|]); (split; [reflexivity|]); (split; [congruence|]); congruence.
      + do 2 eexists; (split; [reflexivity|]); (split; [now symmetry|]); (split; [discriminate|]); (split; [congruence|]); congruence.
    - assert (keys = keys0) as -> by (apply KE; congruence). rewrite PL in OP. cbn [may_secret andb] in OP.
      assert (AT : att = true) by (unfold att, tries; now rewrite PL).
      destruct (existsb (g_opens G o) keys0) eqn:EX; cbn [orb] in OP.
      + rewrite OP. assert (NE : match keys0 with [] => false | _ => true end = true) by (destruct keys0; [discriminate EX|reflexivity]). rewrite NE.
        destruct (cleartext o) as [u|] eqn:CT; [do 2 eexists; (split; [reflexivity|]); (split; [now symmetry|]); (split; [reflexivity|]); (split; [congruence|]); congruence|].
        destruct (g_secret G o); do 2 eexists; (split; [reflexivity|]); (split; [now symmetry|]); (split; [reflexivity|]); (split; [congruence|]); congruence.
      + rewrite OP. destruct (g_secret G o); [destruct (cleartext o)|]; do 2 eexists; (split; [reflexivity|]); (split; [now symmetry|]); (split; [reflexivity|]); (split; [congruence|]); congruence.
    - rewrite PL in OP. cbn [may_secret andb] in OP. assert (AT : att = true) by (unfold att, tries; now rewrite PL).
      destruct (existsb (g_opens G o) keys) eqn:EX.
      + assert (OO : op o = true) by (apply KO; [now rewrite PL|exact EX]). rewrite OO.
        assert (NE : match keys with [] => false | _ => true end = true) by (destruct keys; [discriminate EX|reflexivity]). rewrite NE.
        destruct (cleartext o) as [u|] eqn:CT.
        * do 2 eexists; (split; [reflexivity|]); (split; [now symmetry|]); (split; [reflexivity|]); (split; [congruence|]); auto.
        * destruct (g_secret G o); do 2 eexists; (split; [reflexivity|]); (split; [now symmetry|]); (split; [reflexivity|]); (split; [congruence|]); auto.
      + assert (EX0 : existsb (g_opens G o) keys0 = false).
        { destruct (existsb (g_opens G o) keys0) eqn:E0; [|reflexivity]. now rewrite (existsb_incl o _ _ KI E0) in EX. }
        rewrite EX0 in OP. cbn [orb] in OP. rewrite OP. destruct (g_secret G o) eqn:GS; [destruct (cleartext o) as [u|] eqn:CT|].
        * do 2 eexists; (split; [reflexivity|]); (split; [now symmetry|]); (split; [reflexivity|]); (split; [auto|]); auto.
        * do 2 eexists; (split; [reflexivity|]); (split; [now symmetry|]); (split; [reflexivity|]); (split; [congruence|]). unfold decrypts. rewrite CT. discriminate.
        * do 2 eexists; (split; [reflexivity|]); (split; [now symmetry|]); (split; [reflexivity|]); (split; [congruence|]). discriminate.
  Qed.
  Lemma kinv_stash keys k o : kinv keys -> pl = Some DECRYPT_TRUE -> g_session G o = Some k -> kinv (keys ++ [k]).
  Proof.
    intros (A & B & C) P S. split; [intros x X; apply in_or_app; left; auto|]. split; [contradiction|].
    intros M o' H. rewrite existsb_app in H. apply orb_true_iff in H as [H|H]; [now apply C|]. cbn in H. rewrite orb_false_r in H. eapply noleak; eassumption.
  Qed.
  Lemma R_encrypted go (IH : forall o st st', kinv (x_keys st) -> go o st = Some st' -> R (events G att op o) (encs op o) st st') o st st' :
    kinv (x_keys st) -> index_encrypted G pl go o st = Some st' ->
    R (enc_events att op o match cleartext o with Some u => Some (events G att op u) | None => None end)
      (o :: match cleartext o with Some u => if op o then encs op u else [] | None => [] end) st st'.
  Proof.
    intros K. unfold index_encrypted.
    assert (OFF : (pl = None \/ pl = Some DECRYPT_FALSE) -> st' = st ->
      R (enc_events att op o match cleartext o with Some u => Some (events G att op u) | None => None end)
      (o :: match cleartext o with Some u => if op o then encs op u else [] | None => [] end) st st').
    { intros N ->. exists []. split; [now rewrite app_nil_r|]. split.
      - split; [exact K|]. split; [apply incl_refl|]. split; [auto|]. split; [destruct N; congruence|]. auto 10.
      - left. unfold enc_events. replace att with false by (unfold att, tries; destruct N as [N|N]; rewrite N; reflexivity). reflexivity. }
    assert (ON : forall p, pl = Some p -> p <> DECRYPT_FALSE ->
      (let '(clear, attempted, session) := crypto_decrypt G p (x_keys st) o in
        let get_sk := match p with DECRYPT_TRUE => true | _ => false end in
        if negb attempted then Some st
        else match clear with
             | None => Some (emit (EProperty (lit "index.decryption") (lit "failure")) st)
             | Some u =>
                 let st := if get_sk then stash_key session (with_mc (successful_decryption (x_mc st)) st) else st in
                 let '(toindex, st) := payload_check u o 1 st in
                 match go toindex st with
                 | None => None
                 | Some st => Some (emit (EProperty (lit "index.decryption") (lit "success")) st)
                 end
             end) = Some st' ->
      R (enc_events att op o match cleartext o with Some u => Some (events G att op u) | None => None end)
      (o :: match cleartext o with Some u => if op o then encs op u else [] | None => [] end) st st').
    { intros p PL NF. destruct (crypto_eq p (x_keys st) o PL NF K) as (tried & session & -> & TA & TR & SE & ST). cbv zeta.
      destruct tried; cbn [negb].
      2:{ intros H; injection H as <-. unfold enc_events. rewrite <- TA. exists []. split; [now rewrite app_nil_r|]. split; [|now left].
          split; [exact K|]. split; [apply incl_refl|]. split; [auto|]. split; [|auto 10].
          intros PT e [<-|I] D O; [discriminate (TR O D)|].
          destruct (cleartext o) as [u|] eqn:CT; [|destruct I]. destruct (op o) eqn:OO; [|destruct I]. exfalso.
          assert (Y := TR eq_refl). unfold decrypts in Y. rewrite CT in Y. discriminate (Y eq_refl). }
      unfold enc_events. rewrite <- TA. destruct (op o) eqn:OO; [destruct (cleartext o) as [u|] eqn:CT|].
      - set (st1 := if match p with DECRYPT_TRUE => true | _ => false end then stash_key session (with_mc (successful_decryption (x_mc st)) st) else st).
        intros H. destruct (payload_check u o 1 st1) as (q, st2) eqn:PC. destruct (go q st2) as [st3|] eqn:GO; [|discriminate H]. injection H as <-.
        assert (DO : decrypts o = true) by (unfold decrypts; now rewrite CT).
        assert (GX1 : growX [o] st st1 /\ x_out st1 = x_out st).
        { unfold st1. destruct p; [contradiction| | |].
          1,2: split; [|reflexivity]; split; [exact K|]; split; [apply incl_refl|]; split; [auto|]; split; [congruence|]; auto 10.
          assert (NK : x_keys (stash_key session (with_mc (successful_decryption (x_mc st)) st)) = match session with None => x_keys st | Some k => if existsb (bseq k) (x_keys st) then x_keys st else x_keys st ++ [k] end)
            by (unfold stash_key; destruct session as [k|]; [cbn [with_mc x_keys]; now destruct (existsb (bseq k) (x_keys st))|reflexivity]).
          assert (NM : x_mc (stash_key session (with_mc (successful_decryption (x_mc st)) st)) = successful_decryption (x_mc st))
            by (unfold stash_key; destruct session as [k|]; [cbn [with_mc x_keys]; now destruct (existsb (bseq k) (x_keys st))|reflexivity]).
          assert (NO : x_out (stash_key session (with_mc (successful_decryption (x_mc st)) st)) = x_out st)
            by (unfold stash_key; destruct session as [k|]; [cbn [with_mc x_keys]; now destruct (existsb (bseq k) (x_keys st))|reflexivity]).
          split; [|exact NO]. unfold growX. rewrite NK, NM.
          assert (SES : forall k, session = Some k -> g_session G o = Some k /\ g_secret G o = true).
          { intros k E. destruct SE as (_ & S1 & S2); [congruence|]. split; congruence. }
          split.
          { destruct session as [k|]; [|exact K]. destruct (existsb (bseq k) (x_keys st)); [exact K|]. destruct (SES k eq_refl). eapply kinv_stash; eauto. }
          split.
          { destruct session as [k|]; [|apply incl_refl]. destruct (existsb (bseq k) (x_keys st)); [apply incl_refl|]. intros x X. apply in_or_app. now left. }
          split.
          { intros k. destruct session as [k'|]; [|auto]. destruct (existsb (bseq k') (x_keys st)); [auto|]. rewrite in_app_iff. cbn. intros [I|[<-|[]]]; [now left|].
            right. split; [exact PL|]. exists o. destruct (SES k' eq_refl). cbn. auto. }
          split.
          { intros _ e [<-|[]] D O. destruct (ST eq_refl eq_refl D) as [X|X].
            - left. destruct session as [k|]; [|exact X]. destruct (existsb (bseq k) (x_keys st)); [exact X|]. rewrite existsb_app, X. reflexivity.
            - right. intros k GSk. rewrite X, GSk. destruct (existsb (bseq k) (x_keys st)) eqn:EB; [|apply in_or_app; right; now left].
              apply existsb_exists in EB as (k2 & I2 & E2). apply bseq_eq in E2. now subst. }
          split; [auto|]. split; [unfold successful_decryption; cbn; intros ->; now destruct (m_payload (x_mc st))|]. split; [auto|]. split; [congruence|]. auto. }
        destruct GX1 as (GX1 & O1).
        assert (R1 : R [] [o] st st1) by (exists []; rewrite app_nil_r; auto).
        assert (R2 := R_payload go IH u o 1 st1 q st2 st3 (R_kinv _ _ _ _ R1) PC GO).
        assert (R3 := R_emit success st3 (R_kinv _ _ _ _ R2)).
        assert (R23 := R_app _ _ _ _ _ _ _ R2 R3). assert (R123 := R_app _ _ _ _ _ _ _ R1 R23). rewrite app_nil_r, <- TA in R123. exact R123.
      - intros H; injection H as <-. assert (R1 := R_emit failure st K). destruct R1 as (E & O & GX & C). exists E. split; [exact O|]. split; [|exact C].
        destruct GX as (A1 & A2 & A3 & A4 & A5). split; [exact A1|]. split; [exact A2|]. split; [intros k I; destruct (A3 k I) as [|(? & e & [] & _)]; now left|]. split; [|exact A5].
        intros _ e [<-|[]] D O'. unfold decrypts in D. rewrite CT in D. discriminate D.
      - intros H; injection H as <-. assert (R1 := R_emit failure st K). replace (match match cleartext o with Some u => Some (events G true op u) | None => None end with Some l => [failure] | None => [failure] end) with [failure] by now destruct (cleartext o).
        replace (match cleartext o with Some u => [] | None => [] end) with (@nil obj) by now destruct (cleartext o).
        destruct R1 as (E & O & GX & C). exists E. split; [exact O|]. split; [|exact C].
        destruct GX as (A1 & A2 & A3 & A4 & A5). split; [exact A1|]. split; [exact A2|]. split; [intros k I; destruct (A3 k I) as [|(? & e & [] & _)]; now left|]. split; [|exact A5].
        intros _ e [<-|[]] D O'. congruence. }
    destruct (policy_cases pl) as [PL|[PL|[PL|[PL|PL]]]]; rewrite PL; intros H.
    - injection H as <-. apply OFF; auto.
    - injection H as <-. apply OFF; auto.
    - apply (ON DECRYPT_AUTO); [exact PL|discriminate|exact H].
    - apply (ON DECRYPT_NOSTASH); [exact PL|discriminate|exact H].
    - apply (ON DECRYPT_TRUE); [exact PL|discriminate|exact H].
  Qed.

  Notation EV := (events G att op).
  Lemma R_nil_l EV0 L st st' : R EV0 L st st' -> kinv (x_keys st'). Proof. apply R_kinv. Qed.
  Lemma R_plain go (IH : forall o st st', kinv (x_keys st) -> go o st = Some st' -> R (EV o) (encs op o) st st') o : forall ch i st st',
    kinv (x_keys st) -> index_children G pl go o MPlain i ch st = Some st' -> R (concat (map EV ch)) (concat (map (encs op) ch)) st st'.
  Proof.
    induction ch as [|x ch IHc]; intros i st st' K H; cbn [index_children] in H.
    - injection H as <-. now apply R_refl.
    - destruct (payload_check x o i st) as (q, st1) eqn:PC. destruct (go q st1) as [st2|] eqn:GO; [|discriminate H].
      assert (R1 := R_payload go IH x o i st q st1 st2 K PC GO). cbn [map concat]. eapply R_app; [exact R1|]. eapply IHc; [exact (R_kinv _ _ _ _ R1)|exact H].
  Qed.
  Lemma R_signed_rest go (IH : forall o st st', kinv (x_keys st) -> go o st = Some st' -> R (EV o) (encs op o) st st') o : forall ch i st st', 1 < i ->
    kinv (x_keys st) -> index_children G pl go o MSigned i ch st = Some st' -> R (concat (map EV ch)) (concat (map (encs op) ch)) st st'.
  Proof.
    induction ch as [|x ch IHc]; intros i st st' I K H; cbn [index_children] in H.
    - injection H as <-. now apply R_refl.
    - replace (i =? 1) with false in H by (symmetry; apply Nat.eqb_neq; lia).
      destruct (payload_check x o i st) as (q, st1) eqn:PC. destruct (go q st1) as [st2|] eqn:GO; [|discriminate H].
      assert (R1 := R_payload go IH x o i st q st1 st2 K PC GO). cbn [map concat]. eapply R_app; [exact R1|]. eapply IHc; [|exact (R_kinv _ _ _ _ R1)|exact H]. lia.
  Qed.
  Lemma R_encrypted_rest go o : forall ch i st st', 1 < i ->
    kinv (x_keys st) -> index_children G pl go o MEncrypted i ch st = Some st' -> R (map etype ch) [] st st'.
  Proof.
    induction ch as [|x ch IHc]; intros i st st' I K H; cbn [index_children] in H.
    - injection H as <-. now apply R_refl.
    - replace (i =? 1) with false in H by (symmetry; apply Nat.eqb_neq; lia).
      cbn [map]. apply R_cons; [exact K|]. eapply IHc; [|exact K|exact H]. lia.
  Qed.
  Lemma R_enc_children go (IH : forall o st st', kinv (x_keys st) -> go o st = Some st' -> R (EV o) (encs op o) st st') o ch st st' :
    kinv (x_keys st) -> index_children G pl go o MEncrypted 0 ch st = Some st' ->
    match ch with
    | c0 :: c1 :: rest => R (etype c0 :: etype c1 :: enc_events att op o match cleartext o with Some u => Some (EV u) | None => None end ++ map etype rest)
                            (o :: match cleartext o with Some u => if op o then encs op u else [] | None => [] end) st st'
    | _ => R (map etype ch) [] st st'
    end.
  Proof.
    intros K H. destruct ch as [|c0 [|c1 rest]]; cbn [index_children Nat.eqb] in H.
    - injection H as <-. now apply R_refl.
    - injection H as <-. now apply R_emit.
    - destruct (index_encrypted G pl go o _) as [st1|] eqn:IE; [|discriminate H].
      apply R_cons; [exact K|]. apply R_cons; [exact K|]. assert (K1 : kinv (x_keys (index_content_type c1 (index_content_type c0 st)))) by exact K.
      assert (R1 := R_encrypted go IH o _ st1 K1 IE).
      assert (R2 := R_encrypted_rest go o rest 2 st1 st' ltac:(lia) (R_kinv _ _ _ _ R1) H). assert (R12 := R_app _ _ _ _ _ _ _ R1 R2). rewrite app_nil_r in R12. exact R12.
  Qed.
  Lemma R_part1 go (IH : forall o st st', kinv (x_keys st) -> go o st = Some st' -> R (EV o) (encs op o) st st') o st st' :
    kinv (x_keys st) -> index_part1 G pl go o st = Some st' -> R (EV o) (encs op o) st st'.
  Proof.
    intros K. unfold index_part1. destruct o as [i t|i k ch sg d|i sj body|i t (sg, u) d].
    - cbn [repair_mixed_up events encs]. intros H. apply R_cons; [exact K|]. unfold part_events. destruct (o_attachment i) as [file|].
      + apply R_cons; [exact K|]. apply R_cons; [exact K|]. destruct (g_astext G (o_mime i)); injection H as <-; [now apply R_emit|now apply R_refl].
      + injection H as <-. now apply R_emit.
    - cbn [events encs]. destruct (repair_mixed_up (OMulti i k ch sg d)) as [r|] eqn:RM.
      + destruct (repair_shape _ _ RM) as (i0 & k0 & p0 & p1 & p2 & sg0 & d0 & i' & E & RE & _). injection E as -> -> -> -> ->. rewrite RE. cbv iota beta zeta.
        intros H. apply R_cons; [exact K|]. apply R_cons; [exact K|]. apply R_cons; [exact K|].
        apply (R_enc_children go IH) in H; [|exact K]. cbn [map] in H. rewrite app_nil_r in H. cbn [cleartext] in H. cbn [app].
        destruct d0 as [(u, s0)|]; exact H.
      + cbv iota beta zeta. intros H. apply R_cons; [exact K|]. destruct k.
        * eapply R_plain; [exact IH|exact K|exact H].
        * destruct ch as [|c0 [|c1 rest]].
          -- apply R_cons; [exact K|]. cbn in H. injection H as <-. now apply R_refl.
          -- apply R_cons; [exact K|]. cbn [index_children Nat.eqb] in H.
             destruct (payload_check c0 _ 0 _) as (q, st1) eqn:PC. destruct (go q st1) as [st2|] eqn:GO; [|discriminate H]. injection H as <-.
             cbn [map concat]. rewrite !app_nil_r. eapply R_payload; [exact IH|exact K|exact PC|exact GO].
          -- apply R_cons; [exact K|]. cbn [index_children Nat.eqb] in H.
             destruct (payload_check c0 _ 0 _) as (q, st1) eqn:PC. destruct (go q st1) as [st2|] eqn:GO; [|discriminate H].
             assert (R1 := fun K' => R_payload go IH c0 _ 0 _ q st1 st2 K' PC GO). specialize (R1 K). eapply R_app; [exact R1|].
             apply R_cons; [exact (R_kinv _ _ _ _ R1)|]. eapply (R_signed_rest go IH); [|exact (R_kinv _ _ _ _ R1)|exact H]. lia.
        * apply (R_enc_children go IH) in H; [|exact K]. cbn [cleartext] in H.
          destruct ch as [|c0 [|c1 rest]]; (apply R_cons; [exact K|]); try exact H. destruct d as [(u, s0)|]; exact H.
    - cbn [repair_mixed_up events encs]. intros H. apply R_cons; [exact K|]. now apply IH.
    - cbn [repair_mixed_up]. unfold index_pkcs7. destruct t; intros H; cbn [events encs].
      + destruct sg as [s|]; [destruct u as [u|]|].
        * apply R_cons; [exact K|]. apply R_cons; [exact K|]. apply R_cons; [exact K|]. destruct (payload_check u _ 0 _) as (q, st1) eqn:PC.
          eapply R_payload; [exact IH|exact K|exact PC|exact H].
        * apply R_cons; [exact K|]. apply R_cons; [exact K|]. injection H as <-. now apply R_emit.
        * apply R_cons; [exact K|]. injection H as <-. now apply R_emit.
      + apply R_cons; [exact K|]. apply R_cons; [exact K|]. apply R_cons; [exact K|]. apply (R_encrypted go IH) in H; [|exact K]. cbn [cleartext] in H.
        destruct d as [(uu, s0)|]; exact H.
      + apply R_cons; [exact K|]. injection H as <-. now apply R_emit.
  Qed.
  Lemma R_index f : forall o st st', kinv (x_keys st) -> index_part f G pl o st = Some st' -> R (EV o) (encs op o) st st'.
  Proof.
    induction f as [|f IH]; intros o st st' K H; [discriminate H|]. cbn [index_part] in H. eapply R_part1; [exact IH|exact K|exact H].
  Qed.
End run.

(** ** Totality *)
Lemma payload_check_depth o par i st : depth (fst (payload_check o par i st)) <= depth o.
Proof.
  unfold payload_check. destruct (potential_payload _ _ _ _) as (yes, m). destruct (yes && is_full (m_dec m)); [|cbn; lia].
  destruct (skip_legacy_display o) as [q|] eqn:K; [|cbn; lia]. apply depth_skip in K. cbn. lia.
Qed.
Lemma cleartext_depth o u : cleartext o = Some u -> depth u < depth o.
Proof. destruct o as [|? [] ? ? [(?, ?)|]| |? [] (?, ?) [(?, ?)|]]; try discriminate; cbn; intros H; injection H as <-; lia. Qed.
Lemma crypto_cleartext G p keys o u b s : crypto_decrypt G p keys o = (Some u, b, s) -> cleartext o = Some u.
Proof.
  unfold crypto_decrypt. rewrite with_keys_eq. destruct p; [discriminate| | |];
    (destruct (existsb _ _); [destruct (cleartext o); [intros H; injection H as <- <- <-; reflexivity|]|]); try discriminate;
    destruct (g_secret G o); try discriminate; destruct (cleartext o); try discriminate; intros H; injection H as <- <- <-; reflexivity.
Qed.
Lemma index_encrypted_total G pl go n o : depth o <= S n -> (forall x st, depth x <= n -> go x st <> None) -> forall st, index_encrypted G pl go o st <> None.
Proof.
  intros D IH st. unfold index_encrypted.
  assert (A : forall p, (let '(clear, attempted, session) := crypto_decrypt G p (x_keys st) o in
        let get_sk := match p with DECRYPT_TRUE => true | _ => false end in
        if negb attempted then Some st
        else match clear with
             | None => Some (emit (EProperty (lit "index.decryption") (lit "failure")) st)
             | Some u =>
                 let st := if get_sk then stash_key session (with_mc (successful_decryption (x_mc st)) st) else st in
                 let '(toindex, st) := payload_check u o 1 st in
                 match go toindex st with
                 | None => None
                 | Some st => Some (emit (EProperty (lit "index.decryption") (lit "success")) st)
                 end
             end) <> None).
  { intros p. destruct (crypto_decrypt G p (x_keys st) o) as ((clear, attempted), session) eqn:CD. cbv zeta. destruct (negb attempted); [discriminate|].
    destruct clear as [u|]; [|discriminate]. apply crypto_cleartext, cleartext_depth in CD.
    set (st1 := if (match p with DECRYPT_TRUE => true | _ => false end) then stash_key session (with_mc (successful_decryption (x_mc st)) st) else st). assert (PD := payload_check_depth u o 1 st1). destruct (payload_check u o 1 st1) as (q, st2). cbn [fst] in PD.
    specialize (IH q st2 ltac:(lia)). now destruct (go q st2). }
  destruct pl as [[]|]; try discriminate; apply A.
Qed.
Lemma index_children_total G pl go n o k : depth o <= S n -> (forall x st, depth x <= n -> go x st <> None) ->
  forall ch i st, (forall x, In x ch -> depth x <= n) -> index_children G pl go o k i ch st <> None.
Proof.
  intros D IH. induction ch as [|x ch IHc]; intros i st H; [discriminate|]. cbn [index_children].
  assert (H' : forall y, In y ch -> depth y <= n) by (intros y Y; apply H; now right).
  assert (PL : (let '(toindex, st0) := payload_check x o i st in match go toindex st0 with Some st1 => index_children G pl go o k (S i) ch st1 | None => None end) <> None).
  { assert (PD := payload_check_depth x o i st). destruct (payload_check x o i st) as (q, st2). cbn [fst] in PD. specialize (H x (or_introl eq_refl)).
    specialize (IH q st2 ltac:(lia)). destruct (go q st2); [now apply IHc|contradiction]. }
  destruct k; [exact PL| |].
  - destruct (i =? 1); [now apply IHc|exact PL].
  - destruct (i =? 1); [|now apply IHc]. assert (X := index_encrypted_total G pl go n o D IH (index_content_type x st)).
    destruct (index_encrypted G pl go o _); [now apply IHc|contradiction].
Qed.
Lemma index_part_total G pl : forall f o st, depth o <= f -> index_part f G pl o st <> None.
Proof.
  induction f as [|f IH]; intros o st D; [assert (X := depth_pos o); lia|]. cbn [index_part]. unfold index_part1.
  destruct (repair_mixed_up o) as [r|] eqn:RM.
  - assert (RD := depth_repair _ _ RM). destruct (repair_shape _ _ RM) as (i0 & k0 & p0 & p1 & p2 & sg0 & d0 & i' & -> & -> & _).
    cbv zeta. apply (index_children_total G pl _ f); [cbn in *; lia|exact IH|]. intros x X. cbn in X. cbn in RD, D. destruct X as [<-|[<-|[]]]; lia.
  - destruct o as [i t|i k ch sg d|i sj body|i t (sg, u) d].
    + cbv zeta. destruct (o_attachment i); [destruct (g_astext G (o_mime i))|]; discriminate.
    + cbv zeta. apply (index_children_total G pl _ f); [exact D|exact IH|]. intros x X. apply depth_child in X. cbn in D. lia.
    + apply IH. cbn in D. lia.
    + unfold index_pkcs7. cbv zeta. cbn in D. destruct t; [|apply (index_encrypted_total G pl _ f); [cbn; lia|exact IH]|discriminate].
      destruct sg as [s|]; [|discriminate]. destruct u as [u|]; [|discriminate].
      set (st1 := emit _ _). assert (PD := payload_check_depth u (OPkcs7 i SM_signed (Some s, Some u) d) 0 st1).
      destruct (payload_check u _ 0 st1) as (q, st2). cbn [fst] in PD. apply IH. lia.
Qed.

(** ** Consequences for the events *)
Lemma obj_ind' (P : obj -> Prop) : (forall o, (forall x, depth x < depth o -> P x) -> P o) -> forall o, P o.
Proof. intros H o. induction o as [o IH] using (well_founded_induction (Wf_nat.well_founded_ltof _ depth)). apply H. exact IH. Qed.
Lemma concat_map_ext_in {A B} (f : obj -> list A) (g : obj -> list B) (h : list A -> list B) ch :
  h [] = [] -> (forall a b, h (a ++ b) = h a ++ h b) -> (forall x, In x ch -> h (f x) = g x) -> h (concat (map f ch)) = concat (map g ch).
Proof.
  intros H0 HA. induction ch as [|x ch IH]; intros H; [exact H0|]. cbn [map concat]. rewrite HA, (H x (or_introl eq_refl)), IH; [reflexivity|]. intros y Y. apply H. now right.
Qed.
Section facts.
  Variables (G : gpg) (att : bool) (op : obj -> bool).
  Hypothesis opatt : forall o, op o = true -> att = true.
  Notation EV := (events G att op).
  Lemma texts_app a b : texts (a ++ b) = texts a ++ texts b. Proof. apply flat_map_app. Qed.
  Lemma texts_types l : texts (map etype l) = []. Proof. induction l; [reflexivity|exact IHl]. Qed.
  Lemma texts_enc o u0 : texts (enc_events att op o match u0 with Some u => Some (EV u) | None => None end) =
    match u0 with Some u => if op o then texts (EV u) else [] | None => [] end.
  Proof.
    unfold enc_events. destruct u0 as [u|]; destruct att eqn:A; try reflexivity; destruct (op o) eqn:O; try reflexivity.
    - rewrite texts_app. cbn. now rewrite app_nil_r.
    - discriminate (opatt o O).
  Qed.
  Lemma texts_skip e E : (forall t, e <> EText t) -> texts (e :: E) = texts E.
  Proof. intros H. destruct e; try reflexivity. now contradiction (H t). Qed.
  Ltac skip_texts := rewrite !texts_skip by (intros ? XX; discriminate XX).
  Lemma texts_events o : texts (EV o) = flat_map (text_of G) (leaves op o).
  Proof.
    induction o as [o IH] using obj_ind'. destruct o as [i t|i k ch sg d|i sj body|i t (sg, u) d]; cbn [events leaves].
    - cbn [flat_map]. rewrite app_nil_r. unfold part_events, text_of, etype. cbn [info_of]. destruct (o_attachment i); [|reflexivity]. cbn. now destruct (g_astext G (o_mime i)).
    - assert (CH : forall x, In x ch -> texts (EV x) = flat_map (text_of G) (leaves op x)).
      { intros x X. apply IH. apply depth_child in X. cbn. lia. }
      assert (DC : forall u s, d = Some (u, s) -> texts (EV u) = flat_map (text_of G) (leaves op u)).
      { intros x s ->. apply IH. cbn. lia. }
      assert (CC : forall l, incl l ch -> texts (concat (map EV l)) = flat_map (text_of G) (concat (map (leaves op) l))).
      { intros l I. rewrite (concat_map_ext_in EV (fun x => flat_map (text_of G) (leaves op x)) texts l eq_refl texts_app).
        - clear. induction l as [|x l IHl]; [reflexivity|]. cbn [map concat]. now rewrite flat_map_app, IHl.
        - intros x X. apply CH. now apply I. }
      destruct (repair_mixed_up (OMulti i k ch sg d)) as [r|] eqn:RM.
      + destruct (repair_shape _ _ RM) as (i0 & k0 & p0 & p1 & p2 & sg0 & d0 & i' & E & RE & _). injection E as -> -> -> -> ->. skip_texts. cbn [app]. skip_texts.
        destruct d0 as [(u, s)|]; [rewrite (texts_enc r (Some u))|rewrite (texts_enc r None); reflexivity]. rewrite (DC u s eq_refl). now destruct (op r).
      + skip_texts. destruct k.
        * apply CC, incl_refl.
        * destruct ch as [|c0 [|c1 rest]]; skip_texts; try apply CC, incl_refl.
          rewrite texts_app, flat_map_app. skip_texts. rewrite CH by now left. f_equal. apply CC. intros x X. right. now right.
        * destruct ch as [|c0 [|c1 rest]]; skip_texts; try (now rewrite texts_types).
          rewrite texts_app, texts_types, app_nil_r. set (o := OMulti _ _ _ _ _) in *.
          destruct d as [(u, s)|]; [rewrite (texts_enc o (Some u))|rewrite (texts_enc o None); reflexivity]. rewrite (DC u s eq_refl). now destruct (op o).
    - skip_texts. apply IH. cbn. lia.
    - destruct t.
      + destruct sg as [s|]; [destruct u as [u|]|]; try reflexivity. skip_texts. apply IH. cbn. lia.
      + skip_texts. set (o := OPkcs7 _ _ _ _) in *. destruct d as [(uu, s)|]; [rewrite (texts_enc o (Some uu))|rewrite (texts_enc o None); reflexivity].
        rewrite IH by (subst o; cbn; lia). now destruct (op o).
      + reflexivity.
  Qed.
  (** The properties of decryption. *)
  Definition good (e : obj) : bool := decrypts e && op e.
  Definition props_ok (L : list obj) (E : list event) : Prop :=
    (In success E <-> exists e, In e L /\ good e = true) /\
    (In failure E <-> att = true /\ exists e, In e L /\ good e = false).
  Lemma props_nil : props_ok [] [].
  Proof. split; [split; [intros []|intros (e & [] & _)]|split; [intros []|intros (_ & e & [] & _)]]. Qed.
  Lemma props_app L E L' E' : props_ok L E -> props_ok L' E' -> props_ok (L ++ L') (E ++ E').
  Proof.
    intros (A & B) (C & D). unfold props_ok. rewrite !in_app_iff, A, B, C, D.
    split; (split; [|]).
    - intros [(e & I & Q)|(e & I & Q)]; exists e; rewrite in_app_iff; auto.
    - intros (e & I & Q). rewrite in_app_iff in I. destruct I; eauto.
    - intros [(X & e & I & Q)|(X & e & I & Q)]; split; auto; exists e; rewrite in_app_iff; auto.
    - intros (X & e & I & Q). rewrite in_app_iff in I. destruct I; eauto.
  Qed.
  Lemma props_cons e L E : e <> success -> e <> failure -> props_ok L E -> props_ok L (e :: E).
  Proof. intros N1 N2 (A & B). unfold props_ok. cbn [In]. rewrite A, B. split; (split; [intros [X|X]; [contradiction|exact X]|auto]). Qed.
  Lemma props_types l : props_ok [] (map etype l).
  Proof. induction l as [|x l IH]; [apply props_nil|]. cbn [map]. apply props_cons; [discriminate|discriminate|exact IH]. Qed.
  Lemma props_concat (f : obj -> list event) (g : obj -> list obj) l : (forall x, In x l -> props_ok (g x) (f x)) -> props_ok (concat (map g l)) (concat (map f l)).
  Proof.
    induction l as [|x l IH]; intros H; [apply props_nil|]. cbn [map concat]. apply props_app; [apply H; now left|]. apply IH. intros y Y. apply H. now right.
  Qed.
  Lemma props_enc o (DC : forall u, cleartext o = Some u -> props_ok (encs op u) (EV u)) :
    props_ok (o :: match cleartext o with Some u => if op o then encs op u else [] | None => [] end)
      (enc_events att op o match cleartext o with Some u => Some (EV u) | None => None end).
  Proof.
    unfold enc_events. destruct (cleartext o) as [u|] eqn:CT.
    - assert (D : decrypts o = true) by (unfold decrypts; now rewrite CT).
      destruct (op o) eqn:O.
      + specialize (DC u eq_refl). rewrite (opatt o O) in DC |- *. destruct DC as (A & B). split.
        * split; [intros _; exists o; split; [now left|]; unfold good; now rewrite D, O|]. intros _. apply in_or_app. right. now left.
        * rewrite in_app_iff. split.
          -- intros [X|[X|[]]]; [|discriminate X]. apply B in X as (X & e & I & Q). split; [exact X|]. exists e. split; [now right|exact Q].
          -- intros (X & e & [<-|I] & Q); [unfold good in Q; rewrite D, O in Q; discriminate Q|]. left. apply B. eauto.
      + assert (Q : good o = false) by (unfold good; now rewrite O, andb_false_r). destruct att eqn:A.
        * split; [split|split].
          -- intros [X|[]]; discriminate X.
          -- intros (e & [<-|[]] & Y). congruence.
          -- intros _. split; [exact A|]. exists o. split; [now left|exact Q].
          -- intros _. now left.
        * split; [split; [intros []|intros (e & [<-|[]] & Y); congruence]|split; [intros []|intros (Y & _); congruence]].
    - assert (Q : good o = false) by (unfold good, decrypts; now rewrite CT). destruct att eqn:A.
      * split; [split|split].
        -- intros [X|[]]; discriminate X.
        -- intros (e & [<-|[]] & Y). congruence.
        -- intros _. split; [exact A|]. exists o. split; [now left|exact Q].
        -- intros _. now left.
      * split; [split; [intros []|intros (e & [<-|[]] & Y); congruence]|split; [intros []|intros (Y & _); congruence]].
  Qed.
  Lemma props_events o : props_ok (encs op o) (EV o).
  Proof.
    assert (CN : forall t L E, props_ok L E -> props_ok L (ETag t :: E)) by (intros; now apply props_cons).
    assert (CT : forall x L E, props_ok L E -> props_ok L (etype x :: E)) by (intros; now apply props_cons).
    induction o as [o IH] using obj_ind'. destruct o as [i t|i k ch sg d|i sj body|i t (sg, u) d]; cbn [events encs].
    - apply CT. unfold part_events. destruct (o_attachment i); [apply CN, props_cons; [discriminate|discriminate|]; destruct (g_astext G (o_mime i)); [|apply props_nil]|];
        (apply props_cons; [discriminate|discriminate|apply props_nil]).
    - assert (CH : forall x, In x ch -> props_ok (encs op x) (EV x)) by (intros x X; apply IH; apply depth_child in X; cbn; lia).
      assert (DC : forall u s, d = Some (u, s) -> props_ok (encs op u) (EV u)) by (intros x s ->; apply IH; cbn; lia).
      destruct (repair_mixed_up (OMulti i k ch sg d)) as [r|] eqn:RM.
      + destruct (repair_shape _ _ RM) as (i0 & k0 & p0 & p1 & p2 & sg0 & d0 & i' & E & RE & _). injection E as -> -> -> -> ->.
        apply props_cons; [discriminate|discriminate|]. apply CT, CN. cbn [app]. apply CT, CT.
        assert (X := props_enc r). rewrite RE in *. cbn [cleartext] in X. destruct d0 as [(u, s)|]; apply X; [intros u' E; injection E as <-; exact (DC u s eq_refl)|discriminate].
      + apply CT. destruct k.
        * now apply props_concat.
        * destruct ch as [|c0 [|c1 rest]]; apply CN; try now apply props_concat.
          apply props_app; [apply CH; now left|]. apply CT, props_concat. intros x X. apply CH. right. now right.
        * destruct ch as [|c0 [|c1 rest]]; apply CN; try apply props_types. apply CT, CT.
          assert (Y := props_enc (OMulti i MEncrypted (c0 :: c1 :: rest) sg d)). cbn [cleartext] in Y. rewrite <- (app_nil_r (_ :: _)). apply props_app; [|apply props_types].
          destruct d as [(u, s)|]; apply Y; [intros u' E; injection E as <-; exact (DC u s eq_refl)|discriminate].
    - apply CT, IH. cbn. lia.
    - destruct t.
      + destruct sg as [s|]; [destruct u as [u|]|]; apply CT, CT; [apply CN; apply IH; cbn; lia|apply CN, props_nil|apply props_nil].
      + apply CT, CT, CN. assert (Y := props_enc (OPkcs7 i SM_enveloped (sg, u) d)). cbn [cleartext] in Y.
        destruct d as [(uu, s)|]; apply Y; [intros u' E; injection E as <-; apply IH; cbn; lia|discriminate].
      + apply CT, CT, props_nil.
  Qed.
End facts.

(** ** Without keys *)
Lemma info_sealed o : info_of (sealed o) = info_of o.
Proof. now destruct o as [| | |? ? (?, ?) ?]. Qed.
Lemma is_type_sealed o t : is_type (sealed o) t = is_type o t. Proof. unfold is_type. now rewrite info_sealed. Qed.
Lemma etype_sealed o : etype (sealed o) = etype o. Proof. unfold etype. now rewrite info_sealed. Qed.
Lemma textpart_sealed o : match sealed o with OPart _ true => true | _ => false end = match o with OPart _ true => true | _ => false end.
Proof. now destruct o as [? []| | |? ? (?, ?) ?]. Qed.
Lemma repair_sealed o : repair_mixed_up (sealed o) = match repair_mixed_up o with Some r => Some (sealed r) | None => None end.
Proof.
  destruct o as [|i k ch sg d| |? ? (?, ?) ?]; try reflexivity. destruct ch as [|p0 [|p1 [|p2 [|p3 ch]]]]; try reflexivity.
  cbn [sealed map repair_mixed_up]. rewrite !is_type_sealed, info_sealed, textpart_sealed. now destruct (_ && _).
Qed.
Lemma depth_sealed o : depth (sealed o) <= depth o.
Proof.
  induction o as [o IH] using obj_ind'. destruct o as [i t|i k ch sg d|i sj body|i t (sg, u) d]; cbn [sealed depth].
  - lia.
  - assert (H : list_max (map depth (map sealed ch)) <= list_max (map depth ch)); [|lia].
    apply list_max_le. rewrite Forall_forall. intros n X. apply in_map_iff in X as (y & <- & Y). apply in_map_iff in Y as (x & <- & X).
    assert (A := depth_child x ch X). specialize (IH x). cbn in IH. lia.
  - specialize (IH body). cbn in IH. lia.
  - destruct u as [u|]; [|destruct d as [(?, ?)|]; lia]. specialize (IH u). cbn in IH. destruct d as [(?, ?)|]; lia.
Qed.
Lemma events_sealed G op op' o : events G false op (sealed o) = events G false op' o.
Proof.
  induction o as [o IH] using obj_ind'. assert (RS := repair_sealed o).
  destruct o as [i t|i k ch sg d|i sj body|i t (sg, u) d]; cbn [sealed] in *; cbn [events].
  - reflexivity.
  - rewrite RS. assert (CM : forall l, incl l ch -> map (events G false op) (map sealed l) = map (events G false op') l).
    { intros l I. rewrite map_map. apply map_ext_in. intros x X. apply IH. apply I in X. apply depth_child in X. cbn. lia. }
    assert (TY : forall l, map etype (map sealed l) = map etype l) by (intros l; rewrite map_map; apply map_ext; exact etype_sealed).
    destruct (repair_mixed_up (OMulti i k ch sg d)) as [r|] eqn:RM.
    + rewrite etype_sealed. destruct (repair_shape _ _ RM) as (i0 & k0 & p0 & p1 & p2 & sg0 & d0 & i' & E & RE & _). injection E as -> -> -> -> ->.
      cbn [map app enc_events]. now rewrite !etype_sealed.
    + f_equal. destruct k.
      * now rewrite CM by apply incl_refl.
      * destruct ch as [|c0 [|c1 rest]]; cbn [map]; try reflexivity.
        -- do 2 f_equal. cbn [map]. rewrite IH by (cbn; lia). reflexivity.
        -- f_equal. rewrite IH by (cbn; lia). f_equal. rewrite etype_sealed. f_equal. rewrite CM; [reflexivity|]. intros x X. right. now right.
      * destruct ch as [|c0 [|c1 rest]]; cbn [map]; rewrite ?etype_sealed; try reflexivity. cbn [enc_events app]. now rewrite TY.
  - cbn [etype info_of]. f_equal. apply IH. cbn. lia.
  - destruct t; [|reflexivity|reflexivity]. destruct sg; [|reflexivity]. destruct u as [u|]; [|reflexivity]. do 3 f_equal. apply IH. cbn. lia.
Qed.
Lemma opened_tries G pl keys o : opened G pl keys o = true -> tries pl keys = true.
Proof.
  unfold opened, tries. destruct (may_secret pl); [reflexivity|]. cbn [andb orb]. destruct (may_stashed pl); [|discriminate]. cbn. destruct keys; [discriminate|reflexivity].
Qed.

(** ** The whole file *)
Definition start (keys : list bytes) : ist := {| x_out := []; x_keys := keys; x_mc := mcrypto_new |}.
Lemma index_file_run f G pl body keys : depth body <= f -> 
  (pl = Some DECRYPT_TRUE -> forall o k o', g_session G o = Some k -> g_opens G o' k = true -> opened G pl keys o' = true) ->
  exists st0 st E, index_file f G pl body keys = Some st /\ x_out st0 = E /\
    x_out st = E ++ match m_psubject (x_mc st0) with Some s => [ESubject s] | None => [] end /\ x_keys st = x_keys st0 /\ x_mc st = x_mc st0 /\
    growX G pl keys (encs (opened G pl keys) body) (start keys) st0 /\
    (E = events G (tries pl keys) (opened G pl keys) body \/
     m_dec (x_mc st0) = DEC_FULL /\ hidesE G pl keys (events G (tries pl keys) (opened G pl keys) body) E).
Proof.
  intros D NL. unfold index_file. fold (start keys). assert (T := index_part_total G pl f body (start keys) D).
  destruct (index_part f G pl body (start keys)) as [st0|] eqn:IP; [|contradiction].
  destruct (R_index G pl keys NL f body (start keys) st0 (kinv0 G pl keys) IP) as (E & O & GX & C). cbn [start x_out app] in O.
  exists st0, (match m_psubject (x_mc st0) with Some s => emit (ESubject s) st0 | None => st0 end), E.
  split; [reflexivity|]. split; [exact O|]. split; [destruct (m_psubject (x_mc st0)); cbn; rewrite O, ?app_nil_r; reflexivity|].
  split; [now destruct (m_psubject (x_mc st0))|]. split; [now destruct (m_psubject (x_mc st0))|]. split; [exact GX|].
  destruct C as [C|(_ & _ & C & H)]; auto.
Qed.
