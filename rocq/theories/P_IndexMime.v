(** C56: what is indexed of encrypted messages under each policy, and which session keys are
    kept.  [depth body <= f]: the recursion of the program, which has no bound. *)
From Verif Require Import Bytes StrUtil Reply Mime MimeSpec MimeProofs IndexMime IndexMimeSpec IndexMimeProofs P_Mime.
Local Open Scope nat_scope.

Lemma separate_noleak G pl keys : separate G keys ->
  pl = Some DECRYPT_TRUE -> forall o k o', g_session G o = Some k -> g_opens G o' k = true -> opened G pl keys o' = true.
Proof.
  intros S -> o k o' A B. unfold opened. cbn. destruct (S o k o' A B) as [-> | ->]; [reflexivity|now rewrite orb_true_r].
Qed.

(** The table: the texts indexed are those of all parts that are not encrypted, or opened in
    a way the policy allows; in their order.  (With policy true one copy of protected headers
    may be left out of a message that is encrypted as a whole.) *)
Theorem C56_policy_decides_what_is_indexed : forall f G pl body keys, depth body <= f -> separate G keys ->
  exists st, index_file f G pl body keys = Some st /\
    let all := flat_map (text_of G) (leaves (opened G pl keys) body) in
    (texts (x_out st) = all \/
     pl = Some DECRYPT_TRUE /\ m_dec (x_mc st) = DEC_FULL /\
     exists a b x copy, legacy_display x copy /\ all = a ++ text_of G copy ++ b /\ texts (x_out st) = a ++ b).
Proof.
  intros f G pl body keys D S. destruct (index_file_run f G pl body keys D (separate_noleak G pl keys S)) as (st0 & st & E & I & O0 & O & K & M & GX & C).
  exists st. split; [exact I|]. cbv zeta. assert (TX : texts (x_out st) = texts E).
  { rewrite O, texts_app. destruct (m_psubject (x_mc st0)); cbn; apply app_nil_r. }
  assert (TE := texts_events G (tries pl keys) (opened G pl keys) (opened_tries G pl keys)).
  rewrite TX. destruct C as [-> |(F & a & b & x & q & EV & SK & ->)]; [left; apply TE|right].
  split.
  { destruct GX as (_ & _ & _ & _ & _ & _ & _ & GX & _). destruct (policy_cases pl) as [P|[P|[P|[P|P]]]]; try exact P; rewrite GX in F by congruence; discriminate F. }
  split; [congruence|].
  assert (LX : exists copy, legacy_display x copy /\ texts (events G (tries pl keys) (opened G pl keys) x) = text_of G copy ++ texts (events G (tries pl keys) (opened G pl keys) q)).
  { destruct x as [|i k ch sg d| |]; try discriminate SK. destruct k; try discriminate SK. destruct ch as [|p0 [|p1 [|]]]; try discriminate SK.
    exists p0. assert (SK0 := SK). cbn [skip_legacy_display] in SK. destruct (_ && _) eqn:B; [|discriminate SK]. injection SK as ->.
    split; [exists i, q, sg, d; auto|]. apply andb_true_iff in B as (_ & B). destruct p0 as [pi []| | |]; try discriminate B.
    rewrite !TE. cbn. now rewrite app_nil_r. }
  destruct LX as (copy & LD & LX). exists (texts a), (texts (events G (tries pl keys) (opened G pl keys) q) ++ texts b), x, copy.
  split; [exact LD|]. split.
  - rewrite <- TE, EV, !texts_app, LX. now rewrite <- app_assoc.
  - rewrite texts_app. cbn [app]. rewrite texts_skip by (intros t X; discriminate X). now rewrite texts_app.
Qed.

(** Nothing of what is encrypted gets into the index, by any way, if the policy is false, or
    auto and no session key is known: everything is as for the message with the encrypted
    parts taken out. *)
Theorem C56_without_keys_nothing_leaks : forall f G pl body keys, depth body <= f -> tries pl keys = false ->
  exists st, index_file f G pl body keys = Some st /\
    (exists st', index_file f G pl (sealed body) keys = Some st' /\ x_out st' = x_out st) /\ x_keys st = keys.
Proof.
  intros f G pl body keys D T.
  assert (NT : pl <> Some DECRYPT_TRUE) by (intros ->; discriminate T).
  assert (OUT : forall b, depth b <= f -> exists st, index_file f G pl b keys = Some st /\ x_out st = events G false (opened G pl keys) b /\ x_keys st = keys).
  { intros b Db. destruct (index_file_run f G pl b keys Db) as (st0 & st & E & I & O0 & O & K & M & GX & C); [contradiction|].
    destruct GX as (KI & _ & _ & _ & _ & _ & _ & GD & GP). specialize (GD NT). cbn in GD.
    exists st. split; [exact I|]. rewrite O. destruct C as [-> |(F & _)]; [|congruence]. rewrite T.
    destruct (GP eq_refl) as [P|P]; [cbn in P; rewrite P, app_nil_r|congruence]. split; [reflexivity|]. rewrite K. now apply KI. }
  destruct (OUT body D) as (st & I & O & K). assert (Ds := depth_sealed body).
  destruct (OUT (sealed body) ltac:(lia)) as (st' & I' & O' & _). exists st. split; [exact I|]. split; [|exact K]. exists st'. split; [exact I'|].
  rewrite O, O'. apply events_sealed.
Qed.

(** With auto, secret keys are not used: whatever they could open, the result is the same. *)
Theorem C56_auto_uses_no_secret_key : forall f G G' body keys, depth body <= f ->
  (forall o k, g_opens G o k = g_opens G' o k) -> (forall t, g_astext G t = g_astext G' t) ->
  exists st, index_file f G (Some DECRYPT_AUTO) body keys = Some st /\ index_file f G' (Some DECRYPT_AUTO) body keys = Some st.
Proof.
  intros f G G' body keys D HO HA.
  assert (WK : forall o ks, with_keys G o ks = with_keys G' o ks).
  { intros o ks. induction ks as [|k ks IH]; [reflexivity|]. cbn [with_keys]. unfold with_key. now rewrite HO, IH. }
  assert (CD : forall ks o, crypto_decrypt G DECRYPT_AUTO ks o = crypto_decrypt G' DECRYPT_AUTO ks o) by (intros; unfold crypto_decrypt; now rewrite WK).
  assert (EQ : forall n o st, index_part n G (Some DECRYPT_AUTO) o st = index_part n G' (Some DECRYPT_AUTO) o st).
  { induction n as [|n IH]; intros o st; [reflexivity|]. cbn [index_part].
    set (g := index_part n G (Some DECRYPT_AUTO)) in *. set (g' := index_part n G' (Some DECRYPT_AUTO)) in *.
    assert (IE : forall o st, index_encrypted G (Some DECRYPT_AUTO) g o st = index_encrypted G' (Some DECRYPT_AUTO) g' o st).
    { intros o0 st0. unfold index_encrypted. rewrite CD. destruct (crypto_decrypt _ _ _ _) as ((cl, at'), se). cbv zeta. destruct (negb at'); [reflexivity|].
      destruct cl as [u|]; [|reflexivity]. destruct (payload_check u o0 1 st0) as (q, st1). now rewrite IH. }
    assert (IC : forall o k ch i st, index_children G (Some DECRYPT_AUTO) g o k i ch st = index_children G' (Some DECRYPT_AUTO) g' o k i ch st).
    { intros o0 k ch. induction ch as [|x ch IHc]; intros i st0; [reflexivity|]. cbn [index_children]. destruct k.
      - destruct (payload_check x o0 i st0) as (q, st1). rewrite IH. destruct (g' q st1); [apply IHc|reflexivity].
      - destruct (i =? 1); [apply IHc|]. destruct (payload_check x o0 i st0) as (q, st1). rewrite IH. destruct (g' q st1); [apply IHc|reflexivity].
      - destruct (i =? 1); [|apply IHc]. rewrite IE. destruct (index_encrypted _ _ _ _ _); [apply IHc|reflexivity]. }
    unfold index_part1. destruct (match repair_mixed_up o with Some r => _ | None => _ end) as (o1, st1).
    destruct o1 as [i t|i k ch sg d|i sj b|i t v d].
    - now rewrite HA.
    - apply IC.
    - apply IH.
    - unfold index_pkcs7. destruct t; [|apply IE|reflexivity]. destruct v as ([s|], [u|]); try reflexivity. destruct (payload_check _ _ _ _) as (q, st2). apply IH. }
  unfold index_file. rewrite EQ. assert (T := index_part_total G' (Some DECRYPT_AUTO) f body {| x_out := []; x_keys := keys; x_mc := mcrypto_new |} D).
  destruct (index_part f G' _ body _); [eauto|contradiction].
Qed.

(** Session keys: only policy true adds any, and only those exported for parts of this message
    that the secret key opens; after it, every part that was opened can be opened with the
    stashed keys alone. *)
Theorem C56_session_keys : forall f G pl body keys, depth body <= f -> separate G keys ->
  exists st, index_file f G pl body keys = Some st /\ incl keys (x_keys st) /\
    (pl <> Some DECRYPT_TRUE -> x_keys st = keys) /\
    (forall k, In k (x_keys st) -> In k keys \/
       exists e, In e (encs (opened G pl keys) body) /\ g_secret G e = true /\ g_session G e = Some k) /\
    (pl = Some DECRYPT_TRUE -> (forall e, exists k, g_session G e = Some k /\ g_opens G e k = true) ->
     forall e, In e (encs (opened G pl keys) body) -> decrypts e = true ->
       opened G (Some DECRYPT_AUTO) (x_keys st) e = opened G pl keys e).
Proof.
  intros f G pl body keys D S. destruct (index_file_run f G pl body keys D (separate_noleak G pl keys S)) as (st0 & st & E & I & O0 & O & K & M & GX & C).
  destruct GX as (KI & A2 & A3 & A4 & _). exists st. rewrite K. split; [exact I|]. split; [exact A2|]. split; [apply KI|]. split.
  - intros k X. destruct (A3 k X) as [|(_ & e & Y & _ & Z)]; [now left|right]. exists e. tauto.
  - intros P SE e X DE. unfold opened at 1. cbn [may_stashed may_secret andb]. rewrite orb_false_r.
    destruct (opened G pl keys e) eqn:OE.
    + destruct (A4 P e X DE OE) as [Y|Y]; [exact Y|]. destruct (SE e) as (k & K1 & K2). apply existsb_exists. exists k. split; [now apply Y|exact K2].
    + destruct (existsb (g_opens G e) (x_keys st0)) eqn:EX; [|reflexivity]. destruct KI as (_ & _ & KO). rewrite P in *.
      rewrite (KO eq_refl e EX) in OE. discriminate OE.
Qed.

(** Reindexing with policy false forgets the session keys, and keeps none; with the others it
    is as indexing with the keys at hand. *)
Theorem C56_reindex : forall f G pl body keys, depth body <= f -> separate G keys ->
  exists st, reindex_file f G pl body keys = Some st /\
    (pl = Some DECRYPT_FALSE -> x_keys st = []) /\
    (pl <> Some DECRYPT_FALSE -> incl keys (x_keys st) /\ index_file f G pl body keys = Some st).
Proof.
  intros f G pl body keys D S. unfold reindex_file. destruct (policy_cases pl) as [P|[P|P]].
  2:{ rewrite P. destruct (C56_without_keys_nothing_leaks f G (Some DECRYPT_FALSE) body [] D eq_refl) as (st & I & _ & K).
      exists st. split; [exact I|]. split; [auto|]. intros X. now contradiction X. }
  all: assert (N : match pl with Some DECRYPT_FALSE => [] | _ => keys end = keys) by (destruct pl as [[]|]; try reflexivity; intuition congruence); rewrite N;
    destruct (C56_session_keys f G pl body keys D S) as (st & I & A & _); exists st; (split; [exact I|]); (split; [intuition congruence|]); intros _; split; assumption.
Qed.

(** index.decryption=success is set just if some encrypted part was opened, =failure just if
    decryption was tried and some encrypted part was not. *)
Theorem C56_index_decryption_property : forall f G pl body keys, depth body <= f -> separate G keys ->
  exists st, index_file f G pl body keys = Some st /\
    let op := opened G pl keys in
    (In (EProperty (lit "index.decryption") (lit "success")) (x_out st) <->
       exists e, In e (encs op body) /\ decrypts e = true /\ op e = true) /\
    (In (EProperty (lit "index.decryption") (lit "failure")) (x_out st) <->
       tries pl keys = true /\ exists e, In e (encs op body) /\ (decrypts e = false \/ op e = false)).
Proof.
  intros f G pl body keys D S. destruct (index_file_run f G pl body keys D (separate_noleak G pl keys S)) as (st0 & st & E & I & O0 & O & K & M & GX & C).
  exists st. split; [exact I|]. cbv zeta. set (op := opened G pl keys) in *.
  assert (PO := props_events G (tries pl keys) op (opened_tries G pl keys)).
  assert (PE : props_ok (tries pl keys) op (encs op body) E).
  { destruct C as [-> |(F & a & b & x & q & EV & SK & ->)]; [apply PO|]. assert (P := PO body). fold op in EV. rewrite EV in P.
    assert (PX := PO x). assert (PQ := PO q). assert (SE : encs op x = encs op q) by exact (skip_encs G pl keys x q SK). rewrite SE in PX.
    destruct P as (P1 & P2), PX as (X1 & X2), PQ as (Q1 & Q2). split.
    - rewrite <- P1, !in_app_iff. cbn [In]. rewrite in_app_iff, X1, <- Q1. intuition discriminate.
    - rewrite <- P2, !in_app_iff. cbn [In]. rewrite in_app_iff, X2, <- Q2. intuition discriminate. }
  destruct PE as (P1 & P2). assert (SUB : forall k v, In (EProperty k v) (x_out st) <-> In (EProperty k v) E).
  { intros k v. rewrite O, in_app_iff. split; [|auto]. intros [X|X]; [exact X|]. destruct (m_psubject (x_mc st0)); [destruct X as [X|[]]; discriminate X|destruct X]. }
  rewrite !SUB. split.
  - rewrite P1. unfold good. split; intros (e & X & Y); exists e; split; auto; [now apply andb_true_iff|]. now apply andb_true_iff.
  - rewrite P2. unfold good. split; intros (T & e & X & Y); (split; [exact T|]); exists e; (split; [exact X|]); now apply andb_false_iff.
Qed.

(** The subject inside of the encryption is indexed only with policy true. *)
Theorem C56_protected_subject_only_true : forall f G pl body keys st s, depth body <= f -> separate G keys ->
  index_file f G pl body keys = Some st -> In (ESubject s) (x_out st) -> pl = Some DECRYPT_TRUE /\ m_dec (x_mc st) = DEC_FULL.
Proof.
  intros f G pl body keys st s D S I0 H. destruct (index_file_run f G pl body keys D (separate_noleak G pl keys S)) as (st0 & st' & E & I & O0 & O & K & M & GX & C).
  rewrite I0 in I. injection I as <-. destruct GX as (_ & _ & _ & _ & _ & _ & _ & GD & GP). destruct (GP eq_refl) as [P|P]; cbn in P.
  - exfalso. rewrite O, P, app_nil_r in H.
    assert (N : forall o, ~ In (ESubject s) (events G (tries pl keys) (opened G pl keys) o)).
    { intros o. induction o as [o IH] using obj_ind'.
      assert (NE : forall x d, (forall l, d = Some l -> ~ In (ESubject s) l) -> ~ In (ESubject s) (enc_events (tries pl keys) (opened G pl keys) x d)).
      { intros x d Hd. unfold enc_events. destruct (tries pl keys); [|intros []]. destruct d as [l|]; [|intros [X|[]]; discriminate X].
        destruct (opened G pl keys x); [|intros [X|[]]; discriminate X]. rewrite in_app_iff. intros [X|[X|[]]]; [now apply (Hd l)|discriminate X]. }
      assert (NC : forall l, (forall x, In x l -> ~ In (ESubject s) (events G (tries pl keys) (opened G pl keys) x)) ->
                    ~ In (ESubject s) (concat (map (events G (tries pl keys) (opened G pl keys)) l))).
      { intros l Hl X. apply in_concat in X as (y & Y & X). apply in_map_iff in Y as (x & <- & Y). exact (Hl x Y X). }
      assert (NT : forall l, ~ In (ESubject s) (map etype l)) by (intros l X; apply in_map_iff in X as (x & X & _); discriminate X).
      assert (CS : forall e l, (forall t, e <> ESubject t) -> ~ In (ESubject s) l -> ~ In (ESubject s) (e :: l)) by (intros e l X Y [Z|Z]; [now apply (X s)|contradiction]).
      destruct o as [i t|i k ch sg d|i sj b|i t (sg, u) d]; cbn [events].
      - apply CS; [discriminate|]. unfold part_events. destruct (o_attachment i); [|intros [X|[]]; discriminate X].
        destruct (g_astext G (o_mime i)); intros X; cbn in X; intuition discriminate.
      - assert (CH : forall x, In x ch -> ~ In (ESubject s) (events G (tries pl keys) (opened G pl keys) x)) by (intros x X; apply IH; apply depth_child in X; cbn; lia).
        assert (DC : forall l, match d with Some (u, _) => Some (events G (tries pl keys) (opened G pl keys) u) | None => None end = Some l -> ~ In (ESubject s) l).
        { intros l X. destruct d as [(u, s0)|]; [|discriminate X]. injection X as <-. apply IH. cbn. lia. }
        destruct (repair_mixed_up (OMulti i k ch sg d)) as [r|].
        + do 3 (apply CS; [discriminate|]). destruct ch as [|p0 [|p1 [|p2 [|]]]]; try (intros X; exact X). cbn [app]. do 2 (apply CS; [discriminate|]). now apply NE.
        + apply CS; [discriminate|]. destruct k.
          * now apply NC.
          * destruct ch as [|c0 [|c1 rest]]; (apply CS; [discriminate|]); try now apply NC. rewrite in_app_iff. intros [X|X]; [apply (CH c0); [now left|exact X]|].
            revert X. apply CS; [discriminate|]. apply NC. intros x X. apply CH. right. now right.
          * destruct ch as [|c0 [|c1 rest]]; (apply CS; [discriminate|]); try apply NT. do 2 (apply CS; [discriminate|]). rewrite in_app_iff. intros [X|X]; [exact (NE _ _ DC X)|exact (NT _ X)].
      - apply CS; [discriminate|]. apply IH. cbn. lia.
      - destruct t.
        + destruct sg as [s0|]; [destruct u as [u|]|]; do 2 (apply CS; [discriminate|]); try (intros X; exact X); (apply CS; [discriminate|]); [apply IH; cbn; lia|intros X; exact X].
        + do 3 (apply CS; [discriminate|]). apply NE. intros l X. destruct d as [(uu, s0)|]; [|discriminate X]. injection X as <-. apply IH. cbn. lia.
        + do 2 (apply CS; [discriminate|]). intros X; exact X. }
    destruct C as [-> |(_ & a & b & x & q & EV & SK & ->)]; [exact (N body H)|].
    rewrite in_app_iff in H. cbn [In] in H. rewrite in_app_iff in H.
    assert (NB := N body). rewrite EV, !in_app_iff in NB. destruct H as [H|[H|[H|H]]]; [tauto|discriminate H|exact (N q H)|tauto].
  - split; [|congruence]. destruct (policy_cases pl) as [Q|[Q|[Q|[Q|Q]]]]; try exact Q; rewrite GD in P by congruence; discriminate P.
Qed.

(** ** Examples *)
Definition xi (mime : string) (protected protocol subject : option bytes) (text : bytes) : info :=
  {| o_mime := lit mime; o_protected := protected; o_forwarded := None; o_protocol := protocol; o_subject := subject; o_text := text; o_attachment := None |}.
(** A message encrypted as a whole: protected headers, their copy for old programs, a text. *)
Definition x_payload : obj :=
  OMulti (xi "multipart/mixed" (Some (lit "v1")) None (Some (lit "secret subject")) []) MPlain
    [OPart (xi "text/plain" (Some (lit "v1")) None None (lit "Subject: secret subject")) true;
     OPart (xi "text/plain" None None None (lit "secret text")) true] None None.
Definition x_message (inner : obj) : obj :=
  OMulti (xi "multipart/encrypted" None (Some (lit "application/pgp-encrypted")) None []) MEncrypted
    [OPart (xi "application/pgp-encrypted" None None None (lit "Version: 1")) false;
     OPart (xi "application/octet-stream" None None None (lit "...")) false] None (Some (inner, None)).
(** A message with two encrypted parts, one of them in an S/MIME signed part. *)
Definition x_two : obj :=
  OMulti (xi "multipart/mixed" None None None []) MPlain
    [OPart (xi "text/plain" None None None (lit "clear")) true; x_message x_payload;
     OPkcs7 (xi "application/pkcs7-mime" None None None []) SM_signed
       (Some 7, Some (x_message (OPart (xi "text/plain" None None None (lit "more")) true))) None] None None.
(** The secret key opens everything; every part has the session key [sk]. *)
Definition sk : bytes := lit "9:0123".
Definition x_gpg : gpg := {| g_opens := fun _ k => bseq k sk; g_secret := fun _ => true; g_session := fun _ => Some sk; g_astext := fun _ => false |}.
Example C56_example_separate : separate x_gpg [] /\ forall e, exists k, g_session x_gpg e = Some k /\ g_opens x_gpg e k = true.
Proof. split; [intros o k o' _ _; now right|]. intros e. exists sk. split; reflexivity. Qed.
(** A key that opens one part only. *)
Definition y_gpg : gpg := {| g_opens := fun o k => bseq k sk && match cleartext o with Some (OPart _ _) => true | _ => false end;
  g_secret := fun _ => false; g_session := fun _ => None; g_astext := fun _ => false |}.
Example C56_example_separate_auto : forall keys, separate y_gpg keys.
Proof. intros keys o k o' H. discriminate H. Qed.
Definition outcome_index (G : gpg) (pl : option policy) (body : obj) (keys : list bytes) : option (list bytes * list bytes * option bytes) :=
  match index_file (depth body) G pl body keys with
  | Some st => Some (texts (x_out st), x_keys st, m_psubject (x_mc st))
  | None => None
  end.
Example C56_example_true : outcome_index x_gpg (Some DECRYPT_TRUE) (x_message x_payload) [] = Some ([lit "secret text"], [sk], Some (lit "secret subject")).
Proof. vm_compute. reflexivity. Qed.
Example C56_example_two : outcome_index x_gpg (Some DECRYPT_TRUE) x_two [] =
  Some ([lit "clear"; lit "Subject: secret subject"; lit "secret text"; lit "more"], [sk], None).
Proof. vm_compute. reflexivity. Qed.
Example C56_example_auto : outcome_index y_gpg (Some DECRYPT_AUTO) x_two [sk] = Some ([lit "clear"; lit "more"], [sk], None).
Proof. vm_compute. reflexivity. Qed.
Example C56_example_false : outcome_index x_gpg (Some DECRYPT_FALSE) x_two [sk] = Some ([lit "clear"], [sk], None).
Proof. vm_compute. reflexivity. Qed.

(** ** Where the manual is wrong *)

(** notmuch-config(1): nostash "is the same as true except that it will not stash
    newly-discovered session keys".  It is not: for every message encrypted as a whole whose
    protected headers have a subject and a copy of it, what is indexed differs; with true the
    subject is indexed and the copy is not, with nostash the other way round. *)
Theorem C56_nostash_like_true_refuted : forall opens sess astext subject copy text,
  let G := {| g_opens := opens; g_secret := fun _ => true; g_session := fun _ => sess; g_astext := astext |} in
  let payload := OMulti (xi "multipart/mixed" (Some (lit "v1")) None (Some subject) []) MPlain
    [OPart (xi "text/plain" (Some (lit "v1")) None None copy) true; OPart (xi "text/plain" None None None text) true] None None in
  let body := x_message payload in
  exists a b, index_file (depth body) G (Some DECRYPT_TRUE) body [] = Some a /\ index_file (depth body) G (Some DECRYPT_NOSTASH) body [] = Some b /\
    texts (x_out a) = [text] /\ In (ESubject subject) (x_out a) /\
    texts (x_out b) = [copy; text] /\ ~ In (ESubject subject) (x_out b).
Proof.
  intros opens sess astext subject copy text G payload body.
  destruct sess; (eexists; eexists; split; [vm_compute; reflexivity|split; [vm_compute; reflexivity|]];
    (split; [reflexivity|]; split; [cbn; auto 20|]; split; [reflexivity|]; cbn; intuition discriminate)).
Qed.

(** A message that is signed and then encrypted, or encrypted and then signed, is encrypted as
    a whole when it is shown (C54); while indexing, signatures are not looked at and the part
    below a multipart/signed is the payload: a message that is encrypted inside of a signature
    gets the copy of its headers indexed, and not its subject, with true too. *)
Definition x_outer_signed (inner : obj) : obj :=
  OMulti (xi "multipart/signed" None None None []) MSigned [x_message inner; OPart (xi "application/pgp-signature" None None None (lit "sig")) false] (Some 7) None.
Theorem C56_encrypted_in_signed_refuted : forall opens sess astext subject copy text,
  let G := {| g_opens := opens; g_secret := fun _ => true; g_session := fun _ => sess; g_astext := astext |} in
  let payload := OMulti (xi "multipart/mixed" (Some (lit "v1")) None (Some subject) []) MPlain
    [OPart (xi "text/plain" (Some (lit "v1")) None None copy) true; OPart (xi "text/plain" None None None text) true] None None in
  let body := x_outer_signed (payload) in
  exists a, index_file (depth body) G (Some DECRYPT_TRUE) body [] = Some a /\
    texts (x_out a) = [copy; text] /\ ~ In (ESubject subject) (x_out a) /\ m_dec (x_mc a) = DEC_PARTIAL /\
  exists l m, shows (S (depth body)) {| c_verify := true; c_decrypt := true |} body l m /\ m_dec m = DEC_FULL /\ m_psubject m = Some subject.
Proof.
  intros opens sess astext subject copy text G payload body.
  destruct sess; (eexists; split; [vm_compute; reflexivity|]; split; [reflexivity|]; split; [cbn; intuition discriminate|]; split; [reflexivity|];
    eexists; eexists; split; [eexists; vm_compute; reflexivity|]; split; reflexivity).
Qed.

Print Assumptions C56_policy_decides_what_is_indexed.
Print Assumptions C56_without_keys_nothing_leaks.
Print Assumptions C56_auto_uses_no_secret_key.
Print Assumptions C56_session_keys.
Print Assumptions C56_reindex.
Print Assumptions C56_index_decryption_property.
Print Assumptions C56_protected_subject_only_true.
Print Assumptions C56_nostash_like_true_refuted.
Print Assumptions C56_encrypted_in_signed_refuted.
