(** Proofs about the structured output of a message: keys. *)
From Verif Require Import Bytes StrUtil Reply Sprinter SprinterSpec Mime ShowPart ShowPartSpec ShowPartProofs ShowPartProofs2 ShowPartProofs3 ShowPartProofs4.
Local Open Scope nat_scope.

Lemma good_list l : good_keys (VList l) <-> Forall good_keys l.
Proof. induction l as [|x l IH]; [cbn; split; auto|]. cbn [good_keys] in *. rewrite IH. split; [intros (? & ?); now constructor|intros H; now inversion H]. Qed.
Lemma good_map l : good_keys (VMap l) <-> Forall (fun kv => forallb keyword_char (fst kv) = true /\ good_keys (snd kv)) l.
Proof.
  induction l as [|(k, x) l IH]; [cbn; split; auto|]. cbn [good_keys] in *. rewrite IH. split; [intros (? & ? & ?); now constructor|intros H; inversion_clear H as [|? ? (A & B) C]; now split].
Qed.
Definition gopt (o : option value) : Prop := match o with Some v => good_keys v | None => True end.
Lemma good_omap fs : forallb (fun f => forallb keyword_char (lit (fst f))) fs = true -> Forall (fun f => gopt (snd f)) fs -> Forall (fun kv => forallb keyword_char (fst kv) = true /\ good_keys (snd kv)) (omap fs).
Proof.
  intros K A. apply Forall_forall. intros (k, v) I. apply in_omap in I as (name & I & ->). cbn [fst snd]. rewrite forallb_forall in K. specialize (K _ I). rewrite Forall_forall in A. specialize (A _ I). now split.
Qed.
Lemma gtext (o : option bytes) : gopt (text_of o). Proof. now destruct o. Qed.
Ltac good := apply good_map; apply good_omap; [reflexivity|repeat (apply Forall_cons; [cbn [snd]; try exact I; try apply gtext|]); try apply Forall_nil].
Lemma keyword_lower : forall c, keyword_char (tolower c) = keyword_char c.
Proof. intros c. apply eqb_prop. apply (byte_sweep (fun c => Bool.eqb (keyword_char (tolower c)) (keyword_char c))). vm_compute. reflexivity. Qed.
Lemma keyword_caseless : forall a b, strcaseeq a b = true -> forallb keyword_char b = true -> forallb keyword_char a = true.
Proof.
  induction a as [|x a IH]; intros [|y b] H; try discriminate; [auto|]. cbn [strcaseeq forallb] in *. apply andb_true_iff in H as (E & H). intros K. apply andb_true_iff in K as (K1 & K2).
  apply beq_eq in E. rewrite (IH b H K2), <- keyword_lower, E, keyword_lower, K1. reflexivity.
Qed.
Section good.
  Variables (e : gmime) (c : cctx) (try : bool) (o : sopts).
  Hypothesis names : forall n, In n (so_extra o) -> forallb keyword_char n = true.
  Lemma good_headers h reply ps : good_keys (headers_value o h reply ps).
  Proof.
    unfold headers_value. apply good_map, Forall_app. split.
    - apply good_omap; [reflexivity|]. unfold header_fields. destruct reply; repeat (apply Forall_cons; [cbn [snd]; try exact I; try apply gtext|]); apply Forall_nil.
    - destruct reply; [constructor|]. apply Forall_forall. intros (k, x) J. unfold extra_fields in J. apply in_flat_map in J as (n & N & J).
      destruct (get_header (h_all h) n) as [(a, b)|] eqn:G; [|contradiction]. destruct J as [J|[]]. injection J as <- <-. apply find_some in G as (_ & G). cbn [fst snd] in *. split; [|exact I].
      eapply keyword_caseless; eauto.
  Qed.
  Lemma good_signature g : good_keys (signature_value o g).
  Proof.
    unfold signature_value, signature_fields. good.
    - destruct (status_good _), (sg_cert g); exact I.
    - destruct (status_good _); [|exact I]. destruct (Z.eqb _ _); exact I.
    - destruct (status_good _); [|exact I]. destruct (Z.ltb _ _); exact I.
    - destruct (status_good _); [|exact I]. destruct (sg_cert g); [apply gtext|exact I].
    - destruct (status_good _); [|exact I]. destruct (sg_cert g); [apply gtext|exact I].
    - destruct (status_good _); [exact I|]. destruct (sg_cert g); [apply gtext|exact I].
    - destruct (status_errors _); [|exact I]. destruct (Nat.leb _ _); [exact I|]. cbn [gopt]. apply good_map, good_omap; [reflexivity|]. unfold error_fields. apply Forall_forall. intros f J. apply in_map_iff in J as (bn & <- & _). cbn [snd]. destruct (N.testbit _ _); exact I.
  Qed.
  Lemma good_sigstatus s : good_keys (sigstatus_value e o s).
  Proof. apply good_list, Forall_forall. intros x J. apply in_map_iff in J as (g & <- & _). apply good_signature. Qed.
  Lemma good_crypto h m : good_keys (crypto_value e o h m).
  Proof.
    unfold crypto_value, crypto_fields. good.
    - destruct (m_sigs m); [|exact I]. cbn [option_map gopt]. unfold signed_fields. good.
      + apply good_sigstatus.
      + destruct (m_sigenc m); exact I.
      + destruct (m_psubject m); [|exact I]. cbn. auto.
    - assert (D : good_keys (VMap (omap (decrypted_fields h m)))).
      { unfold decrypted_fields. good. unfold mask_value. destruct (m_psubject m); [|exact I]. destruct (h_subject h); [destruct (bseq _ _); [exact I|]|]; vm_compute; auto. }
      destruct (m_dec m); [exact I|exact D|exact D].
  Qed.
  Lemma good_strings l : good_keys (VList (map VStr l)).
  Proof. apply good_list, Forall_forall. intros x J. apply in_map_iff in J as (s & <- & _). exact I. Qed.
  Lemma good_part t : good_keys (part_value e c try o t).
  Proof.
    induction t as [num n kids IH] using otree_ind'. cbn [part_value]. destruct (n_part n) as [p|]; [|exact I]. apply good_map.
    assert (KS : good_keys (VList (map (part_value e c try o) kids))).
    { apply good_list, Forall_forall. intros x J. apply in_map_iff in J as (t & <- & J). rewrite Forall_forall in IH. auto. }
    unfold omap. rewrite flat_map_app. apply Forall_app. split.
    - apply good_omap; [reflexivity|]. unfold meta_fields. repeat (apply Forall_cons; [cbn [snd]; try exact I; try apply gtext|]); [.. |apply Forall_nil].
      + destruct (decrypt_attempted c try n); [|exact I]. destruct (n_decrypted n); vm_compute; auto.
      + destruct (n_verify n); [apply good_sigstatus|exact I].
      + destruct p; try exact I; apply gtext.
    - apply good_omap.
      + destruct p; cbn [content_fields]; try (destruct (text_shown o _); [reflexivity|destruct (Nat.eqb _ _); reflexivity]); reflexivity.
      + destruct p; cbn [content_fields]; try (destruct (text_shown o _); [|destruct (Nat.eqb _ _)]); repeat (apply Forall_cons; [cbn [snd]; try exact I; try apply gtext; try exact KS|]); try apply Forall_nil.
        1, 3: destruct (Z.leb _ _); exact I.
        apply good_list. apply Forall_cons; [|apply Forall_nil]. good; [apply good_headers|exact KS].
  Qed.
  Lemma good_message msg h t m : good_keys (VMap (omap (message_fields e c try o msg h t m))).
  Proof.
    unfold message_fields. good.
    - destruct (Nat.leb _ _); [apply good_strings|exact I].
    - apply good_strings.
    - destruct t; [|exact I]. cbn [option_map gopt]. apply good_list. apply Forall_cons; [apply good_part|apply Forall_nil].
    - destruct (Nat.leb _ _); [apply good_crypto|exact I].
    - apply good_headers.
  Qed.
End good.

(** ** Keys of the headers *)
Lemma caseless_sym : forall a b, strcaseeq a b = strcaseeq b a.
Proof.
  induction a as [|x a IH]; intros [|y b]; try reflexivity. cbn [strcaseeq]. rewrite IH. f_equal.
  destruct (beq (tolower x) (tolower y)) eqn:E; symmetry.
  - apply beq_eq in E. apply beq_eq. congruence.
  - destruct (beq (tolower y) (tolower x)) eqn:F; [|reflexivity]. apply beq_eq in F. rewrite F in E. rewrite (proj2 (beq_eq _ _) eq_refl) in E. discriminate.
Qed.
Lemma caseless_trans : forall a b c, strcaseeq a b = true -> strcaseeq b c = true -> strcaseeq a c = true.
Proof.
  induction a as [|x a IH]; intros [|y b] [|z c]; try discriminate; [auto|]. cbn [strcaseeq]. rewrite !andb_true_iff. intros (A & B) (C & D). split; [|eauto].
  apply beq_eq in A, C. apply beq_eq. congruence.
Qed.
Lemma caseless_refl a : strcaseeq a a = true.
Proof. induction a as [|x a IH]; [reflexivity|]. cbn. rewrite IH, andb_true_r. now apply beq_eq. Qed.
Lemma headers_nodup o h ps : NoDup (so_extra o) -> (forall a b, In a (so_extra o) -> In b (so_extra o) -> strcaseeq a b = true -> a = b) ->
  (forall n k, In n (so_extra o) -> In k ["Subject"; "From"; "To"; "Cc"; "Bcc"; "Reply-To"; "Date"]%string -> strcaseeq (lit k) n = false) ->
  NoDup (keys (headers_value o h false ps)).
Proof.
  intros D U S. unfold headers_value, keys. rewrite map_app.
  assert (X : forall l, NoDup l -> (forall n, In n l -> In n (so_extra o)) ->
    NoDup (map fst (flat_map (fun name => match get_header (h_all h) name with Some (n, v) => [(n, VStr v)] | None => [] end) l))).
  { induction l as [|n l IH]; intros N M; [constructor|]. inversion_clear N as [|? ? Nn Nl]. cbn [flat_map].
    destruct (get_header (h_all h) n) as [(a, b)|] eqn:G; cbn [app map fst]; [|apply IH; auto; intros x J; apply M; now right]. constructor; [|apply IH; auto; intros x J; apply M; now right].
    intros J. apply in_map_iff in J as ((a', v) & E & J). cbn [fst] in E. subst a'. apply in_flat_map in J as (n' & J & K). destruct (get_header (h_all h) n') as [(a', b')|] eqn:G'; [|contradiction].
    destruct K as [K|[]]. injection K as -> <-. apply find_some in G as (_ & G). apply find_some in G' as (_ & G'). cbn [fst] in G, G'. rewrite caseless_sym in G.
    assert (n = n'); [|now subst]. apply U; [apply M; now left|apply M; now right|]. eapply caseless_trans; eauto. }
  assert (NoDupApp : forall (a b : list bytes), NoDup a -> NoDup b -> (forall x, In x a -> ~ In x b) -> NoDup (a ++ b)).
  { induction a as [|x a IH]; intros b A B C; [exact B|]. inversion_clear A. cbn. constructor; [rewrite in_app_iff; intros [J|J]; [auto|apply (C x); [now left|exact J]]|]. apply IH; auto. intros y J. apply C. now right. }
  apply NoDupApp.
  - apply nodup_omap. reflexivity.
  - apply X; auto.
  - intros k A B. apply in_map_iff in A as ((k', w) & Ek & A). cbn [fst] in Ek. subst k'. apply in_omap in A as (name & A & ->).
    apply in_map_iff in B as ((a, v) & E & B). cbn [fst] in E. subst a. unfold extra_fields in B. apply in_flat_map in B as (n & J & K).
    destruct (get_header (h_all h) n) as [(a, b)|] eqn:G; [|contradiction]. destruct K as [K|[]]. injection K as -> <-. apply find_some in G as (_ & G). cbn [fst] in G.
    rewrite (S n name J) in G; [discriminate|]. cbn [header_fields In] in A |- *.
    repeat (destruct A as [A|A]; [injection A as <- A; try discriminate A; tauto|]). destruct A.
Qed.
