(** Proofs about the structured output of a message: parts and the message. *)
From Verif Require Import Bytes StrUtil Reply Sprinter SprinterSpec Mime ShowPart ShowPartSpec ShowPartProofs ShowPartProofs2 ShowPartProofs3.
Local Open Scope nat_scope.

Fixpoint denum (t : otree) : ptree := match t with OT num n kids => PT (match num with Some k => k | None => 0 end) n (map denum kids) end.
Fixpoint allt (P : option nat -> node -> list otree -> Prop) (t : otree) : Prop :=
  match t with OT num n kids => P num n kids /\ fold_right (fun k Q => allt P k /\ Q) True kids end.
Definition well (body : obj) (num : option nat) (n : node) (kids : list otree) : Prop := okay body n /\ length kids = length (n_children n).
Lemma fold_forall {A} (P : A -> Prop) l : fold_right (fun k Q => P k /\ Q) True l <-> Forall P l.
Proof. induction l as [|x l IH]; cbn; [split; auto|]. rewrite IH. split; [intros (? & ?); now constructor|intros H; now inversion H]. Qed.

Lemma build_well body (P : pkcs7_is_not_text body) c : forall f num n st t st', okay body n -> build f c num n st = Some (t, st') -> allt (well body) t.
Proof.
  induction f as [|f IH]; intros num n st t st' K B; [discriminate|]. destruct (build_top _ _ _ _ _ _ _ B) as (kids & -> & L). cbn [build] in B.
  destruct (build_children _ _ _ _ _ _) as [(k, s')|] eqn:E; [|discriminate]. injection B as <- <-. cbn [allt]. split; [now split|]. apply fold_forall. clear L.
  revert E. generalize (length (n_children n)) 0 st k s'. induction n0 as [|todo IHt]; intros i s l s2 E; [injection E as <- <-; constructor|].
  cbn [build_children] in E. destruct (mime_node_child c n i s) as [((nu, n'), s1)|] eqn:M; [|discriminate]. destruct (build f c nu n' s1) as [(x, (m, fs))|] eqn:B; [|discriminate].
  destruct (build_children (build f c) c n (S i) todo (m, tl fs)) as [(r, s3)|] eqn:R; [|discriminate]. injection E as <- <-. constructor; [|eauto].
  eapply IH; [|exact B]. eapply child_okay; [exact P|exact (proj1 K)|exact M].
Qed.
Lemma numbers_some t : Forall (fun x => fst x <> None) (oflat t) -> parts (denum t) = oflat t.
Proof.
  induction t as [num n kids IH] using otree_ind'. cbn [oflat]. intros H. inversion_clear H as [|? ? A B]. cbn [fst] in A. cbn [denum parts]. f_equal; [now destruct num|].
  f_equal. rewrite map_map. apply map_ext_in. intros t I. rewrite Forall_forall in IH. apply IH; [exact I|]. apply Forall_forall. intros x J. rewrite Forall_forall in B. apply B.
  apply in_concat. exists (oflat t). split; [now apply in_map|exact J].
Qed.
Lemma numbers_kids num n kids : Forall (fun x => fst x <> None) (oflat (OT num n kids)) -> num <> None /\ Forall (fun t => Forall (fun x => fst x <> None) (oflat t)) kids.
Proof.
  cbn [oflat]. intros H. inversion_clear H as [|? ? A B]. split; [exact A|]. apply Forall_forall. intros t I. apply Forall_forall. intros x J. rewrite Forall_forall in B. apply B.
  apply in_concat. exists (oflat t). split; [now apply in_map|exact J].
Qed.

Ltac rest_fields p := destruct p; repeat match goal with |- context [text_shown ?a ?b] => destruct (text_shown a b) | |- context [Nat.eqb ?a ?b] => destruct (Nat.eqb a b) end; reflexivity.
Section parts.
  Variables (e : gmime) (c : cctx) (try : bool) (o : sopts) (body : obj).
  Lemma has_text_shown p : has_text o p = text_shown o p.
  Proof. unfold has_text, text_shown, is_text, is_type. f_equal. now destruct (so_html o), (strcaseeq _ _). Qed.
  Lemma part_display t : allt (well body) t -> Forall (fun x => fst x <> None) (oflat t) -> displays_part e c try o (denum t) (part_value e c try o t).
  Proof.
    induction t as [num n kids IH] using otree_ind'. cbn [allt denum part_value]. intros ((K & L) & W) N. apply fold_forall in W. apply numbers_kids in N as (Nn & Nk).
    destruct K as (KW & K). destruct (n_part n) as [p|] eqn:Hp; [|contradiction].
    apply dp_part with (p := p) (vkids := map (part_value e c try o) kids); [exact Hp| | | | | | | |].
    - clear L. induction kids as [|t r IHr]; [constructor|]. inversion_clear IH. inversion_clear W. inversion_clear Nk. cbn [map]. constructor; auto.
    - unfold meta_fields. fields. destruct num; [reflexivity|now destruct Nn].
    - unfold meta_fields. fields. reflexivity.
    - unfold meta_fields. fields. destruct (g_disposition e p); [reflexivity|]. unfold content_fields. rest_fields p.
    - unfold meta_fields. fields. destruct (g_cid e p); [reflexivity|]. unfold content_fields. rest_fields p.
    - unfold meta_fields. fields. destruct (decrypt_attempted c try n); [now destruct (n_decrypted n)|]. unfold content_fields. rest_fields p.
    - unfold meta_fields. fields. destruct (n_verify n).
      + split; [reflexivity|]. apply (sigstatus_displays e o (n_sigs n)).
      + unfold content_fields. rest_fields p.
    - assert (leaf : forall (H : text_shown o p = true -> n_children n = []),
        match p with OPart _ _ | OPkcs7 _ _ _ _ => True | _ => False end ->
        field "filename" (VMap (omap (meta_fields e c try o num n p ++ content_fields e o n p (map (part_value e c try o) kids)))) = text_of (g_filename e p) /\
        if has_text o p then map denum kids = [] /\
          field "content" (VMap (omap (meta_fields e c try o num n p ++ content_fields e o n p (map (part_value e c try o) kids)))) = Some (VStr (o_text (info_of p))) /\
          field "content-length" (VMap (omap (meta_fields e c try o num n p ++ content_fields e o n p (map (part_value e c try o) kids)))) = None
        else match map denum kids with
             | [] => field "content" (VMap (omap (meta_fields e c try o num n p ++ content_fields e o n p (map (part_value e c try o) kids)))) = None /\
                     field "content-charset" (VMap (omap (meta_fields e c try o num n p ++ content_fields e o n p (map (part_value e c try o) kids)))) = text_of (g_charset e p) /\
                     field "content-transfer-encoding" (VMap (omap (meta_fields e c try o num n p ++ content_fields e o n p (map (part_value e c try o) kids)))) = text_of (g_cte e p) /\
                     field "content-length" (VMap (omap (meta_fields e c try o num n p ++ content_fields e o n p (map (part_value e c try o) kids)))) = (if Z.leb 0 (g_length e p) then Some (VInt (g_length e p)) else None)
             | _ => field "content" (VMap (omap (meta_fields e c try o num n p ++ content_fields e o n p (map (part_value e c try o) kids)))) = Some (VList (map (part_value e c try o) kids))
             end).
      { intros H Q. rewrite has_text_shown.
        assert (C : content_fields e o n p (map (part_value e c try o) kids) =
          if text_shown o p then [("content", Some (VStr (o_text (info_of p))))]%string
        else if Nat.eqb (length (n_children n)) 0 then
          [("content-charset", text_of (g_charset e p)); ("content-transfer-encoding", text_of (g_cte e p));
           ("content-length", if Z.leb 0 (g_length e p) then Some (VInt (g_length e p)) else None)]%string
        else [("content", Some (VList (map (part_value e c try o) kids)))]%string) by (now destruct p).
        assert (F : match p with OPart _ _ | OPkcs7 _ _ _ _ => text_of (g_filename e p) | _ => None end = text_of (g_filename e p)) by (now destruct p).
        rewrite C. unfold meta_fields. rewrite F. clear C F. destruct (text_shown o p).
        - rewrite (H eq_refl) in L. destruct kids; [|discriminate]. split; [fields; now destruct (g_filename e p)|]. split; [reflexivity|].
          split; fields; reflexivity.
        - destruct kids as [|k0 kr]; destruct (n_children n) as [|x0 xr]; try discriminate L; cbn [length Nat.eqb map].
          + split; [fields; now destruct (g_filename e p)|]. repeat split; fields; try reflexivity; [now destruct (g_charset e p)|now destruct (g_cte e p)|now destruct (Z.leb 0 (g_length e p))].
          + split; [fields; now destruct (g_filename e p)|]. fields. reflexivity. }
      destruct p as [inf t | inf k ch s d | inf s b | inf t v d].
      + apply leaf; [auto|exact I].
      + unfold meta_fields, content_fields. split; [|split]; fields; reflexivity.
      + unfold meta_fields, content_fields. split; [fields; reflexivity|]. split; [fields; reflexivity|]. eexists. eexists. split; [fields; reflexivity|].
        split; [fields; reflexivity|]. split; [fields; reflexivity|]. apply (headers_display o (g_headers e (OMessage inf s b)) None).
      + apply leaf; [|exact I]. unfold text_shown, is_text. cbn [info_of]. rewrite K. discriminate.
  Qed.
  Fixpoint height (t : otree) : nat := match t with OT _ _ kids => S (list_max (map height kids)) end.
  Lemma height_kid t kids : In t kids -> height t <= list_max (map height kids).
  Proof. intros I. assert (H := proj1 (list_max_le (map height kids) (list_max (map height kids))) (le_n _)). rewrite Forall_forall in H. apply H. now apply in_map. Qed.
  Lemma part_schema t : allt (well body) t -> forall d, height t <= d -> tpart (so_version o) d (part_value e c try o t).
  Proof.
    induction t as [num n kids IH] using otree_ind'. cbn [allt height part_value]. intros ((K & L) & W) d D. apply fold_forall in W. destruct d as [|d]; [lia|].
    destruct K as (KW & K). destruct (n_part n) as [p|] eqn:Hp; [|contradiction]. cbn [tpart].
    assert (KS : Forall (tpart (so_version o) d) (map (part_value e c try o) kids)).
    { apply Forall_forall. intros v I. apply in_map_iff in I as (t & <- & I). rewrite Forall_forall in IH, W. apply IH; [exact I|apply W; exact I|]. apply height_kid in I. lia. }
    assert (E : tencstatus (VList [VMap (omap [("status"%string, Some (VStr (if n_decrypted n then lit "good" else lit "bad")))])])).
    { eexists. split; [reflexivity|]. schema. destruct (n_decrypted n); [exists "good"%string|exists "bad"%string]; cbn; auto. }
    assert (S := sigstatus_schema e o (n_sigs n)).
    unfold meta_fields, content_fields, tor.
    assert (LK : tlist (tpart (so_version o) d) (VList (map (part_value e c try o) kids))) by (eexists; split; [reflexivity|exact KS]).
    destruct p as [inf t | inf k ch s dd | inf s b | inf t v dd].
    - destruct (text_shown o _).
      + right. right. left. cbn [app]. schema; try apply topt; try apply tstr; try apply ti; [now destruct (decrypt_attempted c try n)|now destruct (n_verify n)].
      + destruct (Nat.eqb _ _).
        * right. right. right. cbn [app]. schema; try apply topt; try apply tstr; try apply ti; [now destruct (decrypt_attempted c try n)|now destruct (n_verify n)|destruct (Z.leb _ _); [apply ti|exact I]].
        * left. cbn [app]. schema; try apply topt; try apply tstr; try apply ti; try exact LK; [now destruct (decrypt_attempted c try n)|now destruct (n_verify n)].
    - left. cbn [app]. schema; try apply topt; try apply tstr; try apply ti; try exact LK; try exact I; [now destruct (decrypt_attempted c try n)|now destruct (n_verify n)].
    - right. left. cbn [app]. schema; try apply topt; try apply tstr; try apply ti; try exact I; [now destruct (decrypt_attempted c try n)|now destruct (n_verify n)|].
      eexists. split; [reflexivity|]. schema; [apply headers_schema|]. rewrite K in L. destruct kids as [|t [|? ?]]; try discriminate L. cbn [map] in *. eexists. split; [reflexivity|]. now inversion KS.
    - destruct (text_shown o _).
      + right. right. left. cbn [app]. schema; try apply topt; try apply tstr; try apply ti; [now destruct (decrypt_attempted c try n)|now destruct (n_verify n)].
      + destruct (Nat.eqb _ _).
        * right. right. right. cbn [app]. schema; try apply topt; try apply tstr; try apply ti; [now destruct (decrypt_attempted c try n)|now destruct (n_verify n)|destruct (Z.leb _ _); [apply ti|exact I]].
        * left. cbn [app]. schema; try apply topt; try apply tstr; try apply ti; try exact LK; [now destruct (decrypt_attempted c try n)|now destruct (n_verify n)].
  Qed.

  (** ** The message *)
  Definition message_fields (msg : smsg) (h : hdrs) (t : option otree) (m : mcrypto) : list (string * option value) :=
    [("id", Some (VStr (sm_id msg))); ("match", Some (VBool (sm_match msg))); ("excluded", Some (VBool (sm_excluded msg)));
     ("filename", Some (if Nat.leb 3 (so_version o) then VList (map VStr (sm_files msg)) else VStr (cstr (hd_error (sm_files msg)))));
     ("timestamp", Some (VInt (sm_date msg))); ("date_relative", Some (VStr (sm_relative msg))); ("tags", Some (VList (map VStr (sm_tags msg))));
     ("duplicate", Some (VInt (if Z.ltb 0 (so_duplicate o) then so_duplicate o else 1)));
     ("body", option_map (fun t => VList [part_value e c try o t]) t);
     ("crypto", if Nat.leb 4 (so_version o) then Some (crypto_value e o h m) else None);
     ("headers", Some (headers_value o h false (m_psubject m)))]%string.
  Lemma message_emit msg h t m : 
    BeginMap :: format_message_sprinter o msg ++
            [Key (lit "duplicate"); Int (if Z.ltb 0 (so_duplicate o) then so_duplicate o else 1)] ++
            match t with Some t => [Key (lit "body"); BeginList] ++ emit (part_value e c try o t) ++ [End] | None => [] end ++
            (if 4 <=? so_version o then Key (lit "crypto") :: format_crypto e o h m else []) ++
            Key (lit "headers") :: format_headers_sprinter o h false (m_psubject m) ++ [End]
    = emit (VMap (omap (message_fields msg h t m))).
  Proof.
    rewrite emit_omap. unfold format_message_sprinter, message_fields. rewrite headers_emit, crypto_emit.
    assert (F : (if 3 <=? so_version o then BeginList :: map Str (sm_files msg) ++ [End] else [Str (cstr (hd_error (sm_files msg)))]) =
      emit (if Nat.leb 3 (so_version o) then VList (map VStr (sm_files msg)) else VStr (cstr (hd_error (sm_files msg))))).
    { destruct (3 <=? so_version o); [|reflexivity]. cbn [emit]. now rewrite strings_emit. }
    rewrite F. cbn [ocalls]. rewrite (emit_list (map VStr (sm_tags msg))), strings_emit.
    destruct t as [t|]; cbn [option_map]; rewrite ?emit_one; destruct (4 <=? so_version o); cbn [app emit]; repeat (rewrite <- ?app_assoc; cbn [app]); reflexivity.
  Qed.
  Lemma message_display msg h t m : match t with Some t => allt (well body) t /\ Forall (fun x => fst x <> None) (oflat t) | None => True end ->
    displays_message e c try o msg h (option_map denum t) m (VMap (omap (message_fields msg h t m))).
  Proof.
    intros W. unfold message_fields. constructor; try (fields; reflexivity).
    - fields. destruct (sm_files msg); reflexivity.
    - fields. f_equal. f_equal. destruct (Z.ltb_spec 0 (so_duplicate o)); lia.
    - destruct t as [t|]; cbn [option_map].
      + destruct W as (W & N). exists (part_value e c try o t). split; [fields; reflexivity|now apply part_display].
      + fields. reflexivity.
    - destruct (4 <=? so_version o); [|fields; reflexivity]. exists (crypto_value e o h m). split; [fields; reflexivity|apply crypto_display].
    - eexists. split; [fields; reflexivity|apply headers_display].
  Qed.
  Lemma message_schema msg h t m d : match t with Some t => allt (well body) t /\ height t <= d | None => True end ->
    tmessage (so_version o) (match t with Some _ => true | None => false end) d (VMap (omap (message_fields msg h t m))).
  Proof.
    intros W. unfold tmessage, message_fields. destruct (4 <=? so_version o) eqn:V4, t as [t|]; cbn [app option_map].
    1: destruct W as (W & D). 3: destruct W as (W & D).
    all: schema; try apply tstr; try apply tb; try apply ti; try apply tstrs; try apply headers_schema; try apply crypto_schema; try exact I; try (destruct (3 <=? so_version o); [apply tstrs|apply tstr]).
    all: eexists; split; [reflexivity|]; now apply part_schema.
  Qed.
End parts.
