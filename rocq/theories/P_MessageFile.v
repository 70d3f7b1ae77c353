(** C65: headers of messages. *)
From Verif Require Import Bytes StrUtil MsgId MsgIdProofs P_MsgId Reply ReplySpec ReplyProofs MailStore MessageFile MessageFileSpec MessageFileProofs.
From Coq Require Import Lia ZArith.
Local Open Scope nat_scope.

Section C65.
Variable decode : bytes -> option bytes.

(** A header of a file: whatever headers were asked for before, under whatever spelling,
    the answer is the one value given by the file's headers. *)
Theorem C65_file_header (f : mail) (earlier : list bytes) (h : bytes) r c :
  file_get_header decode f (snd (file_get_many decode f [] earlier)) h = (r, c) ->
  file_value decode f h r /\ (forall r', file_value decode f h r' -> r' = r).
Proof.
  intros E. destruct (get_many_good decode f earlier []) as (c1 & E1 & G); [destruct f; cbn; auto|].
  rewrite E1 in E. cbn [snd] in E. destruct (get_header_good decode f c1 h G) as (c2 & E2 & _). rewrite E2 in E. injection E as <- _.
  split; [now apply pure_value_spec|]. intros r'. apply pure_value_spec.
Qed.

(** A file is taken as mail exactly if it parses and has a nonempty From, Subject or To;
    then its headers are those of the file, and its id, never empty, is the id in the
    Message-Id header, else the text of that header, else made from the SHA-1 of the
    file. *)
Theorem C65_index_headers (f : mail) (earlier : list bytes) sha1 st o c :
  file_get_headers decode sha1 f (snd (file_get_many decode f [] earlier)) = (st, o, c) ->
  (st = FNotEmail <-> f = None \/ forall h, In h [lit "from"; lit "subject"; lit "to"] ->
                                   exists r, file_value decode f h r /\ absent r) /\
  (st = FFileError -> sha1 = None /\ exists r, file_value decode f (lit "message-id") r /\ absent r) /\
  (st = FSuccess <-> o <> None) /\
  (forall x, o = Some x ->
     file_value decode f (lit "from") (ho_from x) /\ file_value decode f (lit "subject") (ho_subject x) /\
     file_value decode f (lit "to") (ho_to x) /\ file_value decode f (lit "date") (ho_date x) /\
     ho_id x <> [] /\
     exists r, file_value decode f (lit "message-id") r /\
       (absent r -> exists s, sha1 = Some s /\ ho_id x = lit "notmuch-sha1-" ++ s) /\
       (forall s, r = Some s -> s <> [] ->
          fst (message_id_parse s) = Some (ho_id x) \/ fst (message_id_parse s) = None /\ ho_id x = s)).
Proof.
  intros E. destruct (get_many_good decode f earlier []) as (c1 & E1 & G); [destruct f; cbn; auto|].
  rewrite E1 in E. cbn [snd] in E. destruct (get_headers_pure decode sha1 f c1 G) as (c2 & E2 & _). rewrite E2 in E.
  injection E as E _. clear E1 E2 G c1 c2.
  assert (NE : forall r, null_or_empty r = true <-> absent r).
  { intros [[|]|]; cbn; unfold absent; split; auto; intros X; try discriminate X; destruct X as [X|X]; discriminate X. }
  assert (PV : forall h, file_value decode f h (pure_value decode f h)) by (intros h; now apply pure_value_spec).
  unfold pure_headers in E. destruct f as [hs|].
  2:{ injection E as <- <-. split; [tauto|]. split; [discriminate|]. split; [split; [discriminate|intros X; now destruct X]|]. discriminate. }
  set (A := null_or_empty (pure_value decode (Some hs) (lit "from")) && null_or_empty (pure_value decode (Some hs) (lit "subject")) && null_or_empty (pure_value decode (Some hs) (lit "to"))) in E.
  assert (HA : A = true <-> (Some hs = None \/ forall h, In h [lit "from"; lit "subject"; lit "to"] -> exists r, file_value decode (Some hs) h r /\ absent r)).
  { unfold A. rewrite !andb_true_iff, !NE. split.
    - intros ((A1 & A2) & A3). right. intros h [<-|[<-|[<-|[]]]]; eexists; (split; [apply PV|assumption]).
    - intros [X|X]; [discriminate X|]. split; [split|].
      + destruct (X (lit "from")) as (r & R1 & R2); [cbn; auto|]. apply pure_value_spec in R1. now subst.
      + destruct (X (lit "subject")) as (r & R1 & R2); [cbn; auto|]. apply pure_value_spec in R1. now subst.
      + destruct (X (lit "to")) as (r & R1 & R2); [cbn; auto|]. apply pure_value_spec in R1. now subst. }
  rewrite <- HA. clear HA. destruct A; [injection E as <- <-; split; [tauto|]; split; [discriminate|]; split; [split; [discriminate|intros X; now destruct X]|discriminate]|].
  unfold pure_id in E. pose proof (PV (lit "message-id")) as PM.
  destruct (pure_value decode (Some hs) (lit "message-id")) as [m|] eqn:EM.
  - destruct (header_message_id m) as [i|] eqn:HI.
    + injection E as <- <-. split; [split; discriminate|]. split; [discriminate|]. split; [split; [discriminate|auto]|].
      intros x [= <-]. cbn [ho_from ho_subject ho_to ho_date ho_id]. repeat (split; [apply PV|]).
      split; [eapply C10_header_message_id_nonempty; eauto|]. exists (Some m). split; [exact PM|]. split.
      * intros [X|X]; [discriminate X|injection X as ->; discriminate HI].
      * intros s [= <-] Hs. destruct m as [|b m]; [contradiction|]. unfold header_message_id in HI.
        destruct (fst (message_id_parse (b :: m))); injection HI as <-; auto.
    + destruct m as [|b m]; [|unfold header_message_id in HI; destruct (fst (message_id_parse (b :: m))); discriminate HI].
      destruct sha1 as [s|]; injection E as <- <-.
      * split; [split; discriminate|]. split; [discriminate|]. split; [split; [discriminate|auto]|].
        intros x [= <-]. cbn [ho_from ho_subject ho_to ho_date ho_id]. repeat (split; [apply PV|]). split; [discriminate|].
        exists (Some []). split; [exact PM|]. split; [eauto|]. intros s' [= <-] X. contradiction.
      * split; [split; discriminate|]. split; [split; [reflexivity|exists (Some []); split; [exact PM|right; reflexivity]]|].
        split; [split; [discriminate|intros X; now destruct X]|discriminate].
  - destruct sha1 as [s|]; injection E as <- <-.
    + split; [split; discriminate|]. split; [discriminate|]. split; [split; [discriminate|auto]|].
      intros x [= <-]. cbn [ho_from ho_subject ho_to ho_date ho_id]. repeat (split; [apply PV|]). split; [discriminate|].
      exists None. split; [exact PM|]. split; [eauto|]. intros s' X; discriminate X.
    + split; [split; discriminate|]. split; [split; [reflexivity|exists None; split; [exact PM|left; reflexivity]]|].
      split; [split; [discriminate|intros X; now destruct X]|discriminate].
Qed.

(** notmuch_message_get_header: From, Subject and Message-Id come from the database and
    need no file; any other header comes from the message's first file as it was when it
    could first be opened for this object, and later changes of the files do not change
    the answers. *)
Definition recorded (v : values) (h r : bytes) : Prop :=
  same_but_case h (lit "from") /\ r = v_from v \/ same_but_case h (lit "subject") /\ r = v_subject v \/
  same_but_case h (lit "message-id") /\ r = v_id v.
(** The first file that one of the calls for a header that is not recorded could open. *)
Inductive opened (v : values) (fn : bytes) : list ((bytes -> option mail) * bytes) -> option mail -> Prop :=
| op_nil : opened v fn [] None
| op_recorded fs h r calls o : recorded v h r -> opened v fn calls o -> opened v fn ((fs, h) :: calls) o
| op_failed fs h calls o : (forall r, ~ recorded v h r) -> fs fn = None -> opened v fn calls o -> opened v fn ((fs, h) :: calls) o
| op_open fs h calls f : (forall r, ~ recorded v h r) -> fs fn = Some f -> opened v fn ((fs, h) :: calls) (Some f).

Lemma recorded_slot v h :
  match (if strcaseeq h (lit "from") then Some (v_from v)
         else if strcaseeq h (lit "subject") then Some (v_subject v)
         else if strcaseeq h (lit "message-id") then Some (v_id v) else None) with
  | Some r => recorded v h r /\ forall r', recorded v h r' -> r' = r
  | None => forall r, ~ recorded v h r
  end.
Proof.
  unfold recorded.
  destruct (strcaseeq h (lit "from")) eqn:E1; [apply strcaseeq_spec in E1|apply strcaseeq_false in E1;
    destruct (strcaseeq h (lit "subject")) eqn:E2; [apply strcaseeq_spec in E2|apply strcaseeq_false in E2;
    destruct (strcaseeq h (lit "message-id")) eqn:E3; [apply strcaseeq_spec in E3|apply strcaseeq_false in E3]]].
  - split; [auto|]. intros r' [[_ ->]|[[X _]|[X _]]]; auto; exfalso; unfold same_but_case in *; rewrite E1 in X; discriminate X.
  - split; [auto|]. intros r' [[X _]|[[_ ->]|[X _]]]; auto; exfalso; [contradiction|]; unfold same_but_case in *; rewrite E2 in X; discriminate X.
  - split; [auto|]. intros r' [[X _]|[[X _]|[_ ->]]]; auto; contradiction.
  - intros r [[X _]|[[X _]|[X _]]]; contradiction.
Qed.

Lemma message_run v fn calls : forall m, m_values m = v -> m_filename m = Some fn ->
  (match m_file m with None => True | Some (f, c) => cache_good decode f c end) ->
  exists m', snd (message_get_many decode true m calls) = m' /\ m_values m' = v /\ m_filename m' = Some fn /\
    match m_file m' with
    | None => m_file m = None /\ opened v fn calls None
    | Some (f, c) => cache_good decode f c /\ (m_file m = None /\ opened v fn calls (Some f) \/ exists c0, m_file m = Some (f, c0))
    end.
Proof.
  induction calls as [|[fs h] calls IH]; intros m Hv Hf Hc; cbn [message_get_many].
  - exists m. cbn [snd]. repeat (split; [auto|]). destruct (m_file m) as [[f c]|]; [split; [auto|right; eauto]|split; [auto|constructor]].
  - assert (STEP : exists r m1, message_get_header decode true fs m h = (r, m1) /\ m_values m1 = v /\ m_filename m1 = Some fn /\
        match m_file m1 with
        | None => m_file m = None /\ ((exists x, recorded v h x) \/ (forall x, ~ recorded v h x) /\ fs fn = None)
        | Some (f, c) => cache_good decode f c /\ (m_file m = None /\ (forall x, ~ recorded v h x) /\ fs fn = Some f \/ exists c0, m_file m = Some (f, c0))
        end).
    { unfold message_get_header. pose proof (recorded_slot v h) as RS. rewrite Hv.
      destruct (if strcaseeq h (lit "from") then _ else _) as [r|].
      - cbn [orb]. exists (Some r), m. repeat (split; [auto|]). destruct (m_file m) as [[f c]|]; [split; [auto|right; eauto]|]. split; [auto|]. left. exists r. apply RS.
      - unfold ensure_file. destruct (m_file m) as [[f c]|] eqn:MF.
        + destruct (get_header_good decode f c h Hc) as (c' & -> & G). eexists _, _. split; [reflexivity|]. cbn. repeat (split; [auto|]). right. eauto.
        + rewrite Hf. destruct (fs fn) as [f|] eqn:F.
          * destruct (get_header_good decode f [] h) as (c' & -> & G); [destruct f; cbn; auto|]. eexists _, _. split; [reflexivity|]. cbn. repeat (split; [auto|]). left; auto.
          * eexists _, _. split; [reflexivity|]. repeat (split; [auto|]). rewrite MF. auto. }
    destruct STEP as (r & m1 & E & A1 & A2 & A3). rewrite E.
    destruct (IH m1 A1 A2) as (m' & B0 & B1 & B2 & B3). { destruct (m_file m1) as [[f c]|]; [apply A3|exact I]. }
    exists m'. destruct (message_get_many decode true m1 calls) as [rs m2]. cbn [snd] in *. split; [auto|]. split; [auto|]. split; [auto|].
    destruct (m_file m') as [[f c]|].
    + destruct B3 as [G [[N O]|(c0 & S)]]; (split; [exact G|]).
      * rewrite N in A3. destruct A3 as [N0 [(x & R)|[R F]]]; left; (split; [exact N0|]); [eapply op_recorded; eauto|apply op_failed; auto].
      * rewrite S in A3. destruct A3 as [_ [(N0 & R & F)|(c1 & S1)]]; [left; split; [exact N0|now apply op_open]|right; eauto].
    + destruct B3 as [N O]. rewrite N in A3. destruct A3 as [N0 [(x & R)|[R F]]]; (split; [exact N0|]); [eapply op_recorded; eauto|apply op_failed; auto].
Qed.

Theorem C65_message_header v fn calls fs h r m' :
  let m := {| m_values := v; m_filename := Some fn; m_file := None |} in
  message_get_header decode true fs (snd (message_get_many decode true m calls)) h = (r, m') ->
  (forall x, recorded v h x -> r = Some x) /\
  ((forall x, ~ recorded v h x) -> forall o, opened v fn calls o ->
     match (match o with Some f => Some f | None => fs fn end) with
     | Some f => file_value decode f h r
     | None => r = None
     end) /\ (exists o, opened v fn calls o).
Proof.
  intros m E. destruct (message_run v fn calls m) as (m1 & E1 & A1 & A2 & A3); [auto..|exact I|].
  rewrite E1 in E. assert (OU : forall o o', opened v fn calls o -> opened v fn calls o' -> o = o').
  { clear. induction calls as [|[fs h] calls IH]; intros o o' H H'; inversion H; subst; inversion H'; subst; auto; try congruence; exfalso;
      match goal with N : forall r, ~ recorded v h r, R : recorded v h _ |- _ => exact (N _ R) end. }
  assert (OP : match m_file m1 with None => opened v fn calls None | Some (f, c) => cache_good decode f c /\ opened v fn calls (Some f) end).
  { destruct (m_file m1) as [[f c]|]; [|apply A3]. destruct A3 as [G [[_ O]|(c0 & X)]]; [auto|discriminate X]. }
  clear A3. unfold message_get_header in E. pose proof (recorded_slot v h) as RS. rewrite A1 in E.
  destruct (if strcaseeq h (lit "from") then _ else _) as [x|].
  - cbn [orb] in E. injection E as <- <-. split; [intros y Hy; now rewrite (proj2 RS y Hy)|]. split; [intros N; now destruct (N _ (proj1 RS))|].
    destruct (m_file m1) as [[f c]|]; [exists (Some f); apply OP|eauto].
  - split; [intros x Hx; now destruct (RS x)|]. split.
    + intros _ o Ho. unfold ensure_file in E. destruct (m_file m1) as [[f c]|].
      * destruct OP as [G O]. rewrite (OU _ _ Ho O). destruct (get_header_good decode f c h G) as (c' & E2 & _). rewrite E2 in E. injection E as <- _. now apply pure_value_spec.
      * rewrite (OU _ _ Ho OP). rewrite A2 in E. destruct (fs fn) as [f|]; [|now injection E].
        destruct (get_header_good decode f [] h) as (c' & E2 & _); [destruct f; cbn; auto|]. rewrite E2 in E. injection E as <- _. now apply pure_value_spec.
    + destruct (m_file m1) as [[f c]|]; [exists (Some f); apply OP|eauto].
Qed.

(** What the database records of a new message is what the file says (the id shortened if
    it is long), and asking for it gives that back. *)
Theorem C65_recorded hash sha1 (f : mail) st o c x v fn calls :
  file_get_headers decode sha1 f [] = (st, o, c) -> o = Some x -> set_header_values hash x = Some v ->
  let m := snd (message_get_many decode true {| m_values := v; m_filename := Some fn; m_file := None |} calls) in
  forall fs,
  file_value decode f (lit "from") (fst (message_get_header decode true fs m (lit "From"))) /\
  file_value decode f (lit "subject") (fst (message_get_header decode true fs m (lit "Subject"))) /\
  (length (ho_id x) <= 189 -> fst (message_get_header decode true fs m (lit "Message-Id")) = Some (ho_id x)).
Proof.
  intros E -> S m fs. destruct (C65_index_headers f [] sha1 st (Some x) c E) as (_ & _ & _ & H). destruct (H x eq_refl) as (H1 & H2 & _).
  unfold set_header_values in S. destruct (ho_from x) as [a|]; [|discriminate S]. destruct (ho_subject x) as [b|]; [|discriminate S]. injection S as <-.
  destruct (message_get_header decode true fs m (lit "From")) as [r1 m1] eqn:E1.
  destruct (message_get_header decode true fs m (lit "Subject")) as [r2 m2] eqn:E2.
  destruct (message_get_header decode true fs m (lit "Message-Id")) as [r3 m3] eqn:E3. cbn [fst].
  pose proof (proj1 (C65_message_header _ fn calls fs _ _ _ E1)) as X1.
  pose proof (proj1 (C65_message_header _ fn calls fs _ _ _ E2)) as X2.
  pose proof (proj1 (C65_message_header _ fn calls fs _ _ _ E3)) as X3. unfold recorded in X1, X2, X3. cbn [v_from v_subject v_id] in X1, X2, X3.
  split; [rewrite (X1 a); [exact H1|left; split; reflexivity]|].
  split; [rewrite (X2 b); [exact H2|right; left; split; reflexivity]|].
  intros L. rewrite (X3 (ho_id x)); [reflexivity|right; right; split; [reflexivity|]].
  unfold NOTMUCH_MESSAGE_ID_MAX. destruct (Nat.ltb_spec 189 (length (ho_id x))); [lia|reflexivity].
Qed.
End C65.
Print Assumptions C65_file_header.
Print Assumptions C65_index_headers.
Print Assumptions C65_message_header.
Print Assumptions C65_recorded.

(** Which file is opened: a relative name below the mail root, an absolute name as it is;
    a name below the root is never refused, and the two spellings open the same file. *)
Theorem C65_open root name :
  (forall rest, name = root ++ lit "/" ++ rest -> root = [] \/ peek root = "/"%char -> file_open_path root name = Some name) /\
  (peek name <> "/"%char -> file_open_path root name = Some (root ++ lit "/" ++ name)) /\
  (forall p, file_open_path root name = Some p -> starts_with root p = true /\ (p = name \/ p = root ++ lit "/" ++ name)).
Proof.
  assert (SW : forall a b, starts_with a (a ++ b) = true) by (intros a b; apply starts_with_app; eauto).
  assert (BE : forall c, beq c "/"%char = true <-> c = "/"%char) by (intros c; apply Ascii.eqb_eq).
  split; [|split].
  - intros rest -> Hr. unfold file_open_path.
    assert (P : exists t, root ++ lit "/" ++ rest = "/"%char :: t).
    { destruct Hr as [-> |Hr]; [cbn; eauto|]. destruct root as [|c t]; [discriminate Hr|]. cbn in Hr. subst c. cbn; eauto. }
    destruct P as (t & Et). pose proof (SW root (lit "/" ++ rest)) as W. rewrite Et in W |- *. cbn [beq]. 
    assert (B : beq "/"%char "/"%char = true) by reflexivity. rewrite B, W. reflexivity.
  - intros N. unfold file_open_path. destruct name as [|c t]; [reflexivity|]. destruct (beq c "/"%char) eqn:B; [|reflexivity].
    apply BE in B. now destruct N.
  - intros p. unfold file_open_path. destruct name as [|c t].
    + intros [= <-]. split; [apply SW|auto].
    + destruct (beq c "/"%char); [destruct (starts_with root (c :: t)) eqn:W; [|discriminate]|]; intros [= <-]; split; auto.
Qed.
Print Assumptions C65_open.

(** "Outside the mail root" is decided by comparing the beginning of the name, so a file of
    a sibling directory whose name begins like the root is opened. *)
Theorem C65_open_below_root_refuted : ~ forall root name p, peek root = "/"%char ->
  file_open_path root name = Some p -> below root p.
Proof.
  intros H. destruct (H (lit "/home/u/mail") (lit "/home/u/mail-archive/x") (lit "/home/u/mail-archive/x")) as (r & E); [reflexivity|reflexivity|].
  discriminate E.
Qed.
Print Assumptions C65_open_below_root_refuted.

(** Concatenating Received headers: one that can't be decoded makes all before it be
    forgotten, without an error. *)
Theorem C65_all_received_refuted : ~ forall decode hs r vs v d, 
  header_value decode hs (lit "received") (Some r) -> instances (lit "received") hs vs -> In v vs -> decode v = Some d ->
  exists a b, r = a ++ d ++ b.
Proof.
  intros H. set (dec := fun v : bytes => match v with [] => None | _ => Some v end).
  destruct (H dec [(lit "Received", lit "x"); (lit "Received", [])] [] [lit "x"; []] (lit "x") (lit "x")) as (a & b & E).
  - apply plain_spec. reflexivity.
  - repeat constructor.
  - left; reflexivity.
  - reflexivity.
  - destruct a; discriminate E.
Qed.
Print Assumptions C65_all_received_refuted.

(** An example: headers in any case, several Received, a bad Message-Id, a file that
    changes after it was opened. *)
Definition ex_mail : mail := Some [(lit "Received", lit "a"); (lit "FROM", lit "me"); (lit "received", lit "b"); (lit "from", lit "you"); (lit "Message-ID", lit "no brackets")].
Example C65_example :
  let dec := fun v => Some v in
  fst (file_get_many dec ex_mail [] [lit "Received"; lit "From"; lit "RECEIVED"; lit "to"; lit "from"]) =
    [Some (lit "a b"); Some (lit "me"); Some (lit "a b"); Some []; Some (lit "me")] /\
  (exists x c, file_get_headers dec None ex_mail [] = (FSuccess, Some x, c) /\ ho_id x = lit "no brackets" /\ ho_subject x = Some []) /\
  fst (message_get_many dec true {| m_values := {| v_from := lit "F"; v_subject := []; v_id := lit "i" |}; m_filename := Some (lit "f"); m_file := None |}
        [(fun _ => None, lit "to"); (fun _ => None, lit "FROM"); (fun _ => Some ex_mail, lit "Received"); (fun _ => None, lit "received"); (fun _ => Some None, lit "X-No")]) =
    [None; Some (lit "F"); Some (lit "a b"); Some (lit "a b"); Some []] /\
  file_open_path (lit "/m") (lit "cur/1") = Some (lit "/m/cur/1") /\ file_open_path (lit "/m") (lit "/n/1") = None.
Proof.
  cbn zeta. split; [reflexivity|]. split; [eexists _, _; split; [reflexivity|split; reflexivity]|]. split; reflexivity || (split; reflexivity).
Qed.
