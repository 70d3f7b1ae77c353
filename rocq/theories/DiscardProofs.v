(** Lemmas for C60. *)
From Verif Require Import Bytes Discard DiscardSpec.
Local Open Scope nat_scope.

Definition ranged (a b c : ascii) : bool := N.leb (code a) (code c) && N.leb (code c) (code b).
Lemma ranged_spec a b c : ranged a b c = true <-> between a b c.
Proof. unfold ranged, between. rewrite andb_true_iff, !N.leb_le. tauto. Qed.
Lemma beq_true a b : beq a b = true <-> a = b.
Proof. unfold beq. apply Ascii.eqb_eq. Qed.

(** ---- pieces ---- *)
Section Pieces.
Variables (states : list scanner_state) (skip : nat).
Lemma filter_app a : forall k b, filter_filter states skip k (a ++ b) =
  match filter_filter states skip k a with
  | None => None
  | Some (k1, o1) => match filter_filter states skip k1 b with None => None | Some (k2, o2) => Some (k2, o1 ++ o2) end
  end.
Proof.
  induction a as [|c a IH]; intros k b; cbn [app filter_filter].
  - destruct (filter_filter states skip k b) as [[k2 o2]|]; reflexivity.
  - destruct (transition states (length states) k c) as [n|]; [|reflexivity]. rewrite IH.
    destruct (filter_filter states skip n a) as [[k1 o1]|]; [|reflexivity].
    destruct (filter_filter states skip k1 b) as [[k2 o2]|]; [|reflexivity]. destruct (Nat.ltb k skip); reflexivity.
Qed.
Lemma stream_concat ps : forall k, filter_stream states skip k ps = filter_filter states skip k (concat ps).
Proof.
  induction ps as [|p ps IH]; intros k; cbn [filter_stream concat]; [reflexivity|]. rewrite filter_app.
  destruct (filter_filter states skip k p) as [[k1 o1]|]; [|reflexivity]. rewrite IH. reflexivity.
Qed.
Lemma filter_length s : forall k k' o, filter_filter states skip k s = Some (k', o) -> length o <= length s.
Proof.
  induction s as [|c s IH]; intros k k' o; cbn [filter_filter]; [intros [= _ <-]; apply Nat.le_refl|].
  destruct (transition states (length states) k c) as [n|]; [|discriminate].
  destruct (filter_filter states skip n s) as [[k1 o1]|] eqn:E; [|discriminate]. intros [= _ <-]. apply IH in E. destruct (Nat.ltb k skip); cbn; lia.
Qed.
End Pieces.

(** ---- plain text ---- *)
Definition okc (k : nat) (c : byte) : bool :=
  match k with
  | 0 => beq c "b" | 1 => beq c "e" | 2 => beq c "g" | 3 => beq c "i" | 4 => beq c "n" | 5 => beq c " "
  | 6 | 7 | 8 => ranged "0" "7" c
  | 9 => beq c " "
  | _ => false
  end.
Definition ustep (k : nat) (c : byte) : nat :=
  if Nat.leb k 9 then (if okc k c then S k else 0)
  else if Nat.eqb k 10 then (if beq c NEWLINE then 11 else 10)
  else if Nat.eqb k 11 then (if beq c "M" then 12 else 0)
  else if ranged " " "`" c then 12 else 11.
Lemma utrans k c : k <= 12 -> transition uuencode_states 13 k c = Some (ustep k c).
Proof.
  intros H.
  assert (S : forall c, forallb (fun k => match transition uuencode_states 13 k c with Some n => Nat.eqb n (ustep k c) | None => false end) (seq 0 13) = true).
  { apply (byte_sweep (fun c => forallb (fun k => match transition uuencode_states 13 k c with Some n => Nat.eqb n (ustep k c) | None => false end) (seq 0 13))). vm_compute. reflexivity. }
  specialize (S c). rewrite forallb_forall in S. specialize (S k ltac:(apply in_seq; lia)).
  destruct (transition uuencode_states 13 k c) as [n|]; [|discriminate]. apply Nat.eqb_eq in S. now subst.
Qed.
Lemma ustep_le k c : k <= 12 -> ustep k c <= 12.
Proof.
  intros H. unfold ustep. destruct (Nat.leb_spec k 9); [destruct (okc k c); lia|].
  destruct (Nat.eqb k 10); [destruct (beq c NEWLINE); lia|]. destruct (Nat.eqb k 11); [destruct (beq c "M"); lia|]. destruct (ranged " " "`" c); lia.
Qed.
Fixpoint uout (k : nat) (s : bytes) : bytes :=
  match s with [] => [] | c :: s => if Nat.ltb k 11 then c :: uout (ustep k c) s else uout (ustep k c) s end.
Fixpoint ufinal (k : nat) (s : bytes) : nat := match s with [] => k | c :: s => ufinal (ustep k c) s end.
Lemma ufilter s : forall k, k <= 12 -> filter_filter uuencode_states first_uuencode_skipping_state k s = Some (ufinal k s, uout k s).
Proof.
  induction s as [|c s IH]; intros k H; cbn [filter_filter ufinal uout]; [reflexivity|].
  change (length uuencode_states) with 13. rewrite (utrans k c H), (IH _ (ustep_le k c H)). reflexivity.
Qed.
Lemma uout_app a : forall k b, uout k (a ++ b) = uout k a ++ uout (ufinal k a) b.
Proof. induction a as [|c a IH]; intros k b; cbn [app uout ufinal]; [reflexivity|]. rewrite IH. destruct (Nat.ltb k 11); reflexivity. Qed.
Lemma ufinal_app a : forall k b, ufinal k (a ++ b) = ufinal (ufinal k a) b.
Proof. induction a as [|c a IH]; intros k b; cbn [app ufinal]; [reflexivity|]. apply IH. Qed.

(** The text ends in the first [k] characters of a "begin" line. *)
Fixpoint header (i : nat) (m : bytes) : Prop := match m with [] => True | c :: m => okc i c = true /\ header (S i) m end.
Lemma header_app m : forall i n, header i (m ++ n) <-> header i m /\ header (i + length m) n.
Proof.
  induction m as [|c m IH]; intros i n; cbn [app header length]; [rewrite Nat.add_0_r; tauto|]. rewrite IH, Nat.add_succ_r. cbn. tauto.
Qed.
Definition at_state (k : nat) (t : bytes) : Prop :=
  if Nat.leb k 9 then exists a m, t = a ++ m /\ length m = k /\ header 0 m
  else exists a m name, t = a ++ m ++ name /\ length m = 10 /\ header 0 m /\ ~ In NEWLINE name.
Lemma at_zero t : at_state 0 t.
Proof. exists t, []. rewrite app_nil_r. cbn. auto. Qed.
Lemma header_begin m name : length m = 10 -> header 0 m -> ~ In NEWLINE name -> begin_line (m ++ name ++ [NEWLINE]).
Proof.
  intros L H N. do 10 (destruct m as [|? m]; [discriminate L|]). destruct m; [|discriminate L]. cbn in H.
  repeat match type of H with _ /\ _ => let h := fresh "h" in destruct H as [h H] end.
  rewrite ?beq_true, ?ranged_spec in *. subst. unfold begin_line. do 4 eexists. split; [reflexivity|]. auto.
Qed.
Lemma begin_header l : begin_line l -> exists m name, l = m ++ name ++ [NEWLINE] /\ length m = 10 /\ header 0 m /\ ~ In NEWLINE name.
Proof.
  intros (a & b & c & name & -> & A & B & C & N). exists (lit "begin " ++ [a; b; c] ++ lit " "), name. split; [reflexivity|]. split; [reflexivity|]. split; [|exact N].
  cbn. rewrite !ranged_spec. repeat (split; [first [reflexivity|assumption]|]). exact I.
Qed.
Lemma at_next k t c : k <= 10 -> at_state k t -> ustep k c <= 10 -> at_state (ustep k c) (t ++ [c]).
Proof.
  intros Hk H Hn. unfold at_state in H. unfold ustep in *. destruct (Nat.leb_spec k 9) as [L|L].
  - destruct H as (a & m & -> & Lm & Hm). destruct (okc k c) eqn:E.
    + assert (Hm' : header 0 (m ++ [c])) by (apply header_app; split; [exact Hm|]; rewrite Lm; cbn; auto).
      assert (Lm' : length (m ++ [c]) = S k) by (rewrite app_length, Lm; cbn; lia).
      unfold at_state. destruct (Nat.leb_spec (S k) 9) as [L'|L'].
      * exists a, (m ++ [c]). rewrite <- app_assoc. auto.
      * assert (k = 9) by lia. subst k. exists a, (m ++ [c]), []. rewrite app_nil_r, <- app_assoc. split; [reflexivity|]. rewrite H in Lm'. split; [exact Lm'|]. split; [exact Hm'|]. intros [].
    + apply at_zero.
  - assert (k = 10) by lia. subst k. cbn [Nat.eqb] in *. destruct (beq c NEWLINE) eqn:E; [exfalso; lia|].
    unfold at_state. cbn [Nat.leb]. destruct H as (a & m & name & -> & Lm & Hm & N). exists a, m, (name ++ [c]). rewrite !app_assoc. split; [reflexivity|]. split; [exact Lm|]. split; [exact Hm|].
    intros X. apply in_app_or in X as [X|[X|[]]]; [contradiction|]. subst c. discriminate E.
Qed.
Lemma at_begin t : at_state 10 t -> exists a l, t ++ [NEWLINE] = a ++ l /\ begin_line l.
Proof. intros (a & m & name & -> & L & H & N). exists a, (m ++ name ++ [NEWLINE]). rewrite <- !app_assoc. split; [reflexivity|]. now apply header_begin. Qed.
Lemma leaves k c : k <= 10 -> 10 < ustep k c -> k = 10 /\ c = NEWLINE /\ ustep k c = 11.
Proof.
  unfold ustep. intros H. destruct (Nat.leb_spec k 9) as [L|L]; [destruct (okc k c); intros X; [|lia]; assert (k = 9) by lia; subst; lia|].
  assert (k = 10) by lia. subst k. cbn [Nat.eqb]. destruct (beq c NEWLINE) eqn:E; [|lia]. apply beq_true in E. auto.
Qed.
Lemma data_lines_snoc d l : data_lines d -> data_line l -> data_lines (d ++ l).
Proof. intros (ls & -> & F) H. exists (ls ++ [l]). rewrite concat_app. cbn. rewrite app_nil_r. split; [reflexivity|]. apply Forall_app. auto. Qed.

Lemma uu_sound s :
  (forall k t, k <= 10 -> at_state k t -> uu (t ++ s) (t ++ uout k s)) /\
  (forall t l d, begin_line l -> data_lines d -> uu (t ++ l ++ d ++ s) (t ++ l ++ uout 11 s)) /\
  (forall t l d data, begin_line l -> data_lines d -> Forall (between " " "`") data ->
     uu (t ++ l ++ d ++ "M"%char :: data ++ s) (t ++ l ++ uout 12 s)).
Proof.
  induction s as [|c s (IH1 & IH2 & IH3)].
  - cbn [uout]. split; [|split].
    + intros k t _ _. rewrite !app_nil_r. constructor.
    + intros t l d Hl Hd. rewrite !app_nil_r. apply uu_cut; auto.
    + intros t l d data Hl Hd F. rewrite !app_nil_r. apply uu_cut; [exact Hl|]. right. exists d, data. auto.
  - split; [|split].
    + intros k t Hk Ha. cbn [uout]. assert (Nat.ltb k 11 = true) as -> by (apply Nat.ltb_lt; lia).
      destruct (le_lt_dec (ustep k c) 10) as [L|L].
      * pose proof (IH1 (ustep k c) (t ++ [c]) L (at_next k t c Hk Ha L)) as X. rewrite <- !app_assoc in X. exact X.
      * destruct (leaves k c Hk L) as (-> & -> & E). rewrite E. destruct (at_begin t Ha) as (a & l & Et & Hl).
        pose proof (IH2 a l [] Hl) as X. cbn [app] in X. rewrite !app_assoc, <- Et, <- !app_assoc in X. apply X. exists []. split; [reflexivity|constructor].
    + intros t l d Hl Hd. cbn [uout]. change (Nat.ltb 11 11) with false. cbn iota. change (ustep 11 c) with (if beq c "M" then 12 else 0). destruct (beq c "M") eqn:E.
      * apply beq_true in E. subst c. apply (IH3 t l d []); auto.
      * apply uu_file; auto; [|apply (IH1 0 []); [lia|apply at_zero]]. intros ->. discriminate E.
    + intros t l d data Hl Hd F. cbn [uout]. change (Nat.ltb 12 11) with false. cbn iota. change (ustep 12 c) with (if ranged " " "`" c then 12 else 11). destruct (ranged " " "`" c) eqn:E.
      * pose proof (IH3 t l d (data ++ [c]) Hl Hd) as X. rewrite <- app_assoc in X. apply X. apply Forall_app. split; [exact F|]. constructor; [|constructor]. now apply ranged_spec.
      * pose proof (IH2 t l (d ++ "M"%char :: data ++ [c]) Hl) as X. rewrite <- !app_assoc in X. cbn [app] in X. rewrite <- !app_assoc in X. apply X.
        apply data_lines_snoc; [exact Hd|]. exists data, c. split; [reflexivity|]. split; [exact F|]. rewrite <- ranged_spec, E. discriminate.
Qed.
Lemma no_begin s : forall k t, k <= 10 -> at_state k t -> ~ contains_begin_line (t ++ s) -> uout k s = s /\ ufinal k s <= 10 /\ at_state (ufinal k s) (t ++ s).
Proof.
  induction s as [|c s IH]; intros k t Hk Ha Hn; cbn [uout ufinal]; [rewrite app_nil_r; auto|].
  assert (Nat.ltb k 11 = true) as -> by (apply Nat.ltb_lt; lia).
  destruct (le_lt_dec (ustep k c) 10) as [L|L].
  - destruct (IH (ustep k c) (t ++ [c]) L (at_next k t c Hk Ha L)) as (X1 & X2 & X3); [rewrite <- app_assoc; exact Hn|]. rewrite <- app_assoc in X3. rewrite X1. auto.
  - exfalso. destruct (leaves k c Hk L) as (-> & -> & _). destruct (at_begin t Ha) as (a & l & Et & Hl). apply Hn. exists a, l, s. split; [|exact Hl].
    change (NEWLINE :: s) with ([NEWLINE] ++ s). rewrite !app_assoc, Et. reflexivity.
Qed.
Lemma after_line t : ~ contains_begin_line t -> t = [] \/ (exists t', t = t' ++ [NEWLINE]) -> uout 0 t = t /\ ufinal 0 t = 0.
Proof.
  intros Hn [-> |(t' & ->)]; [auto|].
  destruct (no_begin (t' ++ [NEWLINE]) 0 [] ltac:(lia) (at_zero []) Hn) as (X1 & _). split; [exact X1|]. rewrite ufinal_app. cbn [ufinal].
  assert (Hn' : ~ contains_begin_line t') by (intros (a & l & b & -> & Hl); apply Hn; exists a, l, (b ++ [NEWLINE]); rewrite <- !app_assoc; auto).
  destruct (no_begin t' 0 [] ltac:(lia) (at_zero []) Hn') as (_ & Y2 & Y3). cbn [app] in Y3.
  destruct (le_lt_dec (ustep (ufinal 0 t') NEWLINE) 10) as [L|L].
  - remember (ufinal 0 t') as k eqn:Ek. clear - L Y2. do 11 (destruct k as [|k]; [first [reflexivity|cbn in L; lia]|]). lia.
  - exfalso. destruct (leaves _ _ Y2 L) as (E & _ & _). rewrite E in Y3. destruct (at_begin t' Y3) as (a & l & Et & Hl). apply Hn. exists a, l, []. rewrite app_nil_r. auto.
Qed.
Lemma name_run name : ~ In NEWLINE name -> uout 10 name = name /\ ufinal 10 name = 10.
Proof.
  induction name as [|c name IH]; intros N; [auto|]. cbn [uout ufinal]. change (Nat.ltb 10 11) with true. cbn iota. change (ustep 10 c) with (if beq c NEWLINE then 11 else 10).
  destruct (beq c NEWLINE) eqn:E; [apply beq_true in E; exfalso; apply N; now left|]. destruct IH as [X1 X2]; [intros X; apply N; now right|]. rewrite X1, X2. auto.
Qed.
Lemma header_run m : forall i, header i m -> i + length m <= 10 -> uout i m = m /\ ufinal i m = i + length m.
Proof.
  induction m as [|c m IH]; intros i H L; cbn [uout ufinal length]; [rewrite Nat.add_0_r; auto|]. destruct H as [H1 H2]. cbn [length] in L.
  assert (Nat.ltb i 11 = true) as -> by (apply Nat.ltb_lt; lia).
  assert (Es : ustep i c = S i) by (unfold ustep; assert (Nat.leb i 9 = true) as -> by (apply Nat.leb_le; lia); now rewrite H1). rewrite Es.
  destruct (IH (S i) H2) as [X1 X2]; [lia|]. rewrite X1, X2. split; [reflexivity|lia].
Qed.
Lemma begin_run l : begin_line l -> uout 0 l = l /\ ufinal 0 l = 11.
Proof.
  intros H. destruct (begin_header l H) as (m & name & -> & L & Hm & N). destruct (header_run m 0 Hm) as [X1 X2]; [lia|]. destruct (name_run name N) as [Y1 Y2].
  rewrite !uout_app, !ufinal_app, X1, X2, L. cbn [Nat.add]. rewrite Y1, Y2. split; reflexivity.
Qed.
Lemma data_run data : Forall (between " " "`") data -> uout 12 data = [] /\ ufinal 12 data = 12.
Proof.
  induction 1 as [|c data H F IH]; [auto|]. cbn [uout ufinal]. change (Nat.ltb 12 11) with false. cbn iota. change (ustep 12 c) with (if ranged " " "`" c then 12 else 11). apply ranged_spec in H. rewrite H. exact IH.
Qed.
Lemma lines_run d : data_lines d -> uout 11 d = [] /\ ufinal 11 d = 11.
Proof.
  intros (ls & -> & F). induction F as [|l ls (data & e & -> & Fd & Ne) F IH]; [auto|]. cbn [concat]. rewrite uout_app, ufinal_app.
  destruct (data_run data Fd) as [D1 D2]. cbn [app uout ufinal]. change (Nat.ltb 11 11) with false. cbn iota. change (ustep 11 "M") with 12.
  rewrite uout_app, ufinal_app, D1, D2. cbn [app uout ufinal]. change (Nat.ltb 12 11) with false. cbn iota. change (ustep 12 e) with (if ranged " " "`" e then 12 else 11).
  destruct (ranged " " "`" e) eqn:E; [exfalso; apply Ne; now apply ranged_spec|]. exact IH.
Qed.
Lemma file_dropped t l d x s : t = [] \/ (exists t', t = t' ++ [NEWLINE]) -> ~ contains_begin_line t -> begin_line l -> data_lines d -> x <> "M"%char ->
  uout 0 (t ++ l ++ d ++ x :: s) = t ++ l ++ uout 0 s.
Proof.
  intros Ht Hn Hl Hd Hx. destruct (after_line t Hn Ht) as [T1 T2]. destruct (begin_run l Hl) as [L1 L2]. destruct (lines_run d Hd) as [D1 D2].
  rewrite uout_app, T1, T2, uout_app, L1, L2, uout_app, D1, D2. cbn [app uout]. change (Nat.ltb 11 11) with false. cbn iota. change (ustep 11 x) with (if beq x "M" then 12 else 0).
  destruct (beq x "M") eqn:E; [apply beq_true in E; contradiction|reflexivity].
Qed.
(** The end of the uuencoded file: nothing after it. *)
Lemma file_dropped_end t l d : t = [] \/ (exists t', t = t' ++ [NEWLINE]) -> ~ contains_begin_line t -> begin_line l -> data_lines d -> uout 0 (t ++ l ++ d) = t ++ l.
Proof.
  intros Ht Hn Hl Hd. destruct (after_line t Hn Ht) as [T1 T2]. destruct (begin_run l Hl) as [L1 L2]. destruct (lines_run d Hd) as [D1 D2].
  rewrite uout_app, T1, T2, uout_app, L1, L2, D1. now rewrite app_nil_r.
Qed.

(** ---- HTML ---- *)
Definition hstep (k : nat) (c : byte) : nat :=
  match k with
  | 0 => if beq c "<" then 1 else 0
  | 1 => if beq c SQ then 4 else if beq c DQ then 5 else if beq c ">" then 0 else 1
  | 4 => if beq c SQ then 1 else 4
  | _ => if beq c DQ then 1 else 5
  end.
Definition hstate (k : nat) : Prop := k = 0 \/ k = 1 \/ k = 4 \/ k = 5.
Lemma htrans k c : hstate k -> transition html_states 6 k c = Some (hstep k c).
Proof.
  intros H.
  assert (S : forall c, forallb (fun k => match transition html_states 6 k c with Some n => Nat.eqb n (hstep k c) | None => false end) [0; 1; 4; 5] = true).
  { apply (byte_sweep (fun c => forallb (fun k => match transition html_states 6 k c with Some n => Nat.eqb n (hstep k c) | None => false end) [0; 1; 4; 5])). vm_compute. reflexivity. }
  specialize (S c). rewrite forallb_forall in S. specialize (S k ltac:(unfold hstate in H; cbn; intuition)).
  destruct (transition html_states 6 k c) as [n|]; [|discriminate]. apply Nat.eqb_eq in S. now subst.
Qed.
Lemma hstep_ok k c : hstate k -> hstate (hstep k c).
Proof.
  unfold hstate. intros [-> |[-> |[-> | ->]]]; cbn [hstep].
  - destruct (beq c "<"); auto.
  - destruct (beq c SQ); [auto|]. destruct (beq c DQ); [auto|]. destruct (beq c ">"); auto.
  - destruct (beq c SQ); auto.
  - destruct (beq c DQ); auto.
Qed.
Fixpoint hout (k : nat) (s : bytes) : bytes :=
  match s with [] => [] | c :: s => if Nat.ltb k 1 then c :: hout (hstep k c) s else hout (hstep k c) s end.
Fixpoint hfinal (k : nat) (s : bytes) : nat := match s with [] => k | c :: s => hfinal (hstep k c) s end.
Lemma hfilter s : forall k, hstate k -> filter_filter html_states first_html_skipping_state k s = Some (hfinal k s, hout k s).
Proof.
  induction s as [|c s IH]; intros k H; cbn [filter_filter hfinal hout]; [reflexivity|].
  change (length html_states) with 6. rewrite (htrans k c H), (IH _ (hstep_ok k c H)). reflexivity.
Qed.
Lemma hout_app a : forall k b, hout k (a ++ b) = hout k a ++ hout (hfinal k a) b.
Proof. induction a as [|c a IH]; intros k b; cbn [app hout hfinal]; [reflexivity|]. rewrite IH. destruct (Nat.ltb k 1); reflexivity. Qed.
Lemma inside_app a b : inside a -> inside b -> inside (a ++ b).
Proof.
  induction 1 as [|c s H1 H2 H3 H IH|q s Hq H IH|q s Hq H IH]; intros Hb; cbn [app]; [exact Hb| | |].
  - apply in_char; auto.
  - rewrite <- app_assoc. cbn [app]. apply in_single; auto.
  - rewrite <- app_assoc. cbn [app]. apply in_double; auto.
Qed.
Lemma html_sound s :
  html s (hout 0 s) /\
  (forall t, inside t -> html ("<"%char :: t ++ s) ("<"%char :: hout 1 s)) /\
  (forall t q, inside t -> ~ In SQ q -> html ("<"%char :: t ++ SQ :: q ++ s) ("<"%char :: hout 4 s)) /\
  (forall t q, inside t -> ~ In DQ q -> html ("<"%char :: t ++ DQ :: q ++ s) ("<"%char :: hout 5 s)).
Proof.
  induction s as [|c s (IH0 & IH1 & IH4 & IH5)].
  - cbn [hout]. split; [constructor|]. split; [|split].
    + intros t H. apply html_unclosed; [exact H|now left].
    + intros t q H Hq. rewrite app_nil_r. apply html_unclosed; [exact H|]. right. left. exists q. auto.
    + intros t q H Hq. rewrite app_nil_r. apply html_unclosed; [exact H|]. right. right. exists q. auto.
  - cbn [hout Nat.ltb Nat.leb hstep]. split; [|split; [|split]].
    + destruct (beq c "<") eqn:E; [apply beq_true in E; subst c; apply (IH1 [] in_nil)|]. apply html_text; [|exact IH0]. intros ->. discriminate E.
    + intros t H. destruct (beq c SQ) eqn:E1; [apply beq_true in E1; subst c; apply (IH4 t []); auto|].
      destruct (beq c DQ) eqn:E2; [apply beq_true in E2; subst c; apply (IH5 t []); auto|].
      destruct (beq c ">") eqn:E3; [apply beq_true in E3; subst c; now apply html_tag|].
      change (t ++ c :: s) with (t ++ [c] ++ s). rewrite app_assoc. apply IH1. apply inside_app; [exact H|].
      apply in_char; [| | |constructor]; intros ->; discriminate.
    + intros t q H Hq. destruct (beq c SQ) eqn:E1.
      * apply beq_true in E1. subst c. pose proof (IH1 (t ++ SQ :: q ++ [SQ])) as X. rewrite <- app_assoc in X. cbn [app] in X. rewrite <- app_assoc in X. apply X.
        apply inside_app; [exact H|]. apply in_single; [exact Hq|constructor].
      * pose proof (IH4 t (q ++ [c]) H) as X. rewrite <- app_assoc in X. apply X. intros Y. apply in_app_or in Y as [Y|[Y|[]]]; [contradiction|]. subst c. discriminate E1.
    + intros t q H Hq. destruct (beq c DQ) eqn:E1.
      * apply beq_true in E1. subst c. pose proof (IH1 (t ++ DQ :: q ++ [DQ])) as X. rewrite <- app_assoc in X. cbn [app] in X. rewrite <- app_assoc in X. apply X.
        apply inside_app; [exact H|]. apply in_double; [exact Hq|constructor].
      * pose proof (IH5 t (q ++ [c]) H) as X. rewrite <- app_assoc in X. apply X. intros Y. apply in_app_or in Y as [Y|[Y|[]]]; [contradiction|]. subst c. discriminate E1.
Qed.
Lemma quote_run k z q : (k = 4 /\ z = SQ) \/ (k = 5 /\ z = DQ) -> ~ In z q -> hout k q = [] /\ hfinal k q = k.
Proof.
  intros K. induction q as [|c q IH]; intros N; [auto|]. cbn [hout hfinal].
  assert (E : hstep k c = k). { destruct K as [[-> ->]|[-> ->]]; cbn; (destruct (beq c _) eqn:E; [apply beq_true in E; exfalso; apply N; now left|reflexivity]). }
  rewrite E. assert (Nat.ltb k 1 = false) as -> by (destruct K as [[-> ->]|[-> ->]]; reflexivity). apply IH. intros X. apply N. now right.
Qed.
Lemma hfinal_app a : forall k b, hfinal k (a ++ b) = hfinal (hfinal k a) b.
Proof. induction a as [|c a IH]; intros k b; cbn [app hfinal]; [reflexivity|]. apply IH. Qed.
Lemma inside_run t : inside t -> hout 1 t = [] /\ hfinal 1 t = 1.
Proof.
  induction 1 as [|c s H1 H2 H3 H IH|q s Hq H IH|q s Hq H IH]; [auto| | |].
  - cbn [hout hfinal Nat.ltb Nat.leb]. assert (E : hstep 1 c = 1); [|rewrite E; exact IH].
    cbn. destruct (beq c SQ) eqn:E1; [apply beq_true in E1; contradiction|]. destruct (beq c DQ) eqn:E2; [apply beq_true in E2; contradiction|].
    destruct (beq c ">") eqn:E3; [apply beq_true in E3; contradiction|reflexivity].
  - cbn [hout hfinal Nat.ltb Nat.leb]. change (hstep 1 "'") with 4. destruct (quote_run 4 SQ q (or_introl (conj eq_refl eq_refl)) Hq) as [X1 X2].
    rewrite hout_app, hfinal_app, X1, X2. exact IH.
  - cbn [hout hfinal Nat.ltb Nat.leb]. change (hstep 1 "034") with 5. destruct (quote_run 5 DQ q (or_intror (conj eq_refl eq_refl)) Hq) as [X1 X2].
    rewrite hout_app, hfinal_app, X1, X2. exact IH.
Qed.
Lemma html_complete s kept : html s kept -> hout 0 s = kept.
Proof.
  induction 1 as [|c s kept Hc H IH|t s kept Ht H IH|t o Ht Ho].
  - reflexivity.
  - cbn [hout Nat.ltb Nat.leb hstep]. destruct (beq c "<") eqn:E; [apply beq_true in E; contradiction|]. now rewrite IH.
  - cbn [hout Nat.ltb Nat.leb]. change (hstep 0 "<") with 1. destruct (inside_run t Ht) as [X1 X2]. rewrite hout_app, X1, X2. cbn [app hout Nat.ltb Nat.leb]. change (hstep 1 ">") with 0. now rewrite IH.
  - cbn [hout Nat.ltb Nat.leb]. change (hstep 0 "<") with 1. destruct (inside_run t Ht) as [X1 X2]. rewrite hout_app, X1, X2. cbn [app].
    destruct Ho as [-> |[(q & -> & Hq)|(q & -> & Hq)]]; [reflexivity| |]; cbn [hout Nat.ltb Nat.leb].
    + change (hstep 1 "'") with 4. now rewrite (proj1 (quote_run 4 SQ q (or_introl (conj eq_refl eq_refl)) Hq)).
    + change (hstep 1 "034") with 5. now rewrite (proj1 (quote_run 5 DQ q (or_intror (conj eq_refl eq_refl)) Hq)).
Qed.
Lemma discard_plain ps : discard false ps = Some (uout 0 (concat ps)).
Proof. unfold discard. rewrite stream_concat, ufilter by lia. reflexivity. Qed.
Lemma discard_html ps : discard true ps = Some (hout 0 (concat ps)).
Proof. unfold discard. rewrite stream_concat, hfilter by now left. reflexivity. Qed.
