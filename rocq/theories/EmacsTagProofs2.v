(** Lemmas about tagging from Emacs: validation, display, undo. *)
From Verif Require Import Bytes Terms Meta MetaProofs StrUtil StrUtilSpec StrUtilProofs DocMap Db TagOps TagOpsSpec TagOpsProofs TagLine TagLineSpec Dump EmacsTag EmacsTagSpec EmacsTagProofs.
Local Open Scope nat_scope.

(** ** Lines of a string *)
Definition is_line (l s : bytes) : Prop :=
  exists a b, s = a ++ l ++ b /\ ~ In NL l /\ (a = [] \/ exists a', a = a' ++ [NL]) /\ (b = [] \/ exists b', b = NL :: b').
Lemma first_NL (x : bytes) : forall y u v, ~ In NL x -> ~ In NL u -> x ++ NL :: y = u ++ NL :: v -> x = u /\ y = v.
Proof.
  induction x as [|c x IH]; intros y [|d u] v Hx Hu E; cbn in E.
  - injection E as ->. auto.
  - injection E as <- E. elim Hu. now left.
  - injection E as -> E. elim Hx. now left.
  - injection E as -> E. destruct (IH y u v) as [-> ->]; auto; intros H; [apply Hx|apply Hu]; now right.
Qed.
Lemma NL_dec (s : bytes) : ~ In NL s \/ exists a b, s = a ++ NL :: b /\ ~ In NL a.
Proof.
  induction s as [|c s IH]; [left; intros []|]. destruct (beq_spec c NL) as [->|Hc].
  - right. exists [], s. split; [reflexivity|intros []].
  - destruct IH as [H|(a & b & -> & H)].
    + left. intros [E|E]; auto.
    + right. exists (c :: a), b. split; [reflexivity|]. intros [E|E]; auto.
Qed.
Lemma el_lines_In l : forall s cur, ~ In NL cur -> (In l (el_lines cur s) <-> is_line l (cur ++ s)).
Proof.
  induction s as [|c s IH]; intros cur Hc.
  - cbn [el_lines]. rewrite app_nil_r. split.
    + intros [<-|[]]. exists [], []. rewrite app_nil_r. repeat split; auto.
    + intros (a & b & E & Hl & Ha & Hb). left.
      destruct Ha as [->|(a' & ->)]; [|elim Hc; rewrite E; apply in_or_app; left; apply in_or_app; right; now left].
      destruct Hb as [->|(b' & ->)]; [|elim Hc; rewrite E; cbn; apply in_or_app; right; now left].
      cbn in E. now rewrite app_nil_r in E.
  - cbn [el_lines]. destruct (beq_spec c NL) as [->|Hne].
    + cbn [In]. rewrite (IH [] ltac:(intros [])). cbn [app]. split.
      * intros [<-|(a & b & -> & Hl & Ha & Hb)].
        -- exists [], (NL :: s). repeat split; eauto.
        -- exists (cur ++ NL :: a), b. rewrite <- app_assoc. repeat split; auto. right.
           destruct Ha as [->|(a' & ->)]; [now exists cur|]. exists (cur ++ NL :: a'). now rewrite <- app_assoc.
      * intros (a & b & E & Hl & Ha & Hb). destruct Ha as [->|(a' & ->)].
        -- left. cbn in E. destruct Hb as [->|(b' & ->)].
           { rewrite app_nil_r in E. elim Hl. rewrite <- E. apply in_or_app. right. now left. }
           now destruct (first_NL cur s l b' Hc Hl E).
        -- right. rewrite <- app_assoc in E. cbn in E.
           destruct (NL_dec a') as [Ha'|(u & v & -> & Hu)].
           ++ destruct (first_NL cur s a' (l ++ b) Hc Ha' E) as [_ ->]. exists [], b. repeat split; auto.
           ++ rewrite <- app_assoc in E. cbn in E. destruct (first_NL cur s u (v ++ NL :: l ++ b) Hc Hu E) as [_ ->].
              exists (v ++ [NL]), b. rewrite <- app_assoc. repeat split; eauto.
    + rewrite IH; [now rewrite <- app_assoc|]. intros H. apply in_app_or in H as [H|[H|[]]]; auto.
Qed.
Lemma el_white_spec c : el_white c = true <-> white c.
Proof.
  unfold el_white, white. rewrite existsb_exists. split; [intros (n & H & E); apply N.eqb_eq in E; now subst|].
  intros H. exists (code c). split; [exact H|apply N.eqb_refl].
Qed.
Lemma el_line_ok_spec l : el_line_ok l = true <->
  exists c t, l = c :: t /\ (c = "+"%char \/ c = "-"%char) /\ t <> [] /\ forall x, In x t -> ~ white x.
Proof.
  split.
  - destruct l as [|c [|d t]]; try discriminate. cbn [el_line_ok]. intros H. apply andb_true_iff in H as [H1 H2].
    exists c, (d :: t). split; [reflexivity|]. split; [apply orb_true_iff in H1 as [H1|H1]; apply beq_eq in H1; auto|].
    split; [discriminate|]. rewrite forallb_forall in H2. intros x Hx W. apply H2 in Hx. apply el_white_spec in W. now rewrite W in Hx.
  - intros (c & t & -> & Hc & Ht & Hw). destruct t as [|d t]; [contradiction|]. cbn [el_line_ok]. apply andb_true_iff. split.
    + destruct Hc as [-> | ->]; reflexivity.
    + apply forallb_forall. intros x Hx. apply negb_true_iff. destruct (el_white x) eqn:E; [|reflexivity].
      apply el_white_spec in E. now elim (Hw x Hx).
Qed.
Lemma el_change_ok_spec s : el_change_ok s = true <->
  exists c t, is_line (c :: t) s /\ (c = "+"%char \/ c = "-"%char) /\ t <> [] /\ forall x, In x t -> ~ white x.
Proof.
  unfold el_change_ok. rewrite existsb_exists. split.
  - intros (l & Hl & H). apply el_lines_In in Hl; [|intros []]. apply el_line_ok_spec in H as (c & t & -> & H). eauto.
  - intros (c & t & Hl & H). exists (c :: t). split; [apply el_lines_In; [intros []|exact Hl]|]. apply el_line_ok_spec. eauto.
Qed.
Lemma whole_line s : ~ In NL s -> is_line s s.
Proof. intros H. exists [], []. cbn. rewrite app_nil_r. auto. Qed.
Lemma plain_says_no_NL c o : plain_op o -> says c o -> ~ In NL c.
Proof.
  intros (_ & P & _) -> [E|E]; [destruct (to_remove o); discriminate|]. apply P in E as [E _]. apply E, white_NL.
Qed.
Lemma plain_says_ok c o : plain_op o -> says c o -> el_change_ok c = true.
Proof.
  intros P E. apply el_change_ok_spec. pose proof (plain_says_no_NL c o P E) as N. destruct P as (P1 & P2 & _). rewrite E in N |- *.
  exists (if to_remove o then "-"%char else "+"%char), (to_tag o). split; [now apply whole_line|].
  split; [destruct (to_remove o); auto|]. split; [exact P1|]. intros x Hx. now apply P2.
Qed.
Lemma forall2_ok changes ops : Forall2 says changes ops -> Forall plain_op ops -> forallb el_change_ok changes = true.
Proof.
  induction 1 as [|c o cs os S1 F IH]; intros P; [reflexivity|]. inversion P; subst. cbn. rewrite (plain_says_ok c o) by auto. now apply IH.
Qed.

(** ** Display *)
Lemma tag_after_ext ops P Q t : (forall u, P u <-> Q u) -> (tag_after false ops P t <-> tag_after false ops Q t).
Proof. intros H. unfold tag_after. now rewrite H. Qed.
Lemma last_op_cons t o ops r : last_op_on t (o :: ops) r <-> last_op_on t ops r \/ (not_mentioned t ops /\ o = {| to_tag := t; to_remove := r |}).
Proof.
  split.
  - intros ([|x p] & q & E & H).
    + injection E as -> ->. right. split; [exact H|reflexivity].
    + injection E as -> ->. left. exists p, q. auto.
  - intros [(p & q & -> & H)|[N ->]]; [exists (o :: p), q; auto|exists [], ops; auto].
Qed.
Lemma not_mentioned_cons t o ops : not_mentioned t (o :: ops) <-> to_tag o <> t /\ not_mentioned t ops.
Proof. unfold not_mentioned. cbn. split; [intros H; split; intros; apply H; auto|]. intros [H1 H2] x [<-|Hx]; auto. Qed.
Lemma tag_after_cons o ops P t :
  tag_after false (o :: ops) P t <-> tag_after false ops (fun u => if to_remove o then P u /\ u <> to_tag o else u = to_tag o \/ P u) t.
Proof.
  unfold tag_after. rewrite last_op_cons, not_mentioned_cons. destruct o as [u r]. cbn [to_tag to_remove]. destruct r.
  - split; [|intuition]. intros [[H|[_ H]]|((H1 & H2) & _ & H)]; [auto|discriminate|]. right. intuition.
  - split.
    + intros [[H|[H E]]|((H1 & H2) & _ & H)]; [auto| |right; intuition]. injection E as ->. right. auto.
    + intros [H|(H1 & _ & [->|H])]; [auto|left; right; auto|].
      destruct (bseq_spec u t) as [->|Hne]; [left; right; auto|]. right. auto.
Qed.
Lemma existsb_bseq t l : existsb (bseq t) l = true <-> In t l.
Proof. rewrite existsb_exists. split; [intros (x & H & E); apply bseq_eq in E; now subst|]. intros H. exists t. split; [exact H|]. now apply bseq_eq. Qed.
Lemma el_update_spec changes ops : Forall2 says changes ops -> forall tags, NoDup tags ->
  exists tags', el_update tags changes = Some tags' /\ NoDup tags' /\
    forall t, In t tags' <-> tag_after false ops (fun u => In u tags) t.
Proof.
  induction 1 as [|c o changes ops S1 F IH]; intros tags N.
  - exists tags. split; [reflexivity|]. split; [exact N|]. intros t. unfold tag_after. split.
    + intros H. right. split; [intros x []|auto].
    + intros [(p & q & E & _)|(_ & _ & H)]; [now destruct p|exact H].
  - rewrite S1. cbn [el_update]. destruct o as [u r]. destruct r; cbn [to_tag to_remove].
    + change (beq "-" "+") with false. change (beq "-" "-") with true. cbn iota.
      destruct (IH (filter (fun x => negb (bseq u x)) tags)) as (tags' & A & B & C); [now apply NoDup_filter|].
      exists tags'. split; [exact A|]. split; [exact B|]. intros t. rewrite C, tag_after_cons. cbn [to_tag to_remove]. apply tag_after_ext.
      intros x. rewrite filter_In, negb_true_iff. split; intros [H1 H2]; split; auto.
      * intros ->. now rewrite (proj2 (bseq_eq u u) eq_refl) in H2.
      * destruct (bseq_spec u x); congruence.
    + change (beq "+" "+") with true. cbn iota.
      destruct (IH (if existsb (bseq u) tags then tags else u :: tags)) as (tags' & A & B & C).
      { destruct (existsb (bseq u) tags) eqn:E; [exact N|]. constructor; [|exact N]. intros H. apply existsb_bseq in H. congruence. }
      exists tags'. split; [exact A|]. split; [exact B|]. intros t. rewrite C, tag_after_cons. cbn [to_tag to_remove]. apply tag_after_ext.
      intros x. destruct (existsb (bseq u) tags) eqn:E.
      * apply existsb_bseq in E. split; [auto|]. intros [->|H]; auto.
      * cbn. intuition.
Qed.
Lemma el_insert_In t l x : In x (el_insert t l) <-> x = t \/ In x l.
Proof.
  induction l as [|u l IH]; cbn; [intuition|]. destruct (bltb u t); cbn; [rewrite IH|]; intuition.
Qed.
Lemma el_insert_sorted t l : ~ In t l -> tsorted l -> tsorted (el_insert t l).
Proof.
  unfold tsorted. induction l as [|u l IH]; cbn; intros N H; [repeat constructor|].
  inversion H as [|? ? H1 H2]; subst. destruct (bltb u t) eqn:E.
  - constructor; [apply IH; auto|]. apply Forall_forall. intros x Hx. apply el_insert_In in Hx as [->|Hx]; [exact E|].
    rewrite Forall_forall in H2. now apply H2.
  - assert (L : blt t u). { unfold blt. rewrite bltb_bleb_neg in E. apply negb_false_iff in E. apply bleb_lt_or_eq in E as [E| ->]; [exact E|]. elim N. now left. }
    constructor; [exact H|]. constructor; [exact L|]. apply Forall_forall. intros x Hx. rewrite Forall_forall in H2.
    eapply bltb_trans; [exact L|]. now apply H2.
Qed.
Lemma el_sort_spec l : NoDup l -> tsorted (el_sort l) /\ forall x, In x (el_sort l) <-> In x l.
Proof.
  induction 1 as [|t l Hn N (IH1 & IH2)]; [split; [constructor|reflexivity]|]. cbn. split.
  - apply el_insert_sorted; [now rewrite IH2|exact IH1].
  - intros x. rewrite el_insert_In, IH2. intuition.
Qed.

(** ** Ids *)
Lemma concat_doubled t : doubled t (concat (map (fun c => if beq c """"%char then [c; c] else [c]) t)).
Proof.
  induction t as [|c t IH]; cbn [map concat]; [constructor|]. destruct (beq_spec c """"%char) as [->|H]; cbn [app]; constructor; auto.
Qed.
Lemma el_plain_spec c : el_plain c = true -> (32 < N_of_ascii c)%N /\ c <> ")"%char /\ c <> """"%char.
Proof.
  assert (H : forall c, implb (el_plain c) (N.ltb 32 (code c) && negb (beq c ")"%char) && negb (beq c """"%char)) = true)
    by (apply byte_sweep; vm_compute; reflexivity).
  intros E. specialize (H c). rewrite E in H. cbn [implb] in H. apply andb_true_iff in H as [H H3]. apply andb_true_iff in H as [H1 H2].
  apply N.ltb_lt in H1. apply negb_true_iff, beq_neq in H2. apply negb_true_iff, beq_neq in H3. auto.
Qed.
Lemma id_query_text id : boolean_term_text (el_id_to_query id) (lit "id") id.
Proof.
  unfold el_id_to_query. exists [], [], (el_escape_term id). rewrite app_nil_r. split; [reflexivity|].
  split; [constructor|]. split; [constructor|]. split; [discriminate|].
  split; [intros [H|[H|[]]]; discriminate H|]. split.
  { intros c r [= <- <-]. unfold is_space_byte. vm_compute. intuition discriminate. }
  destruct id as [|c id]; [apply (tt_quoted [] []); constructor|]. unfold el_escape_term.
  destruct (forallb el_plain (c :: id)) eqn:E.
  - rewrite forallb_forall in E. apply tt_bare.
    + intros x Hx. apply E, el_plain_spec in Hx. tauto.
    + intros r [= -> _]. specialize (E """"%char (or_introl eq_refl)). apply el_plain_spec in E. tauto.
  - apply tt_quoted. apply concat_doubled.
Qed.

(** ** Undo *)
Lemma change_reverse c o : plain_op o -> says c o -> says (el_change true c) (opposite o).
Proof.
  intros P E. pose proof (plain_says_no_NL c o P E) as N. unfold el_change.
  assert (B : existsb (fun l => match l with c :: _ => beq c "+"%char || beq c "-"%char | [] => false end) (el_lines [] c) = true).
  { apply existsb_exists. exists c. split; [apply el_lines_In; [intros []|]; now apply whole_line|]. rewrite E. now destruct (to_remove o). }
  rewrite B, E. unfold says, opposite. cbn [peek tl to_tag to_remove]. destruct (to_remove o); reflexivity.
Qed.
Lemma change_list_reverse changes ops : Forall2 says changes ops -> Forall plain_op ops ->
  Forall2 says (el_change_list changes true) (map opposite ops).
Proof.
  induction 1 as [|c o changes ops S1 F IH]; intros P; [constructor|]. inversion P; subst. cbn. constructor; [now apply change_reverse|auto].
Qed.
Lemma NoDup_last ops o : NoDup (map to_tag ops) -> In o ops -> last_op_on (to_tag o) ops (to_remove o).
Proof.
  intros N H. apply in_split in H as (p & q & ->). exists p, q. split; [now destruct o|].
  rewrite map_app in N. cbn in N. apply NoDup_remove_2 in N. intros x Hx E. apply N. apply in_or_app. right. rewrite <- E. now apply in_map.
Qed.
Lemma undo_tags ops P t : effective ops P -> (tag_after false (map opposite ops) (tag_after false ops P) t <-> P t).
Proof.
  intros (N & H).
  assert (T : map to_tag (map opposite ops) = map to_tag ops) by (rewrite map_map; reflexivity).
  destruct (in_dec (list_eq_dec ascii_dec) t (map to_tag ops)) as [I|I].
  - apply in_map_iff in I as (o & <- & Io).
    assert (L : last_op_on (to_tag o) (map opposite ops) (negb (to_remove o))).
    { apply (NoDup_last (map opposite ops) (opposite o)); [now rewrite T|]. now apply in_map. }
    rewrite (H o Io). unfold tag_after at 1. split.
    + intros [L2|(M & _)]; [|now apply last_op_mentioned in L]. apply (last_op_unique _ _ _ _ L) in L2. now apply negb_false_iff.
    + intros R. left. now rewrite R in L.
  - assert (M : not_mentioned t ops) by (intros o Ho E; apply I; rewrite <- E; now apply in_map).
    assert (M' : not_mentioned t (map opposite ops)) by (intros o Ho E; apply I; rewrite <- T, <- E; now apply in_map).
    unfold tag_after. split.
    + intros [L|(_ & _ & [L|(_ & _ & X)])]; [now apply last_op_mentioned in L|now apply last_op_mentioned in L|exact X].
    + intros X. right. split; [exact M'|]. split; [reflexivity|]. right. auto.
Qed.
