From Verif Require Import Bytes Decimal LastmodSpec LastmodProofs Options OptionsSpec OptionsProofs.
Local Open Scope Z_scope.

Lemma option_reads_shrinks t arg rest es rest'' : option_reads t arg rest es rest'' -> (length rest'' <= length rest)%nat.
Proof.
  intros (k & n & p & neg & tail & r & rest' & e & gb & _ & _ & _ & T & _ & _ & ->). destruct gb; [lia|].
  destruct T as [(c & s & _ & _ & _ & ->)|[(_ & _ & a & -> & _)|(_ & _ & _ & ->)]]; cbn [length]; lia.
Qed.

Lemma parse_position_spec a t : forall i, parse_position a i t =
  match nth_error (slots t) i with Some (v, p) => Some (SetPosition v a :: present_effect p) | None => None end.
Proof.
  induction t as [|d t IH]; intros i; [destruct i; reflexivity|].
  destruct d as [t'|[v|v|v kws d|v kws|v ae|v] n p]; cbn [parse_position]; try apply IH.
  unfold slots. cbn [flat_map app]. fold (slots t). destruct i as [|i]; [reflexivity|]. cbn [nth_error]. apply IH.
Qed.

Lemma not_dashes a : starts_dashes a = false <-> ~ is_option a.
Proof.
  unfold is_option. rewrite <- dashes_spec. destruct (starts_dashes a); split; intros H; try congruence; try tauto.
Qed.

Lemma loop_iff t (Hs : sensible t) : forall fuel argv pos acc es rest, (length argv < fuel)%nat ->
  parse_arguments_loop fuel t argv pos acc = (es, Some rest) <-> exists es', es = acc ++ es' /\ reads t pos argv es' rest.
Proof.
  induction fuel as [|f IH]; intros argv pos acc es rest Hl; [lia|]. cbn [parse_arguments_loop].
  destruct argv as [|a argv].
  - split.
    + intros [= <- <-]. exists []. rewrite app_nil_r. split; [reflexivity|constructor].
    + intros (es' & -> & R). inversion R; subst. now rewrite app_nil_r.
  - destruct (starts_dashes a) eqn:D; cbn [negb].
    + pose proof (proj1 (dashes_spec a) D) as (x & Ex). subst a. cbn [length skipn].
      destruct x as [|x0 x].
      * cbn [length Nat.eqb]. split.
        -- intros [= <- <-]. exists []. rewrite app_nil_r. split; [reflexivity|]. exact (r_dashdash t pos argv).
        -- intros (es' & -> & R). inversion R; subst.
           ++ now rewrite app_nil_r.
           ++ exfalso. match goal with H : ~ is_option _ |- _ => apply H; exists []; reflexivity end.
           ++ exfalso. match goal with H : ~ is_option _ |- _ => apply H; exists []; reflexivity end.
           ++ congruence.
      * cbn [length Nat.eqb]. destruct (parse_option t (x0 :: x) argv) as [e [rest1|]] eqn:P.
        -- apply parse_option_iff in P; [|exact Hs]. pose proof (option_reads_shrinks _ _ _ _ _ P) as L. cbn [length] in Hl.
           rewrite IH by lia. split.
           ++ intros (es' & -> & R). exists (e ++ es'). rewrite app_assoc. split; [reflexivity|].
              apply (r_option t pos (x0 :: x) argv e rest1 es' rest); [discriminate|exact P|exact R].
           ++ intros (es' & -> & R). inversion R; subst.
              ** exfalso. match goal with H : ~ is_option _ |- _ => apply H; exists (x0 :: x); reflexivity end.
              ** exfalso. match goal with H : ~ is_option _ |- _ => apply H; exists (x0 :: x); reflexivity end.
              ** apply parse_option_iff in P; [|exact Hs].
                 match goal with H : option_reads t _ _ _ _ |- _ => apply parse_option_iff in H; [|exact Hs]; rewrite P in H; injection H as <- <- end.
                 eexists. rewrite app_assoc. split; [reflexivity|eassumption].
        -- split; [discriminate|]. intros (es' & -> & R). exfalso. inversion R; subst.
           ++ match goal with H : ~ is_option _ |- _ => apply H; exists (x0 :: x); reflexivity end.
           ++ match goal with H : ~ is_option _ |- _ => apply H; exists (x0 :: x); reflexivity end.
           ++ match goal with H : option_reads t _ _ _ _ |- _ => apply parse_option_iff in H; [|exact Hs]; rewrite P in H; discriminate end.
    + pose proof (proj1 (not_dashes a) D) as No. rewrite parse_position_spec.
      destruct (nth_error (slots t) pos) as [[v p]|] eqn:N.
      * cbn [length] in Hl. rewrite IH by lia. split.
        -- intros (es' & -> & R). exists (SetPosition v a :: present_effect p ++ es'). split.
           ++ rewrite <- app_assoc. reflexivity.
           ++ econstructor; eassumption.
        -- intros (es' & -> & R). inversion R; subst.
           ++ exfalso. apply No. exists []. reflexivity.
           ++ congruence.
           ++ match goal with H : nth_error _ _ = Some (?v0, ?p0) |- _ => rewrite N in H; injection H as <- <- end.
              eexists. split; [|eassumption]. rewrite <- app_assoc. reflexivity.
           ++ exfalso. apply No. eexists. reflexivity.
      * split.
        -- intros [= <- <-]. exists []. rewrite app_nil_r. split; [reflexivity|]. now constructor.
        -- intros (es' & -> & R). inversion R; subst.
           ++ exfalso. apply No. exists []. reflexivity.
           ++ now rewrite app_nil_r.
           ++ congruence.
           ++ exfalso. apply No. eexists. reflexivity.
Qed.

Lemma parse_arguments_iff t argv es rest : sensible t ->
  parse_arguments t argv = (es, Some rest) <-> reads t 0 argv es rest.
Proof.
  intros Hs. unfold parse_arguments. rewrite (loop_iff t Hs) by lia. split.
  - intros (es' & -> & R). exact R.
  - intros R. exists es. auto.
Qed.

(** "--" after arguments that were all consumed. *)
Lemma takes_app k tail rest r rest' x q : takes k tail rest r rest' ->
  (exists y, x = "-"%char :: "-"%char :: y) -> takes k tail (rest ++ x :: q) r (rest' ++ x :: q).
Proof.
  intros [(c & s & -> & Hc & -> & ->)|[(-> & Hk & a & -> & Ha & ->)|(-> & Hw & -> & ->)]] (y & ->).
  - left. exists c, s. auto.
  - right. left. split; [reflexivity|]. split; [exact Hk|]. exists a. auto.
  - right. right. split; [reflexivity|]. split; [|auto]. destruct Hw as [Hb|[->|(z & q' & ->)]].
    + now left.
    + right. right. exists y, q. reflexivity.
    + right. right. exists z, (q' ++ ("-"%char :: "-"%char :: y) :: q). reflexivity.
Qed.
Lemma option_reads_app t arg rest es rest'' x q : option_reads t arg rest es rest'' ->
  (exists y, x = "-"%char :: "-"%char :: y) -> option_reads t arg (rest ++ x :: q) es (rest'' ++ x :: q).
Proof.
  intros (k & n & p & neg & tail & r & rest' & e & gb & H1 & H2 & H3 & T & M & H4 & ->) Hx.
  exists k, n, p, neg, tail, r, (rest' ++ x :: q), e, gb. repeat split; try assumption; [now apply takes_app|].
  destruct gb; reflexivity.
Qed.
Lemma option_reads_mono_in t arg rest es rest'' a : option_reads t arg rest es rest'' -> In a rest'' -> In a rest.
Proof.
  intros (k & n & p & neg & tail & r & rest' & e & gb & _ & _ & _ & T & _ & _ & ->). destruct gb; [auto|].
  destruct T as [(c & s & _ & _ & _ & ->)|[(_ & _ & b & -> & _)|(_ & _ & _ & ->)]]; auto. now right.
Qed.
Lemma reads_dashdash t pos argv es : reads t pos argv es [] -> ~ In (lit "--") argv ->
  forall q, reads t pos (argv ++ lit "--" :: q) es q.
Proof.
  intros R. remember ([] : list bytes) as fin eqn:Ef. induction R as [pos|pos rest|pos a rest Ha Hn|pos a rest v p es rest' Ha Hn R IH|pos arg rest es1 rest1 es rest' Ha Ho R IH]; intros Hd q.
  - constructor.
  - exfalso. apply Hd. now left.
  - discriminate.
  - cbn [app]. econstructor; try eassumption. apply IH; [exact Ef|]. intros H. apply Hd. now right.
  - cbn [app]. econstructor; [exact Ha| |].
    + apply option_reads_app; [exact Ho|]. exists []. reflexivity.
    + apply IH; [exact Ef|]. intros H. apply Hd. right. eapply option_reads_mono_in; eassumption.
Qed.

(** Confinement. *)
Lemma entries_vars t k n p : In (k, n, p) (entries t) ->
  In (kind_var k) (flat_map desc_vars t) /\ forall v, p = Some v -> In v (flat_map desc_vars t).
Proof.
  assert (D : forall d, In (k, n, p) (flatten d) -> In (kind_var k) (desc_vars d) /\ forall v, p = Some v -> In v (desc_vars d)).
  { intros d. induction d as [t' IH|k' n' p'] using desc_ind'; intros H.
    - cbn [flatten] in H. apply in_flat_map in H. destruct H as (d & Hd & H). rewrite Forall_forall in IH. destruct (IH d Hd H) as [A B].
      cbn [desc_vars]. split; [apply in_flat_map; eauto|]. intros v Hv. apply in_flat_map. eauto.
    - destruct n' as [n'|]; cbn [flatten] in H; [|destruct H]. destruct H as [[= -> -> ->]|[]]. cbn [desc_vars].
      split; [now left|]. intros v ->. right. now left. }
  intros H. unfold entries in H. apply in_flat_map in H. destruct H as (d & Hd & H). destruct (D d H) as [A B].
  split; [apply in_flat_map; eauto|]. intros v Hv. apply in_flat_map. eauto.
Qed.
Lemma means_var k neg r e gb : means k neg r e gb -> effect_var e = kind_var k.
Proof. intros M. destruct M; try reflexivity. destruct neg; reflexivity. Qed.
Lemma reads_vars t pos argv es rest : reads t pos argv es rest -> forall e, In e es -> In (effect_var e) (flat_map desc_vars t).
Proof.
  induction 1 as [pos|pos rest|pos a rest Ha Hn|pos a rest v p es rest' Ha Hn R IH|pos arg rest es1 rest1 es rest' Ha Ho R IH]; intros e He.
  - destruct He.
  - destruct He.
  - destruct He.
  - assert (S : In (v, p) (slots t)) by (eapply nth_error_In; exact Hn).
    unfold slots in S. apply in_flat_map in S. destruct S as (d & Hd & S). destruct d as [|[| | | | |v'] n p']; try destruct S as []; try contradiction.
    injection H as -> ->.
    destruct He as [<-|He].
    + apply in_flat_map. eexists. split; [exact Hd|]. now left.
    + apply in_app_iff in He. destruct He as [He|He]; [|now apply IH].
      destruct p as [w|]; cbn [present_effect] in He; [|destruct He]. destruct He as [<-|[]]. apply in_flat_map. eexists. split; [exact Hd|]. right. now left.
  - apply in_app_iff in He. destruct He as [He|He]; [|now apply IH].
    destruct Ho as (k & n & p & neg & tail & r & rest2 & e2 & gb & Hin & _ & _ & _ & M & -> & _).
    destruct (entries_vars t k n p Hin) as [A B]. destruct He as [<-|He].
    + rewrite (means_var _ _ _ _ _ M). exact A.
    + destruct p as [w|]; cbn [present_effect] in He; [|destruct He]. destruct He as [<-|[]]. cbn [effect_var]. now apply B.
Qed.
