From Verif Require Import Bytes Hex HexProofs TagLine TagLineSpec TagLineProofs Dump GzLine GzLineSpec.
Local Open Scope nat_scope.

Lemma chunk_spec n : forall s a b, chunk n s = (a, b) -> s = a ++ b /\ length a <= n /\
  ((exists a', a = a' ++ [NL] /\ ~ In NL a') \/ (~ In NL a /\ (b = [] \/ length a = n))).
Proof.
  induction n as [|n IH]; intros [|c s] a b H; cbn [chunk] in H; try (injection H as <- <-; cbn; split; [reflexivity|split; [lia|right; split; [tauto|auto]]]).
  destruct (beq_spec c NL) as [->|Hc].
  - injection H as <- <-. split; [reflexivity|]. split; [cbn; lia|]. left. exists []. split; [reflexivity|intros []].
  - destruct (chunk n s) as [a0 b0] eqn:E. injection H as <- <-. destruct (IH s a0 b0 E) as (-> & L & D). split; [reflexivity|]. split; [cbn; lia|].
    destruct D as [(a' & -> & N)|(N & D)].
    + left. exists (c :: a'). split; [reflexivity|]. intros [X|X]; [congruence|auto].
    + right. split; [intros [X|X]; [congruence|auto]|]. destruct D as [->|D]; [auto|right; cbn; lia].
Qed.
Lemma chunk_nil n s : chunk n s = ([], s) -> n = 0 \/ s = [].
Proof. destruct n, s; auto. cbn [chunk]. destruct (beq _ NL); [discriminate|]. destruct (chunk n s). discriminate. Qed.
Definition at_eof (buf : bytes) (len : nat) (e : gz_status) : getline_result :=
  match e with Z_ok => match buf with [] => G_eof | _ => G_line buf len {| data := []; at_end := e |} end | Z_errno => G_errno | Z_gzerror => G_gzerror end.
Lemma loop_spec fuel : forall len buf s, cstr (data s) -> 2 + length buf <= len -> ~ In NL buf -> length (data s) < fuel ->
  exists len', 2 <= len' /\
    ((exists l r, data s = l ++ NL :: r /\ ~ In NL l /\ getline_loop fuel len buf s = G_line (buf ++ l ++ [NL]) len' {| data := r; at_end := at_end s |}) \/
     (~ In NL (data s) /\ getline_loop fuel len buf s = at_eof (buf ++ data s) len' (at_end s))).
Proof.
  induction fuel as [|fuel IH]; intros len buf s Hc Hl Hb Hf; [lia|]. cbn [getline_loop]. unfold gzgets.
  destruct (chunk (len - length buf - 1) (data s)) as [a b] eqn:E. pose proof (chunk_spec _ _ _ _ E) as (Es & La & D).
  destruct a as [|c a].
  - exists len. split; [lia|]. right. cbn in Es. rewrite <- Es in E. apply chunk_nil in E as [E|E]; [lia|]. rewrite E, app_nil_r. split; [intros []|].
    unfold at_eof. destruct s as [d e]. cbn in *. subst. reflexivity.
  - rewrite Es in Hc. pose proof Hc as Hc'. apply cstr_app in Hc as [Ca Cb]. rewrite <- until_nul_c, until_nul_cstr by exact Ca.
    destruct D as [(a' & Ea & Na)|(Na & D)].
    + exists len. split; [lia|]. left. exists a', b. rewrite Es, Ea, <- app_assoc. split; [reflexivity|]. split; [exact Na|].
      rewrite app_assoc, rev_app_distr. reflexivity.
    + rewrite rev_app_distr. destruct (rev (c :: a)) as [|x y] eqn:Er; [apply (f_equal (@rev _)) in Er; rewrite rev_involutive in Er; discriminate|].
      cbn [app]. assert (Hx : In x (c :: a)) by (apply in_rev; rewrite Er; now left). destruct (beq_spec x NL) as [->|_]; [contradiction|].
      set (s' := {| data := b; at_end := at_end s |}).
      destruct (IH (2 * len) (buf ++ c :: a) s') as (len' & L' & D').
      * exact Cb.
      * rewrite app_length. lia.
      * intros X. apply in_app_or in X as [X|X]; auto.
      * cbn. rewrite Es, app_length in Hf. cbn in Hf. lia.
      * exists len'. split; [exact L'|]. destruct D' as [(l & r & D1 & D2 & D3)|(D1 & D2)].
        -- left. exists ((c :: a) ++ l), r. cbn in D1. rewrite Es, D1, <- app_assoc. split; [reflexivity|]. split; [intros X; apply in_app_or in X as [X|X]; auto|].
           rewrite D3. rewrite <- !app_assoc. reflexivity.
        -- right. rewrite Es. cbn in D1. split; [intros X; apply in_app_or in X as [X|X]; auto|]. rewrite D2, <- app_assoc. reflexivity.
Qed.
Lemma split_acc l : forall acc r, ~ In NL l -> split_lines_acc acc (l ++ NL :: r) = (acc ++ l ++ [NL]) :: split_lines r.
Proof.
  induction l as [|c l IH]; intros acc r H; cbn [app split_lines_acc].
  - reflexivity.
  - destruct (beq_spec c NL) as [->|]; [exfalso; apply H; now left|]. rewrite IH by (intros X; apply H; now right). rewrite <- app_assoc. reflexivity.
Qed.
Lemma split_acc_end l : forall acc, ~ In NL l -> split_lines_acc acc l = match acc ++ l with [] => [] | x => [x] end.
Proof.
  induction l as [|c l IH]; intros acc H; cbn [app split_lines_acc].
  - rewrite app_nil_r. destruct acc; reflexivity.
  - destruct (beq_spec c NL) as [->|]; [exfalso; apply H; now left|]. rewrite IH by (intros X; apply H; now right). rewrite <- app_assoc. reflexivity.
Qed.
Lemma split_NL s : {l & {r | s = l ++ NL :: r /\ ~ In NL l}} + {~ In NL s}.
Proof.
  induction s as [|c s IH]; [right; intros []|]. destruct (beq_spec c NL) as [->|Hc].
  - left. exists [], s. split; [reflexivity|intros []].
  - destruct IH as [(l & r & -> & H)|H].
    + left. exists (c :: l), r. split; [reflexivity|]. intros [X|X]; [congruence|auto].
    + right. intros [X|X]; [congruence|auto].
Qed.
Lemma split_lines_of s : lines_of s (split_lines s).
Proof.
  induction s as [s IH] using length_ind. destruct (split_NL s) as [(l & r & -> & H)|H].
  - unfold split_lines. rewrite split_acc by exact H. cbn [app]. destruct (IH r) as (C & full & last & E & F & L). { rewrite app_length. cbn. lia. }
    split; [cbn; rewrite C, <- app_assoc; reflexivity|]. exists ((l ++ [NL]) :: full), last. rewrite E. split; [reflexivity|]. split; [|exact L]. constructor; [exists l; auto|exact F].
  - unfold split_lines. rewrite split_acc_end by exact H. cbn [app]. destruct s as [|c s].
    + split; [reflexivity|]. exists [], []. auto.
    + split; [cbn; now rewrite app_nil_r|]. exists [], [c :: s]. split; [reflexivity|]. split; [constructor|]. right. exists (c :: s). split; [reflexivity|]. split; [discriminate|exact H].
Qed.
Lemma first_NL a b r r' : a ++ NL :: r = b ++ NL :: r' -> ~ In NL a -> ~ In NL b -> a = b /\ r = r'.
Proof.
  revert b. induction a as [|c a IH]; intros [|d b] H Ha Hb; cbn in H.
  - injection H as ->. auto.
  - injection H as <- H. exfalso. apply Hb. now left.
  - injection H as -> H. exfalso. apply Ha. now left.
  - injection H as <- H. destruct (IH b H) as [-> ->]; [intros X; apply Ha; now right|intros X; apply Hb; now right|]. auto.
Qed.
Lemma lines_unique : forall s a b, lines_of s a -> lines_of s b -> a = b.
Proof.
  intros s. induction s as [s IH] using length_ind. intros x y (Cx & fx & lx & Ex & Fx & Lx) (Cy & fy & ly & Ey & Fy & Ly).
  destruct Fx as [|l fx (b & -> & Hb) Fx]; destruct Fy as [|l' fy (b' & -> & Hb') Fy]; cbn [app] in Ex, Ey; subst x y.
  - destruct Lx as [->|(l & -> & Nl & Hl)], Ly as [->|(l' & -> & Nl' & Hl')]; cbn in Cx, Cy; rewrite ?app_nil_r in *; subst; try congruence. 
  - exfalso. assert (X : In NL s) by (rewrite <- Cy; cbn; rewrite in_app_iff, in_app_iff; cbn; auto).
    destruct Lx as [->|(l & -> & Nl & Hl)]; cbn in Cx; rewrite ?app_nil_r in Cx; rewrite <- Cx in X; [destruct X|exact (Hl X)].
  - exfalso. assert (X : In NL s) by (rewrite <- Cx; cbn; rewrite in_app_iff, in_app_iff; cbn; auto).
    destruct Ly as [->|(l & -> & Nl & Hl)]; cbn in Cy; rewrite ?app_nil_r in Cy; rewrite <- Cy in X; [destruct X|exact (Hl X)].
  - cbn [concat] in Cx, Cy. rewrite <- app_assoc in Cx, Cy. cbn [app] in Cx, Cy.
    assert (Q : b ++ NL :: concat (fx ++ lx) = b' ++ NL :: concat (fy ++ ly)) by congruence. apply first_NL in Q as [-> Q]; auto. f_equal.
    apply (IH (concat (fx ++ lx))).
    + rewrite <- Cx, app_length. cbn. lia.
    + split; [reflexivity|]. exists fx, lx. auto.
    + split; [congruence|]. exists fy, ly. auto.
Qed.
(** Reading to the end. *)
Definition buf_ok (buf : option nat) : Prop := match buf with Some n => 2 <= n | None => True end.
Lemma read_lines_spec fuel : forall buf s, cstr (data s) -> buf_ok buf -> length (data s) < fuel ->
  match at_end s with
  | Z_ok => read_lines fuel buf s = (split_lines (data s), G_eof)
  | e => exists full last, data s = concat full ++ last /\ Forall full_line full /\ ~ In NL last /\
         read_lines fuel buf s = (full, match e with Z_errno => G_errno | _ => G_gzerror end)
  end.
Proof.
  induction fuel as [|fuel IH]; intros buf s Hc Hb Hf; [lia|].
  destruct (loop_spec (S (length (data s))) (match buf with Some len => len | None => 120 end) [] s Hc) as (len & Hlen & D).
  { cbn. destruct buf; cbn in Hb; lia. } { intros []. } { lia. }
  change (getline_loop _ _ [] s) with (gz_getline buf s) in D.
  cbn [read_lines]. destruct D as [(l & r & D1 & D2 & D3)|(D1 & D2)].
  - rewrite D3. cbn [app]. specialize (IH (Some len) {| data := r; at_end := at_end s |}). cbn [data at_end] in IH.
    assert (Hr : cstr r) by (rewrite D1 in Hc; apply cstr_app in Hc as [_ Hc]; apply cstr_cons in Hc as [_ Hc]; exact Hc).
    specialize (IH Hr Hlen). rewrite D1, app_length in Hf. cbn in Hf. specialize (IH ltac:(lia)).
    destruct (at_end s).
    + rewrite IH. rewrite D1. unfold split_lines at 2. rewrite split_acc by exact D2. reflexivity.
    + destruct IH as (full & last & I1 & I2 & I3 & I4). rewrite I4. exists ((l ++ [NL]) :: full), last. rewrite D1, I1. split; [cbn; rewrite <- !app_assoc; reflexivity|]. split; [constructor; [exists l; auto|auto]|auto].
    + destruct IH as (full & last & I1 & I2 & I3 & I4). rewrite I4. exists ((l ++ [NL]) :: full), last. rewrite D1, I1. split; [cbn; rewrite <- !app_assoc; reflexivity|]. split; [constructor; [exists l; auto|auto]|auto].
  - rewrite D2. cbn [app]. unfold at_eof. destruct (at_end s) eqn:Ee.
    + unfold split_lines. rewrite split_acc_end by exact D1. cbn [app]. destruct (data s) as [|c d] eqn:Ed; [reflexivity|].
      rewrite (IH (Some len) {| data := []; at_end := Z_ok |} eq_refl Hlen ltac:(cbn in *; lia)). reflexivity.
    + exists [], (data s). split; [reflexivity|]. split; [constructor|]. split; [exact D1|]. reflexivity.
    + exists [], (data s). split; [reflexivity|]. split; [constructor|]. split; [exact D1|]. reflexivity.
Qed.
