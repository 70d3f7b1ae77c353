From Verif Require Import Bytes StrUtil Reply ReplySpec.
Local Open Scope nat_scope.

(** ** Case-insensitive comparison *)
Lemma strcaseeq_spec a b : strcaseeq a b = true <-> same_but_case a b.
Proof.
  unfold same_but_case. revert b. induction a as [|x a IH]; intros [|y b]; cbn; [tauto|split; discriminate|split; discriminate|].
  rewrite andb_true_iff, beq_eq, IH. split; [intros [-> ->]; reflexivity|intros [= -> ->]; auto].
Qed.
Lemma case_prefix_spec p s : case_prefix p s = true <-> exists q r, s = q ++ r /\ same_but_case p q.
Proof.
  unfold same_but_case. revert s. induction p as [|x p IH]; intros s.
  - cbn. split; [intros _; exists [], s; auto|auto].
  - destruct s as [|y s]; cbn.
    + split; [discriminate|]. intros (q & r & E & H). destruct q; discriminate.
    + rewrite andb_true_iff, beq_eq, IH. split.
      * intros [E (q & r & -> & H)]. exists (y :: q), r. cbn. now rewrite E, H.
      * intros (q & r & E & H). destruct q as [|z q]; [discriminate|]. injection E as -> ->. injection H as E H. split; [exact E|]. now exists q, r.
Qed.
Lemma strcasestr_spec s p : strcasestr s p = true <-> exists a q r, s = a ++ q ++ r /\ same_but_case p q.
Proof.
  induction s as [|c s IH]; cbn [strcasestr]; rewrite orb_true_iff, case_prefix_spec.
  - split.
    + intros [(q & r & E & H)|H]; [|discriminate]. now exists [], q, r.
    + intros (a & q & r & E & H). left. destruct a; [|discriminate]. now exists q, r.
  - rewrite IH. split.
    + intros [(q & r & E & H)|(a & q & r & -> & H)]; [exists [], q, r; auto|exists (c :: a), q, r; auto].
    + intros (a & q & r & E & H). destruct a as [|x a]; [left; exists q, r; auto|]. injection E as -> ->. right. exists a, q, r. auto.
Qed.
Lemma strstr_Some s p r : strstr s p = Some r -> exists a b, s = a ++ r /\ r = p ++ b.
Proof.
  induction s as [|c s IH]; cbn [strstr].
  - destruct (starts_with p []) eqn:E; [|discriminate]. intros [= <-]. apply starts_with_app in E as (b & E). exists [], b. auto.
  - destruct (starts_with p (c :: s)) eqn:E.
    + intros [= <-]. apply starts_with_app in E as (b & E). exists [], b. auto.
    + intros H. apply IH in H as (a & b & -> & ->). exists (c :: a), b. auto.
Qed.
Lemma address_is_users_spec u a : address_is_users u a = true <-> own u a.
Proof.
  unfold address_is_users, address_match, own, match_address, configured. destruct a as [|c a].
  - split; [discriminate|]. intros [[] _]; reflexivity.
  - destruct (strcaseeq (a_primary u) (c :: a)) eqn:E.
    + split; [|auto]. intros _. split; [discriminate|]. exists (a_primary u). split; [now left|]. now apply strcaseeq_spec.
    + destruct (find _ (a_other u)) as [o|] eqn:F.
      * split; [|auto]. intros _. split; [discriminate|]. apply find_some in F as [F1 F2]. exists o. split; [now right|]. now apply strcaseeq_spec.
      * split; [discriminate|]. intros (_ & o & [->|Ho] & Hs); apply strcaseeq_spec in Hs; [congruence|].
        pose proof (find_none _ _ F o Ho) as N. cbn in N. congruence.
Qed.
Lemma address_is_users_false u a : address_is_users u a = false <-> ~ own u a.
Proof. rewrite <- address_is_users_spec. destruct (address_is_users u a); split; congruence. Qed.
Lemma address_match_configured u s mode a : address_match u s mode = Some a -> configured u a.
Proof.
  unfold address_match, configured. destruct s as [[|c s]|]; [discriminate| |discriminate].
  destruct (match_address _ _ _); [intros [= <-]; auto|]. intros F. apply find_some in F. tauto.
Qed.

(** ** Scanning headers *)
Definition foreign (u : accounts) (b : option bytes * bytes) : bool := negb (address_is_users u (snd b)).
Lemma keep_filter {A} (P : A -> Prop) (f : A -> bool) l :
  (forall x, f x = true <-> P x) -> keep P l (filter f l).
Proof.
  intros H. induction l as [|x l IH]; cbn; [constructor|]. destruct (f x) eqn:E.
  - constructor; [now apply H|exact IH].
  - constructor; [|exact IH]. intros Hp. apply H in Hp. congruence.
Qed.
Lemma keep_functional {A} (P : A -> Prop) l r r' : keep P l r -> keep P l r' -> r = r'.
Proof.
  intros H. revert r'. induction H; intros r' H'; inversion H'; subst; [reflexivity|f_equal; auto|contradiction|contradiction|auto].
Qed.
Lemma foreign_spec u b : foreign u b = true <-> ~ own u (snd b).
Proof. unfold foreign. rewrite negb_true_iff. apply address_is_users_false. Qed.
Definition foreigners (u : accounts) (t : rtype) (l : list address) : list recipient :=
  as_recipients t (filter (foreign u) (boxes l)).
Lemma foreigners_others u t l : others u t l (foreigners u t l).
Proof. eexists. split; [|reflexivity]. apply keep_filter. apply foreign_spec. Qed.
Lemma others_functional u t l r r' : others u t l r -> others u t l r' -> r = r'.
Proof. intros (b & K & ->) (b' & K' & ->). now rewrite (keep_functional _ _ _ _ K K'). Qed.

Definition find_own (u : accounts) (bs : list (option bytes * bytes)) : option bytes :=
  match find (fun b => address_is_users u (snd b)) bs with Some b => Some (snd b) | None => None end.
Definition step_box (u : accounts) (message : option rtype) (st : scan) (b : option bytes * bytes) : scan :=
  scan_address u message (Mailbox (fst b) (snd b)) st.

Fixpoint scan_boxes u message a {struct a} : forall st,
  scan_address u message a st = fold_left (step_box u message) (boxes_of a) st.
Proof.
  destruct a as [n x|l]; intros st; [reflexivity|]. cbn [scan_address boxes_of].
  assert (H : forall st, fold_left (fun st x => scan_address u message x st) l st =
                         fold_left (step_box u message) (concat (map boxes_of l)) st).
  { clear st. induction l as [|a l IH]; intros st; [reflexivity|]. cbn [fold_left map concat]. rewrite fold_left_app, <- scan_boxes. apply IH. }
  apply H.
Qed.
Lemma scan_list_boxes u message l : forall st,
  scan_address_list u message l st = fold_left (step_box u message) (boxes l) st.
Proof.
  unfold scan_address_list, boxes. induction l as [|a l IH]; intros st; [reflexivity|].
  cbn [fold_left map concat]. now rewrite fold_left_app, <- scan_boxes, IH.
Qed.
Definition added (u : accounts) (message : option rtype) (bs : list (option bytes * bytes)) : list recipient :=
  match message with Some t => as_recipients t (filter (foreign u) bs) | None => [] end.
Lemma fold_boxes u message bs : forall st,
  fold_left (step_box u message) bs st =
  {| s_reply := s_reply st ++ added u message bs;
     s_from := match s_from st with Some a => Some a | None => find_own u bs end;
     s_n := s_n st + length (added u message bs) |}.
Proof.
  induction bs as [|[n x] bs IH]; intros st.
  - cbn. destruct st as [r f k], message; cbn; rewrite app_nil_r, Nat.add_0_r; destruct f; reflexivity.
  - cbn [fold_left]. rewrite IH. unfold step_box. cbn [scan_address fst snd]. unfold added, find_own. cbn [filter find snd].
    assert (Fx : foreign u (n, x) = negb (address_is_users u x)) by reflexivity. rewrite Fx. destruct (address_is_users u x); cbn [negb].
    + destruct st as [r f k]. cbn [s_from]. destruct f; reflexivity.
    + destruct message as [t|]; [|reflexivity]. cbn [s_reply s_from s_n as_recipients map length fst snd]. rewrite <- app_assoc.
      f_equal. unfold as_recipients. cbn. lia.
Qed.
Lemma scan_list_eq u message l st :
  scan_address_list u message l st =
  {| s_reply := s_reply st ++ added u message (boxes l);
     s_from := match s_from st with Some a => Some a | None => find_own u (boxes l) end;
     s_n := s_n st + length (added u message (boxes l)) |}.
Proof. now rewrite scan_list_boxes, fold_boxes. Qed.
Lemma find_own_app u a b : find_own u (a ++ b) = match find_own u a with Some x => Some x | None => find_own u b end.
Proof.
  unfold find_own. induction a as [|x a IH]; [reflexivity|]. cbn. destruct (address_is_users u (snd x)); [reflexivity|exact IH].
Qed.
Lemma boxes_app a b : boxes (a ++ b) = boxes a ++ boxes b.
Proof. unfold boxes. now rewrite map_app, concat_app. Qed.
Lemma find_own_first u l : first_own u l (find_own u (boxes l)).
Proof.
  unfold first_own, find_own. generalize (boxes l). clear l. intros l. induction l as [|b l IH]; cbn [find].
  - intros b [].
  - destruct (address_is_users u (snd b)) eqn:E.
    + apply address_is_users_spec in E. exists [], (fst b), l. destruct b. cbn. split; [reflexivity|]. split; [exact E|]. intros ? [].
    + apply address_is_users_false in E. destruct (find _ l) as [c|].
      * destruct IH as (pre & n & post & -> & Ho & Hp). exists (b :: pre), n, post. split; [reflexivity|]. split; [exact Ho|].
        intros x [<-|Hx]; auto.
      * intros x [<-|Hx]; auto.
Qed.
Lemma first_own_functional u l f f' : first_own u l f -> first_own u l f' -> f = f'.
Proof.
  intros H H'. assert (K : forall f, first_own u l f -> f = find_own u (boxes l)).
  { clear. unfold first_own, find_own. intros [a|].
    - intros (pre & n & post & E & Ho & Hp). rewrite E. clear E. induction pre as [|b pre IH]; cbn.
      + apply address_is_users_spec in Ho. rewrite Ho. reflexivity.
      + rewrite (proj2 (address_is_users_false u (snd b))); [|apply Hp; now left]. apply IH. intros c Hc. apply Hp. now right.
    - intros H. destruct (find _ (boxes l)) as [b|] eqn:F; [|reflexivity]. apply find_some in F as [F1 F2].
      apply address_is_users_spec in F2. destruct (H b F1 F2). }
  rewrite (K _ H). symmetry. now apply K.
Qed.

(** ** The sender *)
Lemma redundant_spec m l : reply_to_header_is_redundant m l = true <->
  exists n n' a, l = [Mailbox n a] /\ In (Mailbox n' a) (m_to m ++ m_cc m ++ m_bcc m).
Proof.
  unfold reply_to_header_is_redundant, all_recipients. split.
  - destruct l as [|[n a|g] [|y l]]; try discriminate. intros H. apply existsb_exists in H as (x & Hx & E).
    destruct x as [n' a'|]; [|discriminate]. apply bseq_eq in E as ->. now exists n, n', a.
  - intros (n & n' & a & -> & H). apply existsb_exists. exists (Mailbox n' a). split; [exact H|]. apply bseq_refl.
Qed.
Lemma get_sender_is m : sender_is m (get_sender m).
Proof.
  unfold sender_is, get_sender. destruct (m_reply_to m) as [|a l] eqn:E; [left; auto|]. right. split; [discriminate|].
  destruct (reply_to_header_is_redundant m (a :: l)) eqn:R.
  - left. split; [|reflexivity]. now apply redundant_spec.
  - right. split; [|reflexivity]. rewrite <- redundant_spec. congruence.
Qed.
Lemma sender_functional m l l' : sender_is m l -> sender_is m l' -> l = l'.
Proof.
  unfold sender_is. set (Q := exists n n' a, _). intros [[A ->]|[A H]] [[B ->]|[B H']]; try congruence.
  destruct H as [[C ->]|[C ->]], H' as [[D ->]|[D ->]]; congruence || contradiction.
Qed.

(** ** The loop *)
Definition all_foreigners (u : accounts) (hs : list (list address * rtype)) : list recipient :=
  concat (map (fun h => foreigners u (snd h) (fst h)) hs).
Definition all_boxes (hs : list (list address * rtype)) := concat (map (fun h => boxes (fst h)) hs).
Lemma all_loop u hs : forall st,
  recipients_loop u true hs true st =
  (true, {| s_reply := s_reply st ++ all_foreigners u hs;
            s_from := match s_from st with Some a => Some a | None => find_own u (all_boxes hs) end;
            s_n := s_n st + length (all_foreigners u hs) |}).
Proof.
  induction hs as [|[l ty] hs IH]; intros st.
  - cbn. destruct st as [r f n]; cbn. rewrite app_nil_r, Nat.add_0_r. now destruct f.
  - cbn [recipients_loop negb andb]. rewrite IH, scan_list_eq. cbn [s_reply s_from s_n].
    unfold all_foreigners, all_boxes. cbn [map concat fst snd]. rewrite find_own_app, app_length, <- !app_assoc, Nat.add_assoc. f_equal. f_equal.
    destruct (s_from st); [reflexivity|]. now destruct (find_own u (boxes l)).
Qed.
(** After the recipients are found only the own address is still looked for. *)
Lemma closed_loop u hs : forall st, s_n st <> 0 ->
  exists st', recipients_loop u false hs false st = (false, st') /\ s_reply st' = s_reply st /\ s_n st' = s_n st /\
    s_from st' = match s_from st with Some a => Some a | None => find_own u (all_boxes hs) end.
Proof.
  induction hs as [|[l ty] hs IH]; intros st Hn.
  - cbn. exists st. repeat split; auto. now destruct (s_from st).
  - cbn [recipients_loop]. rewrite scan_list_eq. cbn [added s_reply s_from s_n length negb andb].
    rewrite app_nil_r, Nat.add_0_r. replace (0 <? s_n st) with true by (symmetry; apply Nat.ltb_lt; lia).
    unfold all_boxes. cbn [map concat fst]. rewrite find_own_app. destruct (s_from st) as [a|] eqn:F.
    + eexists. split; [reflexivity|]. cbn. auto.
    + destruct (find_own u (boxes l)) as [a|] eqn:G.
      * eexists. split; [reflexivity|]. cbn. auto.
      * destruct (IH {| s_reply := s_reply st; s_from := None; s_n := s_n st |} Hn) as (st' & E & A & B & C). exists st'. auto.
Qed.
Lemma as_recipients_nil t l : as_recipients t l = [] -> l = [].
Proof. destruct l; [auto|discriminate]. Qed.
Lemma sender_loop u hs : forall st, s_n st = 0 ->
  exists have st', recipients_loop u false hs true st = (have, st') /\
    s_from st' = match s_from st with Some a => Some a | None => find_own u (all_boxes hs) end /\
    ((all_foreigners u hs = [] /\ have = true /\ s_n st' = 0 /\ s_reply st' = s_reply st) \/
     (exists pre l ty post, hs = pre ++ (l, ty) :: post /\ all_foreigners u pre = [] /\ foreigners u ty l <> [] /\
        have = false /\ s_reply st' = s_reply st ++ foreigners u ty l /\ s_n st' <> 0)).
Proof.
  induction hs as [|[l ty] hs IH]; intros st Hn.
  - exists true, st. cbn. split; [reflexivity|]. split; [now destruct (s_from st)|]. left. auto.
  - cbn [recipients_loop]. rewrite scan_list_eq. cbn [added negb andb s_reply s_from s_n]. rewrite Hn. cbn [Nat.add].
    change (as_recipients ty (filter (foreign u) (boxes l))) with (foreigners u ty l).
    unfold all_boxes at 1. cbn [map concat fst]. fold (all_boxes hs). rewrite find_own_app.
    destruct (foreigners u ty l) as [|r0 rs] eqn:Fo.
    + cbn [length Nat.ltb Nat.leb]. rewrite app_nil_r.
      destruct (IH {| s_reply := s_reply st; s_from := match s_from st with Some a => Some a | None => find_own u (boxes l) end; s_n := 0 |} eq_refl)
        as (have & st' & E & A & B). exists have, st'. split; [exact E|]. cbn [s_from s_reply] in *. split.
      { rewrite A. destruct (s_from st); [reflexivity|]. now destruct (find_own u (boxes l)). }
      destruct B as [(B1 & B2)|(pre & l' & ty' & post & -> & B1 & B2 & B3)].
      * left. unfold all_foreigners in *. cbn [map concat fst snd]. rewrite Fo, B1. auto.
      * right. exists ((l, ty) :: pre), l', ty', post. split; [reflexivity|]. split; [|auto].
        unfold all_foreigners in *. cbn [map concat fst snd]. now rewrite Fo, B1.
    + replace (0 <? length (r0 :: rs)) with true by reflexivity.
      destruct (match s_from st with Some a => Some a | None => find_own u (boxes l) end) as [a|] eqn:F.
      * eexists false, _. split; [reflexivity|]. cbn [s_from s_reply s_n]. split.
        { destruct (s_from st); [congruence|]. now rewrite F. }
        right. exists [], l, ty, hs. rewrite Fo. repeat split; try discriminate.
      * destruct (closed_loop u hs {| s_reply := s_reply st ++ r0 :: rs; s_from := None; s_n := length (r0 :: rs) |} ltac:(discriminate))
          as (st' & E & A & B & C). exists false, st'. split; [exact E|]. cbn [s_from s_reply s_n] in *. split.
        { rewrite C. destruct (s_from st); [discriminate|]. now rewrite F. }
        right. exists [], l, ty, hs. rewrite Fo. repeat split; try discriminate; [exact A|]. rewrite B. discriminate.
Qed.

(** ** The filter *)
Lemma quote_step_len st c : length (fst (quote_step st c)) <= 3.
Proof. unfold quote_step. destruct (f_saw_nl st), (beq c CR); cbn; lia. Qed.
Lemma unquote_step_len st c : length (fst (unquote_step st c)) <= 1.
Proof. unfold unquote_step. destruct (f_saw_nl st), (f_saw_angle st), (beq c ">"%char), (beq c " "%char), (beq c CR); cbn; lia. Qed.
Fixpoint run_steps (step : rfilter -> byte -> bytes * rfilter) (st : rfilter) (s : bytes) : bytes * rfilter :=
  match s with
  | [] => ([], st)
  | c :: r => let '(w, st') := step st c in let '(o, st2) := run_steps step st' r in (w ++ o, st2)
  end.
Lemma filter_loop_eq step k st s : (forall st c, length (fst (step st c)) <= k) ->
  forall cap, k * length s <= cap -> filter_loop step cap st s = Some (run_steps step st s).
Proof.
  intros Hk. revert st. induction s as [|c s IH]; intros st cap H; [reflexivity|]. cbn [filter_loop run_steps].
  pose proof (Hk st c) as L. destruct (step st c) as [w st'] eqn:E. cbn [fst] in L. cbn [length] in H.
  replace (cap <? length w) with false by (symmetry; apply Nat.ltb_ge; nia).
  rewrite IH by nia. now destruct (run_steps step st' s).
Qed.
Lemma run_steps_app step a b st :
  run_steps step st (a ++ b) =
  (fst (run_steps step st a) ++ fst (run_steps step (snd (run_steps step st a)) b), snd (run_steps step (snd (run_steps step st a)) b)).
Proof.
  revert st. induction a as [|c a IH]; intros st; cbn [app run_steps fst snd]; [now destruct (run_steps step st b)|].
  destruct (step st c) as [w st']. rewrite IH. destruct (run_steps step st' a) as [o st2]. cbn [fst snd]. now rewrite app_assoc.
Qed.
Definition step_of (encode : bool) := if encode then quote_step else unquote_step.
Lemma filter_filter_eq e st s : filter_filter e st s = Some (run_steps (step_of e) st s).
Proof.
  destruct e; cbn [filter_filter step_of].
  - apply (filter_loop_eq quote_step 3); [apply quote_step_len|lia].
  - apply (filter_loop_eq unquote_step 1); [apply unquote_step_len|lia].
Qed.
Lemma run_filter_eq e pieces final : forall st,
  run_filter e st pieces final = Some (fst (run_steps (step_of e) st (concat pieces ++ final))).
Proof.
  induction pieces as [|p ps IH]; intros st; cbn [run_filter concat app].
  - unfold filter_complete. destruct final; [reflexivity|]. rewrite filter_filter_eq. now destruct (run_steps _ _ _).
  - rewrite filter_filter_eq. destruct (run_steps (step_of e) st p) as [o st'] eqn:E. rewrite IH, <- app_assoc, (run_steps_app _ p), E. reflexivity.
Qed.
Definition lead_of (cur : bytes) : bytes := match cur with [] => [] | _ => lit "> " ++ no_cr cur end.
Definition at_start (cur : bytes) : bool := match cur with [] => true | _ => false end.
Lemma no_cr_snoc cur c : no_cr (cur ++ [c]) = no_cr cur ++ (if beq c (chr 13) then [] else [c]).
Proof. unfold no_cr. rewrite filter_app. cbn [filter]. destruct (beq c (chr 13)); reflexivity. Qed.
Lemma run_quote s : forall cur a,
  lead_of cur ++ fst (run_steps quote_step {| f_saw_nl := at_start cur; f_saw_angle := a |} s) =
  concat (map (fun l => lit "> " ++ no_cr l) (lines_of cur s)).
Proof.
  induction s as [|c s IH]; intros cur a.
  - cbn. destruct cur; [reflexivity|]. cbn [map concat lead_of]. now rewrite !app_nil_r.
  - cbn [run_steps lines_of]. unfold quote_step at 1. cbn [f_saw_nl f_saw_angle]. unfold LF, CR.
    assert (L : forall o, lead_of cur ++ ((if at_start cur then lit "> " else []) ++ (if beq c (chr 13) then [] else [c])) ++ o =
                lit "> " ++ no_cr (cur ++ [c]) ++ o).
    { intros o. rewrite no_cr_snoc. destruct cur as [|x cur]; [|cbn [at_start lead_of]]; cbn [app]; rewrite <- ?app_assoc; reflexivity. }
    destruct (beq c (chr 10)) eqn:E.
    + specialize (IH [] a). cbn [lead_of at_start app] in IH. destruct (run_steps quote_step {| f_saw_nl := true; f_saw_angle := a |} s) as [o st2]. cbn [fst] in *.
      rewrite L, IH. cbn [map concat]. now rewrite <- !app_assoc.
    + specialize (IH (cur ++ [c]) a). destruct (cur ++ [c]) as [|x y] eqn:Ec; [now destruct cur|]. cbn [lead_of at_start] in IH.
      destruct (run_steps quote_step {| f_saw_nl := false; f_saw_angle := a |} s) as [o st2]. cbn [fst] in *.
      rewrite L, <- IH. now rewrite <- !app_assoc.
Qed.
