(** C51: replies. *)
From Verif Require Import Bytes StrUtil MsgId MsgIdSpec MsgIdProofs P_MsgId Reply ReplySpec ReplyProofs.
Local Open Scope nat_scope.

Definition no_recipients_then_self (rs : list recipient) (from : option bytes) : list recipient :=
  match rs, from with
  | [], Some a => [{| r_type := RTo; r_name := None; r_addr := a |}]
  | _, _ => rs
  end.

(** Replying to all: the sender, To, Cc and Bcc without the user's own addresses, in their
    order and kind; if nobody else is there, the user. *)
Theorem C51_reply_to_all : forall u m,
  exists sender to1 to2 cc bcc from,
    sender_is m sender /\ others u RTo sender to1 /\ others u RTo (m_to m) to2 /\
    others u RCc (m_cc m) cc /\ others u RBcc (m_bcc m) bcc /\
    first_own u (sender ++ m_to m ++ m_cc m ++ m_bcc m) from /\
    add_recipients_from_message u m true = Some (no_recipients_then_self (to1 ++ to2 ++ cc ++ bcc) from, from).
Proof.
  intros u m. exists (get_sender m), (foreigners u RTo (get_sender m)), (foreigners u RTo (m_to m)), (foreigners u RCc (m_cc m)), (foreigners u RBcc (m_bcc m)),
    (find_own u (boxes (get_sender m ++ m_to m ++ m_cc m ++ m_bcc m))).
  split; [apply get_sender_is|]. repeat (split; [apply foreigners_others|]). split; [apply find_own_first|].
  unfold add_recipients_from_message. rewrite all_loop. cbn [s_reply s_from s_n app]. unfold all_foreigners, all_boxes, reply_to_map. cbn [map concat fst snd].
  rewrite !app_nil_r, !boxes_app. cbn [Nat.add].
  destruct (foreigners u RTo (get_sender m) ++ foreigners u RTo (m_to m) ++ foreigners u RCc (m_cc m) ++ foreigners u RBcc (m_bcc m)) as [|r rs]; cbn [length no_recipients_then_self].
  - now destruct (find_own u _).
  - now destruct (find_own u _).
Qed.
Print Assumptions C51_reply_to_all.

(** Replying to the sender: the first of sender, To, Cc and Bcc that has anybody else than the
    user, all of these and nobody else. *)
Theorem C51_reply_to_sender : forall u m,
  exists sender from rs,
    sender_is m sender /\ first_own u (sender ++ m_to m ++ m_cc m ++ m_bcc m) from /\
    add_recipients_from_message u m false = Some (no_recipients_then_self rs from, from) /\
    let headers := [(sender, RTo); (m_to m, RTo); (m_cc m, RCc); (m_bcc m, RBcc)] in
    ((forall l t, In (l, t) headers -> others u t l []) /\ rs = [] \/
     (exists pre l t post, headers = pre ++ (l, t) :: post /\
        (forall l' t', In (l', t') pre -> others u t' l' []) /\ others u t l rs /\ rs <> [])).
Proof.
  intros u m. assert (E0 : forall hs, all_foreigners u hs = [] -> forall l t, In (l, t) hs -> others u t l []).
  { intros hs H l t Hin. unfold all_foreigners in H. rewrite <- flat_map_concat_map in H.
    assert (F : foreigners u t l = []).
    { destruct (foreigners u t l) as [|r rs] eqn:F; [reflexivity|]. assert (X : In r (flat_map (fun h => foreigners u (snd h) (fst h)) hs)).
      { apply in_flat_map. exists (l, t). split; [exact Hin|]. cbn [fst snd]. rewrite F. now left. } rewrite H in X. destruct X. }
    rewrite <- F. apply foreigners_others. }
  destruct (sender_loop u (reply_to_map m) {| s_reply := []; s_from := None; s_n := 0 |} eq_refl) as (have & st & E & F & C).
  exists (get_sender m), (s_from st). cbn [s_from s_reply app] in F, C.
  destruct C as [(C1 & -> & C3 & C4)|(pre & l & t & post & C1 & C2 & C3 & -> & C5 & C6)].
  - exists []. split; [apply get_sender_is|]. split.
    { rewrite F. unfold all_boxes, reply_to_map. cbn [map concat fst]. rewrite app_nil_r, <- !boxes_app. apply find_own_first. }
    split; [|left; split; [exact (E0 _ C1)|reflexivity]].
    unfold add_recipients_from_message. rewrite E, C3, C4. cbn. now destruct (s_from st).
  - exists (foreigners u t l). split; [apply get_sender_is|]. split.
    { rewrite F. unfold all_boxes, reply_to_map. cbn [map concat fst]. rewrite app_nil_r, <- !boxes_app. apply find_own_first. }
    split; [|right; exists pre, l, t, post; split; [exact C1|]; split; [exact (E0 _ C2)|]; split; [apply foreigners_others|exact C3]].
    unfold add_recipients_from_message. rewrite E, C5. destruct (s_n st) as [|n]; [congruence|].
    destruct (foreigners u t l); [congruence|]. reflexivity.
Qed.
Print Assumptions C51_reply_to_sender.

(** The relations above determine their results. *)
Theorem C51_specification_is_exact : forall u,
  (forall m l l', sender_is m l -> sender_is m l' -> l = l') /\
  (forall t l r r', others u t l r -> others u t l r' -> r = r') /\
  (forall l f f', first_own u l f -> first_own u l f' -> f = f').
Proof. intros u. split; [apply sender_functional|]. split; [apply others_functional|apply first_own_functional]. Qed.
Print Assumptions C51_specification_is_exact.

(** The user is addressed only when there is nobody else. *)
Theorem C51_not_to_myself : forall u m all rs from,
  add_recipients_from_message u m all = Some (rs, from) ->
  forall r, In r rs -> own u (r_addr r) ->
  rs = [r] /\ from = Some (r_addr r) /\
  forall b, In b (boxes (m_to m ++ m_cc m ++ m_bcc m)) -> own u (snd b).
Proof.
  intros u m all rs from E r Hr Ho.
  assert (NotOthers : forall t l q, others u t l q -> In r q -> False).
  { intros t l q (bs & K & ->) Hin. apply in_map_iff in Hin as (b & <- & Hb). cbn in Ho.
    revert Hb. induction K; [intros []|intros [<-|Hb]; auto|auto]. }
  assert (None_ : forall t l, others u t l [] -> forall b, In b (boxes l) -> own u (snd b)).
  { intros t l (bs & K & N) b Hb. symmetry in N. apply as_recipients_nil in N as ->. remember [] as q. revert Hb. induction K; intros Hb.
    - destruct Hb.
    - discriminate.
    - destruct Hb as [<-|Hb]; [|auto]. destruct (address_is_users u (snd x)) eqn:A; [now apply address_is_users_spec|]. apply address_is_users_false in A. contradiction. }
  destruct all.
  - destruct (C51_reply_to_all u m) as (s & t1 & t2 & c & b & f & _ & H1 & H2 & H3 & H4 & _ & E'). rewrite E in E'. injection E' as -> ->.
    destruct (t1 ++ t2 ++ c ++ b) as [|r0 q] eqn:Eq.
    + apply app_eq_nil in Eq as [-> Eq]. apply app_eq_nil in Eq as [-> Eq]. apply app_eq_nil in Eq as [-> ->].
      cbn in *. destruct f as [a|]; [|destruct Hr]. destruct Hr as [<-|[]]. cbn. split; [reflexivity|]. split; [reflexivity|].
      intros x. rewrite !boxes_app, !in_app_iff. intros [Hx|[Hx|Hx]]; eauto.
    + exfalso. assert (X : In r (t1 ++ t2 ++ c ++ b)) by (rewrite Eq; destruct f; exact Hr). rewrite !in_app_iff in X.
      destruct X as [X|[X|[X|X]]]; eauto.
  - destruct (C51_reply_to_sender u m) as (s & f & q & _ & _ & E' & H). rewrite E in E'. injection E' as -> ->. cbv zeta in H.
    destruct H as [[H ->]|(pre & l & t & post & _ & _ & H & Hq)].
    + cbn in *. destruct f as [a|]; [|destruct Hr]. destruct Hr as [<-|[]]. cbn. split; [reflexivity|]. split; [reflexivity|].
      intros x. rewrite !boxes_app, !in_app_iff. intros [Hx|[Hx|Hx]]; [eapply (None_ RTo)|eapply (None_ RCc)|eapply (None_ RBcc)]; try exact Hx; apply H; auto.
    + exfalso. destruct q; [congruence|]. eapply NotOthers; [exact H|]. destruct f; exact Hr.
Qed.
Print Assumptions C51_not_to_myself.

(** No NULL reply is touched: a reply is always made. *)
Theorem C51_always_a_reply : forall u name o all limited, exists y,
  create_reply_message u name o all limited = Some y /\
  y_in_reply_to y = lit "<" ++ o_id o ++ lit ">" /\
  (limited = true -> y_from y = None /\ y_subject y = None) /\
  (limited = false ->
     match m_subject (o_mime o), y_subject y with
     | None, None => True
     | Some s, Some s' => (exists p r, s = p ++ r /\ same_but_case (lit "re:") p /\ s' = s) \/
                          (~ (exists p r, s = p ++ r /\ same_but_case (lit "re:") p) /\ s' = lit "Re: " ++ s)
     | _, _ => False
     end) /\
  (exists rs from, add_recipients_from_message u (o_mime o) all = Some (rs, from) /\ y_recipients y = rs).
Proof.
  intros u name o all limited. assert (T : exists rs from, add_recipients_from_message u (o_mime o) all = Some (rs, from)).
  { destruct all; [destruct (C51_reply_to_all u (o_mime o)) as (s & t1 & t2 & c & b & f & _ & _ & _ & _ & _ & _ & E)|
                   destruct (C51_reply_to_sender u (o_mime o)) as (s & f & q & _ & _ & E & _)]; eauto. }
  destruct T as (rs & from & E). unfold create_reply_message. rewrite E. destruct limited.
  - eexists. split; [reflexivity|]. cbn. repeat split; try discriminate. eauto.
  - eexists. split; [reflexivity|]. cbn [y_in_reply_to y_from y_subject y_recipients]. split; [reflexivity|]. split; [discriminate|]. split; [|eauto].
    intros _. destruct (m_subject (o_mime o)) as [s|]; [|exact I].
    assert (Sc : forall p, same_but_case (lit "Re:") p <-> same_but_case (lit "re:") p).
    { intros p. unfold same_but_case. now replace (map tolower (lit "Re:")) with (map tolower (lit "re:")) by (vm_compute; reflexivity). }
    destruct (case_prefix (lit "Re:") s) eqn:P.
    + left. apply case_prefix_spec in P as (p & r & -> & P). exists p, r. split; [reflexivity|]. split; [now apply Sc|reflexivity].
    + right. split; [|reflexivity]. intros (p & r & -> & Q). assert (X : case_prefix (lit "Re:") (p ++ r) = true).
      { apply case_prefix_spec. exists p, r. split; [reflexivity|now apply Sc]. } congruence.
Qed.
Print Assumptions C51_always_a_reply.

Lemma find_first_such {A} (P : A -> Prop) (f : A -> bool) l :
  (forall x, f x = true <-> P x) -> first_such P l (find f l).
Proof.
  intros H. induction l as [|x l IH]; cbn; [constructor|]. destruct (f x) eqn:E.
  - exists [], l. split; [reflexivity|]. split; [now apply H|constructor].
  - assert (N : ~ P x) by (intros Hp; apply H in Hp; congruence). destruct (find f l) as [y|]; cbn in *.
    + destruct IH as (pre & post & -> & Hy & Hp). exists (x :: pre), post. auto.
    + now constructor.
Qed.
Lemma mentioned_spec u t : mentioned u t (user_address_in_string u t).
Proof.
  unfold mentioned, user_address_in_string, address_match. destruct t as [[|c t]|]; try reflexivity. unfold match_address.
  change (if strcasestr (c :: t) (a_primary u) then Some (a_primary u) else find (fun addr => strcasestr (c :: t) addr) (a_other u))
    with (find (fun addr => strcasestr (c :: t) addr) (a_primary u :: a_other u)).
  apply find_first_such. intros x. apply strcasestr_spec.
Qed.

(** The From address: the first of the user's addresses in the headers the reply is built
    from; else one mentioned in Envelope-To, X-Original-To, Delivered-To; else one guessed
    from the Received headers; else the primary address.  Always an address of the user. *)
Theorem C51_from : forall u name o all y,
  create_reply_message u name o all false = Some y ->
  exists sender found a,
    sender_is (o_mime o) sender /\
    first_own u (sender ++ m_to (o_mime o) ++ m_cc (o_mime o) ++ m_bcc (o_mime o)) found /\
    y_from y = Some (name ++ lit " <" ++ a ++ lit ">") /\
    (configured u a \/ own u a) /\
    (forall b, found = Some b -> a = b) /\
    (found = None -> exists e1 e2 e3,
       mentioned u (o_header o (lit "Envelope-to")) e1 /\
       mentioned u (o_header o (lit "X-Original-To")) e2 /\
       mentioned u (o_header o (lit "Delivered-To")) e3 /\
       match e1, e2, e3 with
       | Some b, _, _ | None, Some b, _ | None, None, Some b => a = b
       | None, None, None =>
           match guess_from_in_received_headers u (o_header o (lit "received")) with
           | Some b => a = b
           | None => a = a_primary u
           end
       end).
Proof.
  intros u name o all y E. set (m := o_mime o).
  assert (T : exists rs from, add_recipients_from_message u m all = Some (rs, from) /\
                first_own u (get_sender m ++ m_to m ++ m_cc m ++ m_bcc m) from).
  { destruct all.
    - destruct (C51_reply_to_all u m) as (s & t1 & t2 & c & b & f & S & _ & _ & _ & _ & F & X).
      rewrite (sender_functional m _ _ S (get_sender_is m)) in F. eauto.
    - destruct (C51_reply_to_sender u m) as (s & f & q & S & F & X & _). rewrite (sender_functional m _ _ S (get_sender_is m)) in F. eauto. }
  destruct T as (rs & from & R & F). unfold create_reply_message in E. fold m in E. rewrite R in E.
  exists (get_sender m), from.
  set (f1 := match from with Some a => Some a | None => get_from_in_to_headers u (o_header o) end) in E.
  set (f2 := match f1 with Some a => Some a | None => guess_from_in_received_headers u (o_header o (lit "received")) end) in E.
  set (a := match f2 with Some a => a | None => a_primary u end) in E. exists a. injection E as <-. cbn [y_from].
  split; [apply get_sender_is|]. split; [exact F|]. split; [reflexivity|]. split; [|split].
  - unfold a, f2, f1. destruct from as [b|].
    + right. cbn in F. destruct F as (_ & _ & _ & _ & Ho & _). exact Ho.
    + left. destruct (get_from_in_to_headers u (o_header o)) as [b|] eqn:G.
      * unfold get_from_in_to_headers, to_headers in G. cbn [first_some] in G.
        repeat match type of G with
               | match user_address_in_string u ?h with _ => _ end = _ =>
                   destruct (user_address_in_string u h) eqn:?
               end; try discriminate G; injection G as <-; eapply address_match_configured; eassumption.
      * destruct (guess_from_in_received_headers u _) as [b|] eqn:H; [|now left].
        unfold guess_from_in_received_headers in H. destruct (o_header o (lit "received")) as [r|]; [|discriminate H].
        destruct (guess_from_in_received_for u (sanitize_string r)) as [c|] eqn:K.
        -- injection H as <-. unfold guess_from_in_received_for in K. destruct (strstr _ _); [|discriminate K]. eapply address_match_configured. exact K.
        -- unfold guess_from_in_received_by in H. clear - H. revert H. generalize (S (length (sanitize_string r))). generalize (sanitize_string r). intros s n. revert s.
           induction n as [|n IH]; intros s H; [discriminate H|]. cbn [received_by] in H. destruct (strstr s (lit " by ")) as [s'|]; [|discriminate H].
           destruct (skipn 4 s') as [|c t] eqn:Sk; [discriminate H|]. destruct (first_word (c :: t)) as [w|]; [|discriminate H].
           destruct (last_two _ _ _ _ _) as [d|]; [|exact (IH _ H)].
           destruct (string_in_user_address u (Some d)) as [x|] eqn:X; [|exact (IH _ H)]. injection H as <-. eapply address_match_configured. exact X.
  - intros b ->. reflexivity.
  - intros ->. exists (user_address_in_string u (o_header o (lit "Envelope-to"))), (user_address_in_string u (o_header o (lit "X-Original-To"))),
      (user_address_in_string u (o_header o (lit "Delivered-To"))).
    repeat (split; [apply mentioned_spec|]). unfold a, f2, f1, get_from_in_to_headers, to_headers. cbn [first_some].
    destruct (user_address_in_string u (o_header o (lit "Envelope-to"))); [reflexivity|].
    destruct (user_address_in_string u (o_header o (lit "X-Original-To"))); [reflexivity|].
    destruct (user_address_in_string u (o_header o (lit "Delivered-To"))); [reflexivity|].
    destruct (guess_from_in_received_headers u _); reflexivity.
Qed.
Print Assumptions C51_from.

(** The Received guesses: an address of the user that is mentioned after " for ", or that
    contains the last two labels of a host named after " by ". *)
Lemma split_dots_nonempty cur s : exists p ps, split_dots cur s = p :: ps.
Proof. revert cur. induction s as [|c s IH]; intros cur; cbn; [eauto|]. destruct (beq c "."%char); eauto. Qed.
Lemma split_dots_host s : forall cur, host_of (split_dots cur s) = cur ++ s.
Proof.
  induction s as [|c s IH]; intros cur; cbn [split_dots].
  - cbn. now rewrite app_nil_r.
  - destruct (beq_spec c "."%char) as [->|N].
    + destruct (split_dots_nonempty [] s) as (p & ps & E). specialize (IH []). rewrite E in *. cbn [host_of app] in *. now rewrite <- IH.
    + rewrite IH, <- app_assoc. reflexivity.
Qed.
Lemma last_two_full parts : forall d t gap adj, Forall (fun p => p <> []) parts -> gap = false ->
  last_two parts d t gap adj =
  match rev parts with
  | [] => match d, t with Some d, Some t => Some (if adj then d ++ "."%char :: t else d) | _, _ => None end
  | [p] => match t with Some t => Some (t ++ "."%char :: p) | None => None end
  | p :: q :: _ => Some (q ++ "."%char :: p)
  end.
Proof.
  induction parts as [|p parts IH]; intros d t gap adj F ->; [reflexivity|]. inversion F; subst. cbn [last_two]. destruct p as [|c p]; [congruence|].
  rewrite IH by auto. cbn [rev negb]. destruct (rev parts) as [|x [|y l]]; cbn [app]; [destruct t; reflexivity|reflexivity|reflexivity].
Qed.
Lemma first_word_spec s w : first_word s = Some w -> first_word_is s w.
Proof.
  unfold first_word, first_word_is. intros H. pose proof (take_drop is_blank s) as T. pose proof (take_drop (fun c => negb (is_blank c)) (dropwhile is_blank s)) as T2.
  pose proof (takewhile_all (fun c => negb (is_blank c)) (dropwhile is_blank s)) as A2. pose proof (takewhile_all is_blank s) as A1.
  pose proof (dropwhile_head (fun c => negb (is_blank c)) (dropwhile is_blank s)) as Hd.
  assert (B : forall c, is_blank c = true <-> c = " "%char \/ c = chr 9).
  { intros c. unfold is_blank. now rewrite orb_true_iff, !beq_eq. }
  destruct (takewhile (fun c => negb (is_blank c)) (dropwhile is_blank s)) as [|x y]; [discriminate H|]. injection H as <-.
  exists (takewhile is_blank s), (dropwhile (fun c => negb (is_blank c)) (dropwhile is_blank s)).
  split; [rewrite T2; symmetry; exact T|]. split; [discriminate|]. split; [|split].
  - intros c Hc. apply B. exact (forallb_In _ _ _ A1 Hc).
  - intros c Hc Hb. apply B in Hb. pose proof (forallb_In _ _ _ A2 Hc) as X. cbv beta in X. rewrite Hb in X. discriminate X.
  - destruct (dropwhile _ (dropwhile is_blank s)) as [|c t]; [now left|]. right. exists c, t. split; [reflexivity|]. apply B. now apply negb_false_iff.
Qed.
Theorem C51_received_guess : forall u received a,
  guess_from_in_received_headers u (Some received) = Some a ->
  (exists pre post, sanitize_string received = pre ++ lit " for " ++ post /\ occurs a (lit " for " ++ post)) \/
  (exists pre rest host, sanitize_string received = pre ++ lit " by " ++ rest /\
     first_word_is rest host /\ configured u a /\
     forall labels, Forall (fun l => l <> [] /\ ~ In "."%char l) labels -> host = host_of labels ->
       exists more p q, labels = more ++ [p; q] /\ occurs (p ++ "."%char :: q) a).
Proof.
  intros u received a. unfold guess_from_in_received_headers. set (s := sanitize_string received).
  destruct (guess_from_in_received_for u s) as [b|] eqn:K.
  - intros [= ->]. left. unfold guess_from_in_received_for in K. destruct (strstr s (lit " for ")) as [p|] eqn:St; [|discriminate K].
    apply strstr_Some in St as (pre & post & E & ->). exists pre, post. split; [exact E|].
    pose proof (mentioned_spec u (Some (lit " for " ++ post))) as M. rewrite K in M. cbn in M. destruct M as (_ & _ & _ & M & _). exact M.
  - intros H. right. unfold guess_from_in_received_by in H. revert H.
    assert (G : forall n t, received_by n u t = Some a -> exists pre rest host, t = pre ++ lit " by " ++ rest /\ first_word_is rest host /\ configured u a /\
      forall labels, Forall (fun l => l <> [] /\ ~ In "."%char l) labels -> host = host_of labels ->
       exists more p q, labels = more ++ [p; q] /\ occurs (p ++ "."%char :: q) a); [|apply G].
    intros n. induction n as [|n IH]; intros t H; [discriminate H|]. cbn [received_by] in H.
    destruct (strstr t (lit " by ")) as [at_by|] eqn:St; [|discriminate H]. apply strstr_Some in St as (pre & rest & -> & ->).
    change (skipn 4 (lit " by " ++ rest)) with rest in H. destruct rest as [|c r]; [discriminate H|].
    destruct (first_word (c :: r)) as [w|] eqn:W; [|discriminate H].
    assert (Rec : received_by n u (c :: r) = Some a -> exists pre0 rest host, pre ++ lit " by " ++ c :: r = pre0 ++ lit " by " ++ rest /\ first_word_is rest host /\ configured u a /\
      forall labels, Forall (fun l => l <> [] /\ ~ In "."%char l) labels -> host = host_of labels ->
       exists more p q, labels = more ++ [p; q] /\ occurs (p ++ "."%char :: q) a).
    { intros R. apply IH in R as (p0 & rest & host & Eq & R). exists (pre ++ lit " by " ++ p0), rest, host. split; [|exact R].
      rewrite Eq, <- !app_assoc. reflexivity. }
    destruct (last_two (split_dots [] w) None None false false) as [d|] eqn:L; [|exact (Rec H)].
    destruct (string_in_user_address u (Some d)) as [x|] eqn:X; [|exact (Rec H)]. injection H as ->.
    exists pre, (c :: r), w. split; [reflexivity|]. split; [now apply first_word_spec|]. split; [eapply address_match_configured; exact X|].
    intros labels Fl ->.
    assert (Sd : forall l cur, Forall (fun l => l <> [] /\ ~ In "."%char l) l -> l <> [] -> split_dots cur (host_of l) = match l with [] => [] | y :: r => (cur ++ y) :: r end).
    { clear. assert (One : forall l cur s, ~ In "."%char l -> split_dots cur (l ++ s) = split_dots (cur ++ l) s).
      { induction l as [|c l IH]; intros cur s N; cbn [app split_dots]; [now rewrite app_nil_r|].
        destruct (beq_spec c "."%char) as [->|Nc]; [destruct N; now left|]. rewrite IH; [now rewrite <- app_assoc|]. intros Hn. apply N. now right. }
      induction l as [|y l IH]; intros cur F Nl; [congruence|]. inversion F as [|? ? [Hy Hy'] F']; subst. destruct l as [|z l].
      - cbn [host_of]. rewrite <- (app_nil_r y) at 1. rewrite One by exact Hy'. reflexivity.
      - change (host_of (y :: z :: l)) with (y ++ "."%char :: host_of (z :: l)). rewrite One by exact Hy'. cbn [split_dots].
        replace (beq "."%char "."%char) with true by reflexivity. rewrite IH by (auto; discriminate). reflexivity. }
    destruct labels as [|y l].
    + exfalso. cbn in L. discriminate L.
    + rewrite (Sd (y :: l) [] Fl) in L by discriminate. cbn [app] in L. rewrite last_two_full in L; [|eapply Forall_impl; [|exact Fl]; now intros ? []|reflexivity].
      destruct (rev (y :: l)) as [|p [|q rl]] eqn:Rv; [discriminate L|discriminate L|]. injection L as <-.
      exists (rev rl), q, p. split.
      * rewrite <- (rev_involutive (y :: l)), Rv. cbn [rev]. now rewrite <- app_assoc.
      * unfold string_in_user_address, address_match in X. destruct (q ++ "."%char :: p) as [|e0 e] eqn:Ed; [now destruct q|]. unfold match_address in X.
        destruct (strcasestr (a_primary u) (e0 :: e)) eqn:Y; [injection X as <-; now apply strcasestr_spec|].
        apply find_some in X as [_ X]. now apply strcasestr_spec.
Qed.
Print Assumptions C51_received_guess.

(** The reply joins the thread of the original: read back as headers of a message, the
    References and In-Reply-To of the reply name the original as the parent and keep the
    ids the original referred to. *)
Lemma header_snoc ids text id : header ids text -> regular_id id -> header (ids ++ [id]) (text ++ lit " <" ++ id ++ lit ">").
Proof.
  intros H R. assert (E0 : header [] []) by (apply (hd_end [] []); [constructor|split; [intros []|exact I]]).
  assert (One : forall w t, cfws w -> free_text t -> header [id] ((w ++ t) ++ lit " <" ++ id ++ lit ">")).
  { intros w t Hw Ht. destruct t as [|c t].
    - rewrite app_nil_r. change (lit " <" ++ id ++ lit ">") with (" "%char :: "<"%char :: id ++ [">"%char]).
      replace (w ++ " "%char :: "<"%char :: id ++ [">"%char]) with ((w ++ [" "%char]) ++ [] ++ "<"%char :: [] ++ id ++ ">"%char :: []) by (rewrite <- app_assoc; reflexivity).
      apply hd_id; [|split; [intros []|exact I]|constructor|exact R|exact E0].
      clear - Hw. induction Hw as [|c s Hc Hs IH|a s Ha Hs IH]; cbn [app]; [apply cw_space; [reflexivity|constructor]|now apply cw_space|].
      rewrite <- app_assoc. now apply cw_comment.
    - change (lit " <" ++ id ++ lit ">") with (" "%char :: "<"%char :: id ++ [">"%char]).
      replace ((w ++ c :: t) ++ " "%char :: "<"%char :: id ++ [">"%char]) with (w ++ (c :: t ++ [" "%char]) ++ "<"%char :: [] ++ id ++ ">"%char :: [])
        by (rewrite <- !app_assoc; cbn [app]; rewrite <- !app_assoc; reflexivity).
      apply hd_id; [exact Hw| |constructor|exact R|exact E0]. destruct Ht as [Ht1 Ht2]. split; [|exact Ht2].
      intros X. rewrite app_comm_cons in X. apply in_app_iff in X as [X|[X|[]]]; [exact (Ht1 X)|discriminate X]. }
  induction H as [w t Hw Ht|w t w' id0 ids rest Hw Ht Hw' R0 H IH].
  - now apply One.
  - rewrite <- !app_assoc. cbn [app]. rewrite <- !app_assoc. cbn [app]. apply hd_id; assumption.
Qed.
Theorem C51_reply_joins_the_thread : forall u name o all limited y new_id ids,
  create_reply_message u name o all limited = Some y ->
  regular_id (o_id o) -> existsb isspace (o_id o) = false -> new_id <> o_id o ->
  header ids match o_header o (lit "references") with Some r => r | None => [] end ->
  exists refs, read_parents new_id (y_references y) (y_in_reply_to y) = Some (refs, Some (o_id o)) /\
    forall x, In x refs <-> (In x ids \/ x = o_id o) /\ x <> new_id.
Proof.
  intros u name o all limited y new_id ids E R Sp Ne H.
  assert (Yi : y_in_reply_to y = lit "<" ++ o_id o ++ lit ">" /\
               y_references y = match o_header o (lit "references") with Some ((_ :: _) as r) => r ++ lit " " ++ lit "<" ++ o_id o ++ lit ">" | _ => lit "<" ++ o_id o ++ lit ">" end).
  { unfold create_reply_message in E. destruct (add_recipients_from_message u (o_mime o) all) as [[rs f]|]; [|discriminate E].
    destruct limited; injection E as <-; split; reflexivity. }
  destruct Yi as [Yi Yr].
  assert (E0 : header [] []) by (apply (hd_end [] []); [constructor|split; [intros []|exact I]]).
  assert (H1 : header [o_id o] (lit "<" ++ o_id o ++ lit ">")).
  { apply (hd_id [] [] [] (o_id o) [] []); [constructor|split; [intros []|exact I]|constructor|exact R|exact E0]. }
  assert (St : message_id_parse_strict (y_in_reply_to y) = Some (o_id o)).
  { rewrite Yi. apply C10_strict_exact. exists [], []. cbn. repeat split; try reflexivity; [exact Sp|]. exact (proj1 (proj2 R)). }
  assert (H2 : exists ids2, header ids2 (y_references y) /\ forall x, In x ids2 <-> In x ids \/ x = o_id o).
  { rewrite Yr. destruct (o_header o (lit "references")) as [[|c r]|].
    - exists [o_id o]. split; [exact H1|]. assert (K : ids = []).
      { pose proof (ids_of_regular_header _ _ H) as K. symmetry. exact K. } rewrite K. cbn. intuition.
    - exists (ids ++ [o_id o]). split; [|intros x; rewrite in_app_iff; cbn; intuition].
      change (lit " " ++ lit "<" ++ o_id o ++ lit ">") with (lit " <" ++ o_id o ++ lit ">"). now apply header_snoc.
    - exists [o_id o]. split; [exact H1|]. assert (K : ids = []).
      { pose proof (ids_of_regular_header _ _ H) as K. symmetry. exact K. } rewrite K. cbn. intuition. }
  destruct H2 as (ids2 & H2 & I2). rewrite Yi in *.
  destruct (C11_exact_on_well_formed new_id ids2 [o_id o] _ _ H2 H1) as (refs & parent & Ep & Hr & ->). rewrite St in Ep. exists refs. split; [exact Ep|].
  intros x. rewrite Hr, I2. cbn. intuition.
Qed.
Print Assumptions C51_reply_joins_the_thread.

(** Quoting: whatever pieces the text arrives in, every line of it is preceded by "> "; the
    buffer the filter asks for is always large enough. *)
Theorem C51_quoting : forall pieces final,
  run_filter true rfilter_reset pieces final = Some (quoted (concat pieces ++ final)).
Proof. intros pieces final. rewrite run_filter_eq. f_equal. exact (run_quote _ [] false). Qed.
Print Assumptions C51_quoting.
Theorem C51_unquoting_fits : forall pieces final, run_filter false rfilter_reset pieces final <> None.
Proof. intros pieces final. rewrite run_filter_eq. discriminate. Qed.
Print Assumptions C51_unquoting_fits.

(** The other direction of the filter undoes quoting. *)
Theorem C51_unquoting_undoes_quoting : forall s pieces final,
  ~ In (chr 13) s -> concat pieces ++ final = quoted s -> run_filter false rfilter_reset pieces final = Some s.
Proof.
  intros s pieces final N E. rewrite run_filter_eq, E. f_equal. cbn [step_of].
  unfold quoted. rewrite <- (run_quote s [] false). cbn [lead_of at_start app].
  unfold rfilter_reset. generalize true. revert N. clear. induction s as [|c s IH]; intros N b; [reflexivity|].
  assert (Nc : beq c (chr 13) = false) by (apply beq_neq; intros ->; apply N; now left).
  assert (Ns : ~ In (chr 13) s) by (intros X; apply N; now right).
  cbn [run_steps]. unfold quote_step at 1. cbn [f_saw_nl f_saw_angle]. unfold CR, LF. rewrite Nc.
  specialize (IH Ns (beq c (chr 10))). destruct (run_steps quote_step {| f_saw_nl := beq c (chr 10); f_saw_angle := false |} s) as [o st2]. cbn [fst] in IH |- *.
  assert (One : fst (run_steps unquote_step {| f_saw_nl := false; f_saw_angle := false |} (c :: o)) = c :: s).
  { cbn [run_steps]. unfold unquote_step at 1. cbn [f_saw_nl f_saw_angle]. unfold CR, LF. rewrite Nc.
    replace (if beq c (chr 10) then true else false) with (beq c (chr 10)) by (destruct (beq c (chr 10)); reflexivity).
    destruct (run_steps unquote_step {| f_saw_nl := beq c (chr 10); f_saw_angle := false |} o) as [o2 st3]. cbn [fst] in *. cbn [app]. now rewrite IH. }
  destruct b; [|exact One].
  change ((lit "> " ++ [c]) ++ o) with (">"%char :: " "%char :: c :: o).
  remember (c :: o) as co eqn:Eco. cbn [run_steps]. unfold unquote_step at 1. cbn [f_saw_nl]. replace (beq ">"%char ">"%char) with true by reflexivity.
  unfold unquote_step at 1. cbn [f_saw_nl f_saw_angle]. replace (beq " "%char " "%char) with true by reflexivity.
  destruct (run_steps unquote_step {| f_saw_nl := false; f_saw_angle := false |} co) as [o2 st3]. cbn [fst app] in *. exact One.
Qed.
Print Assumptions C51_unquoting_undoes_quoting.

(** ** Examples *)
Definition me : accounts := {| a_primary := lit "me@home"; a_other := [lit "Me@Work"] |}.
Definition box (a : string) : address := Mailbox None (lit a).
Definition rcp (t : rtype) (a : string) : recipient := {| r_type := t; r_name := None; r_addr := lit a |}.
Definition mail : mime :=
  {| m_reply_to := []; m_from := [box "bob@x"]; m_to := [box "ME@home"; box "ann@y"];
     m_cc := [Group [box "list@z"; box "me@work"]]; m_bcc := []; m_subject := Some (lit "lunch") |}.
Example C51_applies :
  add_recipients_from_message me mail true = Some ([rcp RTo "bob@x"; rcp RTo "ann@y"; rcp RCc "list@z"], Some (lit "ME@home")) /\
  add_recipients_from_message me mail false = Some ([rcp RTo "bob@x"], Some (lit "ME@home")).
Proof. split; vm_compute; reflexivity. Qed.
Example C51_own_message_applies :
  add_recipients_from_message me {| m_reply_to := []; m_from := [box "me@home"]; m_to := [box "me@work"]; m_cc := []; m_bcc := []; m_subject := None |} true
  = Some ([rcp RTo "me@home"], Some (lit "me@home")).
Proof. vm_compute; reflexivity. Qed.
Definition orig : original :=
  {| o_id := lit "1@x"; o_mime := mail; o_header := fun h => if bseq h (lit "references") then Some (lit "<0@x>") else None |}.
Example C51_reply_applies :
  create_reply_message me (lit "Me") orig true false =
  Some {| y_in_reply_to := lit "<1@x>"; y_references := lit "<0@x> <1@x>";
          y_recipients := [rcp RTo "bob@x"; rcp RTo "ann@y"; rcp RCc "list@z"];
          y_from := Some (lit "Me <ME@home>"); y_subject := Some (lit "Re: lunch") |}.
Proof. vm_compute; reflexivity. Qed.
Example C51_thread_applies :
  regular_id (o_id orig) /\ header [lit "0@x"] (lit "<0@x>").
Proof.
  split; [|apply (hd_id [] [] [] (lit "0@x") [] []); [constructor|split; [intros []|exact I]|constructor| |apply (hd_end [] []); [constructor|split; [intros []|exact I]]]];
  (split; [cbn; lia|]; repeat split; try (intros X; cbn in X; intuition discriminate); try reflexivity; try discriminate).
Qed.
Example C51_received_applies :
  guess_from_in_received_headers me (Some (lit "from a by mx.home.example; by smtp.me@home (x)")) = None /\
  guess_from_in_received_headers {| a_primary := lit "me@example.org"; a_other := [] |} (Some (lit "from a by mx.example.org with y")) = Some (lit "me@example.org").
Proof. split; vm_compute; reflexivity. Qed.
Example C51_quoting_applies :
  run_filter true rfilter_reset [lit "a" ++ [chr 13]; [chr 10; chr 10]] (lit "b") =
  Some (lit "> a" ++ [chr 10] ++ lit "> " ++ [chr 10] ++ lit "> b").
Proof. vm_compute; reflexivity. Qed.

(** ** Limits *)

(** "any lines starting with "> " will have that removed" (gmime-filter-reply.c:196): not after
    an empty line.  (notmuch does not use this direction.) *)
Theorem C51_unquoting_any_line_refuted :
  run_filter false rfilter_reset [] (lit "> a" ++ [chr 10; chr 10] ++ lit "> b") <> Some (lit "a" ++ [chr 10; chr 10] ++ lit "b").
Proof. intros H. vm_compute in H. discriminate H. Qed.
Print Assumptions C51_unquoting_any_line_refuted.
(** A person in two headers is addressed twice. *)
Theorem C51_each_recipient_once_refuted :
  ~ (forall u m rs from, add_recipients_from_message u m true = Some (rs, from) -> NoDup (map r_addr rs)).
Proof.
  intros H. set (m := {| m_reply_to := []; m_from := [box "bob@x"]; m_to := [box "bob@x"]; m_cc := []; m_bcc := []; m_subject := None |}).
  assert (E : add_recipients_from_message me m true = Some ([rcp RTo "bob@x"; rcp RTo "bob@x"], None)) by (vm_compute; reflexivity).
  apply H in E. inversion E as [|x l N _]; subst. apply N. now left.
Qed.
Print Assumptions C51_each_recipient_once_refuted.
(** The Reply-To a mailing list puts in is recognised only in exactly the spelling of the
    recipient: otherwise the author gets no reply, not even when replying to all. *)
Theorem C51_author_gets_the_reply_refuted :
  ~ (forall u m rs from n n' a a', m_reply_to m = [Mailbox n a] -> In (Mailbox n' a') (m_to m) -> same_but_case a a' ->
       add_recipients_from_message u m true = Some (rs, from) ->
       forall b, In b (boxes (m_from m)) -> ~ own u (snd b) -> In (snd b) (map r_addr rs)).
Proof.
  intros H.
  set (m := {| m_reply_to := [box "List@z"]; m_from := [box "bob@x"]; m_to := [box "list@z"]; m_cc := []; m_bcc := []; m_subject := None |}).
  assert (E : add_recipients_from_message me m true = Some ([rcp RTo "List@z"; rcp RTo "list@z"], None)) by (vm_compute; reflexivity).
  assert (O : ~ own me (lit "bob@x")) by (apply address_is_users_false; vm_compute; reflexivity).
  assert (C : same_but_case (lit "List@z") (lit "list@z")) by (vm_compute; reflexivity).
  specialize (H me m _ _ None None (lit "List@z") (lit "list@z") eq_refl (or_introl eq_refl) C E (None, lit "bob@x") (or_introl eq_refl) O).
  cbn in H. destruct H as [H|[H|[]]]; discriminate H.
Qed.
Print Assumptions C51_author_gets_the_reply_refuted.
(** A host name with an empty label makes a single label count as a domain, which then
    occurs in unrelated addresses. *)
Theorem C51_domain_has_two_labels_refuted :
  guess_from_in_received_headers {| a_primary := lit "x@mine.org"; a_other := [lit "omar@y.net"] |} (Some (lit "from b by mx.ma..com with z")) =
  Some (lit "omar@y.net").
Proof. vm_compute; reflexivity. Qed.
Print Assumptions C51_domain_has_two_labels_refuted.
(** An address is found in a header although only part of a longer one. *)
Theorem C51_mentioned_whole_address_refuted :
  user_address_in_string {| a_primary := lit "me@x.org"; a_other := [] |} (Some (lit "<nome@x.organic>")) = Some (lit "me@x.org").
Proof. vm_compute; reflexivity. Qed.
Print Assumptions C51_mentioned_whole_address_refuted.
