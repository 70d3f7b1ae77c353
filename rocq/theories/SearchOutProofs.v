(** Lemmas about the output of notmuch search, address and reply. *)
From Verif Require Import Bytes StrUtil Decimal XQuery Thread Query SearchCmd SearchCmdSpec P_SearchCmd Address Sprinter SprinterSpec Mime ShowPart ShowPartSpec ShowPartProofs ShowPartProofs3 ShowPartProofs6 P_ShowPart ShowTextSpec ShowTextProofs SearchOut SearchOutSpec.
From Verif Require Import Calendar CalendarSpec CalendarProofs RelDate RelDateSpec P_RelDate DatesProofs3.
From Coq Require Import Lia ZArith.
Local Open Scope nat_scope.

(** ** Values *)
Definition nosep (o : op) : bool := negb (is_separator o).
Definition query_value (o : option bytes) : value := match o with Some s => VStr s | None => VNull end.
Definition thread_fields (version : nat) (oldest_first : bool) (relative : Z -> bytes) (t : thread) : list (string * option value) :=
  let q := get_thread_query (members t) None None in
  [("thread", Some (VStr (th_id t))); ("timestamp", Some (VInt (summary_date oldest_first t))); ("date_relative", Some (VStr (relative (summary_date oldest_first t))));
   ("matched", Some (VInt (Z.of_nat (th_matched t)))); ("total", Some (VInt (Z.of_nat (th_total t))));
   ("authors", Some (VStr (authors_string t))); ("subject", Some (VStr (subject_string t)));
   ("query", if (2 <=? version)%nat then Some (VList [query_value (fst q); query_value (snd q)]) else None); ("tags", Some (VList (map VStr (th_tags t))))]%string.
Definition thread_value version oldest_first relative t := VMap (omap (thread_fields version oldest_first relative t)).
Lemma strs_nosep l : filter nosep (map Str l) = map Str l. Proof. induction l as [|x l IH]; [reflexivity|]. cbn. now rewrite IH. Qed.
Lemma filter_flat A (f : A -> list op) (g : A -> value) l : (forall x, filter nosep (f x) = emit (g x)) -> filter nosep (flat_map f l) = flat_map emit (map g l).
Proof. intros H. induction l as [|x l IH]; [reflexivity|]. cbn [flat_map map]. now rewrite filter_app, H, IH. Qed.
Lemma list_printing A (f : A -> list op) (g : A -> value) l : (forall x, filter nosep (f x) = emit (g x)) -> printing (VList (map g l)) (BeginList :: flat_map f l ++ [End]).
Proof. intros H. unfold printing. change (fun o => negb (is_separator o)) with nosep. cbn [filter nosep is_separator negb emit]. rewrite filter_app, (filter_flat A f g l H). reflexivity. Qed.
Lemma summary_emit version oldest_first relative t : filter nosep (summary_ops version oldest_first relative t) = emit (thread_value version oldest_first relative t).
Proof.
  unfold thread_value. rewrite emit_omap. unfold summary_ops, thread_fields. destruct (get_thread_query (members t) None None) as [m u]. cbn [fst snd].
  destruct (2 <=? version).
  - cbn [ocalls emit flat_map app fst snd filter nosep is_separator negb]. do 15 f_equal.
    assert (E : forall o, [str_or_null o] = emit (query_value o)) by now intros [s|]. rewrite <- !E. clear E.
    replace (nosep (str_or_null m)) with true by now destruct m. replace (nosep (str_or_null u)) with true by now destruct u.
    rewrite filter_app, strs_nosep, strings_emit. cbn [app filter nosep is_separator negb]. rewrite <- ?app_assoc. cbn [app]. rewrite <- ?app_assoc. reflexivity.
  - cbn [ocalls emit flat_map app fst snd filter nosep is_separator negb]. rewrite filter_app, strs_nosep, strings_emit. cbn [app filter nosep is_separator negb]. rewrite <- ?app_assoc. cbn [app]. rewrite <- ?app_assoc. reflexivity.
Qed.
Lemma query_names l o : match o with None => l = [] | Some s => l <> [] /\ forall ids, ids_query s ids <-> ids = l end -> names_messages l (query_value o).
Proof. destruct o as [s|]; intros H; [right|left; now split]. destruct H. exists s. auto. Qed.
Lemma ids_members want t : ids want t = map fst (filter (fun p => if want then snd p else negb (snd p)) (members t)).
Proof.
  unfold ids, members. induction (th_messages t) as [|m l IH]; [reflexivity|]. cbn [map filter fst snd].
  destruct want, (mb_match m); cbn [Bool.eqb negb map fst]; now rewrite IH.
Qed.
Lemma thread_displays version oldest_first relative t : displays_thread version oldest_first relative (authors_string t) t (thread_value version oldest_first relative t).
Proof.
  unfold thread_value, thread_fields. set (q := get_thread_query _ _ _).
  constructor; try (fields; reflexivity).
  - intros H. assert (E : (2 <=? version) = true) by now apply Nat.leb_le. rewrite E. exists (query_value (fst q)), (query_value (snd q)). split; [fields; reflexivity|].
    pose proof (C52_thread_query (members t)) as C. cbv zeta in C. fold q in C. destruct C as [C1 C2].
    split; rewrite ids_members; now apply query_names.
  - intros H. assert (E : (2 <=? version) = false) by now apply Nat.leb_gt. rewrite E. fields. reflexivity.
Qed.
Lemma query_type o : tor tstring tnull (query_value o).
Proof. destruct o as [s|]; [left; apply tstr|right; reflexivity]. Qed.
Lemma thread_schema version oldest_first relative t : tthread_summary version (thread_value version oldest_first relative t).
Proof.
  unfold tthread_summary, thread_value, thread_fields. set (q := get_thread_query _ _ _).
  destruct (2 <=? version); schema; try exact Logic.I; try apply tstr; try apply ti; try apply tstrs.
  exists (query_value (fst q)), (query_value (snd q)). split; [reflexivity|]. split; apply query_type.
Qed.
Lemma thread_good version oldest_first relative t : good_keys (thread_value version oldest_first relative t).
Proof.
  unfold thread_value, thread_fields. set (q := get_thread_query _ _ _). good.
  - destruct (2 <=? version); [|exact Logic.I]. cbn [gopt good_keys]. destruct (fst q), (snd q); cbn; auto.
  - cbn [gopt]. apply good_list, Forall_forall. intros x I. apply in_map_iff in I as (s & <- & _). exact Logic.I.
Qed.

Definition mailbox_fields (name_addr : option bytes -> bytes -> bytes) (b : shown_box) : list (string * option value) :=
  [("name", Some (VStr (cstr (p_name b)))); ("address", Some (VStr (p_addr b))); ("name-addr", Some (VStr (name_addr (p_name b) (p_addr b))));
   ("count", option_map (fun n => VInt (Z.of_nat n)) (p_count b))]%string.
Definition mailbox_value name_addr b := VMap (omap (mailbox_fields name_addr b)).
Lemma mailbox_emit name_addr b : filter nosep (mailbox_ops name_addr b) = emit (mailbox_value name_addr b).
Proof.
  unfold mailbox_value. rewrite emit_omap. unfold mailbox_ops, mailbox_fields. destruct (p_count b); reflexivity.
Qed.
Lemma mailbox_displays name_addr b : displays_mailbox name_addr b (mailbox_value name_addr b).
Proof. unfold mailbox_value, mailbox_fields. constructor; fields; try reflexivity. now destruct (p_count b). Qed.
Lemma mailbox_schema name_addr b : tmailbox (mailbox_value name_addr b).
Proof.
  unfold tmailbox, mailbox_value, mailbox_fields. destruct (p_count b); cbn [option_map]; schema; try exact Logic.I; try apply tstr; apply ti.
Qed.
Lemma mailbox_good name_addr b : good_keys (mailbox_value name_addr b).
Proof. unfold mailbox_value, mailbox_fields. good. now destruct (p_count b). Qed.

(** ** Lines *)
Lemma until_app c a r : ~ In c a -> until c (a ++ c :: r) = Some (a, r).
Proof.
  induction a as [|x a IH]; intros H; cbn [app until]; [now rewrite (proj2 (beq_eq c c) eq_refl)|].
  destruct (beq x c) eqn:E; [apply beq_eq in E; subst; elim H; now left|]. rewrite IH; [reflexivity|]. intros I. apply H. now right.
Qed.
Definition blank (c : byte) : bool := beq c " ".
Lemma drop_blanks n s : blank (peek s) = false -> dropwhile (fun c => beq c " "%char) (repeat " "%char n ++ s) = s.
Proof.
  intros H. induction n as [|n IH]; cbn [repeat app dropwhile]; [|exact IH]. destruct s as [|c s]; [reflexivity|]. cbn [dropwhile]. unfold blank in H. cbn [peek] in H. now rewrite H.
Qed.
Lemma sanitize_one s : one_line (sanitize_string s).
Proof.
  intros H. apply in_map_iff in H as (c & E & _). revert E. 
  enough (K : beq (sanitize_byte c) (chr 10) = false) by (intros E; rewrite E in K; discriminate K).
  apply negb_true_iff. apply (byte_sweep (fun c => negb (beq (sanitize_byte c) (chr 10)))). vm_compute. reflexivity.
Qed.
Definition summary_line (oldest_first : bool) (relative : Z -> bytes) (t : thread) : bytes := removelast (summary_text oldest_first relative t).
Definition tags_text (l : list bytes) : bytes := match l with [] => [] | x :: r => x ++ flat_map (fun t => lit " " ++ t) r end.
Definition rest_text (t : thread) : bytes :=
  sanitize_string (authors_string t) ++ lit "; " ++ sanitize_string (subject_string t) ++ lit " (" ++ tags_text (th_tags t) ++ lit ")".
Definition counts_text (t : thread) : bytes :=
  decz (Z.of_nat (th_matched t)) ++ lit "/" ++ decz (Z.of_nat (th_total t)) ++ (if th_total t =? th_files t then [] else lit "(" ++ decz (Z.of_nat (th_files t)) ++ lit ")").
Lemma summary_line_eq oldest_first relative t : summary_text oldest_first relative t = endl (summary_line oldest_first relative t) /\
  summary_line oldest_first relative t = lit "thread:" ++ th_id t ++ " "%char :: (pad12 (relative (summary_date oldest_first t)) ++ lit " ") ++ "["%char :: counts_text t ++ lit "] " ++ rest_text t.
Proof.
  assert (E : summary_text oldest_first relative t = (lit "thread:" ++ th_id t ++ " "%char :: (pad12 (relative (summary_date oldest_first t)) ++ lit " ") ++ "["%char :: counts_text t ++ lit "] " ++ rest_text t) ++ [chr 10]).
  { unfold summary_text, rest_text, counts_text, tags_text. rewrite <- !app_assoc. cbn [app]. rewrite <- !app_assoc. cbn [app]. rewrite <- !app_assoc. reflexivity. }
  unfold summary_line, endl. rewrite E, removelast_last. now split.
Qed.
Lemma tags_text_one l : Forall one_line l -> one_line (tags_text l).
Proof.
  intros H. destruct H as [|x l Hx H]; [intros []|]. cbn [tags_text]. apply one_app; [exact Hx|].
  induction H as [|y l Hy _ IH]; [intros []|]. cbn [flat_map]. apply one_app; [apply one_app; [|exact Hy]|exact IH]. intros [E|[]]. discriminate E.
Qed.
Lemma dec_one n : one_line (dec n).
Proof. intros H. pose proof (dec_digits n) as D. rewrite forallb_forall in D. apply D in H. discriminate H. Qed.
Ltac one1 := intros H0; repeat (destruct H0 as [H0|H0]; [discriminate H0|]); exact H0.
Lemma rest_one t : Forall one_line (th_tags t) -> one_line (rest_text t).
Proof.
  intros H. unfold rest_text. repeat (apply one_app; [try one1; try apply sanitize_one|]); [|one1]. now apply tags_text_one.
Qed.
Lemma repeat_one c n : c <> chr 10 -> one_line (repeat c n).
Proof. intros H I. apply repeat_spec in I. auto. Qed.
Lemma summary_one oldest_first relative t : plain_line oldest_first relative t -> one_line (summary_line oldest_first relative t).
Proof.
  intros (A & B & (_ & C & _) & D). rewrite (proj2 (summary_line_eq oldest_first relative t)). apply one_app; [one1|]. apply one_app; [exact B|].
  apply (one_app [" "%char]); [one1|]. apply one_app.
  - apply one_app; [|one1]. unfold pad12. apply one_app; [now apply repeat_one|exact C].
  - apply (one_app ["["%char]); [one1|]. apply one_app.
    + unfold counts_text. rewrite !decz_nat. repeat (apply one_app; [try one1; apply dec_one|]). destruct (th_total t =? th_files t); [intros []|].
      apply one_app; [one1|]. apply one_app; [apply dec_one|one1].
    + apply one_app; [one1|now apply rest_one].
Qed.
Lemma read_summary_line oldest_first relative t : plain_line oldest_first relative t ->
  read_line (summary_line oldest_first relative t) =
    Some {| l_id := th_id t; l_date := relative (summary_date oldest_first t); l_matched := N.of_nat (th_matched t); l_total := N.of_nat (th_total t);
            l_files := N.of_nat (th_files t); l_rest := rest_text t |}.
Proof.
  intros (A & _ & (C1 & _ & C2) & _). change (if oldest_first then th_oldest t else th_newest t) with (summary_date oldest_first t) in *. set (d := relative (summary_date oldest_first t)) in *.
  rewrite (proj2 (summary_line_eq oldest_first relative t)). fold d. unfold read_line.
  set (r1 := th_id t ++ _). change (firstn 7 (lit "thread:" ++ r1)) with (lit "thread:"). change (skipn 7 (lit "thread:" ++ r1)) with r1.
  rewrite (proj2 (bseq_eq _ _) eq_refl). unfold r1. rewrite until_app by exact A. clear r1.
  unfold pad12. rewrite <- !app_assoc. rewrite drop_blanks.
  2:{ destruct d as [|c d0]; [contradiction|]. cbn [app peek]. unfold blank. destruct (beq c " ") eqn:E; [apply beq_eq in E; contradiction|reflexivity]. }
  rewrite (app_assoc d). rewrite until_app by (intros I; apply in_app_or in I as [I|[I|[]]]; [auto|discriminate I]).
  unfold counts_text. rewrite !decz_nat. rewrite <- !app_assoc. rewrite read_dec_end by reflexivity. cbn [lit list_ascii_of_string app].
  change (beq "/" "/") with true. cbv iota.
  assert (DL : drop_last (d ++ [" "%char]) = d) by apply removelast_last.
  destruct (Nat.eqb_spec (th_total t) (th_files t)) as [E|E].
  - cbn [app]. rewrite read_dec_end by reflexivity. change (beq "]" "(") with false. cbv iota. change (bseq (firstn 2 ("]"%char :: " "%char :: rest_text t)) ["]"%char; " "%char]) with true. cbv iota.
    cbn [skipn]. now rewrite DL, E.
  - cbn [app]. rewrite read_dec_end by reflexivity. change (beq "(" "(") with true. cbv iota. rewrite <- app_assoc. rewrite read_dec_end by reflexivity. cbn [skipn app].
    change (bseq (firstn 2 ("]"%char :: " "%char :: rest_text t)) ["]"%char; " "%char]) with true. cbv iota. now rewrite DL.
Qed.

(** Tags. *)
Lemma words_join : forall x r, ~ In " "%char x -> Forall (fun y => ~ In " "%char y) r -> forall cur, words cur (x ++ flat_map (fun t => lit " " ++ t) r) = (cur ++ x) :: r.
Proof.
  induction x as [|c x IH]; intros r Hx Hr cur.
  - cbn [app]. rewrite app_nil_r. revert cur. induction Hr as [|y r Hy Hr IHr]; intros cur; [reflexivity|]. cbn [flat_map lit list_ascii_of_string app words].
    change (beq " " " ") with true. cbv iota. f_equal. clear IHr. 
    assert (G : forall y cur, ~ In " "%char y -> words cur (y ++ flat_map (fun t => " "%char :: t) r) = (cur ++ y) :: r).
    { clear y Hy cur. induction Hr as [|z r Hz Hr IHr].
      - induction y as [|c y IHy]; intros cur Hy; cbn [app flat_map words]; [now rewrite app_nil_r|].
        destruct (beq c " ") eqn:E; [apply beq_eq in E; subst; elim Hy; now left|]. rewrite IHy by (intros I; apply Hy; now right). now rewrite <- app_assoc.
      - induction y as [|c y IHy]; intros cur Hy.
        + cbn [app flat_map words]. change (beq " " " ") with true. cbv iota. rewrite (IHr z [] Hz). now rewrite app_nil_r.
        + cbn [app words]. destruct (beq c " ") eqn:E; [apply beq_eq in E; subst; elim Hy; now left|]. rewrite IHy by (intros I; apply Hy; now right). now rewrite <- app_assoc. }
    rewrite (G y [] Hy). reflexivity.
  - cbn [app words]. destruct (beq c " ") eqn:E; [apply beq_eq in E; subst; elim Hx; now left|]. rewrite IH by (auto; intros I; apply Hx; now right). now rewrite <- app_assoc.
Qed.
Lemma read_tags_rest t : Forall plain_tag (th_tags t) -> read_tags (rest_text t) = Some (th_tags t).
Proof.
  intros H. unfold read_tags, rest_text. set (a := sanitize_string (authors_string t)). set (s := sanitize_string (subject_string t)).
  assert (E : rev (a ++ lit "; " ++ s ++ lit " (" ++ tags_text (th_tags t) ++ lit ")") = ")"%char :: rev (tags_text (th_tags t)) ++ "("%char :: rev (a ++ lit "; " ++ s ++ lit " ")).
  { replace (a ++ lit "; " ++ s ++ lit " (" ++ tags_text (th_tags t) ++ lit ")") with ((a ++ lit "; " ++ s ++ lit " ") ++ lit "(" ++ tags_text (th_tags t) ++ lit ")") by (rewrite <- !app_assoc; reflexivity).
    rewrite !rev_app_distr. cbn [lit list_ascii_of_string rev app]. rewrite <- !app_assoc. reflexivity. }
  rewrite E. change (beq ")" ")") with true. cbv iota.
  assert (N : ~ In "("%char (rev (tags_text (th_tags t)))).
  { intros I. apply in_rev in I. destruct H as [|x l Hx H]; [destruct I|]. cbn [tags_text] in I. apply in_app_or in I as [I|I]; [now apply (proj2 (proj2 Hx))|].
    apply in_flat_map in I as (y & Iy & [I|I]); [discriminate I|]. rewrite Forall_forall in H. now apply (proj2 (proj2 (H y Iy))). }
  rewrite until_app by exact N. destruct H as [|x l Hx H]; [reflexivity|]. cbn [tags_text]. 
  destruct (rev (x ++ flat_map (fun t0 : list ascii => lit " " ++ t0) l)) as [|c r] eqn:R.
  { apply (f_equal (@rev _)) in R. rewrite rev_involutive in R. destruct x; [now elim (proj1 Hx)|discriminate R]. }
  rewrite <- R, rev_involutive, words_join; [reflexivity|apply Hx|]. revert H. apply Forall_impl. intros y Hy. apply Hy.
Qed.

(** ** The dates of C66 *)
Definition dchar (c : byte) : bool := letter (tolower c) || isdigit c || beq c "-" || beq c " " || beq c "." || beq c ":".
Lemma dchar_ok c : dchar c = true -> c <> "["%char /\ c <> chr 10.
Proof. intros H. split; intros ->; discriminate H. Qed.
Lemma plain_chars s : forallb dchar s = true -> blank (peek (s ++ lit " ")) = false -> plain_date s.
Proof.
  intros H B. rewrite forallb_forall in H. assert (B' : match s with c :: _ => c <> " "%char | [] => False end) by (destruct s; [discriminate B|intros ->; discriminate B]).
  split; [|split; [|exact B']]; intros I; apply H, dchar_ok in I as [I1 I2]; auto.
Qed.
Lemma dec_dchar n : forallb dchar (dec n) = true /\ blank (peek (dec n)) = false.
Proof.
  pose proof (dec_digits n) as D. split.
  - revert D. rewrite !forallb_forall. intros D c I. apply D in I. unfold dchar. now rewrite I, orb_true_r.
  - pose proof (dec_nonempty n) as N. destruct (dec n) as [|c r]; [easy|]. cbn [forallb] in D. apply andb_true_iff in D as [D _]. cbn [peek]. unfold blank.
    destruct (beq c " ") eqn:E; [apply beq_eq in E; subst; discriminate D|reflexivity].
Qed.
Lemma decz_dchar n : forallb dchar (decz n) = true /\ blank (peek (decz n ++ lit " ")) = false.
Proof.
  assert (G : forall n, blank (peek (dec n ++ lit " ")) = false) by (intros m; pose proof (dec_nonempty m); pose proof (proj2 (dec_dchar m)); destruct (dec m); [easy|assumption]).
  destruct n; cbn [decz]; [split; [apply dec_dchar|apply G]|split; [apply dec_dchar|apply G]|]. cbn [forallb app peek]. split; [apply (proj1 (dec_dchar _))|reflexivity].
Qed.
Lemma two_dchar n : (0 <= n < 100)%Z -> forallb dchar (two n) = true.
Proof.
  intros H. pose proof (Z.div_mod n 10 ltac:(lia)). pose proof (Z.mod_pos_bound n 10 ltac:(lia)). unfold two. cbn [forallb].
  assert (G : forall d, (0 <= d < 10)%Z -> dchar (digit (Z.to_N d)) = true).
  { intros d Hd. unfold dchar. rewrite digit_isdigit by lia. now rewrite orb_true_r. }
  rewrite !G by lia. reflexivity.
Qed.
Lemma relative_plain zone now t : plain_date (relative_date zone now t).
Proof.
  pose proof (break_down_ranges (t + zone t)) as R. cbv zeta in R. change (break_down (t + zone t)) with (local_tm zone t) in R.
  pose proof (weekday_fmt zone t) as W. pose proof (month_fmt zone t) as M. set (b := local_tm zone t) in *.
  assert (CL : forallb dchar (fmt_R b) = true) by (unfold fmt_R; rewrite !forallb_app, !two_dchar by lia; reflexivity).
  assert (DA : plain_date (fmt_B b ++ lit " " ++ two (t_mday b))).
  { apply plain_chars; [rewrite !forallb_app, two_dchar by lia|]; destruct M; reflexivity. }
  unfold relative_date. fold b. destruct (now <? t)%Z; [apply plain_chars; reflexivity|].
  destruct (180 * DAY <? now - t)%Z.
  { unfold fmt_F. destruct (decz_dchar (t_year b)) as [D1 D2]. apply plain_chars; [rewrite !forallb_app, D1, !two_dchar by lia; reflexivity|]. destruct (decz (t_year b)); [discriminate D2|exact D2]. }
  destruct (now - t <? 3600)%Z.
  { destruct (dec_dchar (Z.to_N ((now - t) / 60))) as [D1 D2]. apply plain_chars; [rewrite forallb_app, D1; reflexivity|]. pose proof (dec_nonempty (Z.to_N ((now - t) / 60))). destruct (dec _); [easy|exact D2]. }
  destruct (now - t <=? 7 * DAY)%Z; [|exact DA]. destruct (_ && _); [apply plain_chars; [rewrite forallb_app, CL|]; reflexivity|].
  destruct (_ =? 1)%Z; [apply plain_chars; [rewrite forallb_app, CL|]; reflexivity|]. destruct (negb _); [|exact DA].
  apply plain_chars; [rewrite !forallb_app, CL|]; destruct W; reflexivity.
Qed.
