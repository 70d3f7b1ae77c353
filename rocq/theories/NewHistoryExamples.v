(** Concrete histories for C75. *)
From Verif Require Import Bytes DocMap MsgId MailStore MailStoreSpec MailStoreProofs Maildir New NewSpec NewProofs NewProofs4 NewProofs5 NewProofs9 NewProofs10 NewProofs11 NewProofs12 NewCrash NewHistorySpec NewExamples P_Threads.

(** All directories below a node, with their paths. *)
Fixpoint all_dirs (p : bytes) (nd : node) : list (bytes * (Z * N * list (bytes * node))) :=
  match nd with
  | NDir mt nl es => (p, (mt, nl, es)) :: (fix go (l : list (bytes * node)) := match l with [] => [] | (n, sub) :: l => all_dirs (child p n) sub ++ go l end) es
  | _ => []
  end.
Lemma scanned_all ig nd : forall top q mt nl es, scanned ig top nd q (NDir mt nl es) -> In (q, (mt, nl, es)) (all_dirs top nd).
Proof.
  induction nd as [c|mt0 nl0 l IH|mt0 nl0| |] using node_ind'; intros top q mt nl es H; try (apply scanned_leaf in H as [_ H]; [discriminate H|discriminate]).
  apply scanned_dir in H as [[-> [= -> -> ->]]|(n & sub & H1 & H2 & _ & H4)]; [now left|right].
  specialize (IH n sub H1 _ _ _ _ _ H4). clear - H1 IH. induction l as [|[x y] l IHl]; [destruct H1|]. apply in_or_app. destruct H1 as [[= -> ->]|H1]; [now left|right; auto].
Qed.
Definition dirnode (nd : node) : bool := match nd with NDir _ _ _ | NUnreadable _ _ => true | _ => false end.
Fixpoint mails_ok (nd : node) : bool :=
  match nd with
  | NReg (Some (_, _, ok)) => ok
  | NDir _ _ es => (fix go (l : list (bytes * node)) := match l with [] => true | (_, sub) :: l => mails_ok sub && go l end) es
  | _ => true
  end.
Lemma mails_ok_spec nd : mails_ok nd = true -> forall f keys ok, mail_in nd f keys ok -> ok = true.
Proof.
  induction nd as [c|mt nl l IH|mt nl| |] using node_ind'; intros H f keys ok Hm; inversion Hm; subst; [exact H|].
  match goal with A : In _ l, B : mail_in _ f keys ok |- _ => rename A into Hin, B into Hsub end. apply (IH n nd Hin) with (f := f) (keys := keys); [|exact Hsub].
  cbn in H. clear - H Hin. induction l as [|[x y] l IHl]; [destruct Hin|]. apply andb_true_iff in H as [H1 H2]. destruct Hin as [[= -> ->]|Hin]; auto.
Qed.
Definition fine (nd : node) : bool :=
  tree_ok nd && plain nd && mails_ok nd &&
  forallb (fun d => let '(_, (mt, nl, es)) := d in negb (Z.eqb mt 0) && (negb (N.eqb nl 2) || forallb (fun e => negb (dirnode (snd e))) es)) (all_dirs [] nd).
Lemma fine_usable w : fine (w_root w) = true -> usable sha (w_verbatim w) (w_regex w) w.
Proof.
  unfold fine. intros H. apply andb_true_iff in H as [H Hd]. apply andb_true_iff in H as [H Hm]. apply andb_true_iff in H as [Ht Hp].
  rewrite forallb_forall in Hd. split; [now apply possible_on|]. split; [reflexivity|]. split; [reflexivity|]. split; [|split; [|now apply mails_ok_spec]].
  - intros p mt es Hs n sub Hin Hdir _. apply scanned_all, Hd in Hs. apply andb_true_iff in Hs as [_ Hs].
    change (negb (N.eqb 2 2)) with false in Hs. cbn [orb] in Hs. rewrite forallb_forall in Hs. apply Hs in Hin. cbn [snd] in Hin. destruct sub; try discriminate; destruct Hdir.
  - intros p mt es (nl & Hs) ->. apply scanned_all, Hd in Hs. discriminate Hs.
Qed.

(** A mail store; the directory box is moved away; and back. *)
Definition box := NDir 20 2 [(lit "a", mail (lit "a@x")); (lit "b", mail (lit "b@x"))].
Definition with_box := NDir 10 3 [(lit "top", mail (lit "t@x")); (lit "box", box)].
Definition without_box := NDir 11 2 [(lit "top", mail (lit "t@x"))].
Definition box_again := NDir 12 3 [(lit "top", mail (lit "t@x")); (lit "box", box)].
(** A new mail in box. *)
Definition more_mail := NDir 10 3 [(lit "top", mail (lit "t@x")); (lit "box", NDir 30 2 [(lit "a", mail (lit "a@x")); (lit "b", mail (lit "b@x")); (lit "c", mail (lit "c@x"))])].
(** A run on this store, interrupted. *)
Definition stopped (n : nat) (root : node) : new_run :=
  {| w_full_scan := false; w_sync := true; w_tags := [lit "inbox"; lit "unread"]; w_verbatim := [lit "skip"]; w_regex := [];
     w_time := fun _ => 1000%Z; w_root := root; w_ticks := Some n |}.
(** The first state inside the removal of directories of a run. *)
Definition half (w : new_run) (db : ndb) : option ndb :=
  match add_files sha (w_full_scan w) (w_sync w) (w_tags w) (w_verbatim w) (w_regex w) (w_time w) (w_root w) [] (start None db) with
  | Some (true, s1) => match removal_loop sha (w_sync w) (s_removed_files s1) s1 with
                       | Some s2 => hd_error (directory_loop_log sha (w_sync w) (s_removed_dirs s2) s2)
                       | None => None
                       end
  | _ => None
  end.
Lemma half_killed w db db' : half w db = Some db' -> killed sha w db db'.
Proof.
  unfold half. intros H. destruct (add_files _ _ _ _ _ _ _ _ _ _) as [[[|] s1]|] eqn:E1; try discriminate.
  destruct (removal_loop _ _ _ s1) as [s2|] eqn:E2; [|discriminate]. eapply killed_removing; [exact E1|exact E2|].
  destruct (directory_loop_log _ _ _ s2) as [|x l]; [discriminate|]. injection H as <-. now left.
Qed.
Definition half_of (w : new_run) (db : ndb) : ndb := match half w db with Some d => d | None => db end.
