(** Concrete mail stores for the examples of C34 and C35. *)
From Verif Require Import Bytes DocMap MsgId MailStore MailStoreSpec MailStoreProofs Maildir New NewSpec NewProofs NewProofs4 NewProofs5 NewProofs9 NewProofs10 NewProofs11 NewProofs12 P_Threads.
From Coq Require Import Sorted Permutation.

(** Concrete runs. *)
Definition sha (_ : bytes) : bytes := [].
Lemma sha_short : short_hash sha.
Proof. intros s. cbn. lia. Qed.
Definition letter (id : bytes) : mfile := {| f_id := id; f_references := []; f_in_reply_to := []; f_auto_tags := [] |}.
Definition mail (id : bytes) : node := NReg (Some (letter id, [], true)).
Definition on (full : bool) (root : node) : new_run :=
  {| w_full_scan := full; w_sync := true; w_tags := [lit "inbox"; lit "unread"]; w_verbatim := [lit "skip"]; w_regex := [];
     w_time := fun _ => 1000%Z; w_root := root; w_ticks := None |}.
Definition nothing : ndb := {| n_mail := empty_db; n_dirs := [] |}.
Definition after (w : new_run) (db : ndb) : ndb := match run_new sha w db with Some (_, db') => db' | None => db end.
Definition files_of (db : ndb) : list (bytes * list bytes * list bytes) :=
  map (fun kd => (m_id (snd kd), m_files (snd kd), m_tags (snd kd))) (docs (n_mail db)).

Fixpoint tree_ok (nd : node) : bool :=
  match nd with
  | NDir _ _ es => (fix nd (l : list bytes) := match l with [] => true | n :: l => negb (existsb (bseq n) l) && nd l end) (map fst es) &&
      (fix go (es : list (bytes * node)) := match es with [] => true | (n, sub) :: es => negb (bseq n []) && negb (mem SLASH n) && tree_ok sub && go es end) es
  | _ => true
  end.
Lemma tree_ok_good nd : tree_ok nd = true -> good_tree nd.
Proof.
  induction nd as [c|mt nl l IH|mt nl| |] using node_ind'; intros H; try constructor; cbn in H; apply andb_true_iff in H as [H1 H2].
  - clear - H1. induction (map fst l) as [|n k IHk]; constructor.
    + apply andb_true_iff in H1 as [H1 _]. apply negb_true_iff in H1. intros X. apply not_true_iff_false in H1. apply H1. apply existsb_exists. exists n. split; [exact X|apply bseq_refl].
    + apply IHk. now apply andb_true_iff in H1 as [_ H1].
  - induction l as [|[x y] l IHl]; intros n nd Hin; [destruct Hin|].
    apply andb_true_iff in H2 as [H2 H3]. apply andb_true_iff in H2 as [H2 H4]. apply andb_true_iff in H2 as [H2 H5]. apply negb_true_iff in H2, H5.
    destruct Hin as [[= <- <-]|Hin].
    + split; [split; [now apply bseq_neq|exact H5]|]. apply (IH x y); [now left|exact H4].
    + apply IHl; auto. intros a b Hab. apply (IH a b). now right. cbn in H1. now apply andb_true_iff in H1 as [_ H1].
Qed.

Fixpoint plain (nd : node) : bool :=
  match nd with
  | NReg (Some (f, keys, _)) => match f_references f, f_in_reply_to f, keys with [], [], [] => true | _, _, _ => false end
  | NDir _ _ es => (fix go (es : list (bytes * node)) := match es with [] => true | (_, sub) :: es => plain sub && go es end) es
  | _ => true
  end.
Lemma plain_mails nd : plain nd = true -> forall f keys ok, mail_in nd f keys ok -> MailStoreSpec.legal sha (OAdd [] f keys ok).
Proof.
  induction nd as [c|mt nl l IH|mt nl| |] using node_ind'; intros H f keys ok Hm; inversion Hm; subst.
  - cbn in H. destruct f as [i r rt a]. cbn in H. destruct r, rt, keys; try discriminate. split; [|constructor]. cbn. constructor.
  - match goal with A : In _ l, B : mail_in _ f keys ok |- _ => rename A into Hin, B into Hsub end. cbn in H. clear Hm. induction l as [|[x y] l IHl]; [destruct Hin|]. apply andb_true_iff in H as [H1 H2].
    destruct Hin as [[= -> ->]|Hin]; [apply (IH n nd); auto; now left|]. apply IHl; auto. intros a b Hab. apply (IH a b). now right.
Qed.
Lemma possible_on w : tree_ok (w_root w) = true -> plain (w_root w) = true -> possible sha w.
Proof.
  intros H1 H2. split; [now apply tree_ok_good|]. intros f keys ok Hm f' keys' ok' [= <- <- <-]. now apply (plain_mails (w_root w)).
Qed.
Lemma after_reached w db : reached sha db -> possible sha w -> reached sha (after w db).
Proof.
  intros H1 H2. unfold after. destruct (run_new sha w db) as [[e db']|] eqn:E; [|exact H1]. eapply reached_new; eassumption.
Qed.
Definition exit_of (w : new_run) (db : ndb) : option new_exit := option_map fst (run_new sha w db).
Lemma after_run w db e : exit_of w db = Some e -> run_new sha w db = Some (e, after w db).
Proof. unfold exit_of, after. destruct (run_new sha w db) as [[e' db']|]; [|discriminate]. now intros [= <-]. Qed.
Definition owner (db : ndb) (f : bytes) : option bytes := option_map (fun kd => m_id (snd kd)) (find_by_filename f (n_mail db)).
Lemma owner_none db f : owner db f = None -> ~ recorded db f.
Proof.
  unfold owner, find_by_filename. intros E (i & k & d & H & Hin & _). apply dget_In in H.
  destruct (find _ (docs (n_mail db))) as [x|] eqn:F; [discriminate|]. apply (find_none _ _ F) in H. cbn in H.
  apply not_true_iff_false in H. apply H. apply existsb_exists. exists f. split; [exact Hin|apply bseq_refl].
Qed.
Lemma owner_some db f i : inv sha (n_mail db) -> owner db f = Some i -> recorded_for db f i.
Proof.
  unfold owner, find_by_filename. intros Hi E. destruct (find _ (docs (n_mail db))) as [[k d]|] eqn:F; [|discriminate]. injection E as <-.
  apply find_some in F as [F1 F2]. cbn in F2. apply existsb_exists in F2 as (g & Hg & Eg). apply bseq_eq in Eg. subst g.
  exists k, d. split; [|auto]. apply (In_dget_sorted _ _ _ (i_sorted _ _ Hi)). exact F1.
Qed.

(** A mail store, and the same after renaming a, deleting b and adding c. *)
Definition store1 := NDir 10 3 [(lit "top", mail (lit "t@x"));
  (lit "box", NDir 20 2 [(lit "a", mail (lit "a@x")); (lit "b", mail (lit "b@x")); (lit "note", NReg None)]);
  (lit "skip", NDir 5 2 [(lit "z", mail (lit "z@x"))])].
Definition store2 := NDir 10 3 [(lit "top", mail (lit "t@x"));
  (lit "box", NDir 21 2 [(lit "c", mail (lit "c@x")); (lit "moved-a", mail (lit "a@x")); (lit "note", NReg None)]);
  (lit "skip", NDir 5 2 [(lit "z", mail (lit "z@x"))])].
(** box has become a regular file. *)
Definition store3 := NDir 11 2 [(lit "top", mail (lit "t@x")); (lit "box", NReg None)].
(** A symbolic link to an empty directory, in which then a mail appears. *)
Definition store4 := NDir 10 2 [(lit "top", mail (lit "t@x")); (lit "link", NDir 20 2 [])].
Definition store5 := NDir 10 2 [(lit "top", mail (lit "t@x")); (lit "link", NDir 30 2 [(lit "new", mail (lit "n@x"))])].
(** A mail that cannot be read at first. *)
Definition store6 := NDir 10 2 [(lit "top", mail (lit "t@x")); (lit "late", NReg (Some (letter (lit "l@x"), [], false)))].
Definition store7 := NDir 10 2 [(lit "top", mail (lit "t@x")); (lit "late", mail (lit "l@x"))].
(** A directory that cannot be read. *)
Definition store8 := NDir 10 3 [(lit "top", mail (lit "t@x")); (lit "box", NUnreadable 20 2)].
Definition db1 : ndb :=
  let db := after (on false store1) nothing in {| n_mail := retag sha (lit "a@x") [lit "important"] (n_mail db); n_dirs := n_dirs db |}.
Lemma db1_reached : reached sha db1.
Proof. apply (reached_tags sha (lit "a@x") [lit "important"] (after (on false store1) nothing)). apply after_reached; [constructor|]. now apply possible_on. Qed.
