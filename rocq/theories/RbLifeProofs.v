(** For C95: programs that keep what they need never touch memory that is free. *)
From Verif Require Import RbLife RbLifeSpec.
From Coq Require Import Arith Bool List Lia.
Import ListNotations.
Local Open Scope nat_scope.

Definition dbof (s : state) (r : obj) (d : block) : Prop :=
  exists rd, live s (o_db r) rd /\ o_cls rd = Database /\ o_of rd = Some d.
Definition member (s : state) (th : option nat) (m : block) : Prop :=
  m < next_block s /\
  ((exists x r, objs s x = Some r /\ o_of r = Some m) \/
   (exists t rt tb d reps, th = Some t /\ live s t rt /\ o_cls rt = Thread /\ o_of rt = Some tb /\ mem s m = Some {| parent := Some tb; what := KMsg d reps |})).
Definition fits (s : state) (x : nat) (r : obj) (k : kind) : Prop :=
  match o_cls r, k with
  | Database, KDb _ _ => o_db r = x
  | Directory, KDir d | Query, KQuery d => dbof s r d
  | Messages, KMset d => dbof s r d
  | Threads, KThreads q => exists y ry, o_parent r = Some y /\ live s y ry /\ o_cls ry = Query /\ o_of ry = Some q /\ o_db ry = o_db r
  | Thread, KThread d all top => dbof s r d /\ forall m, In m all \/ In m top -> member s (Some x) m
  | Messages, KList owner rest =>
      (exists y ry, o_parent r = Some y /\ live s y ry /\ ((o_cls ry = Thread /\ o_thread r = Some y) \/ o_cls ry = Message) /\ o_of ry = Some owner) /\
      forall m, In m rest -> member s (o_thread r) m
  | Message, KMsg d reps => dbof s r d /\ forall m, In m reps -> member s (o_thread r) m
  | _, _ => False
  end.
Record D (s : state) : Prop := {
  d_bound : forall x r, objs s x = Some r -> x < next_obj s /\ (forall p, o_of r = Some p -> p < next_block s) /\ (forall w, o_data r = Some w -> w < next_block s);
  d_live : forall x r, live s x r -> exists w, o_data r = Some w /\ mem s w = Some {| parent := None; what := KWrap (o_of r) |} /\
           match o_of r with
           | Some p => exists k, mem s p = Some {| parent := Some w; what := k |} /\ fits s x r k
           | None => o_cls r = Messages /\ exists y ry, o_parent r = Some y /\ objs s y = Some ry /\ o_cls ry <> Query
           end;
  d_uniq : forall x y r r' p, objs s x = Some r -> objs s y = Some r' -> o_of r = Some p -> o_of r' = Some p -> x = y;
  d_uniqw : forall x y r r' w, objs s x = Some r -> objs s y = Some r' -> o_data r = Some w -> o_data r' = Some w -> x = y;
  d_db : forall x r, live s x r -> exists rd, live s (o_db r) rd /\ o_cls rd = Database;
  d_thread : forall x r t, live s x r -> o_thread r = Some t -> exists rt, live s t rt /\ o_cls rt = Thread /\ o_db rt = o_db r;
  d_family : forall t rt tb m d reps, live s t rt -> o_cls rt = Thread -> o_of rt = Some tb -> mem s m = Some {| parent := Some tb; what := KMsg d reps |} ->
             dbof s rt d /\ forall m', In m' reps -> member s (Some t) m';
  d_loops : forall o p, In (o, p) (loops s) -> exists r, live s o r /\ o_of r = p /\ (o_cls r = Threads \/ o_cls r = Messages);
  d_mem : forall b, next_block s <= b -> mem s b = None;
  d_par : forall b ch tb, mem s b = Some ch -> parent ch = Some tb -> tb < next_block s
}.

Lemma D_empty : D empty.
Proof. constructor; unfold live; simpl; intros; try discriminate; try (destruct H; discriminate); auto; contradiction. Qed.

Lemma upd_same A (f : nat -> option A) x v : upd f x v x = v.
Proof. unfold upd. now rewrite Nat.eqb_refl. Qed.
Lemma upd_other A (f : nat -> option A) x y v : y <> x -> upd f x v y = f y.
Proof. intros H. unfold upd. apply Nat.eqb_neq in H. now rewrite H. Qed.

Lemma option_eq_dec (o : option block) (m : block) : {o = Some m} + {Some m <> o}.
Proof. destruct o as [p|]; [|right; discriminate]. destruct (Nat.eq_dec p m) as [->|N]; [left; auto|right; congruence]. Qed.
(** *** A new object *)
Record added (s s' : state) (n : nat) (rn : obj) (w : block) (k : kind) : Prop := {
  a_n : n = next_obj s;
  a_nb : next_block s <= next_block s';
  a_obj : objs s' = upd (objs s) n (Some rn);
  a_next : next_obj s' = S n;
  a_loops : loops s' = loops s;
  a_old : forall b, b < next_block s -> Some b <> o_of rn -> mem s' b = mem s b;
  a_w : mem s' w = Some {| parent := None; what := KWrap (o_of rn) |};
  a_wn : next_block s <= w < next_block s';
  a_data : o_data rn = Some w;
  a_gone : o_gone rn = false;
  a_ptr : match o_of rn with
          | Some p => p < next_block s' /\ mem s' p = Some {| parent := Some w; what := k |} /\ (forall x r, objs s x = Some r -> o_of r <> Some p) /\ (forall x r, live s x r -> o_data r <> Some p)
          | None => o_cls rn = Messages /\ exists y ry, o_parent rn = Some y /\ objs s y = Some ry /\ o_cls ry <> Query
          end;
  a_db : (exists y ry, live s y ry /\ o_db ry = o_db rn) \/ (o_cls rn = Database /\ o_db rn = n);
  a_thread : forall t, o_thread rn = Some t -> exists rt, live s t rt /\ o_cls rt = Thread /\ o_db rt = o_db rn;
  a_newpar : forall b ch tb, next_block s <= b -> mem s' b = Some ch -> parent ch = Some tb -> next_block s <= tb;
  a_mem : forall b, next_block s' <= b -> mem s' b = None;
  a_par : forall b ch tb, mem s' b = Some ch -> parent ch = Some tb -> tb < next_block s'
}.
Section Added.
Variables (s s' : state) (n : nat) (rn : obj) (w : block) (k : kind).
Hypothesis HD : D s.
Hypothesis HA : added s s' n rn w k.
Lemma ad_live x r : live s x r -> live s' x r.
Proof. intros (A & B & C). split; [|auto]. rewrite (a_obj _ _ _ _ _ _ HA), upd_other; auto.
  apply (d_bound _ HD) in A. rewrite (a_n _ _ _ _ _ _ HA). lia. Qed.
Lemma ad_old x r : objs s x = Some r -> objs s' x = Some r.
Proof. intros A. rewrite (a_obj _ _ _ _ _ _ HA), upd_other; auto. apply (d_bound _ HD) in A. rewrite (a_n _ _ _ _ _ _ HA). lia. Qed.
Lemma ad_new : objs s' n = Some rn.
Proof. rewrite (a_obj _ _ _ _ _ _ HA). apply upd_same. Qed.
Lemma ad_case x r : objs s' x = Some r -> (x = n /\ r = rn) \/ (x <> n /\ objs s x = Some r).
Proof. rewrite (a_obj _ _ _ _ _ _ HA). unfold upd. destruct (Nat.eqb_spec x n); intros E; [left; split; congruence|right; auto]. Qed.
Lemma ad_livecase x r : live s' x r -> (x = n /\ r = rn) \/ (x <> n /\ live s x r).
Proof. intros (A & B). apply ad_case in A. destruct A as [|[? ?]]; [left; auto|right; split; [auto|split; auto]]. Qed.
Lemma ad_newlive : live s' n rn.
Proof. split; [apply ad_new|]. rewrite (a_gone _ _ _ _ _ _ HA), (a_data _ _ _ _ _ _ HA). split; [auto|discriminate]. Qed.
Lemma ad_member th m : member s th m -> member s' th m.
Proof.
  intros (L & M). pose proof (a_nb _ _ _ _ _ _ HA). split; [lia|]. destruct M as [(x & r & A & B)|(t & rt & tb & d & reps & A & B & C & E & F)].
  - left. exists x, r. split; [now apply ad_old|auto].
  - destruct (option_eq_dec (o_of rn) m) as [Ep|Ep].
    + left. exists n, rn. split; [apply ad_new|auto].
    + right. exists t, rt, tb, d, reps. split; [auto|]. split; [now apply ad_live|]. split; [auto|]. split; [auto|].
      rewrite (a_old _ _ _ _ _ _ HA); auto.
Qed.
Lemma ad_dbof r d : dbof s r d -> dbof s' r d.
Proof. intros (rd & A & B). exists rd. split; [now apply ad_live|auto]. Qed.
Lemma ad_fits x r k0 : fits s x r k0 -> fits s' x r k0.
Proof.
  unfold fits. destruct (o_cls r), k0; auto; try (now apply ad_dbof).
  - intros (y & ry & A & B & C). exists y, ry. split; [auto|]. split; [now apply ad_live|auto].
  - intros (A & B). split; [now apply ad_dbof|]. intros m Hm. apply ad_member. auto.
  - intros ((y & ry & A & B & C) & E). split; [exists y, ry; split; [auto|]; split; [now apply ad_live|auto]|]. intros m Hm. apply ad_member. auto.
  - intros (A & B). split; [now apply ad_dbof|]. intros m Hm. apply ad_member. auto.
Qed.
Lemma ad_block x r p : objs s x = Some r -> o_of r = Some p -> mem s' p = mem s p.
Proof.
  intros A B. apply (a_old _ _ _ _ _ _ HA).
  - apply (d_bound _ HD) in A. destruct A as (_ & A & _). auto.
  - intros E. pose proof (a_ptr _ _ _ _ _ _ HA) as P. rewrite <- E in P. destruct P as (_ & _ & P & _). apply (P _ _ A B).
Qed.
Lemma added_D :
  match o_of rn with Some p => fits s' n rn k | None => True end ->
  (forall tb m d reps, o_cls rn = Thread -> o_of rn = Some tb -> mem s' m = Some {| parent := Some tb; what := KMsg d reps |} ->
     dbof s' rn d /\ forall m', In m' reps -> member s' (Some n) m') ->
  D s'.
Proof.
  intros Hfit Hfam. pose proof (a_nb _ _ _ _ _ _ HA) as Hnb. pose proof (a_wn _ _ _ _ _ _ HA) as Hw.
  constructor.
  - intros x r H. apply ad_case in H. rewrite (a_next _ _ _ _ _ _ HA). destruct H as [[-> ->]|[Ne H]].
    + split; [lia|]. split.
      * intros p Hp. pose proof (a_ptr _ _ _ _ _ _ HA) as P. rewrite Hp in P. tauto.
      * intros w0 Hw0. rewrite (a_data _ _ _ _ _ _ HA) in Hw0. injection Hw0 as <-. lia.
    + destruct (d_bound _ HD _ _ H) as (A & B & C). rewrite (a_n _ _ _ _ _ _ HA). split; [lia|]. split; intros; [specialize (B _ H0)|specialize (C _ H0)]; lia.
  - intros x r H. apply ad_livecase in H. destruct H as [[-> ->]|[Ne H]].
    + exists w. split; [apply (a_data _ _ _ _ _ _ HA)|]. split; [apply (a_w _ _ _ _ _ _ HA)|].
      pose proof (a_ptr _ _ _ _ _ _ HA) as P. destruct (o_of rn).
      * exists k. split; [tauto|auto].
      * destruct P as (P1 & y & ry & P2 & P3 & P4). split; [auto|]. exists y, ry. split; [auto|]. split; [now apply ad_old|auto].
    + destruct (d_live _ HD _ _ H) as (w0 & A & B & C). exists w0. split; [auto|]. pose proof H as HL. destruct H as (H & _).
      assert (Hw0 : w0 < next_block s) by (apply (d_bound _ HD) in H; destruct H as (_ & _ & H); auto).
      split.
      * rewrite (a_old _ _ _ _ _ _ HA); auto. intros E. pose proof (a_ptr _ _ _ _ _ _ HA) as P. rewrite <- E in P.
        destruct P as (_ & _ & _ & P). apply (P _ _ HL A).
      * destruct (o_of r) as [p|] eqn:Ep; [|destruct C as (P1 & y & ry & P2 & P3 & P4); split; [auto|]; exists y, ry; split; [auto|]; split; [now apply ad_old|auto]].
        destruct C as (k0 & C & E). exists k0. rewrite (ad_block _ _ _ H Ep). split; [auto|]. now apply ad_fits.
  - intros x y r r' p Hx Hy Ox Oy. pose proof (a_ptr _ _ _ _ _ _ HA) as P.
    apply ad_case in Hx. apply ad_case in Hy. destruct Hx as [[-> ->]|[Nx Hx]], Hy as [[-> ->]|[Ny Hy]]; auto.
    + rewrite Ox in P. destruct P as (_ & _ & P & _). destruct (P _ _ Hy Oy).
    + rewrite Oy in P. destruct P as (_ & _ & P & _). destruct (P _ _ Hx Ox).
    + apply (d_uniq _ HD _ _ _ _ _ Hx Hy Ox Oy).
  - intros x y r r' w0 Hx Hy Ox Oy.
    apply ad_case in Hx. apply ad_case in Hy. destruct Hx as [[-> ->]|[Nx Hx]], Hy as [[-> ->]|[Ny Hy]]; auto.
    + rewrite (a_data _ _ _ _ _ _ HA) in Ox. injection Ox as <-. apply (d_bound _ HD) in Hy. destruct Hy as (_ & _ & Hy). specialize (Hy _ Oy). lia.
    + rewrite (a_data _ _ _ _ _ _ HA) in Oy. injection Oy as <-. apply (d_bound _ HD) in Hx. destruct Hx as (_ & _ & Hx). specialize (Hx _ Ox). lia.
    + apply (d_uniqw _ HD _ _ _ _ _ Hx Hy Ox Oy).
  - intros x r H. apply ad_livecase in H. destruct H as [[-> ->]|[Ne H]].
    + destruct (a_db _ _ _ _ _ _ HA) as [(y & ry & A & B)|[A B]].
      * destruct (d_db _ HD _ _ A) as (rd & C & E). exists rd. rewrite <- B. split; [now apply ad_live|auto].
      * exists rn. rewrite B. split; [apply ad_newlive|auto].
    + destruct (d_db _ HD _ _ H) as (rd & C & E). exists rd. split; [now apply ad_live|auto].
  - intros x r t H Ht. apply ad_livecase in H. destruct H as [[-> ->]|[Ne H]].
    + destruct (a_thread _ _ _ _ _ _ HA _ Ht) as (rt & A & B). exists rt. split; [now apply ad_live|auto].
    + destruct (d_thread _ HD _ _ _ H Ht) as (rt & A & B). exists rt. split; [now apply ad_live|auto].
  - intros t rt tb m d reps H Hc Ho Hm. apply ad_livecase in H. destruct H as [[-> ->]|[Ne H]]; [eapply Hfam; eauto|].
    assert (Htb : tb < next_block s) by (destruct H as (H & _); apply (d_bound _ HD) in H; destruct H as (_ & H & _); auto).
    assert (Hlt : m < next_block s) by (destruct (le_lt_dec (next_block s) m); auto; pose proof (a_newpar _ _ _ _ _ _ HA _ _ tb l Hm eq_refl); lia).
    assert (Hne : Some m <> o_of rn).
    { intros E. pose proof (a_ptr _ _ _ _ _ _ HA) as P. rewrite <- E in P. destruct P as (_ & P & _). rewrite Hm in P. injection P as E1 _. lia. }
    rewrite (a_old _ _ _ _ _ _ HA) in Hm; auto.
    destruct (d_family _ HD _ _ _ _ _ _ H Hc Ho Hm) as (A & B). split; [now apply ad_dbof|]. intros m' Hm'. apply ad_member. auto.
  - intros o p H. rewrite (a_loops _ _ _ _ _ _ HA) in H. destruct (d_loops _ HD _ _ H) as (r & A & B). exists r. split; [now apply ad_live|auto].
  - apply (a_mem _ _ _ _ _ _ HA).
  - apply (a_par _ _ _ _ _ _ HA).
Qed.
End Added.
