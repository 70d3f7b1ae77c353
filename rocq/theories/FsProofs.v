(** Facts about the file system model. *)
From Verif Require Import Bytes Fs.

Lemma upd_same p f d : upd p f d p = f.
Proof. unfold upd. now rewrite bseq_refl. Qed.
Lemma upd_other p q f d : q <> p -> upd p f d q = d q.
Proof. intros H. unfold upd. apply bseq_neq in H. now rewrite H. Qed.

(** Invariant: all states seen agree with [d] but for the temporary file. *)
Definition only (t : bytes) (d : fs) (s : fs) : Prop := forall p, p <> t -> s p = d p.
Lemma seen_goto s w : seen (goto s w) = seen w ++ [s].
Proof. reflexivity. Qed.
Lemma Forall_now (P : fs -> Prop) w : Forall P (seen w) -> P (now w).
Proof. unfold seen. rewrite Forall_app. intros [_ H]. now inversion H. Qed.
Lemma only_goto t d f w : Forall (only t d) (seen w) -> Forall (only t d) (seen (goto (upd t f (now w)) w)).
Proof.
  intros H. rewrite seen_goto. apply Forall_app. split; [exact H|]. constructor; [|constructor]. intros p Hp. rewrite upd_other by exact Hp. now apply (Forall_now _ _ H).
Qed.
Lemma only_append t d b w : Forall (only t d) (seen w) -> Forall (only t d) (seen (sys_append t b w)).
Proof. intros H. unfold sys_append. destruct (now w t); [now apply only_goto|exact H]. Qed.
Lemma only_fsync t d w : Forall (only t d) (seen w) -> Forall (only t d) (seen (sys_fsync t w)).
Proof. intros H. unfold sys_fsync. destruct (now w t); [now apply only_goto|exact H]. Qed.
Lemma only_create t d w : Forall (only t d) (seen w) -> Forall (only t d) (seen (sys_create t w)).
Proof. intros H. now apply only_goto. Qed.
Lemma only_unlink t d w : Forall (only t d) (seen w) -> Forall (only t d) (seen (sys_unlink t w)).
Proof. intros H. now apply only_goto. Qed.
