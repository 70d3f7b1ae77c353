(** Bytes and C strings.

    A byte is [ascii].  A C string is the [list ascii] of its bytes before the
    terminating NUL; a [char*] walking over it is the remaining suffix, and
    dereferencing the pointer at the end gives NUL ([peek]).  *)

From Coq Require Export Ascii String List Bool Arith NArith ZArith Lia.
Export ListNotations.
Local Open Scope N_scope.

Notation byte := ascii (only parsing).
Notation bytes := (list ascii) (only parsing).

(** String literals as byte lists, for readable constants. *)
Definition lit (s : string) : bytes := list_ascii_of_string s.

(** C char as an unsigned code (C language). *)
Definition code (c : byte) : N := N_of_ascii c.
(** the char with a code (C language). *)
Definition chr (n : N) : byte := ascii_of_N n.
(** the C string terminator. *)
Definition NUL : byte := Ascii.zero.
(** char ==. *)
Definition beq (a b : byte) : bool := Ascii.eqb a b.

(** [*p] for a [char *p] pointing into a NUL-terminated string. *)
Definition peek (p : bytes) : byte := match p with [] => NUL | c :: _ => c end.

(** A representable C string: no embedded NUL. *)
Definition nonul (c : byte) : bool := negb (beq c NUL).
(** a C string: bytes without a NUL (C language). *)
Definition cstr (s : bytes) : Prop := forallb nonul s = true.

(** Equality of byte strings ([strcmp (a, b) == 0]). *)
Fixpoint bseq (a b : bytes) : bool :=
  match a, b with
  | [], [] => true
  | x :: a', y :: b' => beq x y && bseq a' b'
  | _, _ => false
  end.

(** [strcmp] as an order: unsigned bytewise lexicographic comparison. *)
Fixpoint bcmp (a b : bytes) : comparison :=
  match a, b with
  | [], [] => Eq
  | [], _ :: _ => Lt
  | _ :: _, [] => Gt
  | x :: a', y :: b' =>
      match N.compare (code x) (code y) with
      | Eq => bcmp a' b'
      | c => c
      end
  end.

(** strcmp order: < (C library). *)
Definition bltb (a b : bytes) : bool := match bcmp a b with Lt => true | _ => false end.
(** strcmp order: <= (C library). *)
Definition bleb (a b : bytes) : bool := match bcmp a b with Gt => false | _ => true end.

(** [strchr (s, c) != NULL] for [c] not NUL; C's [strchr] also finds the
    terminator when [c] is NUL, which callers must take into account. *)
Definition mem (c : byte) (s : bytes) : bool := existsb (beq c) s.
(** strchr (C library), as found / not found. *)
Definition strchr_found (s : bytes) (c : byte) : bool := beq c NUL || mem c s.

(** Prefix test ([strncmp (s, p, strlen (p)) == 0]) and remainder. *)
Fixpoint strip_prefix (p s : bytes) : option bytes :=
  match p, s with
  | [], _ => Some s
  | _ :: _, [] => None
  | a :: p', b :: s' => if beq a b then strip_prefix p' s' else None
  end.
(** strncmp (s, p, strlen (p)) == 0 (C library). *)
Definition starts_with (p s : bytes) : bool :=
  match strip_prefix p s with Some _ => true | None => false end.

(** C locale [isspace], [isxdigit], [isdigit], [isalnum]. *)
Definition isspace (c : byte) : bool :=
  let n := code c in (n =? 32) || ((9 <=? n) && (n <=? 13)).
(** ctype.h, C locale. *)
Definition isdigit (c : byte) : bool :=
  let n := code c in (48 <=? n) && (n <=? 57).
(** ctype.h, C locale. *)
Definition isupper (c : byte) : bool :=
  let n := code c in (65 <=? n) && (n <=? 90).
(** ctype.h, C locale. *)
Definition islower (c : byte) : bool :=
  let n := code c in (97 <=? n) && (n <=? 122).
(** ctype.h, C locale. *)
Definition isalnum (c : byte) : bool := isdigit c || isupper c || islower c.
(** ctype.h, C locale. *)
Definition isxdigit (c : byte) : bool :=
  let n := code c in
  isdigit c || ((65 <=? n) && (n <=? 70)) || ((97 <=? n) && (n <=? 102)).
(** ctype.h, C locale. *)
Definition tolower (c : byte) : byte := if isupper c then chr (code c + 32) else c.

(** Longest prefix satisfying / not satisfying a predicate. *)
Fixpoint span (f : byte -> bool) (s : bytes) : bytes * bytes :=
  match s with
  | [] => ([], [])
  | c :: s' => if f c then let '(a, b) := span f s' in (c :: a, b) else ([], s)
  end.
(** helper for strspn-style pointer advance (C library). *)
Fixpoint dropwhile (f : byte -> bool) (s : bytes) : bytes :=
  match s with
  | [] => []
  | c :: s' => if f c then dropwhile f s' else s
  end.
(** helper for strspn (C library). *)
Fixpoint takewhile (f : byte -> bool) (s : bytes) : bytes :=
  match s with
  | [] => []
  | c :: s' => if f c then c :: takewhile f s' else []
  end.

(** Finite sweep over all 256 byte values. *)
Definition bools : list bool := [false; true].
(** the 256 chars. *)
Definition all_bytes : list byte :=
  flat_map (fun a => flat_map (fun b => flat_map (fun c => flat_map (fun d =>
  flat_map (fun e => flat_map (fun f => flat_map (fun g => map (fun h =>
    Ascii a b c d e f g h) bools) bools) bools) bools) bools) bools) bools) bools.

Lemma all_bytes_complete : forall c, In c all_bytes.
Proof.
  assert (Hb : forall b : bool, In b bools) by (intros [|]; cbn; auto).
  intros [a b c d e f g h]. unfold all_bytes.
  repeat (apply in_flat_map; eexists; split; [apply Hb|]).
  apply in_map. apply Hb.
Qed.

Lemma byte_sweep (f : byte -> bool) : forallb f all_bytes = true -> forall c, f c = true.
Proof. intros H c. exact (proj1 (forallb_forall f all_bytes) H c (all_bytes_complete c)). Qed.

Lemma byte_sweep2 (f : byte -> byte -> bool) :
  forallb (fun a => forallb (f a) all_bytes) all_bytes = true -> forall a b, f a b = true.
Proof. intros H a. apply byte_sweep. exact (byte_sweep _ H a). Qed.

(** Basic facts. *)
Lemma beq_spec a b : reflect (a = b) (beq a b).
Proof. apply Ascii.eqb_spec. Qed.
Lemma beq_refl a : beq a a = true.
Proof. apply Ascii.eqb_refl. Qed.
Lemma beq_eq a b : beq a b = true <-> a = b.
Proof. apply Ascii.eqb_eq. Qed.
Lemma beq_neq a b : beq a b = false <-> a <> b.
Proof. apply Ascii.eqb_neq. Qed.
Lemma beq_sym a b : beq a b = beq b a.
Proof. destruct (beq_spec a b), (beq_spec b a); congruence. Qed.

Lemma bseq_refl a : bseq a a = true.
Proof. induction a; cbn; rewrite ?beq_refl; auto. Qed.
Lemma bseq_eq a b : bseq a b = true <-> a = b.
Proof.
  split; [|intros ->; apply bseq_refl].
  revert b; induction a as [|x a IH]; intros [|y b]; cbn; try congruence.
  rewrite andb_true_iff, beq_eq. intros [-> H]; f_equal; auto.
Qed.
Lemma bseq_spec a b : reflect (a = b) (bseq a b).
Proof. apply iff_reflect. symmetry. apply bseq_eq. Qed.
Lemma bseq_neq a b : bseq a b = false <-> a <> b.
Proof. destruct (bseq_spec a b); split; congruence. Qed.
Lemma bseq_sym a b : bseq a b = bseq b a.
Proof. destruct (bseq_spec a b), (bseq_spec b a); congruence. Qed.

(** strcmp == 0 (C library). *)
Definition bytes_eq_dec (a b : bytes) : {a = b} + {a <> b}.
Proof. destruct (bseq a b) eqn:E; [left|right]; [now apply bseq_eq|now apply bseq_neq]. Defined.

Lemma code_inj a b : code a = code b -> a = b.
Proof. unfold code. intros H. rewrite <- (ascii_N_embedding a), <- (ascii_N_embedding b). congruence. Qed.
Lemma code_lt c : code c < 256.
Proof. unfold code. apply N_ascii_bounded. Qed.
Lemma chr_code c : chr (code c) = c.
Proof. apply ascii_N_embedding. Qed.
Lemma code_chr n : n < 256 -> code (chr n) = n.
Proof. apply N_ascii_embedding. Qed.

Lemma cstr_cons c s : cstr (c :: s) <-> c <> NUL /\ cstr s.
Proof. unfold cstr; cbn. rewrite andb_true_iff. unfold nonul. rewrite negb_true_iff, beq_neq. tauto. Qed.
Lemma cstr_app a b : cstr (a ++ b) <-> cstr a /\ cstr b.
Proof. unfold cstr. rewrite forallb_app, andb_true_iff. tauto. Qed.
Lemma cstr_nil : cstr [].
Proof. reflexivity. Qed.
Lemma cstr_In s c : cstr s -> In c s -> c <> NUL.
Proof.
  unfold cstr. rewrite forallb_forall. intros H Hin. specialize (H c Hin).
  unfold nonul in H. apply negb_true_iff, beq_neq in H. exact H.
Qed.

Lemma mem_In c s : mem c s = true <-> In c s.
Proof.
  unfold mem. rewrite existsb_exists. split.
  - intros (x & Hx & E). apply beq_eq in E. subst; auto.
  - intros H. exists c. now rewrite beq_refl.
Qed.
Lemma mem_not_In c s : mem c s = false <-> ~ In c s.
Proof. rewrite <- mem_In. destruct (mem c s); split; congruence. Qed.

Lemma strip_prefix_app p s : strip_prefix p (p ++ s) = Some s.
Proof. induction p; cbn; rewrite ?beq_refl; auto. Qed.
Lemma strip_prefix_Some p s r : strip_prefix p s = Some r <-> s = p ++ r.
Proof.
  split.
  - revert s; induction p as [|a p IH]; intros s; cbn; [congruence|].
    destruct s as [|b s]; [congruence|].
    destruct (beq_spec a b); [|congruence]. intros H. subst. f_equal. auto.
  - intros ->. apply strip_prefix_app.
Qed.
Lemma starts_with_app p s : starts_with p s = true <-> exists r, s = p ++ r.
Proof.
  unfold starts_with. destruct (strip_prefix p s) eqn:E.
  - apply strip_prefix_Some in E. split; eauto.
  - split; [congruence|]. intros [r H]. rewrite H, strip_prefix_app in E. congruence.
Qed.

(** Order facts for [bcmp] (C's strcmp). *)
Lemma bcmp_refl a : bcmp a a = Eq.
Proof. induction a as [|x a IH]; cbn; rewrite ?N.compare_refl; auto. Qed.
Lemma bcmp_eq a b : bcmp a b = Eq <-> a = b.
Proof.
  split; [|intros ->; apply bcmp_refl].
  revert b; induction a as [|x a IH]; intros [|y b]; cbn; try congruence.
  destruct (N.compare_spec (code x) (code y)) as [E|E|E]; try congruence.
  intros H. apply code_inj in E. subst. f_equal. auto.
Qed.
Lemma bcmp_antisym a b : bcmp b a = CompOpp (bcmp a b).
Proof.
  revert b; induction a as [|x a IH]; intros [|y b]; cbn; auto.
  rewrite (N.compare_antisym (code x) (code y)).
  destruct (N.compare (code x) (code y)); cbn; auto.
Qed.
Lemma bcmp_trans_lt a b c : bcmp a b = Lt -> bcmp b c = Lt -> bcmp a c = Lt.
Proof.
  revert b c; induction a as [|x a IH]; intros [|y b] [|z c]; cbn; try congruence.
  destruct (N.compare_spec (code x) (code y)) as [E1|E1|E1];
  destruct (N.compare_spec (code y) (code z)) as [E2|E2|E2]; intros H1 H2; try congruence.
  - apply code_inj in E1, E2. subst. rewrite N.compare_refl. eauto.
  - apply code_inj in E1. subst. apply N.compare_lt_iff in E2. now rewrite E2.
  - apply code_inj in E2. subst. apply N.compare_lt_iff in E1. now rewrite E1.
  - assert (E : code x < code z) by lia. apply N.compare_lt_iff in E. now rewrite E.
Qed.
Lemma bltb_irrefl a : bltb a a = false.
Proof. unfold bltb. now rewrite bcmp_refl. Qed.
Lemma bltb_trans a b c : bltb a b = true -> bltb b c = true -> bltb a c = true.
Proof.
  unfold bltb. destruct (bcmp a b) eqn:E1; try congruence.
  destruct (bcmp b c) eqn:E2; try congruence. intros _ _.
  now rewrite (bcmp_trans_lt _ _ _ E1 E2).
Qed.
Lemma bltb_bleb_neg a b : bltb a b = negb (bleb b a).
Proof. unfold bltb, bleb. rewrite (bcmp_antisym a b). now destruct (bcmp a b). Qed.
Lemma bleb_refl a : bleb a a = true.
Proof. unfold bleb. now rewrite bcmp_refl. Qed.
Lemma bleb_total a b : bleb a b = true \/ bleb b a = true.
Proof. unfold bleb. rewrite (bcmp_antisym a b). destruct (bcmp a b); cbn; auto. Qed.
Lemma bleb_antisym a b : bleb a b = true -> bleb b a = true -> a = b.
Proof.
  unfold bleb. rewrite (bcmp_antisym a b). destruct (bcmp a b) eqn:E; cbn; try congruence.
  intros _ _. now apply bcmp_eq.
Qed.
Lemma bleb_lt_or_eq a b : bleb a b = true <-> bltb a b = true \/ a = b.
Proof.
  unfold bleb, bltb. destruct (bcmp a b) eqn:E.
  - apply bcmp_eq in E. tauto.
  - tauto.
  - split; [congruence|]. intros [H|H]; [congruence|]. subst. rewrite bcmp_refl in E. congruence.
Qed.
Lemma bleb_trans a b c : bleb a b = true -> bleb b c = true -> bleb a c = true.
Proof.
  rewrite !bleb_lt_or_eq. intros [H1| ->] [H2| ->]; auto. left. eapply bltb_trans; eauto.
Qed.

(** [span], [takewhile], [dropwhile]. *)
Lemma span_eq f s : span f s = (takewhile f s, dropwhile f s).
Proof. induction s as [|c s IH]; cbn; auto. rewrite IH. now destruct (f c). Qed.
Lemma take_drop f s : takewhile f s ++ dropwhile f s = s.
Proof. induction s as [|c s IH]; cbn; auto. destruct (f c); cbn; congruence. Qed.
Lemma takewhile_all f s : forallb f (takewhile f s) = true.
Proof. induction s as [|c s IH]; cbn; auto. destruct (f c) eqn:E; cbn; rewrite ?E; auto. Qed.
Lemma takewhile_app_stop f a b :
  forallb f a = true -> f (peek b) = false \/ b = [] -> takewhile f (a ++ b) = a.
Proof.
  induction a as [|c a IH]; cbn.
  - intros _ [H| ->]; auto. destruct b as [|x b]; auto. cbn in H |- *. now rewrite H.
  - rewrite andb_true_iff. intros [-> H] Hb. f_equal. auto.
Qed.
Lemma dropwhile_app_stop f a b :
  forallb f a = true -> f (peek b) = false \/ b = [] -> dropwhile f (a ++ b) = b.
Proof.
  induction a as [|c a IH]; cbn.
  - intros _ [H| ->]; auto. destruct b as [|x b]; auto. cbn in H |- *. now rewrite H.
  - rewrite andb_true_iff. intros [-> H] Hb. auto.
Qed.
Lemma dropwhile_head f s : match dropwhile f s with [] => True | c :: _ => f c = false end.
Proof. induction s as [|c s IH]; cbn; auto. destruct (f c) eqn:E; auto. Qed.
Lemma dropwhile_stop f s : f (peek s) = false \/ s = [] -> dropwhile f s = s.
Proof. intros H. now apply (dropwhile_app_stop f [] s). Qed.
Lemma dropwhile_length f s : (length (dropwhile f s) <= length s)%nat.
Proof. induction s as [|c s IH]; cbn; auto. destruct (f c); cbn; lia. Qed.
Lemma dropwhile_forall f s : forallb f s = true -> dropwhile f s = [].
Proof. induction s as [|c s IH]; cbn; auto. rewrite andb_true_iff. intros [-> H]; auto. Qed.
Lemma takewhile_forall f s : forallb f s = true -> takewhile f s = s.
Proof. induction s as [|c s IH]; cbn; auto. rewrite andb_true_iff. intros [-> H]; f_equal; auto. Qed.

Lemma forallb_In {A} (f : A -> bool) l x : forallb f l = true -> In x l -> f x = true.
Proof. rewrite forallb_forall. auto. Qed.

(** Length arithmetic. *)
Ltac len := rewrite ?app_length; cbn [length app]; rewrite ?app_length; cbn [length app];
            rewrite ?app_length; cbn [length app]; lia.

Lemma length_ind {A} (P : list A -> Prop) :
  (forall l, (forall l', (length l' < length l)%nat -> P l') -> P l) -> forall l, P l.
Proof.
  intros H l. assert (G : forall n l', (length l' < n)%nat -> P l').
  { induction n as [|n IH]; intros l' Hl; [lia|]. apply H. intros l'' Hl'. apply IH. lia. }
  apply (G (S (length l))). lia.
Qed.
