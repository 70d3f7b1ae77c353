(** Vocabulary for C88: sets of texts. *)
From Coq Require Import Sorting.Sorted.
From Verif Require Import Bytes PyTags.

(** A text that can be a tag: it has an encoding, without NUL and not longer than the limit. *)
Definition taggable (s : text) : Prop := exists b, encode s = Some b /\ ~ In NUL b /\ (length b <= 200)%nat.
(** A text that has an encoding. *)
Definition encodable (s : text) : Prop := exists b, encode s = Some b.
(** The tags of a message all of whose tags are such texts, as the library keeps them. *)
Definition well_tagged (l : list bytes) : Prop :=
  StronglySorted (fun a b => bcmp a b = Lt) l /\ Forall (fun b => exists s, encode s = Some b /\ ~ In NUL b /\ (length b <= 200)%nat) l.
(** The message has the tag s. *)
Definition has (l : list bytes) (s : text) : Prop := exists b, encode s = Some b /\ In b l.
(** The other operand has s. *)
Definition other_has (self : list bytes) (o : other) (s : text) : Prop :=
  match o with
  | PySet l | PyList l => In (Str s) l
  | TagsOf t => has t s
  | Self => has self s
  end.
(** An operand of texts that all satisfy P: a set (so without duplicates), a list, or tags. *)
Definition texts (P : text -> Prop) (o : other) : Prop :=
  match o with
  | PySet l => NoDup l /\ Forall (fun v => exists s, v = Str s /\ P s) l
  | PyList l => Forall (fun v => exists s, v = Str s /\ P s) l
  | TagsOf t => well_tagged t
  | Self => True
  end.
(** The result of an operation is the set of the texts with P. *)
Definition is_set_of (r : res (list pyval)) (P : text -> Prop) : Prop :=
  exists l, r = Ok l /\ NoDup l /\ forall v, In v l <-> exists s, v = Str s /\ P s.
(** The result of a comparison is whether P. *)
Definition tells (r : res bool) (P : Prop) : Prop := exists b, r = Ok b /\ (b = true <-> P).
(** The operands a call can be given. *)
Definition proper (c : change) : Prop :=
  match c with
  | Add v | Discard v | Remove v => exists s, v = Str s /\ taggable s
  | Clear | Pop => True
  | Ior o | Iand o | Ixor o | Isub o => texts taggable o
  end.
(** What a call means for the set [T] of tags; [None]: it must raise KeyError. *)
Definition meaning (c : change) (self : list bytes) (T T' : text -> Prop) : Prop :=
  match c with
  | Add (Str t) => forall s, T' s <-> T s \/ s = t
  | Discard (Str t) | Remove (Str t) => forall s, T' s <-> T s /\ s <> t
  | Clear => forall s, ~ T' s
  | Pop => exists t, T t /\ forall s, T' s <-> T s /\ s <> t
  | Ior o => forall s, T' s <-> T s \/ other_has self o s
  | Iand o => forall s, T' s <-> T s /\ other_has self o s
  | Ixor o => forall s, T' s <-> (T s /\ ~ other_has self o s) \/ (~ T s /\ other_has self o s)
  | Isub o => forall s, T' s <-> T s /\ ~ other_has self o s
  | _ => False
  end.
(** When a call must raise KeyError instead. *)
Definition key_error (c : change) (T : text -> Prop) : Prop :=
  match c with Remove (Str t) => ~ T t | Pop => forall s, ~ T s | _ => False end.
(** A history of changes, of sets only: a call that must raise KeyError leaves the set as it is. *)
Inductive as_sets : list change -> (text -> Prop) -> (text -> Prop) -> Prop :=
| as_sets_nil : forall T, as_sets [] T T
| as_sets_error : forall c cs T T', key_error c T -> as_sets cs T T' -> as_sets (c :: cs) T T'
| as_sets_change : forall c cs self T T' T'', ~ key_error c T -> (forall s, T s <-> has self s) -> meaning c self T T' -> as_sets cs T' T'' -> as_sets (c :: cs) T T''.
(** The calls of a program one after the other, whatever they raise. *)
Fixpoint performs (cs : list change) (m : message) : message := match cs with [] => m | c :: cs => performs cs (fst (perform c m)) end.
