(** What is known of a message, as sets of values, for C96. *)
From Verif Require Import Bytes MsgCache.
From Coq Require Import List Ascii.
Import ListNotations.

(** What a getter is about. *)
Definition about (g : getter) : field :=
  match g with Tags => Tag | Thread_id => Thread | Filenames => File | Ghost => Type_ | Properties => Prop_ | In_reply_to => Replyto end.
(** A set of values for each kind. *)
Definition facts := field -> bytes -> Prop.
(** Those of a document. *)
Definition facts_of (d : doc) : facts := fun f v => In v (d f).
(** What an operation on a message of a database that can be written does to them:
    tags have at most 200 bytes, properties "key=value" at most 236, file names (as terms) at most 235;
    the key of a property has no "=". *)
Definition after (o : op) (P : facts) : facts :=
  match o with
  | Add_tag t => fun f v => P f v \/ (f = Tag /\ v = t /\ length t <= 200)
  | Remove_tag t => fun f v => P f v /\ ~ (f = Tag /\ v = t /\ length t <= 200)
  | Remove_all_tags => fun f v => P f v /\ f <> Tag
  | Add_property k x => fun f v => P f v \/ (f = Prop_ /\ v = k ++ "="%char :: x /\ ~ In "="%char k /\ length v <= 236)
  | Remove_property k x => fun f v => P f v /\ ~ (f = Prop_ /\ v = k ++ "="%char :: x /\ ~ In "="%char k)
  | Remove_properties pre => fun f v => P f v /\ ~ (f = Prop_ /\ exists x, v = pre ++ x)
  | Rename old new => fun f v => (P f v /\ ~ (f = File /\ v = old)) \/ (f = File /\ v = new)
  | _ => P
  end.
(** One operation after another. *)
Fixpoint after_all (os : list op) (P : facts) : facts :=
  match os with [] => P | o :: os => after_all os (after o P) end.
(** Operations through this object, but for reindexing; file names are not too long. *)
Definition plain (o : op) : Prop :=
  match o with
  | Rename old new => length old <= 235 /\ length new <= 235
  | Reindex _ | Changed _ => False
  | _ => True
  end.
(** A document as the library makes them: terms of at most 245 bytes, tags of at most 200, one thread and at most one In-Reply-To. *)
Definition proper (d : doc) : Prop :=
  (forall f v, In v (d f) -> prefix_len f + length v <= 245) /\
  (forall t, In t (d Tag) -> length t <= 200) /\ length (d Thread) <= 1 /\ length (d Replyto) <= 1.
(** The answer [a] says exactly what [P] says. *)
Definition says (a : option (list bytes)) (P : bytes -> Prop) : Prop :=
  forall v, In v (match a with Some l => l | None => [] end) <-> P v.
(** With so many freezes not yet thawed, the object stays frozen throughout; and no file is renamed. *)
Fixpoint stays_frozen (n : nat) (os : list op) : Prop :=
  match os with
  | [] => 0 < n
  | Freeze :: os => stays_frozen (S n) os
  | Thaw :: os => 1 < n /\ stays_frozen (n - 1) os
  | (Rename _ _ | Reindex _ | Changed _) :: _ => False
  | _ :: os => stays_frozen n os
  end.
