(** Programs that use the Python bindings, for C83. *)
From Verif Require Import PyLife.
From Coq Require Import Arith List.
Import ListNotations.

(** [x] is [o] or came out of it, directly or not. *)
Inductive descends (os : nat -> option obj) : nat -> nat -> Prop :=
| d_self x : descends os x x
| d_up x r p o : os x = Some r -> o_parent r = Some p -> descends os p o -> descends os x o.
(** An object whose parent is [o]. *)
Definition child_of (s : state) (x o : nat) : Prop := exists r, objs s x = Some r /\ o_parent r = Some o.
Definition is_final (s : state) (x : nat) : Prop := exists r, objs s x = Some r /\ o_final r = true.
Definition in_hand (s : state) (x : nat) : Prop := exists r, objs s x = Some r /\ o_final r = false.
Definition of_class (s : state) (x : nat) (c : cls) : Prop := exists r, objs s x = Some r /\ o_cls r = c.

(** Each operation of a program is as [ok] says. *)
Fixpoint follows (ok : state -> event -> Prop) (s : state) (es : list event) : Prop :=
  match es with
  | [] => True
  | e :: es => ok s e /\ match step s e with Returns s1 | Raises s1 => follows ok s1 es | Undefined => True end
  end.

(** A program that asks whether an object is alive before it uses it.  Objects may be
    destroyed, and finalized by the interpreter, at any time in any order.  If a "with
    message.frozen ():" fails, nothing that came out of the message still holds memory. *)
Definition careful (s : state) (e : event) : Prop :=
  match e with
  | Call o _ | Use o | Exhaust o => alive (objs s) o = true
  | Rollback o _ => alive (objs s) o = true /\ forall x r, objs s x = Some r -> x <> o -> descends (objs s) x o -> o_ptr r = None
  | _ => True
  end.

(** A program that never asks and never calls _destroy, whose objects are finalized when
    nothing refers to them any more (an object refers to its parent), where
    - no iterator over the messages of a query is taken to its end while messages it gave are in hand;
    - if a "with message.frozen ():" fails, nothing that came out of the message is in hand. *)
Definition counted (s : state) (e : event) : Prop :=
  match e with
  | Open => True
  | Call o _ | Use o | GetView o => in_hand s o
  | Exhaust o => in_hand s o /\ (of_class s o Messages -> forall x, child_of s x o -> is_final s x)
  | Finalize o => in_hand s o /\ forall x, child_of s x o -> is_final s x
  | Rollback o _ => in_hand s o /\ forall x, x <> o -> descends (objs s) x o -> is_final s x
  | Destroy _ => False
  end.
