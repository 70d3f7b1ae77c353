(** Programs that use the Ruby bindings, for C95. *)
From Verif Require Import RbLife.
From Coq Require Import Arith List.
Import ListNotations.

(** The object exists and was neither destroyed nor collected. *)
Definition live (s : state) (x : nat) (r : obj) : Prop := objs s x = Some r /\ o_gone r = false /\ o_data r <> None.
(** An object that the program called destroy! on. *)
Definition destroyed (s : state) (x : nat) : Prop := exists r, objs s x = Some r /\ o_data r = None.

(** Each operation of a program is as [ok] says. *)
Fixpoint follows (ok : state -> event -> Prop) (s : state) (es : list event) : Prop :=
  match es with
  | [] => True
  | e :: es => ok s e /\ match step s e with Returns s1 | Raises s1 => follows ok s1 es | Undefined => True end
  end.

(** What must be gone before an object goes:
    - a database: everything else that came out of it;
    - a query: the Threads that came out of it;
    - a thread: everything that came out of it;
    - a message: the replies (the iterator) that came out of it;
    - an iterator: no "each" is running on it. *)
Definition may_go (s : state) (o : nat) : Prop :=
  forall r, objs s o = Some r ->
  match o_cls r with
  | Database => forall x rx, live s x rx -> o_db rx = o -> x = o
  | Query => forall x rx, live s x rx -> o_cls rx = Threads -> o_parent rx <> Some o
  | Thread => forall x rx, live s x rx -> o_thread rx <> Some o
  | Message => forall x rx, live s x rx -> o_parent rx <> Some o
  | Threads | Messages => ~ In o (map fst (loops s))
  | Directory => True
  end.
(** What is in the block that a pointer points to. *)
Definition contents (s : state) (p : option block) : option kind :=
  match p with Some b => match mem s b with Some ch => Some (what ch) | None => None end | None => None end.
(** The message of a thread that "each" is about to hand to the program. *)
Definition fetches (s : state) (e : event) : option block :=
  match e with
  | Each o _ => match objs s o with
                | Some r => match contents s (o_of r) with Some (KList _ (m :: _)) => Some m | _ => None end
                | None => None
                end
  | Continue _ => match loops s with
                  | (_, p) :: _ => match contents s p with Some (KList _ (_ :: m :: _)) => Some m | _ => None end
                  | [] => None
                  end
  | _ => None
  end.
(** A program that
    - destroys objects, and lets the interpreter collect them, only as [may_go] says;
    - gets no message of a thread twice;
    - asks for the tags of messages only if these are the result of a search. *)
Definition tidy (s : state) (e : event) : Prop :=
  match e with
  | Destroy o | Collect o => may_go s o
  | Each _ _ | Continue _ => forall m, fetches s e = Some m -> forall x r, objs s x = Some r -> o_of r <> Some m
  | Tags o => forall r, objs s o = Some r -> exists q rq, o_parent r = Some q /\ objs s q = Some rq /\ o_cls rq = Query
  | _ => True
  end.
(** Does the operation start with this object? *)
Definition on (e : event) (o : nat) : Prop :=
  match e with
  | Make x _ | ThreadMessages x _ | Replies x | Each x _ | Tags x | Use x _ | Write x _ | Close x | Destroy x => x = o
  | _ => False
  end.
