(** Other programs, for C86. *)
From Coq Require Import Relation_Operators.
From Verif Require Import Bytes EmacsFcc.
Local Open Scope nat_scope.

(** The name in use. *)
Definition name_of (p : phase) : option bytes :=
  match p with Writing id _ | Written id | Linked id | Returned id => Some id | _ => None end.
(** Other programs do anything at any time, but not to the two files of that name. *)
Definition others (c : conf) (w w' : world) : Prop :=
  w_phase w' = w_phase w /\ w_count w' = w_count w /\
  forall id, name_of (w_phase w) = Some id -> w_files w' (Tmp, id) = w_files w (Tmp, id) /\ w_files w' (target (c_seen c) id) = w_files w (target (c_seen c) id).
(** What can have happened since the mail was to be stored; it may also end here. *)
Definition reachable (c : conf) (s : files) (n : N) (w : world) : Prop :=
  clos_refl_trans world (fun a b => own c a b \/ others c a b) {| w_files := s; w_phase := Start; w_count := n |} w.
