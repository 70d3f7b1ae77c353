(** Model of reading message properties (lib/message.cc:2189-2228,
    lib/message-property.cc).  The modifying calls are in Db.v. *)
From Verif Require Import Bytes Terms Meta StringMap Db.
Local Open Scope nat_scope.

(** lib/message.cc:2201-2215: split one property string at its first '='; [None] is
    INTERNAL_ERROR ("malformed property term"). *)
Definition split_property (s : bytes) : option pair_t :=
  let '(key, rest) := span (fun c => negb (beq c "="%char)) s in
  match rest with
  | [] => None
  | _ :: value => Some (key, value)
  end.
(** lib/message.cc:2189-2219 [_notmuch_message_ensure_property_map]. *)
Fixpoint fill_map (l : list bytes) (m : string_map) : option string_map :=
  match l with
  | [] => Some m
  | s :: l' => match split_property s with
               | None => None
               | Some (k, v) => fill_map l' (sm_append m k v)
               end
  end.
(** [property_map]: as above, lib/message.cc:2189-2219. *)
Definition property_map (terms : list bytes) : option string_map :=
  fill_map (fst (get_terms_with_prefix property_prefix terms)) sm_create.

(** lib/message-property.cc:42-51 [notmuch_message_get_property]: outer [None] is the
    abort, inner [None] is *value == NULL. *)
Definition get_property (terms : list bytes) (key : bytes) : option (option bytes) :=
  option_map (fun m => fst (sm_get m key)) (property_map terms).
(** lib/message-property.cc:177-184 [notmuch_message_get_properties], iterated. *)
Definition get_properties (terms : list bytes) (key : bytes) (exact : bool) : option (list pair_t) :=
  option_map (fun m => it_all (it_create m key exact)) (property_map terms).
(** lib/message-property.cc:53-78 [notmuch_message_count_properties]. *)
Fixpoint it_count (fuel : nat) (it : sm_iterator) (count : nat) : nat :=
  match fuel with
  | O => count
  | S f => if it_valid it then it_count f (it_next it) (S count) else count
  end.
(** [count_properties]: as above, lib/message-property.cc:53-78. *)
Definition count_properties (terms : list bytes) (key : bytes) : option nat :=
  option_map (fun m => it_count (S (length (sm_pairs m))) (it_create m key true) 0) (property_map terms).
