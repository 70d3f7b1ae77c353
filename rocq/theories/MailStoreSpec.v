(** Independent specification of threads, used to state C17-C21. *)
From Verif Require Import Bytes DocMap MsgId MailStore.
From Coq Require Import Relations Permutation.
Local Open Scope N_scope.

(** Document [k] of the database. *)
Definition has (s : mdb) (k : N) (d : mdoc) : Prop := dget k (docs s) = Some d.
(** A message with this id is in the database (as a mail, not a placeholder). *)
Definition is_mail (s : mdb) (id : bytes) : Prop := exists k d, has s k d /\ m_id d = id /\ m_ghost d = false.
(** The id is known, as a message or as a placeholder, and belongs to thread [t]. *)
Definition thread_of (s : mdb) (id : bytes) (t : N) : Prop := exists k d, has s k d /\ m_id d = id /\ In t (m_threads d).
Definition same_thread (s : mdb) (a b : bytes) : Prop := exists t, thread_of s a t /\ thread_of s b t.

Section Spec.
Variable compressed : bytes -> bytes.
(** An id as the database stores it. *)
Definition stored (id : bytes) : bytes := canon compressed id.
(** A call is legal: the hash table holds exactly the references of the file, in some
    order; and no reference longer than 189 bytes hashes to the message's own id. *)
Definition legal (o : mop) : Prop :=
  match o with
  | OAdd name f keys ok =>
      Permutation keys (fst (file_parents (stored (f_id f)) f)) /\
      Forall (fun r => (189 < length r)%nat -> stored r <> stored (f_id f)) keys
  | _ => True
  end.
(** Some file added in the history has id [a] and refers to [b]. *)
Definition refers (h : list mop) (a b : bytes) : Prop :=
  exists name f keys ok r, In (OAdd name f keys ok) h /\ a = stored (f_id f) /\ In r keys /\ b = stored r.
(** Connected through references. *)
Definition connected (h : list mop) : bytes -> bytes -> Prop := clos_refl_sym_trans bytes (refers h).
(** The message [a] is in the database after each of the calls [h] made from [s]. *)
Fixpoint stays (a : bytes) (s : mdb) (h : list mop) : Prop :=
  is_mail s a /\
  match h with
  | [] => True
  | o :: h => match mstep compressed o s with Some (_, s) => stays a s h | None => False end
  end.
(** Only additions that succeed, and changes of tags. *)
Definition adds_only (h : list mop) : Prop :=
  Forall (fun o => match o with OAdd _ _ _ ok => ok = true | ORemove _ => False | OTags _ _ => True end) h.
End Spec.
