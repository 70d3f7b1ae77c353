(** Model of _notmuch_doc_id_set, lib/query.cc:46-52 and 533-575: a bitmap of document ids
    (unsigned int: 32 bits).  [None]: an access outside the bitmap. *)
From Verif Require Import Bytes.
Local Open Scope N_scope.

(** limits.h. *)
Definition CHAR_BIT : N := 8.
Definition docset_word (bit : N) : nat := N.to_nat (bit / CHAR_BIT).   (* DOCIDSET_WORD, query.cc:51 *)
Definition docset_bit (bit : N) : N := bit mod CHAR_BIT.               (* DOCIDSET_BIT, query.cc:52 *)

Record docset := mk_docset { ds_bitmap : list N; ds_bound : N }.

(** array store (C language). *)
Fixpoint set_nth (l : list N) (i : nat) (v : N) : list N :=
  match l, i with
  | [], _ => []
  | _ :: l', O => v :: l'
  | x :: l', S i' => x :: set_nth l' i' v
  end.

(** query.cc:551-554: set one bit. *)
Definition ds_set_bit (bitmap : list N) (id : N) : option (list N) :=
  match nth_error bitmap (docset_word id) with
  | None => None
  | Some w => Some (set_nth bitmap (docset_word id) (N.lor w (N.shiftl 1 (docset_bit id))))
  end.
(** [ds_set_all]: as above, query.cc:551-554. *)
Fixpoint ds_set_all (bitmap : list N) (ids : list N) : option (list N) :=
  match ids with
  | [] => Some bitmap
  | id :: ids' => match ds_set_bit bitmap id with None => None | Some b => ds_set_all b ids' end
  end.

(** _notmuch_doc_id_set_init, query.cc:534-558 (allocation succeeds). *)
Definition ds_max (ids : list N) : N := fold_left N.max ids 0%N.
(** [ds_init]: as above, query.cc:534-558. *)
Definition ds_init (ids : list N) : option docset :=
  let max := ds_max ids in
  match ds_set_all (repeat 0%N (docset_word max + 1)%nat) ids with
  | None => None
  | Some bitmap => Some (mk_docset bitmap ((max + 1) mod 2 ^ 32))
  end.

(** _notmuch_doc_id_set_contains, query.cc:560-567. *)
Definition ds_contains (s : docset) (id : N) : option bool :=
  if N.leb (ds_bound s) id then Some false
  else match nth_error (ds_bitmap s) (docset_word id) with
       | None => None
       | Some w => Some (negb (N.land w (N.shiftl 1 (docset_bit id)) =? 0))
       end.

(** _notmuch_doc_id_set_remove, query.cc:569-575. *)
Definition ds_remove (s : docset) (id : N) : option docset :=
  if N.ltb id (ds_bound s) then
    match nth_error (ds_bitmap s) (docset_word id) with
    | None => None
    | Some w => Some (mk_docset (set_nth (ds_bitmap s) (docset_word id)
                                   (N.ldiff w (N.shiftl 1 (docset_bit id)))) (ds_bound s))
    end
  else Some s.
