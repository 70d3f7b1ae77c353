(** The databases that notmuch_database_index_file goes through before it writes the message
    itself (lib/add-message.cc:463-594, with the functions modelled in MailStore.v).  If a
    step fails (a Xapian exception, or _notmuch_message_index_file reports an error), one of these
    is what end_atomic (lib/add-message.cc:587) commits: the transaction is not cancelled. *)
From Verif Require Import Bytes DocMap MailStore.
Local Open Scope N_scope.

Section F.
Variable compressed : bytes -> bytes.

(** lib/add-message.cc:175-209 [_merge_threads]: the documents are written one after the other;
    after the first [n] documents of the table were considered. *)
Definition merge_part (n : nat) (winner loser : N) (s : mdb) : mdb :=
  set_docs (map (fun kd => (fst kd, merge_doc winner loser (snd kd))) (firstn n (docs s)) ++ skipn n (docs s)) s.

(** lib/add-message.cc:83-123 [_resolve_message_id_to_thread_id]: before the placeholder is
    written. *)
Definition resolve_states (id : bytes) (s : mdb) : list mdb :=
  match create_for_message_id compressed id s with
  | (_, _, true, _) => []
  | (_, _, false, s) => [s; snd (generate_thread_id s)]
  end.

(** lib/add-message.cc:264-288 and 447-456. *)
Fixpoint link_states (keys : list bytes) (tid : option N) (s : mdb) : list mdb :=
  s ::
  match keys with
  | [] => match tid with None => [snd (generate_thread_id s)] | Some _ => [] end
  | r :: keys =>
      resolve_states r s ++
      match resolve compressed r s with
      | None => []
      | Some (pt, s) =>
          match tid with
          | None => link_states keys (Some pt) s
          | Some t => if N.eqb t pt then link_states keys tid s
                      else map (fun n => merge_part n t pt s) (seq 0 (S (length (docs s)))) ++ link_states keys tid (merge_threads t pt s)
          end
      end
  end.

(** lib/add-message.cc:463-594 [notmuch_database_index_file], up to _notmuch_message_sync. *)
Definition index_states (f : mfile) (keys : list bytes) (s : mdb) : list mdb :=
  let '(k, d, found, s0) := create_for_message_id compressed (f_id f) s in
  s :: link_states keys (if found then get_thread_id d else None) s0.
End F.
