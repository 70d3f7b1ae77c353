(** Model of emacs/notmuch-maildir-fcc.el:255-358: storing a sent mail in a maildir without notmuch
    insert, as steps on a file system that other programs use at the same time. *)
From Verif Require Import Bytes Decimal.
Local Open Scope nat_scope.

(** The directories of the maildir, and files in them (names relative to it). *)
Inductive dir := Tmp | New | Cur.
(** See [dir]. *)
Definition path := (dir * bytes)%type.
(** Equality of directories. *)
Definition dir_eqb (a b : dir) : bool := match a, b with Tmp, Tmp | New, New | Cur, Cur => true | _, _ => false end.
(** Equality of paths. *)
Definition path_eqb (a b : path) : bool := dir_eqb (fst a) (fst b) && bseq (snd a) (snd b).
(** The files and their contents. *)
Definition files := path -> option bytes.
(** One file changed. *)
Definition upd (p : path) (v : option bytes) (s : files) : files := fun q => if path_eqb q p then v else s q.

(** emacs/notmuch-maildir-fcc.el:257-265 [notmuch-maildir-fcc-host-fixer]. *)
Definition host_fixer (h : bytes) : bytes :=
  flat_map (fun c => if beq c "/"%char then lit "\057" else if beq c ":"%char then lit "\072" else [c]) h.
(** emacs/notmuch-maildir-fcc.el:267-277 [notmuch-maildir-fcc-make-uniq-maildir-id]: [time] and [us] from the
    clock, the process id, the count after it was increased, the name of the system. *)
Definition uniq_id (time pid us count : N) (host : bytes) : bytes :=
  dec time ++ lit "." ++ dec pid ++ lit "_" ++ dec us ++ lit "_" ++ dec count ++ lit "." ++ host_fixer host.
(** emacs/notmuch-maildir-fcc.el:306-314 [notmuch-maildir-fcc-move-tmp-to-new], [notmuch-maildir-fcc-move-tmp-to-cur]:
    the new name. *)
Definition target (seen : bool) (id : bytes) : path := if seen then (Cur, id ++ lit ":2,S") else (New, id ++ lit ":2,").

(** Where [notmuch-maildir-fcc-write-buffer-to-maildir] (emacs/notmuch-maildir-fcc.el:339-358) is; it returns t, or
    signals an error. *)
Inductive phase := Start | Writing (id : bytes) (k : nat) | Written (id : bytes) | Linked (id : bytes) | Returned (id : bytes) | Signalled.
(** The world: the files, the phase and notmuch-maildir-fcc-count. *)
Record world := { w_files : files; w_phase : phase; w_count : N }.
(** What is given: process, system, the mail and mark-seen (t in emacs/notmuch-maildir-fcc.el:322). *)
Record conf := { c_pid : N; c_host : bytes; c_mail : bytes; c_seen : bool }.

(** One step of Emacs, emacs/notmuch-maildir-fcc.el:294-304 and 345-358.  Writing is done in pieces; every step may
    fail with an error, which nothing here catches but file-already-exists. *)
Inductive own (c : conf) : world -> world -> Prop :=
| own_taken s n time us :
    s (Tmp, uniq_id time (c_pid c) us (n + 1) (c_host c)) <> None ->
    own c {| w_files := s; w_phase := Start; w_count := n |} {| w_files := s; w_phase := Start; w_count := (n + 1)%N |}
| own_open s n time us : let id := uniq_id time (c_pid c) us (n + 1) (c_host c) in
    s (Tmp, id) = None ->
    own c {| w_files := s; w_phase := Start; w_count := n |} {| w_files := upd (Tmp, id) (Some []) s; w_phase := Writing id 0; w_count := (n + 1)%N |}
| own_write s n id k k' : k < k' -> k' <= length (c_mail c) ->
    own c {| w_files := s; w_phase := Writing id k; w_count := n |} {| w_files := upd (Tmp, id) (Some (firstn k' (c_mail c))) s; w_phase := Writing id k'; w_count := n |}
| own_written s n id :
    own c {| w_files := s; w_phase := Writing id (length (c_mail c)); w_count := n |} {| w_files := s; w_phase := Written id; w_count := n |}
| own_link s n id : s (target (c_seen c) id) = None ->
    own c {| w_files := s; w_phase := Written id; w_count := n |} {| w_files := upd (target (c_seen c) id) (s (Tmp, id)) s; w_phase := Linked id; w_count := n |}
| own_exists s n id : s (target (c_seen c) id) <> None ->
    own c {| w_files := s; w_phase := Written id; w_count := n |} {| w_files := s; w_phase := Returned id; w_count := n |}
| own_delete s n id :
    own c {| w_files := s; w_phase := Linked id; w_count := n |} {| w_files := upd (Tmp, id) None s; w_phase := Returned id; w_count := n |}
| own_error s n p : (forall id, p <> Returned id) ->
    own c {| w_files := s; w_phase := p; w_count := n |} {| w_files := s; w_phase := Signalled; w_count := n |}.
