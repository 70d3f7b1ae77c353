(** Model of lib/directory.cc: the directory objects of a whole mail store, on top of
    Paths.v (looking up and creating directory documents, files of messages).

    Simplified: what happens to a message beyond its file names is not modelled (see
    MailStore.v); Xapian exceptions are not modelled. *)
From Verif Require Import Bytes Terms Meta Decimal Paths.
From Coq Require Import ZArith.
Local Open Scope nat_scope.

(** The terms of every message document, the directory documents, and the time stamps
    in them (a document that is not listed has 0, lib/directory.cc:190-191). *)
Record dstore := { d_msgs : list (list bytes); d_dirs : dirs; d_mtimes : list (N * Z) }.

(** prefix table entry "XDDIRENTRY", lib/prefix.cc:30-78. *)
Definition direntry_prefix : bytes := lit "XDDIRENTRY".
(** The terms of a directory document (lib/directory.cc:167-188). *)
Definition dir_terms (d : dirdoc) : list bytes :=
  (directory_prefix ++ dd_term d) ::
  match dd_entry d with Some (p, b) => [direntry_prefix ++ dec p ++ ":"%char :: b] | None => [] end.
(** Xapian::Database::allterms_begin (external): all terms of all documents, sorted. *)
Definition all_terms (s : dstore) : list bytes :=
  fold_right tadd [] (concat (d_msgs s) ++ flat_map dir_terms (dl (d_dirs s))).

(** lib/directory.cc:27-43 [_create_filenames_for_terms_with_prefix] with 262-283
    [notmuch_directory_get_child_files] and 285-305
    [notmuch_directory_get_child_directories]. *)
Definition list_files (id : N) (s : dstore) : list bytes :=
  fst (get_terms_with_prefix (filename_prefix ++ dec id ++ [":"%char]) (all_terms s)).
(** [list_directories]: as above, lib/directory.cc:27-43. *)
Definition list_directories (id : N) (s : dstore) : list bytes :=
  fst (get_terms_with_prefix (direntry_prefix ++ dec id ++ [":"%char]) (all_terms s)).

(** lib/directory.cc:200-201, 256-260 [notmuch_directory_get_mtime] on an object just
    looked up. *)
Definition mtime_at (id : N) (s : dstore) : Z :=
  match find (fun p => N.eqb (fst p) id) (d_mtimes s) with Some (_, z) => z | None => 0%Z end.

(** Xapian::WritableDatabase::replace_document (external). *)
Definition put_doc (h : dirdoc) (l : list dirdoc) : list dirdoc :=
  if existsb (fun d => N.eqb (dd_id d) (dd_id h)) l
  then map (fun d => if N.eqb (dd_id d) (dd_id h) then h else d) l
  else h :: l.
(** lib/directory.cc:225-254 [notmuch_directory_set_mtime]: an object holds a copy of
    the document and its number, and writes both. *)
Definition set_mtime (h : dirdoc) (z : Z) (s : dstore) : dstore :=
  {| d_msgs := d_msgs s;
     d_dirs := {| dl := put_doc h (dl (d_dirs s)); next_id := next_id (d_dirs s) |};
     d_mtimes := (dd_id h, z) :: d_mtimes s |}.
(** lib/directory.cc:307-329 [notmuch_directory_delete]. *)
Definition delete_directory (h : dirdoc) (s : dstore) : dstore :=
  {| d_msgs := d_msgs s;
     d_dirs := {| dl := filter (fun d => negb (N.eqb (dd_id d) (dd_id h))) (dl (d_dirs s)); next_id := next_id (d_dirs s) |};
     d_mtimes := filter (fun p => negb (N.eqb (fst p) (dd_id h))) (d_mtimes s) |}.

(** What a client may do. *)
Inductive dop :=
| DNew (t : list bytes)            (* a new message document with these terms *)
| DAdd (i : nat) (f : bytes)       (* a file is added to message number i *)
| DRemove (i : nat) (f : bytes)    (* a file is removed from message number i *)
| DDrop (i : nat)                  (* the document of a message without files is deleted *)
| DDoc                             (* some other document takes a number *)
| DSetMtime (p : bytes) (z : Z)    (* notmuch_database_get_directory, notmuch_directory_set_mtime *)
| DDelete (p : bytes).             (* notmuch_database_get_directory, notmuch_directory_delete *)

Fixpoint upd {A} (i : nat) (x : A) (l : list A) : list A :=
  match l, i with
  | [], _ => []
  | _ :: l', O => x :: l'
  | y :: l', S i' => y :: upd i' x l'
  end.

Section Store.
Variable sha1 : bytes -> bytes.
Variable root : bytes.

(** lib/database.cc:1398-1419 [notmuch_database_get_directory]: the document copied
    into the object; [None]: NULL. *)
Definition get_dir (p : bytes) (s : dstore) : option dirdoc :=
  find_dir (directory_db_path sha1 (relative_path root p)) (d_dirs s).

(** [None]: the process stops (COERCE_STATUS on TERM_TOO_LONG) or the call is outside
    the model. *)
Definition dstep (o : dop) (s : dstore) : option dstore :=
  match o with
  | DNew t =>
      Some {| d_msgs := d_msgs s ++ [t];
              d_dirs := {| dl := dl (d_dirs s); next_id := (next_id (d_dirs s) + 1)%N |}; d_mtimes := d_mtimes s |}
  | DAdd i f =>
      match nth_error (d_msgs s) i with
      | None => Some s
      | Some t =>
          match add_filename sha1 root f t (d_dirs s) with
          | (F_abort, _, _) | (F_ub, _, _) => None
          | (_, t, ds) => Some {| d_msgs := upd i t (d_msgs s); d_dirs := ds; d_mtimes := d_mtimes s |}
          end
      end
  | DRemove i f =>
      match nth_error (d_msgs s) i with
      | None => Some s
      | Some t =>
          match remove_filename sha1 root f t (d_dirs s) with
          | (F_abort, _, _) | (F_ub, _, _) => None
          | (_, t, ds) => Some {| d_msgs := upd i t (d_msgs s); d_dirs := ds; d_mtimes := d_mtimes s |}
          end
      end
  | DDrop i =>
      match nth_error (d_msgs s) i with
      | None => Some s
      | Some t => match file_entries t with
                  | [] => Some {| d_msgs := upd i [] (d_msgs s); d_dirs := d_dirs s; d_mtimes := d_mtimes s |}
                  | _ => Some s
                  end
      end
  | DDoc => Some {| d_msgs := d_msgs s; d_dirs := {| dl := dl (d_dirs s); next_id := (next_id (d_dirs s) + 1)%N |}; d_mtimes := d_mtimes s |}
  | DSetMtime p z => Some (match get_dir p s with Some h => set_mtime h z s | None => s end)
  | DDelete p => Some (match get_dir p s with Some h => delete_directory h s | None => s end)
  end.
End Store.

(** A new database: no documents yet ([n]: the first free number). *)
Definition empty_store (n : N) : dstore := {| d_msgs := []; d_dirs := {| dl := []; next_id := n |}; d_mtimes := [] |}.
