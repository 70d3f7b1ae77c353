(** "notmuch new" killed at any moment: the states of the database after each of its atomic
    operations.  One operation is: adding a file (notmuch-new.c:368-444, in begin/end_atomic),
    removing a file (944-973, in begin/end_atomic), deleting a directory document
    (lib/directory.cc:307-329) and recording an mtime (lib/directory.cc:226-256).  What Xapian
    has on disk when the process is killed is the state after one of them (Xapian commits
    whole transactions in order; trusted).  Between any two of these operations, except
    inside [_remove_directory], the code tests [interrupted], so the states in between are
    those an interruption at that test leaves ([New.notmuch_new] with a tick). *)
From Verif Require Import Bytes DocMap MailStore MailStoreSpec Maildir New NewSpec.

Section Crash.
Variable compressed : bytes -> bytes.
(** maildir.synchronize_flags *)
Variable synchronize_flags : bool.

(** notmuch-new.c:989-994: the states while the files of a directory are removed. *)
Fixpoint remove_filenames_log (names : list bytes) (m : mdb) : list mdb :=
  match names with
  | [] => []
  | n :: names => match remove_filename compressed synchronize_flags n m with
                  | Some m => m :: remove_filenames_log names m
                  | None => []
                  end
  end.
(** notmuch-new.c:977-1019 [_remove_directory]: the states it passes through. *)
Fixpoint remove_directory_log (fuel : nat) (path : bytes) (db : ndb) : list ndb :=
  match fuel with
  | O => []
  | S fuel =>
      match dir_get path db with
      | None => []
      | Some _ =>
          let names := map (child path) (child_files path db) in
          map (fun m => {| n_mail := m; n_dirs := n_dirs db |}) (remove_filenames_log names (n_mail db)) ++
          match remove_filenames compressed synchronize_flags names (n_mail db) with
          | None => []
          | Some m =>
              let db := {| n_mail := m; n_dirs := n_dirs db |} in
              (fix go subdirs db := match subdirs with
                                    | [] => [{| n_mail := n_mail db; n_dirs := del_dir path (n_dirs db) |}]
                                    | q :: subdirs => remove_directory_log fuel (child path q) db ++
                                        match remove_directory compressed synchronize_flags fuel (child path q) db with
                                        | Some db => go subdirs db
                                        | None => []
                                        end
                                    end) (child_dirs path db) db
          end
      end
  end.
(** notmuch-new.c:1270-1280: the states of the loop over the removed directories. *)
Fixpoint directory_loop_log (paths : list bytes) (s : nstate) : list ndb :=
  match paths with
  | [] => []
  | p :: paths =>
      let '(i, s) := interrupted s in
      if i then []
      else remove_directory_log (depth_bound (s_db s)) p (s_db s) ++
           match remove_directory compressed synchronize_flags (depth_bound (s_db s)) p (s_db s) with
           | Some db => directory_loop_log paths (with_db db s)
           | None => []
           end
  end.
End Crash.

Section Killed.
Variable compressed : bytes -> bytes.
(** The state in which a run begins, notmuch-new.c:1115-1240. *)
Definition start (ticks : option nat) (db : ndb) : nstate :=
  {| s_db := db; s_removed_files := []; s_removed_dirs := []; s_mtimes := []; s_vanished := 0; s_tick := ticks |}.
(** The database that a killed run leaves on disk: it stopped where the variable
    [interrupted] is tested, or inside [_remove_directory]. *)
Inductive killed (w : new_run) (db : ndb) : ndb -> Prop :=
| killed_between ticks e db' :
    notmuch_new compressed (w_full_scan w) (w_sync w) (w_tags w) (w_verbatim w) (w_regex w) (w_time w) (w_root w) ticks db = Some (e, db') ->
    killed w db db'
| killed_removing ticks s1 s2 db' :
    add_files compressed (w_full_scan w) (w_sync w) (w_tags w) (w_verbatim w) (w_regex w) (w_time w) (w_root w) [] (start ticks db) = Some (true, s1) ->
    removal_loop compressed (w_sync w) (s_removed_files s1) s1 = Some s2 ->
    In db' (directory_loop_log compressed (w_sync w) (s_removed_dirs s2) s2) ->
    killed w db db'.
End Killed.
