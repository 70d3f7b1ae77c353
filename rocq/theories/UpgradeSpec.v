(** What an upgrade of the database has to achieve. *)
From Verif Require Import Bytes Terms Meta Db Decimal Features Paths PathsSpec Upgrade.
From Coq Require Import ZArith.
Local Open Scope nat_scope.

(** Document number of a directory. *)
Definition dir_no (sha1 : bytes -> bytes) (ds : dirs) (cs : list bytes) : option N :=
  option_map dd_id (find (fun d => bseq (dd_term d) (directory_db_path sha1 (join cs))) (dl ds)).

(** A consistent set of directory documents, all for directories in [D]: each holds its
    path, the term to find it by, and its entry in its parent, which exists; document
    numbers are different and below the next one. *)
Record dirs_wf (sha1 : bytes -> bytes) (D : list bytes -> Prop) (ds : dirs) : Prop := {
  dw_docs : forall d, In d (dl ds) -> exists cs, D cs /\ dd_data d = join cs /\ dd_term d = directory_db_path sha1 (join cs) /\
            (cs = [] -> dd_entry d = None) /\
            (forall p b, cs = p ++ [b] -> exists i, dir_no sha1 ds p = Some i /\ dd_entry d = Some (i, b));
  dw_distinct : NoDup (map dd_id (dl ds));
  dw_below : forall d, In d (dl ds) -> (dd_id d < next_id ds)%N }.

(** The directories in use: proper names, closed under parents, and no two of them with
    the same hash. *)
Record directories (sha1 : bytes -> bytes) (D : list bytes -> Prop) : Prop := {
  dd_names : forall cs, D cs -> names cs;
  dd_parent : forall cs b, D (cs ++ [b]) -> D cs;
  dd_no_collision : no_collision sha1 D }.

(** The folder a directory counts as: without the trailing "cur" or "new". *)
Definition folder_name (d : list bytes) : list bytes :=
  if bseq (leaf d) (lit "cur") || bseq (leaf d) (lit "new") then removelast d else d.

(** Terms "path:" and "folder:" of a message with the files [F]. *)
Definition located (F : list file) (t : list bytes) : Prop :=
  (forall x, In (lit "P" ++ x) t <-> exists g, In g F /\ path_term (fst g) x) /\
  (forall x, In (lit "XFOLDER:" ++ x) t <-> exists g, In g F /\ x = join (folder_name (fst g))).

(** A message of a database with the features [f], whose files are [F]: before
    FILE_TERMS the only file name is in the data; before BOOL_FOLDER there are no
    "path:" terms and the "folder:" terms have no colon. *)
Record old_message (sha1 : bytes -> bytes) (root : bytes) (D : list bytes -> Prop) (f : N) (ds : dirs) (m : umsg) (F : list file) : Prop := {
  om_sorted : tsorted (um_terms m);
  om_files : forall g, In g F -> D (fst g) /\ name_ok (snd g) /\ exists i, dir_no sha1 ds (fst g) = Some i;
  om_entries : forall e, In (lit "XFDIRENTRY" ++ e) (um_terms m) <->
               exists g i, In g F /\ dir_no sha1 ds (fst g) = Some i /\ e = dec i ++ ":"%char :: snd g;
  om_file_terms : has f FILE_TERMS = false -> F = [] /\
                  (um_data m = [] \/ exists d b, D d /\ name_ok b /\ spells root (um_data m) (d ++ [b]));
  om_folder : if has f BOOL_FOLDER then located F (um_terms m)
              else forall x, ~ In (lit "P" ++ x) (um_terms m) /\ ~ In (lit "XFOLDER:" ++ x) (um_terms m) }.

(** Terms an upgrade from the features [f] leaves alone. *)
Definition unrelated (f : N) (y : bytes) : Prop :=
  starts_with (lit "P") y = false /\ starts_with (lit "XFDIRENTRY") y = false /\ starts_with (lit "XFOLDER:") y = false /\
  (has f BOOL_FOLDER = false -> starts_with (lit "XFOLDER") y = false /\ starts_with (lit "ZXFOLDER") y = false).

(** The same message after the upgrade, with the files [F']. *)
Record new_message (root : bytes) (f : N) (ds' : dirs) (m m' : umsg) (F' : list file) : Prop := {
  nm_doc : um_doc m' = um_doc m;
  nm_data : um_data m' = if has f FILE_TERMS then um_data m else [];
  nm_names : NoDup (get_filenames root ds' (um_terms m')) /\
             forall x, In x (get_filenames root ds' (um_terms m')) <-> exists g, In g F' /\ x = Some (full_name root g);
  nm_located : located F' (um_terms m');
  nm_others : forall y, unrelated f y -> (In y (um_terms m') <-> In y (um_terms m));
  nm_no_old_folder : has f BOOL_FOLDER = false -> forall y,
                     starts_with (lit "XFOLDER") y = true \/ starts_with (lit "ZXFOLDER") y = true ->
                     In y (um_terms m') -> starts_with (lit "XFOLDER:") y = true }.

(** The files it must have then: those it had and, before FILE_TERMS, the one named in
    its data if the name is not too long. *)
Definition upgraded_files (root : bytes) (f : N) (m : umsg) (F F' : list file) : Prop :=
  incl F F' /\
  (forall g, In g F' -> In g F \/ (has f FILE_TERMS = false /\ spells root (um_data m) (fst g ++ [snd g]))) /\
  (has f FILE_TERMS = false -> forall d b, names d -> name_ok b -> spells root (um_data m) (d ++ [b]) ->
   length b <= 224 -> In (d, b) F').

(** Modification time of a directory; [None]: no document. *)
Definition mtime_of (sha1 : bytes -> bytes) (db : udb) (cs : list bytes) : option Z :=
  option_map (fun i => match find (fun p => N.eqb (fst p) i) (u_mtimes db) with Some (_, z) => z | None => 0%Z end)
             (dir_no sha1 (u_dirs db) cs).
(** The last of the old time stamps for a directory. *)
Fixpoint last_stamp (root : bytes) (stamps : list (bytes * Z)) (cs : list bytes) : option Z :=
  match stamps with
  | [] => None
  | (p, z) :: rest =>
      match last_stamp root rest cs with
      | Some z' => Some z'
      | None => if bseq (relative_path root p) (join cs) then Some z else None
      end
  end.

(** A ghost for the message id [id] in the thread [tid]. *)
Definition ghost (compress : bytes -> bytes) (id tid : bytes) (m : umsg) : Prop :=
  um_data m = [] /\ forall y, In y (um_terms m) <->
    y = lit "Tghost" \/ y = lit "G" ++ tid \/ y = lit "Q" ++ (if Nat.ltb ID_MAX (length id) then compress id else id).

(** A database that may need an upgrade, opened read-write: [f] are the features the
    handle read from it.  Every message is as its features say, every old time stamp
    names a directory, and the message ids with stored thread ids are different. *)
Record old_database (sha1 compress : bytes -> bytes) (root : bytes) (D : list bytes -> Prop) (s : ustate) : Prop := {
  od_no_transaction : s_txn s = None;
  od_directories : directories sha1 D;
  od_dirs : dirs_wf sha1 D (u_dirs (s_db s));
  od_mtimes : forall i z, In (i, z) (u_mtimes (s_db s)) -> (i < next_id (u_dirs (s_db s)))%N;
  od_messages : forall m, In m (u_msgs (s_db s)) -> is_mail m = true ->
                exists F, old_message sha1 root D (s_feat s) (u_dirs (s_db s)) m F;
  od_stamps : forall p z, In (p, z) (u_stamps (s_db s)) -> exists cs, D cs /\ spells root p cs;
  od_ids : NoDup (map (fun p => id_term compress (fst p)) (u_tids (s_db s))) }.
