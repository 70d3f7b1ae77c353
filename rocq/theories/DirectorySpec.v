(** What a client may do with the directories of a mail store, and what it sees. *)
From Verif Require Import Bytes Terms Decimal Paths PathsSpec Directory UpgradeSpec.
From Coq Require Import ZArith.
Local Open Scope nat_scope.

(** How a client may name a directory: like a file, or the top by the mail root. *)
Definition dir_spells (root p : bytes) (cs : list bytes) : Prop :=
  spells root p cs \/ (cs = [] /\ exists k, p = repeat SLASH k ++ root).

(** Directory, list of files, list of subdirectories and time as the client gets them. *)
Definition known (sha1 : bytes -> bytes) (root : bytes) (d : list bytes) (s : dstore) : Prop :=
  get_dir sha1 root (join d) s <> None.
Definition has_file (root : bytes) (d : list bytes) (b : bytes) (s : dstore) : Prop :=
  exists t, In t (d_msgs s) /\ In (Some (full_name root (d, b))) (get_filenames root (d_dirs s) t).
Definition mtime (sha1 : bytes -> bytes) (root : bytes) (d : list bytes) (s : dstore) : option Z :=
  option_map (fun h => mtime_at (dd_id h) s) (get_dir sha1 root (join d) s).

(** Allowed: files and directories in [D], named in a way [spells] covers; new messages
    without terms for files or directories; and directories are deleted only when both their lists are
    empty, as notmuch new does. *)
Inductive allowed (sha1 : bytes -> bytes) (root : bytes) (D : list bytes -> Prop) (s : dstore) : dop -> Prop :=
| A_new t : tsorted t -> (forall x, ~ In (lit "P" ++ x) t /\ ~ In (lit "XFOLDER:" ++ x) t /\ ~ In (lit "XFDIRENTRY" ++ x) t /\ ~ In (lit "XDDIRENTRY" ++ x) t) ->
            allowed sha1 root D s (DNew t)
| A_add i f d b : D d -> name_ok b -> spells root f (d ++ [b]) -> allowed sha1 root D s (DAdd i f)
| A_remove i f d b : D d -> name_ok b -> spells root f (d ++ [b]) -> allowed sha1 root D s (DRemove i f)
| A_drop i : allowed sha1 root D s (DDrop i)
| A_doc : allowed sha1 root D s DDoc
| A_mtime p d z : D d -> dir_spells root p d -> allowed sha1 root D s (DSetMtime p z)
| A_delete p d : D d -> dir_spells root p d ->
    (forall h, get_dir sha1 root p s = Some h -> list_files (dd_id h) s = [] /\ list_directories (dd_id h) s = []) ->
    allowed sha1 root D s (DDelete p).

Inductive run (sha1 : bytes -> bytes) (root : bytes) (D : list bytes -> Prop) : dstore -> list dop -> dstore -> Prop :=
| R_nil s : run sha1 root D s [] s
| R_cons s o s1 ops s2 : allowed sha1 root D s o -> dstep sha1 root o s = Some s1 -> run sha1 root D s1 ops s2 ->
    run sha1 root D s (o :: ops) s2.

(** Operations on the time of the directory [d]. *)
Definition touches (root : bytes) (d : list bytes) (o : dop) : Prop :=
  match o with
  | DSetMtime p _ | DDelete p => dir_spells root p d
  | _ => False
  end.
