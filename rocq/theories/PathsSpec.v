(** What paths mean, independently of lib/database.cc: a path is a sequence of
    names separated by slashes; a relative path names the file below the root. *)
From Verif Require Import Bytes Paths.

(** A file or directory name. *)
Definition name_ok (c : bytes) : Prop := c <> [] /\ ~ In SLASH c.
Definition names (cs : list bytes) : Prop := Forall name_ok cs.

(** Canonical spelling of a relative path: "a/b/c". *)
Fixpoint join (cs : list bytes) : bytes :=
  match cs with
  | [] => []
  | [c] => c
  | c :: cs' => c ++ SLASH :: join cs'
  end.
(** Canonical spelling of an absolute path: "/a/b/c". *)
Definition absolute (cs : list bytes) : bytes := SLASH :: join cs.

(** The names occurring in any spelling, with repeated, leading and trailing
    slashes ignored. *)
Fixpoint components_from (cur : bytes) (p : bytes) : list bytes :=
  let flush := match cur with [] => [] | _ => [cur] end in
  match p with
  | [] => flush
  | c :: p' => if is_slash c then flush ++ components_from [] p' else components_from (cur ++ [c]) p'
  end.
Definition components (p : bytes) : list bytes := components_from [] p.

(** Two ways a client may name the file [cs] of the mail store rooted at [root]:
    relative, or absolute (with any number of extra leading slashes). *)
Definition spells (root : bytes) (f : bytes) (cs : list bytes) : Prop :=
  f = join cs \/ exists k, f = repeat SLASH k ++ root ++ SLASH :: join cs.

(** History at the level of names: directory names and base name. *)
Inductive sop := SAdd (dir : list bytes) (base : bytes) | SRemove (dir : list bytes) (base : bytes)
               | SOther (dir : list bytes) (base : bytes) | SDoc.
Definition sop_ok (o : sop) : Prop :=
  match o with
  | SAdd d b | SRemove d b | SOther d b => names d /\ name_ok b
  | SDoc => True
  end.
Inductive spelled (root : bytes) : sop -> fop -> Prop :=
| Sp_add d b f : spells root f (d ++ [b]) -> spelled root (SAdd d b) (FAdd f)
| Sp_remove d b f : spells root f (d ++ [b]) -> spelled root (SRemove d b) (FRemove f)
| Sp_other d b f : spells root f (d ++ [b]) -> spelled root (SOther d b) (FOther f)
| Sp_doc : spelled root SDoc FDoc.

(** The files a message has after a history, in which some additions were refused. *)
Definition file := (list bytes * bytes)%type.
Definition file_eq_dec : forall a b : file, {a = b} + {a <> b}.
Proof. decide equality; [apply bytes_eq_dec|apply (list_eq_dec bytes_eq_dec)]. Defined.
Fixpoint files_after (h : list (sop * fstatus)) (F : list file) : list file :=
  match h with
  | [] => F
  | (SAdd d b, F_ok) :: h' => files_after h' ((d, b) :: F)
  | (SRemove d b, _) :: h' => files_after h' (remove file_eq_dec (d, b) F)
  | _ :: h' => files_after h' F
  end.

(** Directories that a history may create documents for: those leading to a file. *)
Definition sop_file (o : sop) : option file :=
  match o with SAdd d b | SRemove d b | SOther d b => Some (d, b) | SDoc => None end.
Definition mentioned_dir (ops : list sop) (d : list bytes) : Prop :=
  exists o fd fb rest, In o ops /\ sop_file o = Some (fd, fb) /\ fd = d ++ rest.
(** Directory names over the term length limit are looked up by their SHA-1: those
    in use must not collide. *)
Definition no_collision (sha1 : bytes -> bytes) (D : list bytes -> Prop) : Prop :=
  forall a b, D a -> D b -> directory_db_path sha1 (join a) = directory_db_path sha1 (join b) -> join a = join b.

(** Full name of a file below the root. *)
Definition full_name (root : bytes) (f : file) : bytes := root ++ SLASH :: join (fst f ++ [snd f]).

(** The last name of a directory, if any. *)
Definition leaf (d : list bytes) : bytes := last d [].

(** The strings X for which a file in directory [cs] is to be found by "path:X": the
    directory itself and "/**" after it and after each directory above it. *)
Definition path_term (cs : list bytes) (x : bytes) : Prop :=
  x = join cs \/ x = lit "**" \/ exists pre suf, cs = pre ++ suf /\ pre <> [] /\ x = join pre ++ lit "/**".
