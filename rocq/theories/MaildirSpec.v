(** Independent description of maildir file names, used to state C15 and C16. *)
From Verif Require Import Bytes.
From Coq Require Import Sorting.Sorted.
Local Open Scope N_scope.

(** The part [n] occurs somewhere in [s]. *)
Definition occurs (n s : bytes) : Prop := exists a b, s = a ++ n ++ b.
(** root/sub/unique[:2,flags]. *)
Definition maildir_path (root sub unique : bytes) (info : option bytes) : bytes :=
  root ++ lit "/" ++ sub ++ lit "/" ++ unique ++ match info with Some flags => lit ":2," ++ flags | None => [] end.
(** A name in the "cur" or "new" directory of a maildir whose own name does not look
    like maildir information. *)
Definition maildir_name (root sub unique : bytes) (info : option bytes) : Prop :=
  ~ occurs (lit ":2,") root /\ (sub = lit "cur" \/ sub = lit "new") /\
  ~ In "/"%char unique /\ ~ occurs (lit ":2,") unique /\
  match info with Some flags => ~ In "/"%char flags | None => True end.
(** Flags as the maildir specification wants them: ASCII, in order, none repeated. *)
Definition good_flags (flags : bytes) : Prop :=
  StronglySorted (fun a b => code a < code b) flags /\ Forall (fun c => 0 < code c < 128) flags.
Definition flags_of (info : option bytes) : bytes := match info with Some f => f | None => [] end.
(** The tag a flag stands for, and whether the flag means its absence. *)
Inductive means : ascii -> bytes -> bool -> Prop :=
| m_draft : means "D" (lit "draft") true
| m_flagged : means "F" (lit "flagged") true
| m_passed : means "P" (lit "passed") true
| m_replied : means "R" (lit "replied") true
| m_unread : means "S" (lit "unread") false.
(** The tags call for the flag. *)
Definition called_for (tags : list bytes) (flag : ascii) : Prop :=
  exists tag present, means flag tag present /\ (if present then In tag tags else ~ In tag tags).
Definition known (flag : ascii) : Prop := exists tag present, means flag tag present.
(** The file lies in a directory called "cur" or "new". *)
Definition in_maildir (n : bytes) : Prop :=
  exists root sub base, n = root ++ lit "/" ++ sub ++ lit "/" ++ base /\ (sub = lit "cur" \/ sub = lit "new") /\ ~ In "/"%char base.
(** A name of a message is regular: outside maildirs, or with well-formed flags. *)
Definition regular (n : bytes) : Prop :=
  ~ in_maildir n \/
  exists root sub unique info, n = maildir_path root sub unique info /\ maildir_name root sub unique info /\ good_flags (flags_of info).
(** The flags of a name say what the tags say.  Names in "new" may have no flags. *)
Definition flags_match (tags : list bytes) (n : bytes) : Prop :=
  ~ in_maildir n \/
  exists root sub unique info, n = maildir_path root sub unique info /\ maildir_name root sub unique info /\
    (info = None -> sub = lit "new") /\ forall c, known c -> (In c (flags_of info) <-> called_for tags c).
(** What a file name says about flags: nothing at all when it is outside maildirs, or in
    "cur" without information. *)
Inductive says : bytes -> option bytes -> Prop :=
| says_flags : forall root sub unique flags, maildir_name root sub unique (Some flags) -> says (maildir_path root sub unique (Some flags)) (Some flags)
| says_new : forall root unique, maildir_name root (lit "new") unique None -> says (maildir_path root (lit "new") unique None) (Some [])
| says_cur : forall root unique, maildir_name root (lit "cur") unique None -> says (maildir_path root (lit "cur") unique None) None
| says_outside : forall n, ~ in_maildir n -> says n None.
