(** Histories of "notmuch new" and other commands on a changing mail store, for C75. *)
From Verif Require Import Bytes DocMap MailStore MailStoreSpec Maildir New NewSpec NewCrash.

(** What happened, latest first: a run of "notmuch new" (complete, interrupted or killed),
    or another command that changed which files of the directory [p] are recorded. *)
Inductive event := Run (w : new_run) | Touch (p : bytes).

Section History.
Variable compressed : bytes -> bytes.
(** The value of new.ignore, the same in all runs. *)
Variables (verbatim : list bytes) (regex : list (bytes -> bool)).
Notation ignored := (entry_in_ignore_list verbatim regex).

(** The run found the directory [p] with this mtime and these entries. *)
Definition observed (w : new_run) (p : bytes) (mtime : Z) (es : list (bytes * node)) : Prop :=
  exists nlink, scanned ignored [] (w_root w) p (NDir mtime nlink es).
(** Two listings of a directory have the same names, the same of them are regular files,
    and the same of these are mails.  (What is inside the sub-directories may differ.) *)
Definition same_entries (es es' : list (bytes * node)) : Prop :=
  (forall n, In n (map fst es) <-> In n (map fst es')) /\
  (forall n c, In (n, NReg c) es -> exists c', In (n, NReg c') es' /\ (c = None <-> c' = None)) /\
  (forall n c, In (n, NReg c) es' -> exists c', In (n, NReg c') es /\ (c = None <-> c' = None)).
(** The event left the directory [p] as it was. *)
Definition quiet (p : bytes) (mtime : Z) (es : list (bytes * node)) (ev : event) : Prop :=
  match ev with
  | Run w => exists es', observed w p mtime es' /\ same_entries es es'
  | Touch q => q <> p /\ forall n rest, mem SLASH n = false -> q = child p n \/ q = child (child p n) rest ->
                 ordinary ignored p n /\ In n (map fst es)
  end.
(** Modification times are honest: if one run read the directory [p] when its mtime was not
    the current second, and a later one finds the same mtime, then the directory has the
    same entries and nothing happened to it in between. *)
Definition steady (H : list event) : Prop :=
  forall H0 w H1 w0 H2, H = H0 ++ Run w :: H1 ++ Run w0 :: H2 ->
  forall p mtime es es0, observed w p mtime es -> observed w0 p mtime es0 -> mtime <> w_time w0 p ->
  same_entries es0 es /\ Forall (quiet p mtime es0) H1.
(** The runs considered: on a possible tree with honest link counts, no directory dated 1970
    (a new directory document has mtime 0), and only mails that can be indexed. *)
Definition usable (w : new_run) : Prop :=
  possible compressed w /\ w_verbatim w = verbatim /\ w_regex w = regex /\ honest_links ignored (w_root w) /\
  (forall p mtime es, observed w p mtime es -> mtime <> 0%Z) /\
  (forall f keys ok, mail_in (w_root w) f keys ok -> ok = true).

(** The databases that a history leads to: runs of "notmuch new" that end, fail, are
    interrupted or killed at any moment; changes of tags; adding and removing single files. *)
Inductive history : list event -> ndb -> Prop :=
| h_start : history [] {| n_mail := empty_db; n_dirs := [] |}
| h_run H db w e db' : history H db -> usable w -> run_new compressed w db = Some (e, db') -> history (Run w :: H) db'
| h_killed H db w db' : history H db -> usable w -> killed compressed w db db' -> history (Run w :: H) db'
| h_tags H db id tags : history H db -> history H {| n_mail := retag compressed id tags (n_mail db); n_dirs := n_dirs db |}
| h_add H sync tags p n c s s' : history H (s_db s) -> (p = [] \/ exists r, p = SLASH :: r) -> mem SLASH n = false -> possible_mail compressed c ->
    ~ recorded (s_db s) (child p n) -> add_file compressed sync tags p n c s = Some s' -> history (Touch p :: H) (s_db s')
| h_remove H sync p n db m : history H db -> mem SLASH n = false -> remove_filename compressed sync (child p n) (n_mail db) = Some m ->
    history (Touch p :: H) {| n_mail := m; n_dirs := n_dirs db |}.
End History.
