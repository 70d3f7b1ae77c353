(** What a scan of the mail store should find, stated on the tree alone, for C34/C35. *)
From Verif Require Import Bytes DocMap MailStore MailStoreSpec Maildir New.

(** The file [f] is recorded for the message with this id. *)
Definition recorded_for (db : ndb) (f id : bytes) : Prop :=
  exists k d, has (n_mail db) k d /\ In f (m_files d) /\ m_id d = id.
Definition recorded (db : ndb) (f : bytes) : Prop := exists id, recorded_for db f id.
Definition known_dir (db : ndb) (p : bytes) : Prop := exists m, dir_get p db = Some m.

Section Spec.
Variable ignored : bytes -> bytes -> bool.   (* directory, name *)

(** A directory entry the configuration does not exclude. *)
Definition ordinary (p n : bytes) : Prop := n <> lit "." /\ n <> lit ".." /\ ignored p n = false.
Definition is_dir (nd : node) : Prop := match nd with NDir _ _ _ | NUnreadable _ _ => True | _ => False end.
(** A directory with sub-directories cur, new and tmp. *)
Definition maildir (es : list (bytes * node)) : Prop :=
  forall n, In n [lit "cur"; lit "new"; lit "tmp"] -> exists nd, In (n, nd) es /\ is_dir nd.
(** The sub-directories that are scanned. *)
Definition entered (p : bytes) (es : list (bytes * node)) (n : bytes) : Prop :=
  ordinary p n /\ ~ (maildir es /\ n = lit "tmp") /\ ~ (p = [] /\ n = lit ".notmuch").
(** [scanned top nd p sub]: below the directory [nd] at [top], the directory [sub] at
    path [p] is scanned. *)
Inductive scanned (top : bytes) (nd : node) : bytes -> node -> Prop :=
| scanned_top : scanned top nd top nd
| scanned_sub p mt nl es n sub : scanned top nd p (NDir mt nl es) -> In (n, sub) es -> is_dir sub ->
    entered p es n -> scanned top nd (child p n) sub.
(** [f] is the name of a regular file in a scanned directory. *)
Definition visible (top : bytes) (nd : node) (f : bytes) (c : content) : Prop :=
  exists p mt nl es n, scanned top nd p (NDir mt nl es) /\ In (n, NReg c) es /\ ordinary p n /\ f = child p n.
(** [f] is below a name that exists in a scanned directory but is not scanned itself:
    "tmp" of a maildir, ".notmuch", or no directory any more; or in a directory that cannot
    be read (the scan fails on it unless its recorded mtime lets it be skipped). *)
Definition shadowed (top : bytes) (nd : node) (f : bytes) : Prop :=
  (exists p mt nl es n sub rest, scanned top nd p (NDir mt nl es) /\ In (n, sub) es /\ ordinary p n /\
    ~ (is_dir sub /\ entered p es n) /\ f = child (child p n) rest) \/
  (exists p mt nl rest, scanned top nd p (NUnreadable mt nl) /\ f = child p rest).

(** A possible tree: names in a directory are different, not empty, without '/'. *)
Definition good_name (n : bytes) : Prop := n <> [] /\ mem SLASH n = false.
Inductive good_tree : node -> Prop :=
| good_dir mt nl es : NoDup (map fst es) -> (forall n nd, In (n, nd) es -> good_name n /\ good_tree nd) -> good_tree (NDir mt nl es)
| good_reg c : good_tree (NReg c)
| good_unreadable mt nl : good_tree (NUnreadable mt nl)
| good_other : good_tree NOther
| good_broken : good_tree NBroken.
(** The mails below a node. *)
Inductive mail_in : node -> mfile -> list bytes -> bool -> Prop :=
| mail_here f keys ok : mail_in (NReg (Some (f, keys, ok))) f keys ok
| mail_below mt nl es n nd f keys ok : In (n, nd) es -> mail_in nd f keys ok -> mail_in (NDir mt nl es) f keys ok.

(** The recorded mtimes can be trusted: a scanned directory whose mtime is the recorded
    one has not changed since, and one with link count 2 and no recorded sub-directory has
    no sub-directory. *)
Definition trustworthy (top : bytes) (nd : node) (db : ndb) : Prop :=
  forall p mt nl es, scanned top nd p (NDir mt nl es) -> dir_get p db = Some mt ->
  (forall n, mem SLASH n = false -> recorded db (child p n) -> ordinary p n /\ exists c, In (n, NReg c) es) /\
  (forall n f keys ok, In (n, NReg (Some (f, keys, ok))) es -> ordinary p n -> recorded db (child p n)) /\
  (forall n, mem SLASH n = false -> known_dir db (child p n) -> ordinary p n /\ exists nd, In (n, nd) es) /\
  (nl = 2%N -> (forall n, mem SLASH n = false -> ~ known_dir db (child p n)) ->
     forall n nd, In (n, nd) es -> is_dir nd -> ~ entered p es n).
End Spec.

(** The databases "notmuch new" works on: every name is recorded for one message only;
    files lie in known directories below the root and known directories have known parents. *)
Record good_ndb (db : ndb) : Prop := {
  g_owner : forall f i j, recorded_for db f i -> recorded_for db f j -> i = j;
  g_file : forall f, recorded db f -> exists p n, f = child p n /\ mem SLASH n = false /\ known_dir db p;
  g_dir : forall p, known_dir db p -> p = [] \/ exists q n, p = child q n /\ mem SLASH n = false /\ known_dir db q;
  g_nodup : NoDup (map fst (n_dirs db)) }.
(** The tags that stand for maildir flags (C15). *)
Definition flag_tag (t : bytes) : Prop := In t [lit "draft"; lit "flagged"; lit "passed"; lit "replied"; lit "unread"].

(** One run of "notmuch new": its configuration, the clock, the mail store, and when it
    is interrupted. *)
Record new_run := {
  w_full_scan : bool; w_sync : bool; w_tags : list bytes; w_verbatim : list bytes; w_regex : list (bytes -> bool);
  w_time : bytes -> Z; w_root : node; w_ticks : option nat }.
Definition w_ignored (w : new_run) : bytes -> bytes -> bool := entry_in_ignore_list (w_verbatim w) (w_regex w).

Section Reached.
Variable compressed : bytes -> bytes.
Definition run_new (w : new_run) : ndb -> option (new_exit * ndb) :=
  notmuch_new compressed (w_full_scan w) (w_sync w) (w_tags w) (w_verbatim w) (w_regex w) (w_time w) (w_root w) (w_ticks w).
(** The run is possible: the tree is one, and for every mail in it the hash table of its
    references is one of them (as in C17). *)
Definition possible_mail (c : content) : Prop := forall f keys ok, c = Some (f, keys, ok) -> legal compressed (OAdd [] f keys ok).
Definition possible (w : new_run) : Prop :=
  good_tree (w_root w) /\ forall f keys ok, mail_in (w_root w) f keys ok -> possible_mail (Some (f, keys, ok)).
(** A tag the indexing of a mail in the tree sets for the message with this id. *)
Definition auto_tag (w : new_run) (id t : bytes) : Prop :=
  exists f keys ok, mail_in (w_root w) f keys ok /\ stored compressed (f_id f) = id /\ In t (f_auto_tags f).
(** The databases that runs of "notmuch new", changes of tags, and adding and removing
    single files lead to. *)
Inductive reached : ndb -> Prop :=
| reached_empty : reached {| n_mail := empty_db; n_dirs := [] |}
| reached_new w db e db' : reached db -> possible w -> run_new w db = Some (e, db') -> reached db'
| reached_tags id tags db : reached db -> reached {| n_mail := retag compressed id tags (n_mail db); n_dirs := n_dirs db |}
| reached_add sync tags p n c s s' : reached (s_db s) -> (p = [] \/ exists r, p = SLASH :: r) -> mem SLASH n = false -> possible_mail c ->
    ~ recorded (s_db s) (child p n) -> add_file compressed sync tags p n c s = Some s' -> reached (s_db s')
| reached_remove sync name db m : reached db -> remove_filename compressed sync name (n_mail db) = Some m ->
    reached {| n_mail := m; n_dirs := n_dirs db |}.
End Reached.
(** Something in the scanned directories that cannot be examined: a directory that cannot
    be read or a dangling symbolic link. *)
Definition obstacle (ignored : bytes -> bytes -> bool) (nd : node) : Prop :=
  (exists p mt nl, scanned ignored [] nd p (NUnreadable mt nl)) \/
  (exists p mt nl es n, scanned ignored [] nd p (NDir mt nl es) /\ In (n, NBroken) es /\ ordinary ignored p n).
(** The link count of a scanned directory is 2 only if no sub-directory is scanned. *)
Definition honest_links (ignored : bytes -> bytes -> bool) (nd : node) : Prop :=
  forall p mt es, scanned ignored [] nd p (NDir mt 2%N es) -> forall n sub, In (n, sub) es -> is_dir sub -> ~ entered ignored p es n.
