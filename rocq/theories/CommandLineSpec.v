(** Vocabulary for C87: what the shared options ask for, from the assignments read. *)
From Verif Require Import Bytes Options OptionsSpec OptionTables Hooks CommandLine.
Local Open Scope nat_scope.

(** The last --uuid given is [u] (variable 502 is --uuid's, OptionTables.v). *)
Definition asks_uuid (es : list effect) (u : bytes) : Prop :=
  exists es1 es2, es = es1 ++ SetString 502 u :: es2 /\ forall v, ~ In (SetString 502 v) es2.
(** No --uuid was given. *)
Definition asks_no_uuid (es : list effect) : Prop := forall v, ~ In (SetString 502 v) es.
(** The last word on --version (500) or --help (501) was yes. *)
Definition asks_flag (n : nat) (es : list effect) : Prop :=
  exists es1 es2, es = es1 ++ SetBool n true :: es2 /\ forall b, ~ In (SetBool n b) es2.

(** The commands that work on the database, with their options, but "compact". *)
Definition database_commands : list (bytes * list desc) :=
  [(lit "search", opts_notmuch_search); (lit "address", opts_notmuch_address); (lit "count", opts_notmuch_count);
   (lit "show", opts_notmuch_show); (lit "reply", opts_notmuch_reply); (lit "tag", opts_notmuch_tag);
   (lit "dump", opts_notmuch_dump); (lit "restore", opts_notmuch_restore); (lit "reindex", opts_notmuch_reindex);
   (lit "new", opts_notmuch_new); (lit "insert", opts_notmuch_insert)].
(** And all commands with a name. *)
Definition all_commands : list (bytes * list desc) :=
  database_commands ++
  [(lit "compact", opts_notmuch_compact); (lit "config", opts_notmuch_minimal); (lit "setup", opts_notmuch_minimal);
   (lit "help", opts_notmuch_minimal)].

(** The command itself goes ahead, or another program does. *)
Definition goes_ahead (x : happening) : bool := match x with Body _ _ _ _ _ | External _ _ _ => true | _ => false end.
(** All but warnings. *)
Definition without_warnings (l : list happening) : list happening :=
  filter (fun x => match x with Uuid_ignored _ => false | _ => true end) l.
(** [cmd] is called with [args], after options read as [es]. *)
Definition called (argv : list bytes) (es : list effect) (cmd : bytes) (args : list bytes) : Prop :=
  reads opts_notmuch_main 0 argv es (cmd :: args).
(** The query syntax asked for: the last --query (variable 503), "infix" (40) when there is none. *)
Definition asks_query (es : list effect) (q : Z) : Prop :=
  (exists es1 es2, es = es1 ++ SetKeyword 503 q :: es2 /\ forall z, ~ In (SetKeyword 503 z) es2) \/
  (q = 40%Z /\ forall z, ~ In (SetKeyword 503 z) es).
(** The commands that only read. *)
Definition reading_commands : list bytes := [lit "search"; lit "address"; lit "count"; lit "show"; lit "reply"].
(** The options of a command that are its own. *)
Definition own (es : list effect) : list effect :=
  filter (fun x => match x with
                   | SetBool v _ | SetString v _ | SetKeyword v _ => negb ((500 <=? v) && (v <=? 503))
                   | _ => true end) es.
