(** Specification for C62, from doc/man1/notmuch-config.rst: what "notmuch config set" does to
    the configuration that later commands see. *)
From Verif Require Import Bytes StrUtil StrUtilSpec SprinterSpec Config ConfigSpec ConfigCmd.
Local Open Scope nat_scope.

(** The value an item has after it was set: a single value as it is, several values each
    followed by a semicolon. *)
Definition stored (values : list bytes) : bytes :=
  match values with [v] => v | _ => concat (map (fun v => v ++ lit ";") values) end.

(** Key files as GLib keeps them, whose group names have no period. *)
Definition ordinary (f : kfile) : Prop :=
  NoDup (map fst f) /\ Forall (fun e => NoDup (map fst (snd e)) /\ ~ In "."%char (fst e)) f.

(** Values that can be written to a key file and read back as text: UTF-8; several of them
    without semicolons; no form feed at the very beginning. *)
Definition writable (values : list bytes) : Prop :=
  values <> [] /\ Forall utf8 values /\
  (forall a b l, values = a :: b :: l -> Forall (fun v => ~ In ";"%char v) values) /\
  hd NUL (hd [] values) <> FF.

(** "section.item". *)
Definition section_item (item section name : bytes) : Prop :=
  item = section ++ lit "." ++ name /\ ~ In "."%char section /\ name <> [].
