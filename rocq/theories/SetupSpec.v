(** Specification for C68, from doc/man1/notmuch.rst ("notmuch setup"): the dialogue, and what
    the configuration file says afterwards. *)
From Verif Require Import Bytes Config ConfigSpec ConfigCmd ConfigCmdSpec.
Local Open Scope nat_scope.

(** What the user types: name, primary address, one answer for each of the current additional
    addresses, more addresses (none empty; then Enter), the mail directory, and two lists of
    tags.  An empty answer: just Enter. *)
Record answers := { a_name : bytes; a_email : bytes; a_current : list bytes; a_more : list bytes;
                    a_path : bytes; a_tags : bytes; a_excl : bytes }.
Definition typed (a : answers) : list bytes :=
  [a_name a; a_email a] ++ a_current a ++ a_more a ++ [[]; a_path a; a_tags a; a_excl a].
Definition entered (a : answers) : list bytes := map (fun s => s ++ [chr 10]) (typed a).
Definition sensible (emails : list bytes) (a : answers) : Prop :=
  Forall (fun s => ~ In NUL s /\ ~ In (chr 10) s) (typed a) /\ length (a_current a) = length emails /\ ~ In [] (a_more a).

(** The additional addresses: the current ones, each replaced if another was typed, then the
    new ones. *)
Inductive replaced : list bytes -> list bytes -> list bytes -> Prop :=
| rp_nil : replaced [] [] []
| rp_kept e es l r : replaced es l r -> replaced (e :: es) ([] :: l) (e :: r)
| rp_new e es x l r : x <> [] -> replaced es l r -> replaced (e :: es) (x :: l) (x :: r).

(** The words of an answer. *)
Inductive words : bytes -> list bytes -> Prop :=
| w_nil : words [] []
| w_cons w sp s l : w <> [] -> ~ In " "%char w -> Forall (eq " "%char) sp -> (sp = [] -> s = []) -> words s l -> words (w ++ sp ++ s) (w :: l).

Definition absolute (cwd path : bytes) : bytes :=
  match path with "/"%char :: _ => path | _ => cwd ++ lit "/" ++ path end.
(** A value if an answer was given. *)
Definition given (answer : bytes) (values : list bytes) : list bytes := match answer with [] => [] | _ => values end.
