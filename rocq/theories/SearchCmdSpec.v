(** What the search command should show (doc/man1/notmuch-search.rst). *)
From Verif Require Import Bytes XQuery Thread Query QuerySpec StrUtilSpec SearchCmd.
Local Open Scope nat_scope.

(** --offset=[-]N and --limit=N on a list of results. *)
Definition window {A} (offset limit : Z) (l : list A) : list A :=
  let from := if (0 <=? offset)%Z then Z.to_nat offset else length l - Z.to_nat (- offset) in
  let rest := skipn from l in
  if (limit <? 0)%Z then rest else firstn (Z.to_nat limit) rest.

(** the exclusion in force: flagging works for the summary only. *)
Definition in_force (exclude : omit_mode) (out : output) : omit_mode :=
  match exclude, out with
  | EXCLUDE_FLAG, O_SUMMARY => EXCLUDE_FLAG
  | EXCLUDE_FLAG, _ => EXCLUDE_FALSE
  | m, _ => m
  end.

(** What is shown of a message: its file names, or the --duplicate'th of them; its id, or
    nothing if it has fewer than --duplicate files.  -1: no --duplicate option. *)
Definition shows (files : xdoc -> list bytes) (out : output) (dupe : Z) (d : xdoc) : list bytes :=
  match out with
  | O_FILES => if (dupe =? -1)%Z then files d
               else match nth_error (files d) (Z.to_nat dupe - 1) with Some f => [f] | None => [] end
  | _ => if (dupe <=? Z.of_nat (length (files d)))%Z then [xd_mid d] else []
  end.

(** The terms of an "id:" query in text form, separated by single blanks. *)
Inductive ids_query : bytes -> list bytes -> Prop :=
| iq_one body id : term_text body id -> ids_query (lit "id:" ++ body) [id]
| iq_more body id rest ids : term_text body id -> ids_query rest ids ->
    ids_query (lit "id:" ++ body ++ " "%char :: rest) (id :: ids).

(** Splitting at a separator byte that ends every item. *)
Fixpoint ended_by (sep : byte) (cur : bytes) (s : bytes) : list bytes :=
  match s with
  | [] => []
  | c :: r => if beq c sep then cur :: ended_by sep [] r else ended_by sep (cur ++ [c]) r
  end.
