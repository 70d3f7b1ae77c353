(** Specification for C61: what Xapian requires of a posting source, and what a search with
    a regular expression should find. *)
From Verif Require Import Bytes Meta Regexp.
Local Open Scope N_scope.

(** The documentation of Xapian::PostingSource: a source stands for a set of documents
    [P]; it is before all, on one, after a document (the indeterminate position after check
    answered no), or at the end. *)
Inductive place := Before | On (d : N) | After (d : N) | Done.
(** The least document of the set from [lo] on, or the end. *)
Definition least (P : N -> Prop) (lo : N) (a : answer) : Prop :=
  match a with
  | Document d => P d /\ lo <= d /\ forall d', P d' -> lo <= d' -> d <= d'
  | AtEnd => forall d', P d' -> ~ lo <= d'
  | No => False
  end.
Definition place_of (a : answer) : place := match a with Document d => On d | _ => Done end.
(** What is not yet passed. *)
Definition floor (pl : place) : N := match pl with Before => 0 | On d => d | After d => d + 1 | Done => 0 end.

Inductive step (P : N -> Prop) : place -> call -> answer -> place -> Prop :=
| step_next_before : forall a, least P 0 a -> step P Before Next a (place_of a)
| step_next_on : forall d a, least P (d + 1) a -> step P (On d) Next a (place_of a)
| step_next_after : forall d a, least P (d + 1) a -> step P (After d) Next a (place_of a)
| step_skip : forall pl did a, pl <> Done -> least P (N.max did (floor pl)) a -> step P pl (SkipTo did) a (place_of a)
| step_check_yes : forall pl did lazy d, pl <> Done -> least P did (Document d) -> step P pl (Check did lazy) (Document d) (On d)
| step_check_no : forall pl did lazy, pl <> Done -> ~ P did -> step P pl (Check did lazy) No (After did).
Inductive steps (P : N -> Prop) : place -> list call -> list answer -> Prop :=
| steps_none : forall pl, steps P pl [] []
| steps_more : forall pl c a pl' cs l, step P pl c a pl' -> steps P pl' cs l -> steps P pl (c :: cs) (a :: l).

(** A caller that keeps to the rules: no calls after the end was reported, and check only
    asks for documents that are not yet passed.  Since whether it keeps to them depends on the
    answers, the rule speaks of a list of calls with its answers. *)
Definition allowed (pl : place) (c : call) : Prop :=
  pl <> Done /\ match c with Check did _ => floor pl <= did | _ => True end.
Definition place_after (c : call) (a : answer) : place :=
  match c, a with _, Document d => On d | Check did _, _ => After did | _, _ => Done end.
Fixpoint obeys (pl : place) (cs : list call) (l : list answer) : Prop :=
  match cs, l with
  | c :: cs', a :: l' => allowed pl c /\ obeys (place_after c a) cs' l'
  | c :: _, [] => False
  | [], _ => True
  end.

(** The documents of the database are kept in ascending order of their ids. *)
Fixpoint ascending (db : list rdoc) : Prop :=
  match db with
  | [] => True
  | d :: db' => (forall e, In e db' -> rd_id d < rd_id e) /\ ascending db'
  end.
(** The documents whose value in the slot matches; an empty value is no value. *)
Definition value_matches (re : bytes -> bool) (slot : N) (db : list rdoc) (did : N) : Prop :=
  exists d, In d db /\ rd_id d = did /\ rd_value d slot <> [] /\ re (c_str (rd_value d slot)) = true.
Fixpoint place_at (pl : place) (cs : list call) (l : list answer) : place :=
  match cs, l with c :: cs', a :: l' => place_at (place_after c a) cs' l' | _, _ => pl end.

(** What a query  field:value  should match (notmuch-search-terms(7)). *)
(** a document has the value v for a field kept as terms with prefix p *)
Definition has (p v : bytes) (d : rdoc) : Prop := In (p ++ v) (rd_terms d).
