(** Vocabulary for C92: sets of pairs of texts. *)
From Verif Require Import Bytes Terms Meta DocMap Db Props PropsSpec PyTags PyProps.
Local Open Scope nat_scope.

(** The pairs (key, value). *)
Definition relation := text -> text -> Prop.
(** A key: a text with an encoding, without NUL and '='.  A value: without NUL.  A pair that fits into a term. *)
Definition key_text (k : text) : Prop := exists b, encode k = Some b /\ ~ In NUL b /\ ~ In "="%char b.
Definition value_text (v : text) : Prop := exists b, encode v = Some b /\ ~ In NUL b.
Definition fits (k v : text) : Prop := forall kb vb, encode k = Some kb -> encode v = Some vb -> length kb + length vb <= 235.
(** The terms of a document hold the pairs. *)
Definition recorded (l : list bytes) (R : relation) : Prop :=
  tsorted l /\ props_wf l /\
  (forall kb vb, props l kb vb -> length kb + length vb <= 235 /\ ~ In NUL kb /\ ~ In NUL vb /\ exists k v, encode k = Some kb /\ encode v = Some vb) /\
  (forall k v, R k v <-> exists kb vb, encode k = Some kb /\ encode v = Some vb /\ props l kb vb).
(** The message that the handle h is for, in a database open for writing. *)
Definition has_props (s : db) (h k : N) (R : relation) : Prop := exists d, handle_on s h k d /\ recorded (d_terms d) R.
(** Nothing but the properties of this message changes. *)
Definition only_props (s s' : db) (h k : N) : Prop :=
  (forall t, ~ is_property t -> (In t (terms h s') <-> In t (terms h s))) /\
  (forall j, j <> k -> dget j (st_docs (vis s')) = dget j (st_docs (vis s))).
(** Order of texts: that of their encodings. *)
Definition before (a b : text) : Prop := exists x y, encode a = Some x /\ encode b = Some y /\ bcmp x y = Lt.
(** The value that m[key] gives. *)
Definition first_value (R : relation) (k v : text) : Prop := R k v /\ forall w, R k w -> w = v \/ before v w.
(** Calls with texts. *)
Definition proper (o : props_call) : Prop :=
  let pair k v := exists k' v', k = Str k' /\ v = Str v' /\ key_text k' /\ value_text v' /\ fits k' v' in
  match o with
  | PSet k v | PAdd k v | PRemove k v | PSetdefault k v => pair k v
  | PDel k | PPop k _ => exists k', k = Str k' /\ key_text k'
  | PPopitem | PClear => True
  | PUpdate l => Forall (fun p => pair (fst p) (snd p)) l
  end.
(** What a call does to the pairs. *)
Definition added (R : relation) (k v : text) : relation := fun x y => R x y \/ (x = k /\ y = v).
Definition removed (R : relation) (k v : text) : relation := fun x y => R x y /\ ~ (x = k /\ y = v).
Definition meaning (o : props_call) (R R' : relation) : Prop :=
  let same (Q : relation) := forall x y, R' x y <-> Q x y in
  match o with
  | PSet (Str k) (Str v) | PAdd (Str k) (Str v) => same (added R k v)
  | PRemove (Str k) (Str v) => same (removed R k v)
  | PDel (Str k) => same (fun x y => R x y /\ x <> k)
  | PPop (Str k) _ => exists v, first_value R k v /\ same (removed R k v)
  | PPopitem => exists k v, first_value R k v /\ (forall k', (exists w, R k' w) -> k' = k \/ before k k') /\ same (removed R k v)
  | PClear => same (fun _ _ => False)
  | PSetdefault (Str k) (Str v) => ((exists w, R k w) /\ same R) \/ ((forall w, ~ R k w) /\ same (added R k v))
  | PUpdate l => same (fun x y => R x y \/ In (Str x, Str y) l)
  | _ => False
  end.
(** When there is nothing to pop: with a default the map stays as it is, without one KeyError is raised. *)
Definition nothing (o : props_call) (R : relation) : Prop :=
  match o with PPop (Str k) _ => forall v, ~ R k v | PPopitem => forall k v, ~ R k v | _ => False end.
Definition key_error (o : props_call) : bool := match o with PPop _ None | PPopitem => true | _ => false end.
Inductive as_relations : list props_call -> relation -> relation -> Prop :=
| as_rel_nil : forall R, as_relations [] R R
| as_rel_nothing : forall o os R R', nothing o R -> as_relations os R R' -> as_relations (o :: os) R R'
| as_rel_change : forall o os R R' R'', ~ nothing o R -> meaning o R R' -> as_relations os R' R'' -> as_relations (o :: os) R R''.
