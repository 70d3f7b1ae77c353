(** Independent specification: a message's properties are a set of pairs. *)
From Verif Require Import Bytes Terms DocMap Db.
From Coq Require Import Sorting.Sorted.

Definition propset := bytes -> bytes -> Prop.

Definition key_ok (k : bytes) : Prop := ~ In "="%char k.
Definition pair_before (a b : bytes * bytes) : Prop :=
  bcmp (fst a) (fst b) = Lt \/ (fst a = fst b /\ bcmp (snd a) (snd b) = Lt).

(** [l] lists exactly the pairs of [P] satisfying [f], in order, each once. *)
Definition lists (l : list (bytes * bytes)) (P : propset) (f : bytes -> Prop) : Prop :=
  (forall k v, In (k, v) l <-> P k v /\ f k) /\ StronglySorted pair_before l.

(** The properties recorded in the terms of a document: "key=value" under the
    property prefix. *)
Definition props (terms : list bytes) : propset :=
  fun k v => key_ok k /\ In (lit "XPROPERTY" ++ k ++ "="%char :: v) terms.
(** Every property term has a '=' (true of all documents written by notmuch). *)
Definition props_wf (terms : list bytes) : Prop :=
  forall s, In (lit "XPROPERTY" ++ s) terms -> In "="%char s.
Definition is_property (t : bytes) : Prop := exists s, t = lit "XPROPERTY" ++ s.

Definition key_matches (key : bytes) (exact : bool) (k : bytes) : Prop :=
  if exact then k = key else exists r, k = key ++ r.

(** [h] is an unfrozen handle, up to date, on the stored message [k] = [d]. *)
Definition handle_on (s : db) (h k : N) (d : doc) : Prop :=
  writable s = true /\ isopen s = true /\ dget k (st_docs (vis s)) = Some d /\
  tsorted (d_terms d) /\ props_wf (d_terms d) /\
  dget h (handles s) = Some {| h_doc := k; h_terms := d_terms d; h_modified := false; h_frozen := 0 |}.

(** Outcome of a modification: only the properties of message [k] change, from [P] to [Q]. *)
Definition changes_props (s s' : db) (h k : N) (d : doc) (Q : propset) : Prop :=
  exists d', handle_on s' h k d' /\
    (forall key v, props (d_terms d') key v <-> Q key v) /\
    (forall t, ~ is_property t -> (In t (d_terms d') <-> In t (d_terms d))) /\
    (forall j, j <> k -> dget j (st_docs (vis s')) = dget j (st_docs (vis s))).
