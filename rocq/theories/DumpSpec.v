(** Independent specification of dump/restore: what a message's tags, properties and
    identity are, and what a restore must do to them. *)
From Verif Require Import Bytes Terms DocMap Db PropsSpec Dump.
Local Open Scope nat_scope.

Definition tagged (d : doc) (t : bytes) : Prop := In (lit "K" ++ t) (d_terms d).
Definition has_id (d : doc) (id : bytes) : Prop := In (lit "Q" ++ id) (d_terms d).
Definition plain_term (t : bytes) : Prop := (forall x, t <> lit "K" ++ x) /\ ~ is_property t.

(** A document as notmuch writes it: sorted terms, well-formed properties, at most
    one message id. *)
Definition doc_wf (d : doc) : Prop :=
  tsorted (d_terms d) /\ props_wf (d_terms d) /\ (forall a b, has_id d a -> has_id d b -> a = b).
(** A database in which a message id names one document. *)
Definition db_wf (s : db) : Prop :=
  (forall k d, dget k (st_docs (vis s)) = Some d -> doc_wf d) /\
  (forall id k1 d1 k2 d2, dget k1 (st_docs (vis s)) = Some d1 -> dget k2 (st_docs (vis s)) = Some d2 ->
     has_id d1 id -> has_id d2 id -> k1 = k2).

(** Messages within the limits notmuch enforces when storing. *)
Definition storable (id : bytes) (d : doc) : Prop :=
  doc_wf d /\ has_id d id /\ cstr id /\ id <> [] /\ length id <= 189 /\
  (forall t, tagged d t -> cstr t /\ length t <= 200) /\
  (forall k v, props (d_terms d) k v -> cstr k /\ cstr v /\ length k + length v <= 235).

(** Effect of restoring the dumped message [d0] onto [d], giving [d']. *)
Definition restored_from (d0 d d' : doc) : Prop :=
  (forall t, tagged d' t <-> tagged d0 t) /\
  ((exists k v, props (d_terms d0) k v) -> forall k v, props (d_terms d') k v <-> props (d_terms d0) k v) /\
  ((forall k v, ~ props (d_terms d0) k v) -> forall k v, props (d_terms d') k v <-> props (d_terms d) k v) /\
  (forall t, plain_term t -> (In t (d_terms d') <-> In t (d_terms d))).

Definition cfg_item_ok (p : bytes * bytes) : Prop := cstr (fst p) /\ cstr (snd p) /\ fst p <> [] /\ snd p <> [].

Definition everything : include := {| inc_config := true; inc_properties := true; inc_tags := true |}.
(** The dumper skips message ids containing a newline. *)
Definition one_line (id : bytes) : Prop := ~ In (ascii_of_N 10) id.
