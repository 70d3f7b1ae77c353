(** What the show command should print (doc/man1/notmuch-show.rst, devel/schemata). *)
From Verif Require Import Bytes XQuery Thread Query QuerySpec ThreadTree ThreadTreeSpec SearchCmd SearchCmdSpec ShowCmd.
Local Open Scope nat_scope.

(** The messages printed, in order, with their indentation. *)
Fixpoint printed (i : item) : list (xdoc * nat) :=
  match i with
  | IMsg d n => [(d, n)]
  | INull => []
  | IList l => concat (map printed l)
  end.
(** devel/schemata: thread_node = [message|null, [thread_node*]]. *)
Inductive thread_node : item -> Prop :=
| tn_message d n kids : Forall thread_node kids -> thread_node (IList [IMsg d n; IList kids])
| tn_null kids : Forall thread_node kids -> thread_node (IList [INull; IList kids]).
(** thread = [thread_node*], thread_set = [thread*]. *)
Definition schema_thread (i : item) : Prop := exists l, i = IList l /\ Forall thread_node l.
Definition schema_thread_set (i : item) : Prop := exists l, i = IList l /\ Forall schema_thread l.

(** A tree of messages. *)
Inductive tree := Tree (d : xdoc) (kids : list tree).
Fixpoint docs_of (t : tree) : list xdoc := match t with Tree d kids => d :: concat (map docs_of kids) end.
Definition root (t : tree) : xdoc := match t with Tree d _ => d end.
(** How it is printed: a message that is not shown is null and does not count for the
    indentation of what is below. *)
Fixpoint node_item (shown : xdoc -> bool) (n : nat) (t : tree) : item :=
  match t with
  | Tree d kids =>
      if shown d then IList [IMsg d n; IList (map (node_item shown (S n)) kids)]
      else IList [INull; IList (map (node_item shown n) kids)]
  end.
(** Replies below what they reply to: every message is below one it names in In-Reply-To or
    References, and siblings are oldest first. *)
Definition doc_names (a b : xdoc) : Prop :=
  (xd_irt a = Some (xd_mid b) /\ xd_mid b <> []) \/ In (xd_mid b) (xd_refs a).
Definition older (a b : tree) : Prop := (xd_date (root a) <= xd_date (root b))%Z.
Inductive replies_below : tree -> Prop :=
| rb_tree d kids : Forall (fun k => doc_names (root k) d) kids -> Sorted.Sorted older kids -> Forall replies_below kids -> replies_below (Tree d kids).

(** The messages of a thread name each other without a cycle. *)
Definition no_cycle (docs : list xdoc) : Prop :=
  exists rank : xdoc -> nat, forall a b, In a docs -> In b docs -> doc_names a b -> rank b < rank a.
