(** Independent specification for killed and repeated tagging. *)
From Verif Require Import Bytes DocMap TagOps Maildir MailStore TagKill.

(** The same message, except perhaps for its tags and file names. *)
Definition same_but (d d' : mdoc) : Prop :=
  m_id d' = m_id d /\ m_ghost d' = m_ghost d /\ m_threads d' = m_threads d /\ m_props d' = m_props d /\
  m_refs d' = m_refs d /\ m_replyto d' = m_replyto d.
(** A database nobody has open: what is seen is what is durable; ids are unique. *)
Definition at_rest (w : world) : Prop := w_seen w = w_durable w /\ NoDup (map fst (w_seen w)).
(** The same set of tags. *)
Definition same_tags (l l' : list bytes) : Prop := forall t, In t l <-> In t l'.

Definition sources (acts : list action) : list bytes := flat_map (fun a => match a with ARename f _ => [f] | _ => [] end) acts.
Definition targets (acts : list action) : list bytes := flat_map (fun a => match a with ARename _ g => [g] | _ => [] end) acts.
(** No file is renamed twice, no two get the same name, no name is taken. *)
Definition clean (acts : list action) (dk : disk) : Prop :=
  NoDup (sources acts ++ targets acts) /\ forall g, In g (targets acts) -> dk g = None.

(** Runs of the same command killed one after another. *)
Inductive killed_repeatedly (ok : bytes -> bool) (sync ra : bool) (q : mquery) (ops : list tagop) : world -> world -> Prop :=
| kr_none w : killed_repeatedly ok sync ra q ops w w
| kr_more w w' w'' : killed (tag_actions ok sync ra q ops w) w w' -> killed_repeatedly ok sync ra q ops w' w'' ->
    killed_repeatedly ok sync ra q ops w w''.
