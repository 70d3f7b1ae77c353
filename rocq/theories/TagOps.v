(** Model of tag operation lists (tag-util.c) and of tagging by query
    (notmuch-tag.c). *)
From Verif Require Import Bytes Terms Meta DocMap Db StrUtil.
Local Open Scope N_scope.

(** tag-util.c:8-11 struct _tag_operation_t. *)
Record tagop := { to_tag : bytes; to_remove : bool }.

(** tag-util.c:225-236: scan backwards for the last operation naming the tag;
    -1 remove, 1 add, otherwise the default. *)
Fixpoint scan_back (cur : bytes) (rops : list tagop) (dflt : Z) : Z :=
  match rops with
  | [] => dflt
  | o :: r => if bseq cur (to_tag o) then (if to_remove o then -1 else 1)%Z else scan_back cur r dflt
  end.

(** tag-util.c:210-271 [makes_changes]; [ra] is TAG_FLAG_REMOVE_ALL. *)
Definition makes_changes (tags : list bytes) (ops : list tagop) (ra : bool) : bool :=
  if existsb (fun cur => Z.eqb (scan_back cur (List.rev ops) (if ra then -1 else 0)%Z) (-1)) tags then true
  else existsb (fun o => negb (to_remove o) && negb (existsb (fun cur => bseq cur (to_tag o)) tags)) ops.

(** the library call for one tag operation, tag-util.c:273-333. *)
Definition tagop_call (h : N) (o : tagop) : op :=
  if to_remove o then OpRemTag h (to_tag o) else OpAddTag h (to_tag o).

(** tag-util.c:298-312: the loop over the operations, stopping at the first error. *)
Fixpoint apply_ops (h : N) (ops : list tagop) (s : db) : status * db :=
  match ops with
  | [] => (St_success, s)
  | o :: ops' =>
      match step (tagop_call h o) s with
      | (St_success, s') => apply_ops h ops' s'
      | r => r
      end
  end.

(** tag-util.c:273-333 [tag_op_list_apply] for the message handle [h]; [po] is
    TAG_FLAG_PRE_OPTIMIZED.  TAG_FLAG_MAILDIR_SYNC is not part of this model (see
    Maildir.v).  Early returns leave the message frozen, as in the code. *)
Definition tag_op_list_apply (h : N) (ops : list tagop) (ra po : bool) (s : db) : status * db :=
  match dget h (handles s) with
  | None => (St_no_handle, s)
  | Some hd =>
      if negb po && negb (makes_changes (tags_of (h_terms hd)) ops ra) then (St_success, s)
      else
        match step (OpFreeze h) s with
        | (St_success, s) =>
            match (if ra then step (OpRemAll h) s else (St_success, s)) with
            | (St_success, s) =>
                match apply_ops h ops s with
                | (St_success, s) => step (OpThaw h) s
                | r => r
                end
            | r => r
            end
        | r => r
        end
  end.

(** notmuch-tag.c:157-165: one iteration of the loop over the result messages. *)
Definition tag_message (h : N) (ops : list tagop) (ra po : bool) (k : N) (s : db) : status * db :=
  match step (OpOpenMsg h k) s with
  | (St_success, s) => tag_op_list_apply h ops ra po s
  | r => r
  end.
(** [tag_messages]: as above, notmuch-tag.c:157-165. *)
Fixpoint tag_messages (h : N) (ops : list tagop) (ra po : bool) (ks : list N) (s : db) : status * db :=
  match ks with
  | [] => (St_success, s)
  | k :: ks' =>
      match tag_message h ops ra po k s with
      | (St_success, s') => tag_messages h ops ra po ks' s'
      | r => r
      end
  end.

(** A query as the set of documents it selects (evaluation by Xapian, external). *)
Definition query := doc -> bool.
(** the document has the tag term. *)
Definition has_tag (t : bytes) (d : doc) : bool := tmem (tag_term t) (d_terms d).
(** documents matching a query (Xapian). *)
Definition search (q : query) (s : db) : list N :=
  map fst (filter (fun e => q (snd e)) (st_docs (vis s))).

(** What the optimised query strings mean.  notmuch-tag.c:41-89 infix:
    "( Q ) and (C1 or C2 ...)", with "not tag:t" for +t and "tag:t" for -t. *)
Definition op_condition (o : tagop) : query :=
  fun d => if to_remove o then has_tag (to_tag o) d else negb (has_tag (to_tag o) d).
(** [optimize_infix]: as above, notmuch-tag.c:41-89. *)
Definition optimize_infix (q : query) (ops : list tagop) : query :=
  match ops with
  | [] => q
  | _ => fun d => q d && existsb (fun o => op_condition o d) ops
  end.
(** notmuch-tag.c:91-116 sexp: "(and Q C1 C2 ...)". *)
Definition optimize_sexp (q : query) (ops : list tagop) : query :=
  match ops with
  | [] => q
  | _ => fun d => q d && forallb (fun o => op_condition o d) ops
  end.

(** notmuch-tag.c:120-170 [tag_query]: the result list is computed by Xapian before
    the first message is changed.  [opt] is the optimisation used. *)
Definition tag_query (opt : query -> list tagop -> query) (h : N) (q : query) (ops : list tagop) (ra : bool)
  (s : db) : status * db :=
  if ra then tag_messages h ops true false (search q s) s
  else tag_messages h ops false true (search (opt q ops) s) s.

(** notmuch-tag.c:41-89 [_optimize_tag_query_infix]: the text itself. *)
Fixpoint infix_conditions (join : bytes) (ops : list tagop) : bytes :=
  match ops with
  | [] => []
  | o :: ops' =>
      join ++ (if to_remove o then [] else lit "not ") ++ make_boolean_term (Some (lit "tag")) (to_tag o) ++
      infix_conditions (lit " or ") ops'
  end.
(** [optimize_infix_text]: as above, notmuch-tag.c:41-89. *)
Definition optimize_infix_text (q : bytes) (ops : list tagop) : bytes :=
  match ops with
  | [] => q
  | _ => (if bseq q (lit "*") then lit "(" else lit "( " ++ q ++ lit " ) and (") ++
         infix_conditions [] ops ++ lit ")"
  end.
(** notmuch-tag.c:100-113 [_optimize_tag_query], sexp text: the tag is not escaped. *)
Definition optimize_sexp_text (q : bytes) (ops : list tagop) : bytes :=
  match ops with
  | [] => q
  | _ => lit "(and " ++ q ++
         concat (map (fun o => (if to_remove o then lit " (tag """ else lit " (not (tag """) ++ to_tag o ++
                               (if to_remove o then lit """)" else lit """))")) ops) ++ lit ")"
  end.
