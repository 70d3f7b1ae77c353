(** Vocabulary for C94: the threads of a tree view, how Xapian reads alternative ids, what a tag change does to the
    messages with some ids, and when what is shown of a message is true. *)
From Verif Require Import Bytes Terms Meta DocMap Db TagOps TagOpsSpec EmacsTag EmacsTagSpec EmacsSearchSpec EmacsTree.
Local Open Scope nat_scope.

(** The messages of a tree, each before its replies. *)
Fixpoint messages (t : tree) : list (bytes * list bytes) :=
  match t with Tree id tags replies => (id, tags) :: flat_map messages replies end.
(** The lines of one thread: the first one, and no other, is marked as the first. *)
Definition one_thread (b : list tline) : Prop :=
  exists x xs, b = x :: xs /\ t_first x = true /\ forall y, In y xs -> t_first y = false.

(** Xapian on a text such as id:a or id:"b c": the ids, any of which may match ("term": see EmacsSearchSpec.v). *)
Fixpoint alternatives_in (fuel : nat) (s : bytes) : option (list bytes) :=
  match fuel with
  | O => None
  | S f =>
      match strip_prefix (lit "id:") (blanks s) with
      | None => None
      | Some s =>
          match term s with
          | None => None
          | Some (t, r) =>
              match blanks r with
              | [] => Some [t]
              | r => match strip_prefix (lit "or ") r with Some r => option_map (cons t) (alternatives_in f r) | None => None end
              end
          end
      end
  end.
Definition alternatives (s : bytes) : option (list bytes) := alternatives_in (S (length s)) s.
Definition reads_alternatives (eval : bytes -> option query) : Prop :=
  forall s ids, alternatives s = Some ids -> exists q, eval s = Some q /\ forall d, q d = existsb (fun id => has_idb id d) ids.

(** From [st] to [st']: the messages with one of the ids got the operations; all others, and which messages there are with
    which ids, are as before. *)
Definition retagged (ids : list bytes) (ops : list tagop) (st st' : store) : Prop :=
  sound st' /\
  forall k, match dget k (st_docs st), dget k (st_docs st') with
            | None, None => True
            | Some d, Some d' =>
                (forall id, has_id id d' <-> has_id id d) /\
                ((exists id, In id ids /\ has_id id d) -> forall t, In t (tags_of (d_terms d')) <-> tag_after false ops (fun u => In u (tags_of (d_terms d))) t) /\
                (~ (exists id, In id ids /\ has_id id d) -> forall t, In t (tags_of (d_terms d')) <-> In t (tags_of (d_terms d)))
            | _, _ => False
            end.
(** Operations that Emacs can pass on, as the texts [changes]. *)
Definition asked (changes : list bytes) (ops : list tagop) : Prop :=
  changes <> [] /\ Forall2 says changes ops /\ Forall plain_op ops /\ Forall tagop_valid ops.
Definition plain_id (id : bytes) : Prop := forall c, In c id -> c <> ascii_of_N 10 /\ c <> ascii_of_N 0.

(** A message has one id. *)
Definition one_id (st : store) : Prop := forall k d a b, dget k (st_docs st) = Some d -> has_id a d -> has_id b d -> a = b.
(** What is shown as the tags of the message with this id are its tags. *)
Definition true_of (st : store) (id : bytes) (tags : list bytes) : Prop :=
  tsorted tags /\ forall k d, dget k (st_docs st) = Some d -> has_id id d -> forall t, In t tags <-> In t (tags_of (d_terms d)).

(** The tree view: its lines form threads, no message is shown twice, and what is shown is true. *)
Definition tree_ok (l : list tline) : Prop :=
  (exists bs, l = concat bs /\ Forall one_thread bs) /\ NoDup (map t_id l) /\ forall x, In x l -> plain_id (t_id x).
Definition tree_true (st : store) (l : list tline) : Prop := forall x, In x l -> true_of st (t_id x) (t_tags x).
(** The show view, also what is drawn. *)
Definition show_ok (s : show) : Prop := NoDup (map s_id (sh_msgs s)) /\ forall m, In m (sh_msgs s) -> plain_id (s_id m).
Definition show_true (st : store) (s : show) : Prop :=
  forall m, In m (sh_msgs s) -> s_drawn m = s_tags m /\ true_of st (s_id m) (s_tags m).

(** Sequences of commands in a tree view (the pane stays what it is otherwise), and in a show view. *)
Inductive tree_command := T_tag (changes : list bytes) (pos : nat) | T_tag_thread (changes : list bytes) (pos : nat).
Definition tree_command_ok (l : list tline) (c : tree_command) : Prop :=
  match c with T_tag changes pos | T_tag_thread changes pos => (exists ops, asked changes ops) /\ pos < length l end.
Definition do_tree eval thr (c : tree_command) (l : list tline) (pane : option show) (e : editor) : el_result * editor * (list tline * option show) :=
  match c with
  | T_tag changes pos => tree_tag eval thr changes pos l pane e
  | T_tag_thread changes pos => tree_tag_thread eval thr changes pos l pane e
  end.
Inductive show_command := S_tag (changes : list bytes) | S_tag_message (changes : list bytes) | S_tag_all (changes : list bytes) | S_seen (changes : list bytes) | S_go (n : nat).
Definition show_command_ok (s : show) (c : show_command) : Prop :=
  match c with
  | S_tag changes | S_tag_message changes | S_tag_all changes | S_seen changes => exists ops, asked changes ops
  | S_go n => n < length (sh_msgs s)
  end.
Definition do_show eval thr (c : show_command) (s : show) (e : editor) : el_result * editor * show :=
  match c with
  | S_tag changes => show_tag eval thr changes s e
  | S_tag_message changes => show_tag_message eval thr changes s e
  | S_tag_all changes => show_tag_all eval thr changes s e
  | S_seen changes => show_seen eval thr changes s e
  | S_go n => (E_ok, e, {| sh_msgs := sh_msgs s; sh_cur := n |})
  end.
(** All of them one after the other, each of them a success. *)
Inductive tree_history eval thr : list tree_command -> list tline -> option show -> editor -> list tline -> option show -> editor -> Prop :=
| th_nil l p e : tree_history eval thr [] l p e l p e
| th_cons c cs l p e l1 p1 e1 l2 p2 e2 : do_tree eval thr c l p e = (E_ok, e1, (l1, p1)) -> tree_history eval thr cs l1 p1 e1 l2 p2 e2 -> tree_history eval thr (c :: cs) l p e l2 p2 e2.
Inductive show_history eval thr : list show_command -> show -> editor -> show -> editor -> Prop :=
| sh_nil s e : show_history eval thr [] s e s e
| sh_cons c cs s e s1 e1 s2 e2 : do_show eval thr c s e = (E_ok, e1, s1) -> show_history eval thr cs s1 e1 s2 e2 -> show_history eval thr (c :: cs) s e s2 e2.
