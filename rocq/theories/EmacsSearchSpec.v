(** Vocabulary for C91: the lines that meet a region, how Xapian reads a disjunction of ids, messages with an id. *)
From Verif Require Import Bytes Terms Meta DocMap Db TagOps TagOpsSpec SearchCmd EmacsTag EmacsTagSpec EmacsSearch.
Local Open Scope nat_scope.

(** Where line i begins; positions are counted from 1. *)
Definition start (draw : result -> nat) (l : list result) (i : nat) : nat := S (list_sum (map (fun r => S (draw r)) (firstn i l))).
(** Line i has a character in the region from beg to end, or the one at beg. *)
Definition meets (draw : result -> nat) (l : list result) (beg end_ i : nat) : Prop :=
  i < length l /\ exists p, beg <= p /\ (p = beg \/ p < end_) /\ start draw l i <= p < start draw l (S i).

(** Xapian on a text such as (id:a id:"b c") or (id:d): each "id:" is followed by a quoted term, in which two quotation marks
    stand for one, or by a term that goes on to the next blank or parenthesis.  The result: the ids of all the terms, any of
    which may match ("id" is an exclusive prefix). *)
Definition QUOTE : byte := """"%char.
Fixpoint quoted (s : bytes) : option (bytes * bytes) :=
  match s with
  | [] => None
  | c :: s =>
      if beq c QUOTE then
        match s with
        | c2 :: s2 => if beq c2 QUOTE then option_map (fun '(t, r) => (QUOTE :: t, r)) (quoted s2) else Some ([], s)
        | [] => Some ([], [])
        end
      else option_map (fun '(t, r) => (c :: t, r)) (quoted s)
  end.
Definition term (s : bytes) : option (bytes * bytes) :=
  match s with
  | c :: r => if beq c QUOTE then quoted r
              else match span (fun c => (32 <? N_of_ascii c)%N && negb (beq c ")"%char)) s with ([], _) => None | x => Some x end
  | [] => None
  end.
Definition blanks (s : bytes) : bytes := dropwhile (fun c => beq c " "%char) s.
Fixpoint group (fuel : nat) (s : bytes) : option (list bytes * bytes) :=
  match fuel with
  | O => None
  | S f =>
      match strip_prefix (lit ")") (blanks s), strip_prefix (lit "id:") (blanks s) with
      | Some r, _ => Some ([], r)
      | None, Some s => match term s with
                        | Some (t, r) => option_map (fun '(l, r) => (t :: l, r)) (group f r)
                        | None => None
                        end
      | None, None => None
      end
  end.
Fixpoint groups (fuel : nat) (s : bytes) : option (list bytes) :=
  match fuel with
  | O => None
  | S f =>
      match strip_prefix (lit "(") (blanks s) with
      | None => None
      | Some s =>
          match group fuel s with
          | None => None
          | Some (l, r) =>
              match blanks r with
              | [] => Some l
              | r => match strip_prefix (lit "or ") r with Some r => option_map (fun l' => l ++ l') (groups f r) | None => None end
              end
          end
      end
  end.
Definition disjunction (s : bytes) : option (list bytes) := groups (S (length s)) s.
Definition has_id (id : bytes) (d : doc) : Prop := In (lit "Q" ++ id) (d_terms d).
Definition has_idb (id : bytes) (d : doc) : bool := existsb (bseq (lit "Q" ++ id)) (d_terms d).
(** Xapian reads such texts so. *)
Definition reads_disjunctions (eval : bytes -> option query) : Prop :=
  forall s ids, disjunction s = Some ids -> exists q, eval s = Some q /\ forall d, q d = existsb (fun id => has_idb id d) ids.

(** The view of a search that found these threads; of each message its id, and whether it matched. *)
Definition thread := list (bytes * bool).
Definition shows (l : list result) (ts : list thread) : Prop := Forall2 (fun r t => r_query r = get_thread_query t None None) l ts.
(** The document is one of the messages of the lines that meet the region; with [only]: of the matched ones. *)
Definition addressed (draw : result -> nat) (l : list result) (ts : list thread) (beg end_ : nat) (only : bool) (d : doc) : Prop :=
  exists i t id m, meets draw l beg end_ i /\ nth_error ts i = Some t /\ In (id, m) t /\ (only = true -> m = true) /\ has_id id d.
Definition ids_plain (ts : list thread) : Prop := forall t id m, In t ts -> In (id, m) t -> forall c, In c id -> c <> ascii_of_N 10 /\ c <> ascii_of_N 0.
