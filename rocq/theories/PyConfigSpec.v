(** Vocabulary for C90: dictionaries of texts. *)
From Coq Require Import Sorting.Sorted.
From Verif Require Import Bytes StringMap PyTags PyConfig.

(** A dictionary: the value of each key.  In the configuration an empty value is the same as none. *)
Definition dict := text -> option text.
Definition set_in (f : dict) (k v : text) : dict := fun x => if teq x k then match v with [] => None | _ => Some v end else f x.
Definition del_in (f : dict) (k : text) : dict := fun x => if teq x k then None else f x.
(** A text with an encoding without NUL. *)
Definition plain (s : text) : Prop := exists b, encode s = Some b /\ ~ In NUL b.
(** The library's map holds the dictionary f: every key and value is the encoding of a text, every key is there once, and the
    keys with a value that is not empty are those of f. *)
Definition holds (c : config) (f : dict) : Prop :=
  (sm_sorted (c_map c) = true -> StronglySorted (fun a b => bcmp (fst a) (fst b) <> Gt) (sm_pairs (c_map c))) /\
  NoDup (map fst (sm_pairs (c_map c))) /\
  (forall kb vb, In (kb, vb) (sm_pairs (c_map c)) -> exists k v, encode k = Some kb /\ encode v = Some vb /\ ~ In NUL kb /\ ~ In NUL vb) /\
  (forall k v, f k = Some v <-> v <> [] /\ exists kb vb, encode k = Some kb /\ encode v = Some vb /\ In (kb, vb) (sm_pairs (c_map c))).
(** Calls with texts. *)
Definition proper_call (o : config_call) : Prop :=
  match o with
  | CSet k v | CSetdefault k v => exists k' v', k = Str k' /\ v = Str v' /\ plain k' /\ plain v'
  | CDel k | CPop k => exists k', k = Str k' /\ plain k'
  | CPopitem | CClear => True
  | CUpdate l => Forall (fun p => exists k v, p = (Str k, Str v) /\ plain k /\ plain v) l
  end.
(** What a call means for a dictionary. *)
Fixpoint update_in (f : dict) (l : list (pyval * pyval)) : dict :=
  match l with (Str k, Str v) :: l => update_in (set_in f k v) l | _ => f end.
Definition dict_meaning (o : config_call) (f f' : dict) : Prop :=
  match o with
  | CSet (Str k) (Str v) => forall x, f' x = set_in f k v x
  | CDel (Str k) | CPop (Str k) => forall x, f' x = del_in f k x
  | CPopitem => exists k, f k <> None /\ forall x, f' x = del_in f k x
  | CClear => forall x, f' x = None
  | CSetdefault (Str k) (Str v) => forall x, f' x = match f k with Some _ => f x | None => set_in f k v x end
  | CUpdate l => forall x, f' x = update_in f l x
  | _ => False
  end.
(** When a call must raise KeyError (del does not: see C90_del_refuted). *)
Definition dict_key_error (o : config_call) (f : dict) : Prop :=
  match o with CPop (Str k) => f k = None | CPopitem => forall k, f k = None | _ => False end.
(** A history of calls, on dictionaries only, and as performed. *)
Inductive as_dicts : list config_call -> dict -> dict -> Prop :=
| as_dicts_nil : forall f, as_dicts [] f f
| as_dicts_error : forall o os f f', dict_key_error o f -> as_dicts os f f' -> as_dicts (o :: os) f f'
| as_dicts_change : forall o os f f' f'', ~ dict_key_error o f -> dict_meaning o f f' -> as_dicts os f' f'' -> as_dicts (o :: os) f f''.
Fixpoint config_performs (os : list config_call) (c : config) : config :=
  match os with [] => c | o :: os => config_performs os (fst (config_perform o c)) end.
