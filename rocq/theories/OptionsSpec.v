(** What a command line means, independently of how the tables are scanned. *)
From Verif Require Import Bytes LastmodSpec Options.
Local Open Scope Z_scope.

(** The named options of a table, inherited tables included. *)
Definition entry : Type := kind * bytes * option nat.
Fixpoint flatten (d : desc) : list entry :=
  match d with
  | Inherit t => flat_map flatten t
  | Opt _ None _ => []
  | Opt k (Some n) p => [(k, n, p)]
  end.
Definition entries (t : list desc) : list entry := flat_map flatten t.

Definition negatable_kind (k : kind) : bool := match k with KBool _ | KFlags _ _ => true | _ => false end.
(** The words an entry answers to. *)
Definition keys_of (e : entry) : list bytes :=
  let '(k, n, _) := e in n :: if negatable_kind k then [lit "no-" ++ n] else [].

(** A sensible table: no two options answer to the same word, names contain no
    delimiter, and no name is a prefix of its own negation. *)
Definition sensible (t : list desc) : Prop :=
  NoDup (flat_map keys_of (entries t)) /\
  Forall (fun '(k, n, _) => ~ In "="%char n /\ ~ In ":"%char n /\ n <> [] /\
                            (forall r, lit "no-" ++ n <> n ++ r)) (entries t).

(** What an option received: nothing, "=text" or ":text" in the same argument, or the
    argument following it. *)
Inductive received := Nothing | Attached (s : bytes) | Following (s : bytes).

Definition takes (k : kind) (tail : bytes) (rest : list bytes) (r : received) (rest' : list bytes) : Prop :=
  (exists c s, tail = c :: s /\ (c = "="%char \/ c = ":"%char) /\ r = Attached s /\ rest' = rest) \/
  (tail = [] /\ (forall v, k <> KBool v) /\
     exists a, rest = a :: rest' /\ (forall x, a <> "-"%char :: "-"%char :: x) /\ r = Following a) \/
  (tail = [] /\ ((exists v, k = KBool v) \/ rest = [] \/ exists x q, rest = ("-"%char :: "-"%char :: x) :: q) /\
     r = Nothing /\ rest' = rest).

Definition text_of (r : received) : bytes := match r with Nothing => [] | Attached s | Following s => s end.
Fixpoint keyword_value (kws : list keyword) (s : bytes) (z : Z) : Prop :=
  match kws with
  | [] => False
  | (n, y) :: kws' => (s = n /\ z = y) \/ (s <> n /\ keyword_value kws' s z)
  end.

(** The assignment an option makes; the boolean says that a following argument is
    given back (keyword options with a default). *)
Inductive means : kind -> bool -> received -> effect -> bool -> Prop :=
| m_bool v neg : means (KBool v) neg Nothing (SetBool v (negb neg)) false
| m_true v neg : means (KBool v) neg (Attached (lit "true")) (SetBool v (negb neg)) false
| m_false v neg : means (KBool v) neg (Attached (lit "false")) (SetBool v neg) false
| m_int v neg r ws t z : r <> Nothing -> text_of r = ws ++ t -> forallb isspace ws = true -> number_text t z ->
    means (KInt v) neg r (SetInt v (wrap_int (Z.max (- 2 ^ 63) (Z.min z (2 ^ 63 - 1))))) false
| m_string v ae neg r : r <> Nothing -> text_of r <> [] \/ ae = true ->
    means (KString v ae) neg r (SetString v (text_of r)) false
| m_keyword v kws d neg r z : keyword_value kws (text_of r) z ->
    means (KKeyword v kws d) neg r (SetKeyword v z) false
| m_default v kws d neg r z : (forall y, ~ keyword_value kws (text_of r) y) -> (forall s, r <> Attached s) ->
    keyword_value kws d z -> means (KKeyword v kws (Some d)) neg r (SetKeyword v z) true
| m_flag v kws neg r z : keyword_value kws (text_of r) z ->
    means (KFlags v kws) neg r (if neg then FlagClear v z else FlagOr v z) false.

Definition present_effect (p : option nat) : list effect := match p with Some v => [SetPresent v] | None => [] end.

(** "--arg" followed by [rest], read by a table: the assignments and what is left. *)
Definition option_reads (t : list desc) (arg : bytes) (rest : list bytes) (es : list effect) (rest'' : list bytes) : Prop :=
  exists k n p neg tail r rest' e giveback,
    In (k, n, p) (entries t) /\
    arg = (if neg : bool then lit "no-" ++ n else n) ++ tail /\
    (neg = true -> negatable_kind k = true) /\
    takes k tail rest r rest' /\ means k neg r e giveback /\
    es = e :: present_effect p /\
    rest'' = (if giveback then rest else rest').

(** Variables an option table may assign. *)
Definition kind_var (k : kind) : nat :=
  match k with KBool v | KInt v | KKeyword v _ _ | KFlags v _ | KString v _ | KPosition v => v end.
Definition effect_var (e : effect) : nat :=
  match e with SetBool v _ | SetInt v _ | SetKeyword v _ | FlagOr v _ | FlagClear v _ | SetString v _
             | SetPosition v _ | SetPresent v => v end.

(** The positional slots of a table, in order (inherited tables have none that count). *)
Definition slots (t : list desc) : list (nat * option nat) :=
  flat_map (fun d => match d with Opt (KPosition v) _ p => [(v, p)] | _ => [] end) t.

Definition is_option (a : bytes) : Prop := exists x, a = "-"%char :: "-"%char :: x.

(** A whole command line: after [pos] positional arguments, reading [argv] makes the
    assignments [es] and leaves the arguments [rest] to the caller. *)
Inductive reads (t : list desc) : nat -> list bytes -> list effect -> list bytes -> Prop :=
| r_end pos : reads t pos [] [] []
| r_dashdash pos rest : reads t pos (lit "--" :: rest) [] rest
| r_stop pos a rest : ~ is_option a -> nth_error (slots t) pos = None -> reads t pos (a :: rest) [] (a :: rest)
| r_position pos a rest v p es rest' : ~ is_option a -> nth_error (slots t) pos = Some (v, p) ->
    reads t (S pos) rest es rest' ->
    reads t pos (a :: rest) (SetPosition v a :: present_effect p ++ es) rest'
| r_option pos arg rest es1 rest1 es rest' : arg <> [] -> option_reads t arg rest es1 rest1 ->
    reads t pos rest1 es rest' -> reads t pos ((lit "--" ++ arg) :: rest) (es1 ++ es) rest'.

(** All variables of a table. *)
Fixpoint desc_vars (d : desc) : list nat :=
  match d with
  | Inherit t => flat_map desc_vars t
  | Opt k _ p => kind_var k :: match p with Some v => [v] | None => [] end
  end.
