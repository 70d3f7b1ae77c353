(** Model of command-line-arguments.c.  A variable is a number; the result records
    the assignments performed, in order.  argv is the list of the remaining
    arguments; an index is represented by the remaining list. *)
From Verif Require Import Bytes Decimal.
Local Open Scope Z_scope.

(** a store through an opt_* pointer, command-line-arguments.c. *)
Inductive effect :=
| SetBool (v : nat) (b : bool)
| SetInt (v : nat) (z : Z)
| SetKeyword (v : nat) (z : Z)
| FlagOr (v : nat) (z : Z)          (* *v |= z *)
| FlagClear (v : nat) (z : Z)       (* *v &= ~z *)
| SetString (v : nat) (s : bytes)
| SetPosition (v : nat) (s : bytes)
| SetPresent (v : nat).             (* *present = true *)

Definition keyword : Type := bytes * Z.

(** command-line-arguments.h:23-50 [notmuch_opt_desc_t], with exactly one opt_*
    field set (_opt_valid, checked at run time with INTERNAL_ERROR). *)
Inductive kind :=
| KBool (v : nat)
| KInt (v : nat)
| KKeyword (v : nat) (kws : list keyword) (no_arg : option bytes)
| KFlags (v : nat) (kws : list keyword)
| KString (v : nat) (allow_empty : bool)
| KPosition (v : nat).
(** [desc]: as above, command-line-arguments.h:23-50. *)
Inductive desc :=
| Inherit (table : list desc)
| Opt (k : kind) (name : option bytes) (present : option nat).

(** desc has opt_bool set. *)
Definition is_bool (k : kind) : bool := match k with KBool _ => true | _ => false end.
(** [negatable]: as above, command-line-arguments.h:23-50. *)
Definition negatable (k : kind) : bool := match k with KBool _ | KFlags _ _ => true | _ => false end.

(** enum opt_handled, command-line-arguments.c:7-11. *)
Inductive handled := OPT_FAILED | OPT_OK | OPT_GIVEBACK.

(** keyword scan, command-line-arguments.c:19-68. *)
Fixpoint find_keyword (kws : list keyword) (s : bytes) : option Z :=
  match kws with
  | [] => None
  | (n, z) :: kws' => if bseq s n then Some z else find_keyword kws' s
  end.

(** command-line-arguments.c:19-70 [_process_keyword_arg]. *)
Definition process_keyword (k : kind) (next : byte) (arg_str : bytes) (negate : bool)
  : handled * list effect :=
  let arg_str := if beq next NUL then [] else arg_str in
  match k with
  | KFlags v kws =>
      match find_keyword kws arg_str with
      | Some z => (OPT_OK, [if negate then FlagClear v z else FlagOr v z])
      | None => (OPT_FAILED, [])
      end
  | KKeyword v kws no_arg =>
      match find_keyword kws arg_str with
      | Some z => (OPT_OK, [SetKeyword v z])
      | None =>
          match no_arg with
          | Some d => if negb (beq next ":"%char) && negb (beq next "="%char) then
                        match find_keyword kws d with
                        | Some z => (OPT_GIVEBACK, [SetKeyword v z])
                        | None => (OPT_FAILED, [])
                        end
                      else (OPT_FAILED, [])
          | None => (OPT_FAILED, [])
          end
      end
  | _ => (OPT_FAILED, [])
  end.

(** command-line-arguments.c:72-91 [_process_boolean_arg]. *)
Definition process_boolean (v : nat) (next : byte) (arg_str : bytes) (negate : bool) : handled * list effect :=
  if beq next NUL || bseq arg_str (lit "true") then (OPT_OK, [SetBool v (if negate then false else true)])
  else if bseq arg_str (lit "false") then (OPT_OK, [SetBool v (if negate then true else false)])
  else (OPT_FAILED, []).

(** External: strtol base 10: (value saturated to long, rest); the rest is the whole
    text if there is no number. *)
Definition strtol (s : bytes) : Z * bytes :=
  let t := dropwhile isspace s in
  let '(neg, t) := match t with
                   | c :: r => if beq c "-"%char then (true, r)
                               else if beq c "+"%char then (false, r) else (false, t)
                   | [] => (false, t)
                   end in
  if isdigit (peek t) then
    let '(n, rest) := read_digits 0 t in
    let z := if neg then - Z.of_N n else Z.of_N n in
    (Z.max (- 2 ^ 63) (Z.min z (2 ^ 63 - 1)), rest)
  else (0, s).
(** Conversion of long to int (gcc: modulo 2^32). *)
Definition wrap_int (z : Z) : Z := (z + 2 ^ 31) mod 2 ^ 32 - 2 ^ 31.

(** command-line-arguments.c:93-111 [_process_int_arg]: the variable is assigned even
    if the text turns out to be malformed. *)
Definition process_int (v : nat) (next : byte) (arg_str : bytes) : handled * list effect :=
  if beq next NUL || beq (peek arg_str) NUL then (OPT_FAILED, [])
  else let '(z, rest) := strtol arg_str in
       ((match rest with [] => OPT_OK | _ => OPT_FAILED end), [SetInt v (wrap_int z)]).

(** command-line-arguments.c:113-127 [_process_string_arg]. *)
Definition process_string (v : nat) (allow_empty : bool) (next : byte) (arg_str : bytes) : handled * list effect :=
  if beq next NUL then (OPT_FAILED, [])
  else match arg_str with
       | [] => if allow_empty then (OPT_OK, [SetString v []]) else (OPT_FAILED, [])
       | _ => (OPT_OK, [SetString v arg_str])
       end.

(** command-line-arguments.c:257-268: dispatch on the kind.  A named opt_position
    descriptor is the INTERNAL_ERROR case, represented by failure. *)
Definition process (k : kind) (next : byte) (value : bytes) (negate : bool) : handled * list effect :=
  match k with
  | KKeyword _ _ _ | KFlags _ _ => process_keyword k next value negate
  | KBool v => process_boolean v next value negate
  | KInt v => process_int v next value
  | KString v ae => process_string v ae next value
  | KPosition _ => (OPT_FAILED, [])
  end.

(** strncmp (arg, "--", 2), command-line-arguments.c:190-284. *)
Definition starts_dashes (s : bytes) : bool := starts_with (lit "--") s.

(** command-line-arguments.c:190-284 [parse_option]: [arg] is the argument after its
    leading "--", [rest] the arguments after it.  [Some rest'] is the new index, [None]
    is -1.  The loop over the table is the inner fixpoint. *)
Definition negative_part (arg : bytes) : option bytes :=
  match strip_prefix (lit "no-") arg with Some [] => None | r => r end.
(** [next_argument]: as above, command-line-arguments.c:190-284. *)
Definition next_argument (rest : list bytes) : option bytes :=
  match rest with a :: _ => if starts_dashes a then None else Some a | [] => None end.
(** lines 228-238: the text after the matched name and whether it was negated. *)
Definition match_name (k : kind) (name arg : bytes) : option (bytes * bool) :=
  match strip_prefix name arg with
  | Some after => Some (after, false)
  | None =>
      match negative_part arg with
      | Some neg => if negatable k then
                      match strip_prefix name neg with Some after => Some (after, true) | None => None end
                    else None
      | None => None
      end
  end.
(** lines 246-281, entered when the name matched and was followed by a delimiter. *)
Definition run_option (k : kind) (present : option nat) (after : bytes) (negate : bool) (rest : list bytes)
  : list effect * option (list bytes) :=
  let next := peek after in
  let value := tl after in
  let lookahead := match after, next_argument rest with [], Some a => negb (is_bool k) | _, _ => false end in
  let '(next, value) := if lookahead then (" "%char, hd [] rest) else (next, value) in
  match process k next value negate with
  | (OPT_FAILED, es) => (es, None)
  | (st, es) =>
      let es := es ++ match present with Some p => [SetPresent p] | None => [] end in
      let consumed := lookahead && match st with OPT_GIVEBACK => false | _ => true end in
      (es, Some (if consumed then tl rest else rest))
  end.
(** one descriptor of the loop, command-line-arguments.c:190-284. *)
Fixpoint parse_desc (d : desc) (arg : bytes) (rest : list bytes) : option (list effect * option (list bytes)) * list effect :=
  (* (Some result: the loop returns it; None: continue), effects of a failed inherited table *)
  match d with
  | Inherit table =>
      let fix loop (ds : list desc) (es : list effect) : list effect * option (list bytes) :=
        match ds with
        | [] => (es, None)
        | d :: ds' =>
            match parse_desc d arg rest with
            | (Some (e, r), e0) => (es ++ e0 ++ e, r)
            | (None, e) => loop ds' (es ++ e)
            end
        end in
      match loop table [] with
      | (es, Some r) => (Some (es, Some r), [])
      | (es, None) => (None, es)
      end
  | Opt k None _ => (None, [])
  | Opt k (Some name) present =>
      match match_name k name arg with
      | Some (after, negate) =>
          let next := peek after in
          if beq next "="%char || beq next ":"%char || (match after with [] => true | _ => false end)
          then (Some (run_option k present after negate rest), [])
          else (None, [])
      | None => (None, [])
      end
  end.
(** the loop over descriptors, command-line-arguments.c:190-284. *)
Fixpoint parse_option_loop (ds : list desc) (arg : bytes) (rest : list bytes) (es : list effect)
  : list effect * option (list bytes) :=
  match ds with
  | [] => (es, None)
  | d :: ds' =>
      match parse_desc d arg rest with
      | (Some (e, r), e0) => (es ++ e0 ++ e, r)
      | (None, e) => parse_option_loop ds' arg rest (es ++ e)
      end
  end.
(** command-line-arguments.c:190-284. *)
Definition parse_option (table : list desc) (arg : bytes) (rest : list bytes) : list effect * option (list bytes) :=
  parse_option_loop table arg rest [].

(** command-line-arguments.c:161-181 [parse_position_arg]: inherited tables are not
    searched. *)
Fixpoint parse_position (arg : bytes) (index : nat) (table : list desc) : option (list effect) :=
  match table with
  | [] => None
  | Opt (KPosition v) _ present :: t =>
      match index with
      | O => Some (SetPosition v arg :: match present with Some p => [SetPresent p] | None => [] end)
      | S i => parse_position arg i t
      end
  | _ :: t => parse_position arg index t
  end.

(** command-line-arguments.c:287-320 [parse_arguments]: effects and the remaining
    arguments, [None] for a negative result. *)
Fixpoint parse_arguments_loop (fuel : nat) (table : list desc) (argv : list bytes) (pos : nat) (es : list effect)
  : list effect * option (list bytes) :=
  match fuel with
  | O => (es, Some argv)
  | S f =>
      match argv with
      | [] => (es, Some [])
      | a :: rest =>
          if negb (starts_dashes a) then
            match parse_position a pos table with
            | Some e => parse_arguments_loop f table rest (S pos) (es ++ e)
            | None => (es, Some argv)
            end
          else if (length a =? 2)%nat then (es, Some rest)
          else match parse_option table (skipn 2 a) rest with
               | (e, Some rest') => parse_arguments_loop f table rest' pos (es ++ e)
               | (e, None) => (es ++ e, None)
               end
      end
  end.
(** [parse_arguments]: as above, command-line-arguments.c:287-320. *)
Definition parse_arguments (table : list desc) (argv : list bytes) : list effect * option (list bytes) :=
  parse_arguments_loop (S (length argv)) table argv 0 [].
