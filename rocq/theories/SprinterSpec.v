(** Values, the calls that print them, and independent readers of the two output
    languages, used to state C36 and C37. *)
From Verif Require Import Bytes Decimal Sprinter.
Local Open Scope N_scope.

Inductive value :=
| VStr (s : bytes) | VInt (z : Z) | VBool (b : bool) | VNull
| VList (l : list value) | VMap (l : list (bytes * value)).

(** The calls that print a value, without calls of [Separator]. *)
Fixpoint emit (v : value) : list op :=
  match v with
  | VStr s => [Str s] | VInt z => [Int z] | VBool b => [Bool b] | VNull => [Null]
  | VList l => BeginList :: flat_map emit l ++ [End]
  | VMap l => BeginMap :: flat_map (fun kv => Key (fst kv) :: emit (snd kv)) l ++ [End]
  end.
Definition is_separator (o : op) : bool := match o with Separator => true | _ => false end.
(** A sequence of calls prints [v]: separators may be called anywhere. *)
Definition printing (v : value) (calls : list op) : Prop := filter (fun o => negb (is_separator o)) calls = emit v.
Definition aggregate (v : value) : bool := match v with VList _ | VMap _ => true | _ => false end.

(** ** A JSON reader after RFC 8259, for texts without fractions and exponents.
    Strings are read as bytes; "\u" escapes are understood below U+0080. *)
Definition ws (c : byte) : bool := beq c " " || beq c (chr 9) || beq c (chr 10) || beq c (chr 13).
Definition hexval (c : byte) : option N :=
  let n := code c in
  if isdigit c then Some (n - 48) else if N.leb 97 n && N.leb n 102 then Some (n - 87) else if N.leb 65 n && N.leb n 70 then Some (n - 55) else None.
Definition hex4 (a b c d : byte) : option N :=
  match hexval a, hexval b, hexval c, hexval d with
  | Some a, Some b, Some c, Some d => Some (((a * 16 + b) * 16 + c) * 16 + d)
  | _, _, _, _ => None
  end.
(** The rest of a string after the opening quote. *)
Fixpoint read_string (s : bytes) : option (bytes * bytes) :=
  let cons c r := match r with Some (x, r) => Some (c :: x, r) | None => None end in
  match s with
  | [] => None
  | c :: s =>
      if beq c (chr 34) then Some ([], s)
      else if N.ltb (code c) 32 then None
      else if beq c (chr 92) then
        match s with
        | e :: s =>
            if beq e (chr 34) then cons (chr 34) (read_string s)
            else if beq e (chr 92) then cons (chr 92) (read_string s)
            else if beq e "/" then cons "/"%char (read_string s)
            else if beq e "b" then cons (chr 8) (read_string s)
            else if beq e "f" then cons (chr 12) (read_string s)
            else if beq e "n" then cons (chr 10) (read_string s)
            else if beq e "r" then cons (chr 13) (read_string s)
            else if beq e "t" then cons (chr 9) (read_string s)
            else if beq e "u" then
              match s with
              | h1 :: h2 :: h3 :: h4 :: s =>
                  match hex4 h1 h2 h3 h4 with
                  | Some n => if N.ltb n 128 then cons (chr n) (read_string s) else None
                  | None => None
                  end
              | _ => None
              end
            else None
        | [] => None
        end
      else cons c (read_string s)
  end.
(** A number: no leading zeros. *)
Definition read_number (s : bytes) : option (Z * bytes) :=
  let '(neg, s) := match s with c :: s' => if beq c "-" then (true, s') else (false, s) | [] => (false, s) end in
  match s with
  | c :: s' =>
      if isdigit c then
        let '(n, r) := if beq c "0" then (0, s') else read_digits 0 s in
        Some (if neg then Z.opp (Z.of_N n) else Z.of_N n, r)
      else None
  | [] => None
  end.
Fixpoint read_json (fuel : nat) (s : bytes) {struct fuel} : option (value * bytes) :=
  match fuel with
  | O => None
  | S f =>
      match dropwhile ws s with
      | [] => None
      | c :: s =>
          if beq c (chr 34) then match read_string s with Some (x, r) => Some (VStr x, r) | None => None end
          else if beq c "[" then
            match dropwhile ws s with
            | c' :: s' => if beq c' "]" then Some (VList [], s')
                          else match read_elements f s with Some (l, r) => Some (VList l, r) | None => None end
            | [] => None
            end
          else if beq c "{" then
            match dropwhile ws s with
            | c' :: s' => if beq c' "}" then Some (VMap [], s')
                          else match read_members f s with Some (l, r) => Some (VMap l, r) | None => None end
            | [] => None
            end
          else match strip_prefix (lit "true") (c :: s), strip_prefix (lit "false") (c :: s), strip_prefix (lit "null") (c :: s) with
               | Some r, _, _ => Some (VBool true, r)
               | _, Some r, _ => Some (VBool false, r)
               | _, _, Some r => Some (VNull, r)
               | None, None, None => match read_number (c :: s) with Some (z, r) => Some (VInt z, r) | None => None end
               end
      end
  end
with read_elements (fuel : nat) (s : bytes) {struct fuel} : option (list value * bytes) :=
  match fuel with
  | O => None
  | S f =>
      match read_json f s with
      | None => None
      | Some (v, s) =>
          match dropwhile ws s with
          | c :: s => if beq c "]" then Some ([v], s)
                      else if beq c "," then match read_elements f s with Some (l, r) => Some (v :: l, r) | None => None end
                      else None
          | [] => None
          end
      end
  end
with read_members (fuel : nat) (s : bytes) {struct fuel} : option (list (bytes * value) * bytes) :=
  match fuel with
  | O => None
  | S f =>
      match dropwhile ws s with
      | [] => None
      | q :: s =>
          if beq q (chr 34) then
            match read_string s with
            | None => None
            | Some (k, s) =>
                match dropwhile ws s with
                | [] => None
                | col :: s =>
                    if beq col ":" then
                      match read_json f s with
                      | None => None
                      | Some (v, s) =>
                          match dropwhile ws s with
                          | c :: s => if beq c "}" then Some ([(k, v)], s)
                                      else if beq c "," then match read_members f s with Some (l, r) => Some ((k, v) :: l, r) | None => None end
                                      else None
                          | [] => None
                          end
                      end
                    else None
                end
            end
          else None
      end
  end.

(** ** Lisp data and a reader for it (the syntax Emacs reads). *)
Inductive datum := DStr (s : bytes) | DInt (z : Z) | DSym (s : bytes) | DKey (k : bytes) | DList (l : list datum).
(** What a value is as Lisp data: maps are property lists; false and null are nil. *)
Fixpoint lisp (v : value) : datum :=
  match v with
  | VStr s => DStr s | VInt z => DInt z | VBool true => DSym (lit "t") | VBool false | VNull => DSym (lit "nil")
  | VList l => DList (map lisp l)
  | VMap l => DList (flat_map (fun kv => [DKey (fst kv); lisp (snd kv)]) l)
  end.
(** Keys that may be printed. *)
Fixpoint good_keys (v : value) : Prop :=
  match v with
  | VList l => (fix all l := match l with [] => True | v :: l => good_keys v /\ all l end) l
  | VMap l => (fix all l := match l with [] => True | (k, v) :: l => forallb keyword_char k = true /\ good_keys v /\ all l end) l
  | _ => True
  end.
Definition octval (c : byte) : option N := if N.leb 48 (code c) && N.leb (code c) 55 then Some (code c - 48) else None.
Fixpoint read_lisp_string (s : bytes) : option (bytes * bytes) :=
  let cons c r := match r with Some (x, r) => Some (c :: x, r) | None => None end in
  match s with
  | [] => None
  | c :: s =>
      if beq c (chr 34) then Some ([], s)
      else if beq c (chr 92) then
        match s with
        | e :: s' =>
            if beq e (chr 34) then cons (chr 34) (read_lisp_string s')
            else if beq e (chr 92) then cons (chr 92) (read_lisp_string s')
            else if beq e "n" then cons (chr 10) (read_lisp_string s')
            else match s' with
                 | e2 :: e3 :: s'' =>
                     match octval e, octval e2, octval e3 with
                     | Some a, Some b, Some c => if N.ltb (a * 64 + b * 8 + c) 256 then cons (chr (a * 64 + b * 8 + c)) (read_lisp_string s'') else None
                     | _, _, _ => None
                     end
                 | _ => None
                 end
        | [] => None
        end
      else cons c (read_lisp_string s)
  end.
Definition symbol_char (c : byte) : bool := isalnum c || beq c "-" || beq c "_" || beq c ":".
Fixpoint read_lisp (fuel : nat) (s : bytes) {struct fuel} : option (datum * bytes) :=
  match fuel with
  | O => None
  | S f =>
      match dropwhile ws s with
      | [] => None
      | c :: s' =>
          if beq c (chr 34) then match read_lisp_string s' with Some (x, r) => Some (DStr x, r) | None => None end
          else if beq c "(" then match read_list f s' with Some (l, r) => Some (DList l, r) | None => None end
          else
            (* an atom: the longest run of symbol characters *)
            let '(tok, r) := span symbol_char (c :: s') in
            match tok with
            | [] => None
            | c0 :: tok' =>
                if beq c0 ":" then Some (DKey tok', r)
                else match read_number tok with
                     | Some (z, []) => Some (DInt z, r)
                     | _ => Some (DSym tok, r)
                     end
            end
      end
  end
with read_list (fuel : nat) (s : bytes) {struct fuel} : option (list datum * bytes) :=
  match fuel with
  | O => None
  | S f =>
      match dropwhile ws s with
      | [] => None
      | c :: s' =>
          if beq c ")" then Some ([], s')
          else match read_lisp f s with
               | None => None
               | Some (d, s) => match read_list f s with Some (l, r) => Some (d :: l, r) | None => None end
               end
      end
  end.

(** ** UTF-8 (RFC 3629, section 4). *)
Definition between (c : byte) (a b : N) : Prop := a <= code c <= b.
Definition tail (c : byte) : Prop := between c 128 191.
Inductive utf8_char : bytes -> Prop :=
| u1 a : between a 0 127 -> utf8_char [a]
| u2 a b : between a 194 223 -> tail b -> utf8_char [a; b]
| u3_e0 a b c : code a = 224 -> between b 160 191 -> tail c -> utf8_char [a; b; c]
| u3 a b c : between a 225 236 \/ between a 238 239 -> tail b -> tail c -> utf8_char [a; b; c]
| u3_ed a b c : code a = 237 -> between b 128 159 -> tail c -> utf8_char [a; b; c]
| u4_f0 a b c d : code a = 240 -> between b 144 191 -> tail c -> tail d -> utf8_char [a; b; c; d]
| u4 a b c d : between a 241 243 -> tail b -> tail c -> tail d -> utf8_char [a; b; c; d]
| u4_f4 a b c d : code a = 244 -> between b 128 143 -> tail c -> tail d -> utf8_char [a; b; c; d].
Definition utf8 (s : bytes) : Prop := exists l, Forall utf8_char l /\ s = concat l.
(** All strings and keys of a value are UTF-8. *)
Fixpoint utf8_value (v : value) : Prop :=
  match v with
  | VStr s => utf8 s
  | VList l => (fix all l := match l with [] => True | v :: l => utf8_value v /\ all l end) l
  | VMap l => (fix all l := match l with [] => True | (k, v) :: l => utf8 k /\ utf8_value v /\ all l end) l
  | _ => True
  end.
