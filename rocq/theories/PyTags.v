(** Model of the tag sets of the Python bindings: bindings/python-cffi/notmuch2/_tags.py, with what it
    inherits from Python's collections.abc.Set and MutableSet, over the tags of a message in the
    library (lib/message.cc). *)
From Verif Require Import Bytes.
Local Open Scope N_scope.

(** ** Text *)
(** A Python str: a list of code points. *)
Definition text := list N.
(** str.encode(), UTF-8: one code point; [None]: UnicodeEncodeError (a surrogate, or no code point). *)
Definition encode1 (c : N) : option bytes :=
  if c <? 128 then Some [chr c]
  else if c <? 2048 then Some [chr (192 + c / 64); chr (128 + c mod 64)]
  else if c <? 65536 then
    if (55296 <=? c) && (c <? 57344) then None
    else Some [chr (224 + c / 4096); chr (128 + c / 64 mod 64); chr (128 + c mod 64)]
  else if c <? 1114112 then Some [chr (240 + c / 262144); chr (128 + c / 4096 mod 64); chr (128 + c / 64 mod 64); chr (128 + c mod 64)]
  else None.
(** str.encode(). *)
Fixpoint encode (s : text) : option bytes :=
  match s with
  | [] => Some []
  | c :: s' => match encode1 c, encode s' with Some a, Some b => Some (a ++ b) | _, _ => None end
  end.
(** A byte of a sequence after its first, between [lo] and [hi] (usually 128 and 191). *)
Definition cont (lo hi : N) (s : bytes) : option (N * bytes) :=
  match s with b :: s' => if (lo <=? code b) && (code b <=? hi) then Some (code b - 128, s') else None | [] => None end.
(** bytes.decode('utf-8'): the first code point and the rest; [inr]: an error, with the rest after the bytes
    in error, where the handler "ignore" goes on. *)
Definition decode1 (b : byte) (s : bytes) : (N * bytes) + bytes :=
  let c := code b in
  if c <? 128 then inl (c, s)
  else if (194 <=? c) && (c <=? 223) then
    match cont 128 191 s with Some (x, s) => inl ((c - 192) * 64 + x, s) | None => inr s end
  else if (224 <=? c) && (c <=? 239) then
    match cont (if c =? 224 then 160 else 128) (if c =? 237 then 159 else 191) s with
    | Some (x, s) => match cont 128 191 s with Some (y, s) => inl ((c - 224) * 4096 + x * 64 + y, s) | None => inr s end
    | None => inr s
    end
  else if (240 <=? c) && (c <=? 244) then
    match cont (if c =? 240 then 144 else 128) (if c =? 244 then 143 else 191) s with
    | Some (x, s) =>
        match cont 128 191 s with
        | Some (y, s) => match cont 128 191 s with Some (z, s) => inl ((c - 240) * 262144 + x * 4096 + y * 64 + z, s) | None => inr s end
        | None => inr s
        end
    | None => inr s
    end
  else inr s.
(** bytes.decode(encoding='utf-8', errors='ignore'), by bounded recursion (each step takes a byte). *)
Fixpoint decode_ignore_loop (fuel : nat) (s : bytes) : text :=
  match fuel, s with
  | S f, b :: s' => match decode1 b s' with inl (c, r) => c :: decode_ignore_loop f r | inr r => decode_ignore_loop f r end
  | _, _ => []
  end.
(** [decode_ignore]: as above, used at _tags.py:69 and 346-347. *)
Definition decode_ignore (s : bytes) : text := decode_ignore_loop (length s) s.

(** ** Python values *)
(** [Other]: neither str nor bytes. *)
Inductive pyval := Str (s : text) | Byts (b : bytes) | Other (n : nat).
(** Exceptions. *)
Inductive exn := TypeError | KeyError | UnicodeEncodeError | AttributeError | TagTooLongError | ReadOnlyDatabaseError.
(** What a call gives. *)
Inductive res (A : Type) := Ok (x : A) | Raised (e : exn).
Arguments Ok {A}. Arguments Raised {A}.
(** == of Python values of these kinds. *)
Definition teq (a b : text) : bool := if list_eq_dec N.eq_dec a b then true else false.
(** [pyeq]: as above. *)
Definition pyeq (a b : pyval) : bool :=
  match a, b with Str x, Str y => teq x y | Byts x, Byts y => bseq x y | Other x, Other y => Nat.eqb x y | _, _ => false end.

(** ** The library *)
(** The tags of a message: the terms with the prefix of tags, in the order of Xapian, each once
    (lib/message.cc:344-454, 1261-1284).  [writable]: the database is open for writing. *)
Record message := { m_writable : bool; m_tags : list bytes }.
(** What C sees of a Python bytes object passed as char *. *)
Fixpoint c_string (b : bytes) : bytes := match b with c :: b' => if beq c NUL then [] else c :: c_string b' | [] => [] end.
(** Adding a term to a document: Xapian::Document::add_term, lib/message.cc:1508-1539. *)
Fixpoint term_insert (t : bytes) (l : list bytes) : list bytes :=
  match l with
  | [] => [t]
  | x :: l' => match bcmp t x with Lt => t :: l | Eq => l | Gt => x :: term_insert t l' end
  end.
(** Removing a term: lib/message.cc:1583-1615. *)
Definition term_remove (t : bytes) (l : list bytes) : list bytes := filter (fun x => negb (bseq t x)) l.
(** lib/message.cc:1652-1685 [notmuch_message_add_tag] (C13 is about when the change is written). *)
Definition add_tag (b : bytes) (m : message) : message * option exn :=
  let t := c_string b in
  if negb (m_writable m) then (m, Some ReadOnlyDatabaseError)
  else if (200 <? N.of_nat (length t)) then (m, Some TagTooLongError)
  else ({| m_writable := m_writable m; m_tags := term_insert t (m_tags m) |}, None).
(** lib/message.cc:1687-1719 [notmuch_message_remove_tag]. *)
Definition remove_tag (b : bytes) (m : message) : message * option exn :=
  let t := c_string b in
  if negb (m_writable m) then (m, Some ReadOnlyDatabaseError)
  else if (200 <? N.of_nat (length t)) then (m, Some TagTooLongError)
  else ({| m_writable := m_writable m; m_tags := term_remove t (m_tags m) |}, None).
(** lib/message.cc:2109-2142 [notmuch_message_remove_all_tags]. *)
Definition remove_all_tags (m : message) : message * option exn :=
  if negb (m_writable m) then (m, Some ReadOnlyDatabaseError)
  else ({| m_writable := m_writable m; m_tags := [] |}, None).

(** ** ImmutableTagSet *)
(** Something on the other side of an operator: a Python set or frozenset (its elements, each once), a list or other
    iterable, the tags of another message, thread or database, or the same tag set itself. *)
Inductive other := PySet (l : list pyval) | PyList (l : list pyval) | TagsOf (l : list bytes) | Self.
(** _tags.py:61-96 [__iter__]. *)
Definition iter (l : list bytes) : list pyval := map (fun b => Str (decode_ignore b)) l.
(** _tags.py:71-96 [iter()] without an encoding. *)
Definition iter_bytes (l : list bytes) : list bytes := l.
(** _tags.py:98-99 [__len__]. *)
Definition len (l : list bytes) : nat := length (iter l).
(** _tags.py:101-108 [__contains__]. *)
Definition contains (v : pyval) (l : list bytes) : res bool :=
  match v with
  | Str s => match encode s with Some b => Ok (existsb (bseq b) (iter_bytes l)) | None => Raised UnicodeEncodeError end
  | Byts b => Ok (existsb (bseq b) (iter_bytes l))
  | Other _ => Ok false
  end.
(** set(it): the elements of an iterable, each once. *)
Fixpoint py_set (l : list pyval) : list pyval :=
  match l with [] => [] | v :: l' => if existsb (pyeq v) l' then py_set l' else v :: py_set l' end.
(** Iterating over the other side. *)
Definition elements (self : list bytes) (o : other) : list pyval :=
  match o with PySet l => l | PyList l => l | TagsOf t => iter t | Self => iter self end.
(** len (other). *)
Definition other_len (self : list bytes) (o : other) : nat := length (elements self o).
(** isinstance(other, Set). *)
Definition is_set (o : other) : bool := match o with PyList _ => false | _ => true end.
(** value in other, for a Set. *)
Definition other_contains (v : pyval) (self : list bytes) (o : other) : res bool :=
  match o with PySet l => Ok (existsb (pyeq v) l) | PyList l => Ok (existsb (pyeq v) l) | TagsOf t => contains v t | Self => contains v self end.
(** [value for value in l if p (value)]; with [neg], if not p (value). *)
Fixpoint comprehend (p : pyval -> res bool) (neg : bool) (l : list pyval) : res (list pyval) :=
  match l with
  | [] => Ok []
  | v :: l' =>
      match p v with
      | Raised e => Raised e
      | Ok b => match comprehend p neg l' with Raised e => Raised e | Ok r => Ok (if xorb neg b then v :: r else r) end
      end
  end.
(** all(p (value) for value in l). *)
Fixpoint every (p : pyval -> res bool) (l : list pyval) : res bool :=
  match l with [] => Ok true | v :: l' => match p v with Ok true => every p l' | r => r end end.
(** ... and the opposite of each. *)
Fixpoint none_of (p : pyval -> res bool) (l : list pyval) : res bool :=
  match l with [] => Ok true | v :: l' => match p v with Ok false => none_of p l' | Ok true => Ok false | r => r end end.
(** A result made into a set: _tags.py:57-59 [_from_iterable]. *)
Definition from_iterable (r : res (list pyval)) : res (list pyval) := match r with Ok l => Ok (py_set l) | Raised e => Raised e end.
(** _tags.py:122-123 [intersection]: & of collections.abc.Set. *)
Definition intersection (self : list bytes) (o : other) : res (list pyval) :=
  from_iterable (comprehend (fun v => contains v self) false (elements self o)).
(** _tags.py:119-120 [union]: |. *)
Definition union (self : list bytes) (o : other) : res (list pyval) := Ok (py_set (iter self ++ elements self o)).
(** _tags.py:125-126 [difference]: -. *)
Definition difference (self : list bytes) (o : other) : res (list pyval) :=
  from_iterable (comprehend (fun v => other_contains v self o) true (iter self)).
(** The other operand minus the tag set (__rsub__, or - of the other tag set). *)
Definition rdifference (self : list bytes) (o : other) : res (list pyval) :=
  from_iterable (comprehend (fun v => contains v self) true (elements self o)).
(** _tags.py:128-129 [symmetric_difference]: ^. *)
Definition symmetric_difference (self : list bytes) (o : other) : res (list pyval) :=
  match difference self o with
  | Raised e => Raised e
  | Ok a => match rdifference self o with Raised e => Raised e | Ok b => Ok (py_set (a ++ b)) end
  end.
(** _tags.py:113-114 [issubset]: <=.  For something that is no Set, neither side knows <=: TypeError. *)
Definition issubset (self : list bytes) (o : other) : res bool :=
  if negb (is_set o) then Raised TypeError
  else if Nat.ltb (other_len self o) (len self) then Ok false
  else every (fun v => other_contains v self o) (iter self).
(** _tags.py:116-117 [issuperset]: >=. *)
Definition issuperset (self : list bytes) (o : other) : res bool :=
  if negb (is_set o) then Raised TypeError
  else if Nat.ltb (len self) (other_len self o) then Ok false
  else every (fun v => contains v self) (elements self o).
(** < of collections.abc.Set (_tags.py:11). *)
Definition proper_subset (self : list bytes) (o : other) : res bool :=
  if negb (is_set o) then Raised TypeError
  else if Nat.ltb (len self) (other_len self o) then issubset self o else Ok false.
(** > of collections.abc.Set (_tags.py:11). *)
Definition proper_superset (self : list bytes) (o : other) : res bool :=
  if negb (is_set o) then Raised TypeError
  else if Nat.ltb (other_len self o) (len self) then issuperset self o else Ok false.
(** isdisjoint of collections.abc.Set (_tags.py:11). *)
Definition isdisjoint (self : list bytes) (o : other) : res bool := none_of (fun v => contains v self) (elements self o).
(** sorted (l) for bytes. *)
Definition sorted (l : list bytes) : list bytes := fold_right (fun t l => 
   (fix ins (l : list bytes) := match l with [] => [t] | x :: l' => if bleb t x then t :: l else x :: ins l' end) l) [] l.
(** Equality of tuples of bytes, _tags.py:110-111. *)
Fixpoint lbeq (a b : list bytes) : bool :=
  match a, b with [], [] => true | x :: a', y :: b' => bseq x y && lbeq a' b' | _, _ => false end.
(** _tags.py:110-111 [__eq__]: the other side must have a method iter. *)
Definition equals (self : list bytes) (o : other) : res bool :=
  match o with
  | TagsOf t => Ok (lbeq (sorted (iter_bytes self)) (sorted (iter_bytes t)))
  | Self => Ok (lbeq (sorted (iter_bytes self)) (sorted (iter_bytes self)))
  | _ => Raised AttributeError
  end.
(** _tags.py:134-135 [__hash__]: what is hashed. *)
Definition hashed (self : list bytes) : list bytes := iter_bytes self.

(** ** MutableTagSet *)
(** The bytes for a value, _tags.py:185-188 and 211-214. *)
Definition as_bytes (v : pyval) : res bytes :=
  match v with
  | Str s => match encode s with Some b => Ok b | None => Raised UnicodeEncodeError end
  | Byts b => Ok b
  | Other _ => Raised TypeError
  end.
(** _tags.py:168-192 [add]. *)
Definition add (v : pyval) (m : message) : message * option exn :=
  match as_bytes v with Ok b => add_tag b m | Raised e => (m, Some e) end.
(** _tags.py:194-217 [discard]. *)
Definition discard (v : pyval) (m : message) : message * option exn :=
  match as_bytes v with Ok b => remove_tag b m | Raised e => (m, Some e) end.
(** _tags.py:219-227 [clear]. *)
Definition clear (m : message) : message * option exn := remove_all_tags m.
(** remove of collections.abc.MutableSet (_tags.py:144). *)
Definition remove (v : pyval) (m : message) : message * option exn :=
  match contains v (m_tags m) with
  | Raised e => (m, Some e)
  | Ok false => (m, Some KeyError)
  | Ok true => discard v m
  end.
(** pop of collections.abc.MutableSet (_tags.py:144): the value, too. *)
Definition pop (m : message) : message * res pyval :=
  match iter (m_tags m) with
  | [] => (m, Raised KeyError)
  | v :: _ => match discard v m with (m', None) => (m', Ok v) | (m', Some e) => (m', Raised e) end
  end.
(** for value in l: f (value), ending at an exception. *)
Fixpoint for_each (f : pyval -> message -> message * option exn) (l : list pyval) (m : message) : message * option exn :=
  match l with
  | [] => (m, None)
  | v :: l' => match f v m with (m', None) => for_each f l' m' | r => r end
  end.
(** |= of collections.abc.MutableSet (_tags.py:144). *)
Definition ior (o : other) (m : message) : message * option exn := for_each add (elements (m_tags m) o) m.
(** &=. *)
Definition iand (o : other) (m : message) : message * option exn :=
  match difference (m_tags m) o with Raised e => (m, Some e) | Ok l => for_each discard l m end.
(** ^=. *)
Definition ixor (o : other) (m : message) : message * option exn :=
  match o with
  | Self => clear m
  | _ =>
      let l := if is_set o then elements (m_tags m) o else py_set (elements (m_tags m) o) in
      for_each (fun v m => match contains v (m_tags m) with
                           | Raised e => (m, Some e)
                           | Ok true => discard v m
                           | Ok false => add v m
                           end) l m
  end.
(** -=. *)
Definition isub (o : other) (m : message) : message * option exn :=
  match o with Self => clear m | _ => for_each discard (elements (m_tags m) o) m end.
(** The calls that change the tags. *)
Inductive change := Add (v : pyval) | Discard (v : pyval) | Remove (v : pyval) | Clear | Pop | Ior (o : other) | Iand (o : other) | Ixor (o : other) | Isub (o : other).
(** One call. *)
Definition perform (c : change) (m : message) : message * option exn :=
  match c with
  | Add v => add v m | Discard v => discard v m | Remove v => remove v m | Clear => clear m
  | Pop => match pop m with (m', Ok _) => (m', None) | (m', Raised e) => (m', Some e) end
  | Ior o => ior o m | Iand o => iand o m | Ixor o => ixor o m | Isub o => isub o m
  end.
