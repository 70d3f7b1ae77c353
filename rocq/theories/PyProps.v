(** Model of the properties of a message in the Python bindings: bindings/python-cffi/notmuch2/_message.py:434-665
    [PropertiesMap], with what it inherits from collections.abc.MutableMapping, over the library (Db.v, Props.v).

    Texts and values are those of PyTags.v.  Simplifications: the set operators of the views are left out; whether the
    objects are alive is C83. *)
From Verif Require Import Bytes Terms Meta DocMap StringMap Db Props PyTags.

(** Exceptions: those of Python, and NotmuchError with a status (_errors.py); [Aborted]: the library ends the process. *)
Inductive pexn := PTypeError | PKeyError | PUnicodeEncodeError | PStatus (st : status) | PAborted.
(** What a call gives. *)
Inductive pres (A : Type) := Good (x : A) | Bad (e : pexn).
Arguments Good {A}. Arguments Bad {A}.
(** The C string for a key or value: _message.py:497-498, 558-561 and cffi, which takes no other types. *)
Definition arg (v : pyval) : pres bytes :=
  match v with
  | Str s => match encode s with Some b => Good (c_string b) | None => Bad PUnicodeEncodeError end
  | Byts b => Good (c_string b)
  | Other _ => Bad PTypeError
  end.
(** A status of the library as an exception, _message.py:562-564. *)
Definition check (r : status * db) : db * option pexn :=
  match r with
  | (St_success, s) => (s, None)
  | (St_internal_error, s) => (s, Some PAborted)
  | (st, s) => (s, Some (PStatus st))
  end.

Section Map.
(** The message: a handle. *)
Variable h : N.
(** Its terms, as read by the library. *)
Definition terms (s : db) : list bytes := match dget h (handles s) with Some hd => h_terms hd | None => [] end.
(** All its properties, decoded, in the order of the library. *)
Definition pairs (prefix : bytes) (exact : bool) (s : db) : pres (list (text * text)) :=
  match get_properties (terms s) prefix exact with
  | Some l => Good (map (fun p => (decode_ignore (fst p), decode_ignore (snd p))) l)
  | None => Bad PAborted
  end.
(** The result of a function. *)
Definition pmap {A B} (f : A -> B) (r : pres A) : pres B := match r with Good x => Good (f x) | Bad e => Bad e end.
(** _message.py:475-482 [__iter__]. *)
Definition props_iter (s : db) : pres (list text) := pmap (map fst) (pairs [] false s).
(** _message.py:484-493 [__len__]. *)
Definition props_len (s : db) : pres nat := pmap (@length _) (props_iter s).
(** _message.py:495-505 [__getitem__]. *)
Definition props_getitem (key : pyval) (s : db) : pres text :=
  match arg key with
  | Bad e => Bad e
  | Good k => match get_property (terms s) k with
              | None => Bad PAborted
              | Some None => Bad PKeyError
              | Some (Some v) => Good (decode_ignore v)
              end
  end.
(** The elements of a list, each once (a dict or a set). *)
Fixpoint once {A} (eq : A -> A -> bool) (l : list A) : list A :=
  match l with [] => [] | x :: l => if existsb (eq x) l then once eq l else x :: once eq l end.
(** _message.py:507-513 [keys]. *)
Definition props_keys (s : db) : pres (list text) := pmap (once teq) (props_iter s).
(** _message.py:515-531 [items]. *)
Definition props_items (s : db) : pres (list (text * text)) := pmap (once (fun a b => teq (fst a) (fst b) && teq (snd a) (snd b))) (pairs [] false s).
(** _message.py:533-545 [values]. *)
Definition props_values (s : db) : pres (list text) := pmap (fun l => once teq (map snd l)) (pairs [] false s).
(** _message.py:556-564 [add]. *)
Definition props_add (key value : pyval) (s : db) : db * option pexn :=
  match arg key, arg value with
  | Good k, Good v => check (step (OpAddProp h k v) s)
  | Bad e, _ => (s, Some e)
  | Good _, Bad e => (s, Some e)
  end.
(** _message.py:547-554 [__setitem__]. *)
Definition props_setitem := props_add.
(** _message.py:566-572 [__delitem__], lib/message-property.cc:149-154. *)
Definition props_delitem (key : pyval) (s : db) : db * option pexn :=
  match arg key with Good k => check (step (OpRemProps h (Some k) false) s) | Bad e => (s, Some e) end.
(** _message.py:574-582 [remove]. *)
Definition props_remove (key value : pyval) (s : db) : db * option pexn :=
  match arg key, arg value with
  | Good k, Good v => check (step (OpRemProp h k v) s)
  | Bad e, _ => (s, Some e)
  | Good _, Bad e => (s, Some e)
  end.
(** _message.py:584-594 [pop]; [default]: [None] is no default.  The value goes back to the library as a text. *)
Definition props_pop (key : pyval) (default : option text) (s : db) : db * pres text :=
  match props_getitem key s with
  | Bad PKeyError => (s, match default with Some d => Good d | None => Bad PKeyError end)
  | Bad e => (s, Bad e)
  | Good v => match props_remove key (Str v) s with (s', None) => (s', Good v) | (s', Some e) => (s', Bad e) end
  end.
(** _message.py:596-602 [popitem]. *)
Definition props_popitem (s : db) : db * pres (text * text) :=
  match props_iter s with
  | Bad e => (s, Bad e)
  | Good [] => (s, Bad PKeyError)
  | Good (k :: _) => match props_pop (Str k) None s with (s', Good v) => (s', Good (k, v)) | (s', Bad e) => (s', Bad e) end
  end.
(** _message.py:604-608 [clear]. *)
Definition props_clear (s : db) : db * option pexn := check (step (OpRemProps h None false) s).
(** _message.py:610-625 [getall], 644-664 [PropertiesIter]. *)
Definition props_getall (prefix : pyval) (exact : bool) (s : db) : pres (list (text * text)) :=
  match arg prefix with Good p => pairs p exact s | Bad e => Bad e end.

(** What collections.abc.MutableMapping adds (_message.py:434): in. *)
Definition props_contains (key : pyval) (s : db) : pres bool :=
  match props_getitem key s with Good _ => Good true | Bad PKeyError => Good false | Bad e => Bad e end.
(** get: as above. *)
Definition props_get (key : pyval) (default : text) (s : db) : pres text :=
  match props_getitem key s with Bad PKeyError => Good default | r => r end.
(** setdefault: as above. *)
Definition props_setdefault (key value : pyval) (s : db) : db * option pexn :=
  match props_getitem key s with
  | Good _ => (s, None)
  | Bad PKeyError => props_setitem key value s
  | Bad e => (s, Some e)
  end.
(** update: as above, with the pairs of a dict. *)
Fixpoint props_update (l : list (pyval * pyval)) (s : db) : db * option pexn :=
  match l with
  | [] => (s, None)
  | (k, v) :: l => match props_setitem k v s with (s', None) => props_update l s' | r => r end
  end.
(** The calls that change the mapping. *)
Inductive props_call :=
| PSet (k v : pyval) | PAdd (k v : pyval) | PDel (k : pyval) | PRemove (k v : pyval) | PPop (k : pyval) (default : option text) | PPopitem | PClear
| PSetdefault (k v : pyval) | PUpdate (l : list (pyval * pyval)).
(** One call and the exception it raises. *)
Definition props_perform (o : props_call) (s : db) : db * option pexn :=
  let drop {A} (r : db * pres A) := match r with (s', Good _) => (s', None) | (s', Bad e) => (s', Some e) end in
  match o with
  | PSet k v => props_setitem k v s
  | PAdd k v => props_add k v s
  | PDel k => props_delitem k s
  | PRemove k v => props_remove k v s
  | PPop k d => drop (props_pop k d s)
  | PPopitem => drop (props_popitem s)
  | PClear => props_clear s
  | PSetdefault k v => props_setdefault k v s
  | PUpdate l => props_update l s
  end.
(** A history of calls. *)
Fixpoint props_performs (os : list props_call) (s : db) : db := match os with [] => s | o :: os => props_performs os (fst (props_perform o s)) end.
End Map.
