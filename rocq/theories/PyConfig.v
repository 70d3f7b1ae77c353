(** Model of the mapping of configuration values in the Python bindings: bindings/python-cffi/notmuch2/_config.py, with
    what it inherits from collections.abc.MutableMapping, over the map of the library (lib/config.cc, lib/string-map.c).

    Texts, bytes and exceptions are those of PyTags.v.  Simplifications: what set_config writes into the database is
    left out (C49); looking up a key also sorts the library's map, which is left out because every operation sorts it first. *)
From Verif Require Import Bytes StringMap PyTags.

(** The loop over an iterator of the map with all pairs whose key begins with a prefix: lib/config.cc:359-398. *)
Definition all_pairs (m : string_map) (prefix : bytes) : list pair_t := it_all (it_create m prefix false).
(** The database: open for writing or not, and its map of configuration values (lib/database-private.h). *)
Record config := { c_writable : bool; c_map : string_map }.

(** _config.py:65-76 [__getitem__], lib/config.cc:107-133. *)
Definition getitem (key : pyval) (c : config) : res text :=
  match as_bytes key with
  | Raised e => Raised e
  | Ok k =>
      let stored := match fst (sm_get (c_map c) (c_string k)) with Some v => v | None => [] end in
      match decode_ignore stored with [] => Raised KeyError | val => Ok val end
  end.
(** _config.py:78-85 [__setitem__], lib/config.cc:60-89. *)
Definition setitem (key val : pyval) (c : config) : config * option exn :=
  match as_bytes key with
  | Raised e => (c, Some e)
  | Ok k =>
      match as_bytes val with
      | Raised e => (c, Some e)
      | Ok v =>
          if negb (c_writable c) then (c, Some ReadOnlyDatabaseError)
          else ({| c_writable := c_writable c; c_map := sm_set (c_map c) (c_string k) (c_string v) |}, None)
      end
  end.
(** _config.py:87-88 [__delitem__]. *)
Definition delitem (key : pyval) (c : config) : config * option exn := setitem key (Str []) c.
(** _config.py:90-98 [__iter__] and 21-34: pairs with an empty value are skipped. *)
Definition config_iter (c : config) : list text :=
  map (fun p => decode_ignore (fst p)) (filter (fun p => match decode_ignore (snd p) with [] => false | _ => true end) (all_pairs (c_map c) [])).
(** _config.py:100-101 [__len__]. *)
Definition config_len (c : config) : nat := length (config_iter c).

(** What collections.abc.Mapping adds (_config.py:36): in, get, items. *)
Definition config_contains (key : pyval) (c : config) : res bool :=
  match getitem key c with Ok _ => Ok true | Raised KeyError => Ok false | Raised e => Raised e end.
(** [get (key, default)]: as above. *)
Definition config_get (key : pyval) (default : text) (c : config) : res text :=
  match getitem key c with Raised KeyError => Ok default | r => r end.
(** [items ()]: as above; the first exception ends the iteration. *)
Fixpoint items_of (l : list text) (c : config) : res (list (text * text)) :=
  match l with
  | [] => Ok []
  | k :: l => match getitem (Str k) c with
              | Raised e => Raised e
              | Ok v => match items_of l c with Ok r => Ok ((k, v) :: r) | Raised e => Raised e end
              end
  end.
(** As above. *)
Definition config_items (c : config) : res (list (text * text)) := items_of (config_iter c) c.

(** What collections.abc.MutableMapping adds (_config.py:36): pop. *)
Definition config_pop (key : pyval) (c : config) : config * res text :=
  match getitem key c with
  | Raised e => (c, Raised e)
  | Ok v => match delitem key c with (c', None) => (c', Ok v) | (c', Some e) => (c', Raised e) end
  end.
(** popitem: as above. *)
Definition config_popitem (c : config) : config * res (text * text) :=
  match config_iter c with
  | [] => (c, Raised KeyError)
  | k :: _ => match config_pop (Str k) c with (c', Ok v) => (c', Ok (k, v)) | (c', Raised e) => (c', Raised e) end
  end.
(** clear: as above; popitem until KeyError.  [fuel] bounds the loop; it ends before it is used up (P_PyConfig.v). *)
Fixpoint clear_loop (fuel : nat) (c : config) : config * option exn :=
  match fuel with
  | O => (c, None)
  | S f => match config_popitem c with
           | (c', Ok _) => clear_loop f c'
           | (c', Raised KeyError) => (c', None)
           | (c', Raised e) => (c', Some e)
           end
  end.
(** As above. *)
Definition config_clear (c : config) : config * option exn := clear_loop (S (length (sm_pairs (c_map c)))) c.
(** setdefault: as above. *)
Definition config_setdefault (key val : pyval) (c : config) : config * option exn :=
  match getitem key c with
  | Ok _ => (c, None)
  | Raised KeyError => setitem key val c
  | Raised e => (c, Some e)
  end.
(** update: as above, with the pairs of a dict. *)
Fixpoint config_update (l : list (pyval * pyval)) (c : config) : config * option exn :=
  match l with
  | [] => (c, None)
  | (k, v) :: l => match setitem k v c with (c', None) => config_update l c' | r => r end
  end.
(** The calls that change the mapping. *)
Inductive config_call :=
| CSet (k v : pyval) | CDel (k : pyval) | CPop (k : pyval) | CPopitem | CClear | CSetdefault (k v : pyval) | CUpdate (l : list (pyval * pyval)).
(** One call. *)
Definition config_perform (o : config_call) (c : config) : config * option exn :=
  match o with
  | CSet k v => setitem k v c
  | CDel k => delitem k c
  | CPop k => match config_pop k c with (c', Ok _) => (c', None) | (c', Raised e) => (c', Some e) end
  | CPopitem => match config_popitem c with (c', Ok _) => (c', None) | (c', Raised e) => (c', Some e) end
  | CClear => config_clear c
  | CSetdefault k v => config_setdefault k v c
  | CUpdate l => config_update l c
  end.
