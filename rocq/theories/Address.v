(** Model of the address command (notmuch-search.c, notmuch_address_command) and of
    strcmp_null, strcase_equal, strcase_hash of util/string-util.c.

    GMime (external) parses headers into lists of addresses (type [address] of Reply.v) and
    quotes names when it writes a mailbox; a missing or unparsable header is the empty list.
    GLib (external): a hash table finds the entry whose key has the same hash and is equal;
    its entries are visited in an unspecified order.  Counters are unbounded here, int in C.
    Not modelled: allocation failure, the layout of the structured formats. *)
From Verif Require Import Bytes XQuery Thread Query Reply SearchCmd.
From Coq Require Import Permutation.
Local Open Scope nat_scope.

(** notmuch-search.c:40-44. *)
Inductive dedup_t := DEDUP_NONE | DEDUP_MAILBOX | DEDUP_ADDRESS.
(** notmuch-search.c:33-37 and 52-68: the --output flags, --deduplicate, --exclude, --sort. *)
Record address_args := {
  d_sender : bool; d_recipients : bool; d_count : bool; d_address : bool;
  d_dedup : dedup_t; d_exclude : omit_mode; d_sort : sort_mode
}.
(** notmuch-search.c:70-74 mailbox_t. *)
Record mailbox := { x_name : option bytes; x_addr : bytes; x_count : nat }.

(** util/string-util.c:252-263 [strcmp_null] == 0. *)
Definition streq_null (a b : option bytes) : bool :=
  match a, b with
  | Some s, Some t => bseq s t
  | None, None => true
  | _, _ => false
  end.
(** util/string-util.c:265-269 [strcase_equal]. *)
Definition strcase_equal (a b : bytes) : bool := strcaseeq a b.
(** util/string-util.c:271-285 [strcase_hash]: unsigned arithmetic modulo 2^32; a plain char
    is signed. *)
Definition schar (c : byte) : Z := (let n := Z.of_N (N_of_ascii c) in if n <? 128 then n else n - 256)%Z.
(** [hash_from]: as above, util/string-util.c:271-285. *)
Fixpoint hash_from (hash : Z) (s : bytes) : Z :=
  match s with
  | [] => hash
  | c :: r => hash_from ((hash * 32 + hash + schar (tolower c)) mod 2 ^ 32)%Z r
  end.
(** [strcase_hash]: as above, util/string-util.c:271-285. *)
Definition strcase_hash (s : bytes) : Z := hash_from 5381 s.

(** The hash table: keys with their list of mailboxes. *)
Definition table := list (bytes * list mailbox).
(** GLib hash-table key match: equal hash and strcase_equal, notmuch-search.c:306-358. *)
Definition key_is (addr key : bytes) : bool := (strcase_hash addr =? strcase_hash key)%Z && strcase_equal key addr.
(** g_hash_table_lookup on the address table, notmuch-search.c:306-358. *)
Definition lookup (t : table) (addr : bytes) : option (list mailbox) :=
  match find (fun e => key_is addr (fst e)) t with Some (_, l) => Some l | None => None end.
(** Changing the list an entry points to. *)
Fixpoint replace_list (t : table) (addr : bytes) (l : list mailbox) : table :=
  match t with
  | [] => []
  | (k, l0) :: r => if key_is addr k then (k, l) :: r else (k, l0) :: replace_list r addr l
  end.

(** notmuch-search.c:275-289 [new_mailbox]. *)
Definition new_mailbox (name : option bytes) (addr : bytes) : mailbox := {| x_name := name; x_addr := addr; x_count := 1 |}.
(** notmuch-search.c:291-302 [mailbox_compare] == 0. *)
Definition mailbox_same (name : option bytes) (addr : bytes) (m : mailbox) : bool :=
  streq_null (x_name m) name && bseq (x_addr m) addr.
(** notmuch-search.c:321-326: the first equal mailbox of the list is counted once more. *)
Fixpoint count_up (name : option bytes) (addr : bytes) (l : list mailbox) : option (list mailbox) :=
  match l with
  | [] => None
  | m :: r => if mailbox_same name addr m
              then Some ({| x_name := x_name m; x_addr := x_addr m; x_count := S (x_count m) |} :: r)
              else match count_up name addr r with Some r' => Some (m :: r') | None => None end
  end.
(** notmuch-search.c:306-358 [is_duplicate]. *)
Definition is_duplicate (t : table) (name : option bytes) (addr : bytes) : bool * table :=
  match lookup t addr with
  | Some l =>
      match count_up name addr l with
      | Some l' => (true, replace_list t addr l')
      | None => (false, replace_list t addr (l ++ [new_mailbox name addr]))
      end
  | None => (false, t ++ [(addr, [new_mailbox name addr])])
  end.

(** notmuch-search.c:360-402 [print_mailbox]: what is shown of a mailbox (the count only with
    --output=count). *)
Record shown_box := { p_name : option bytes; p_addr : bytes; p_count : option nat }.
(** [print_mailbox]: as above, notmuch-search.c:360-402. *)
Definition print_mailbox (a : address_args) (name : option bytes) (addr : bytes) (count : nat) : shown_box :=
  {| p_name := name; p_addr := addr; p_count := if d_count a then Some count else None |}.
(** sprinter-text.c and notmuch-search.c:373-382: as a line of text; [name_addr] is
    internet_address_to_string; [decimal] is printf's %ld. *)
Definition text_of_box (a : address_args) (name_addr : option bytes -> bytes -> bytes) (decimal : nat -> bytes) (b : shown_box) : bytes :=
  match p_count b with Some n => decimal n ++ [chr 9] | None => [] end ++
  (if d_address a then p_addr b else name_addr (p_name b) (p_addr b)) ++ [chr 10].

(** The hash table and what was printed so far. *)
Definition astate := (table * list shown_box)%type.
(** every requested direction of every message is read, notmuch-search.c:539-630. *)
Definition full_pass (a : address_args) : bool :=
  d_count a || match d_dedup a with DEDUP_ADDRESS => true | _ => false end.
(** notmuch-search.c:405-443 [process_address_list]. *)
Fixpoint process_address (a : address_args) (ia : address) (st : astate) : astate :=
  match ia with
  | Group members => fold_left (fun st x => process_address a x st) members st
  | Mailbox name addr =>
      let '(dup, t) := match d_dedup a with
                       | DEDUP_NONE => (false, fst st)
                       | _ => is_duplicate (fst st) name addr
                       end in
      if dup then (t, snd st)
      else if full_pass a then (t, snd st)
      else (t, snd st ++ [print_mailbox a name addr 0])
  end.
(** [process_address_list]: as above, notmuch-search.c:405-443. *)
Definition process_address_list (a : address_args) (l : list address) (st : astate) : astate :=
  fold_left (fun st x => process_address a x st) l st.

(** notmuch-search.c:478-502 [print_popular]; [None]: INTERNAL_ERROR. *)
Fixpoint popular (l : list mailbox) (best : option mailbox) (max total : nat) : option (mailbox * nat) :=
  match l with
  | [] => match best with Some m => Some (m, total) | None => None end
  | m :: r => if (max <? x_count m)%nat then popular r (Some m) (x_count m) (total + x_count m)
              else popular r best max (total + x_count m)
  end.
(** [print_popular]: as above, notmuch-search.c:478-502. *)
Definition print_popular (a : address_args) (l : list mailbox) : option (list shown_box) :=
  match popular l None 0 0 with
  | Some (m, total) => Some [print_mailbox a (x_name m) (x_addr m) total]
  | None => None
  end.
(** notmuch-search.c:510-519 [print_hash_value]. *)
Definition print_hash_value (a : address_args) (l : list mailbox) : option (list shown_box) :=
  match d_dedup a with
  | DEDUP_ADDRESS => print_popular a l
  | _ => Some (map (fun m => print_mailbox a (x_name m) (x_addr m) (x_count m)) l)
  end.
(** [print_hash]: as above, notmuch-search.c:510-519. *)
Fixpoint print_hash (a : address_args) (entries : table) : option (list shown_box) :=
  match entries with
  | [] => Some []
  | (_, l) :: r => match print_hash_value a l, print_hash a r with
                   | Some x, Some y => Some (x ++ y)
                   | _, _ => None
                   end
  end.

(** The headers of a message. *)
Inductive hname := H_FROM | H_TO | H_CC | H_BCC.
(** notmuch-search.c:599-617: the headers looked at. *)
Definition headers_of (a : address_args) : list hname :=
  (if d_sender a then [H_FROM] else []) ++ (if d_recipients a then [H_TO; H_CC; H_BCC] else []).
(** [process_message]: as above, notmuch-search.c:599-617. *)
Definition process_message (a : address_args) (header : xdoc -> hname -> list address) (st : astate) (d : xdoc) : astate :=
  fold_left (fun st h => process_address_list a (header d h) st) (headers_of a) st.

(** notmuch-search.c:898-899: sender is the default. *)
Definition with_default (a : address_args) : address_args :=
  if d_sender a || d_recipients a then a
  else {| d_sender := true; d_recipients := false; d_count := d_count a; d_address := d_address a;
          d_dedup := d_dedup a; d_exclude := d_exclude a; d_sort := d_sort a |}.
(** notmuch-search.c:863-926 [notmuch_address_command] and 539-630 [do_search_messages] (with
    offset 0 and no limit).  [address_command ... r]: [r] is a possible outcome; the entries
    of the hash table are visited in any order. *)
Definition address_prepare (parse : option xq) (tags : list bytes) (a : address_args) : option query :=
  match search_prepare parse tags
          {| s_exclude := d_exclude a; s_sort := d_sort a; s_output := O_MESSAGES; s_offset := 0; s_limit := -1; s_dupe := -1 |} with
  | Some q => Some (if full_pass a then set_sort q SORT_UNSORTED else q)
  | None => None
  end.
(** [address_command]: as above, notmuch-search.c:863-926. *)
Inductive address_command (db : list xdoc) (header : xdoc -> hname -> list address) (parse : option xq)
    (tags : list bytes) (a : address_args) : result (list shown_box) -> Prop :=
| ac_count : d_count a = true -> d_dedup a = DEDUP_NONE -> address_command db header parse tags a Fail
| ac_query : ~ (d_count a = true /\ d_dedup a = DEDUP_NONE) ->
    match address_prepare parse tags a with Some q => search_messages db q | None => None end = None ->
    address_command db header parse tags a Fail
| ac_run q ms entries st : ~ (d_count a = true /\ d_dedup a = DEDUP_NONE) ->
    address_prepare parse tags a = Some q -> search_messages db q = Some ms ->
    st = fold_left (process_message (with_default a) header) (ms_docs ms) ([], []) ->
    Permutation entries (fst st) ->
    address_command db header parse tags a
      (if full_pass a then match print_hash (with_default a) entries with Some l => Out (snd st ++ l) | None => Undef end
       else Out (snd st)).
