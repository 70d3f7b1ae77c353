(** Model of util/string-util.c and of the config value iterator built on it
    (lib/config.cc). *)
From Verif Require Import Bytes Hex.
Local Open Scope N_scope.

(** util/string-util.c:29-39 [strtok_len]: skip delimiters, then the longest run
    of non-delimiters; [Some (token, text after the token)] or NULL.  The caller's
    next call starts at [tok + tok_len], i.e. at the returned rest. *)
Definition strtok_len (delim : bytes) (s : bytes) : option (bytes * bytes) :=
  let s := dropwhile (fun c => mem c delim) s in
  let '(tok, rest) := span (fun c => negb (mem c delim)) s in
  match tok with [] => None | _ => Some (tok, rest) end.

(** The documented usage pattern (util/string-util.h:10-22): all tokens. *)
Fixpoint strtok_all (fuel : nat) (delim s : bytes) : list bytes :=
  match fuel with
  | O => []
  | S f => match strtok_len delim s with
           | None => []
           | Some (t, r) => t :: strtok_all f delim r
           end
  end.

(** util/string-util.c:51-56: the scanning loop of [strsplit_len]: returns
    ([count], [last_nonspace]). *)
Fixpoint strsplit_scan (delim : byte) (s : bytes) (escaping : bool)
         (count last_nonspace : nat) : nat * nat :=
  match s with
  | [] => (count, last_nonspace)
  | c :: s' =>
      if escaping || negb (beq c delim) then
        strsplit_scan delim s' (beq c "\"%char) (S count)
          (if isspace c then last_nonspace else count)
      else (count, last_nonspace)
  end.

(** util/string-util.c:41-63 [strsplit_len]: the token and the text following the
    [*len] bytes of the token.  ([isspace] is applied to a plain [char]: for bytes
    above 127 that is the C-locale answer "no", strictly undefined behaviour.) *)
Definition strsplit_len (delim : byte) (s : bytes) : option (bytes * bytes) :=
  let s := dropwhile (fun c => beq c delim || isspace c) s in
  let '(count, last_nonspace) := strsplit_scan delim s false 0 0 in
  match count with
  | O => None
  | _ => Some (firstn (S last_nonspace) s, skipn (S last_nonspace) s)
  end.

(** lib/config.cc:305,316-351: values obtained by iterating
    notmuch_config_values_{start,valid,get,move_to_next}. *)
Fixpoint config_values_loop (fuel : nat) (it : bytes) : list bytes :=
  match fuel with
  | O => []
  | S f => match strsplit_len ";"%char it with
           | None => []
           | Some (tok, rest) => tok :: config_values_loop f rest
           end
  end.
(** [config_values]: as above, lib/config.cc:305,316-351. *)
Definition config_values (s : bytes) : list bytes := config_values_loop (S (length s)) s.

(** util/string-util.c:73-93 [sanitize_string]. *)
Definition sanitize_byte (c : byte) : byte :=
  if beq c (chr 9) || beq c (chr 10) then " "%char
  else if code c <? 32 then "?"%char else c.
(** [sanitize_string]: as above, util/string-util.c:73-93. *)
Definition sanitize_string (s : bytes) : bytes := map sanitize_byte s.

(** util/string-util.c:95-99 [is_unquoted_terminator]. *)
Definition is_unquoted_terminator (c : byte) : bool :=
  (code c =? 0) || (code c <=? 32) || beq c ")"%char.

(** util/string-util.c:110-118: does the term need quoting? *)
Definition term_char_needs_quoting (c : byte) : bool :=
  is_unquoted_terminator c || beq c """"%char || beq c "("%char || (127 <? code c).
(** [need_quoting]: as above, util/string-util.c:110-118. *)
Definition need_quoting (term : bytes) : bool :=
  match term with [] => true | _ => existsb term_char_needs_quoting term end.

(** util/string-util.c:157-162: the body between the quotes. *)
Fixpoint double_quotes (term : bytes) : bytes :=
  match term with
  | [] => []
  | c :: t => if beq c """"%char then """"%char :: c :: double_quotes t
              else c :: double_quotes t
  end.

(** util/string-util.c:101-167 [make_boolean_term]: resulting text. *)
Definition make_boolean_term (prefix : option bytes) (term : bytes) : bytes :=
  (match prefix with Some p => p ++ [":"%char] | None => [] end) ++
  (if need_quoting term then """"%char :: double_quotes term ++ [""""%char] else term).

(** util/string-util.c:107-128: the buffer size it requires. *)
Definition make_boolean_term_needed (prefix : option bytes) (term : bytes) : nat :=
  let needed :=
    if need_quoting term
    then fold_left (fun n c => n + (if beq c """"%char then 2 else 1))%nat term 3%nat
    else (length term + 1)%nat in
  match prefix with Some p => (needed + (length p + 1))%nat | None => needed end.

(** util/string-util.c:130-133: size of the buffer actually used, given the
    caller's buffer ([None] for NULL, else its recorded = real size). *)
Definition make_boolean_term_bufsize (prefix : option bytes) (term : bytes)
           (buf : option nat) : nat :=
  let needed := make_boolean_term_needed prefix term in
  match buf with
  | Some n => if Nat.ltb n needed then (2 * needed)%nat else n
  | None => (2 * needed)%nat
  end.

(** util/string-util.c:169-175 [skip_space]. *)
Definition skip_space (s : bytes) : bytes := dropwhile isspace s.

(** util/string-util.c:209-220: the de-quoting loop, entered after the opening
    quote; [Some (out, rest)] when the closing quote was found (rest after
    skipping space), [None] when the text ended first. *)
Fixpoint unquote_loop (pos : bytes) (out : bytes) : option (bytes * bytes) :=
  match pos with
  | [] => None
  | c :: r =>
      if beq c """"%char then
        match r with
        | d :: r' => if beq d """"%char then unquote_loop r' (out ++ [d])
                     else Some (out, skip_space r)
        | [] => Some (out, skip_space r)
        end
      else unquote_loop r (out ++ [c])
  end.

(** util/string-util.c:177-250 [parse_boolean_term]: [None] is EINVAL. *)
Definition parse_boolean_term (str : bytes) : option (bytes * bytes) :=
  let str := skip_space str in
  if mem ":"%char str then
    let '(prefix, pos) := span (fun c => negb (beq c ":"%char)) str in
    match prefix with
    | [] => None
    | _ =>
        let pos := tl pos in
        if beq (peek pos) """"%char then
          match unquote_loop (tl pos) [] with
          | Some (out, []) => Some (prefix, out)
          | _ => None
          end
        else
          let '(term, rest) := span (fun c => negb (is_unquoted_terminator c)) pos in
          match skip_space rest with
          | [] => Some (prefix, term)
          | _ => None
          end
    end
  else None.

(** util/string-util.c:287-298 [strip_trailing]. *)
Fixpoint strip_trailing (s : bytes) (ch : byte) : bytes :=
  match s with
  | [] => []
  | c :: s' =>
      match strip_trailing s' ch with
      | [] => if beq c ch then [] else [c]
      | r => c :: r
      end
  end.
