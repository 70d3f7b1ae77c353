(** Model of the structured printers (sprinter-json.c, sprinter-sexp.c).

    The stream is the text written so far (write errors are not modelled).  The stack of
    talloc'ed states is a list.  [None]: the process crashes (dereferencing the NULL
    state, or INTERNAL_ERROR). *)
From Verif Require Import Bytes Decimal.
Local Open Scope N_scope.

(** The calls of the printer interface (sprinter.h); a NULL string is printed as the
    empty one, [string] as [string_len] of a C string. *)
Inductive op := BeginMap | BeginList | End | Str (s : bytes) | Int (z : Z) | Bool (b : bool) | Null | Key (k : bytes) | Separator.

(** ** sprinter-json.c *)
Record json := { j_state : list (bool * byte); j_sep : bool; j_out : bytes }.
(** sprinter-json.c:174-203. *)
Definition json_init : json := {| j_state := []; j_sep := false; j_out := [] |}.
(** fputs / fputc on the output stream. *)
Definition jput (s : bytes) (p : json) : json := {| j_state := j_state p; j_sep := j_sep p; j_out := j_out p ++ s |}.
(** sprinter-json.c:31-50 [json_begin_value]. *)
Definition json_begin_value (p : json) : json :=
  match j_state p with
  | [] => p
  | (first, close) :: st =>
      if first then {| j_state := (false, close) :: st; j_sep := j_sep p; j_out := j_out p |}
      else if j_sep p then {| j_state := j_state p; j_sep := false; j_out := j_out p ++ [","%char; chr 10] |}
      else jput [","%char; " "%char] p
  end.
(** sprinter-json.c:54-65 [json_begin_aggregate]. *)
Definition json_begin_aggregate (open close : byte) (p : json) : json :=
  let p := jput [open] (json_begin_value p) in
  {| j_state := (true, close) :: j_state p; j_sep := j_sep p; j_out := j_out p |}.
(** sprinter-json.c:79-90 [json_end]. *)
Definition json_end (p : json) : option json :=
  match j_state p with
  | [] => None
  | (_, close) :: st =>
      let p := {| j_state := st; j_sep := j_sep p; j_out := j_out p ++ [close] |} in
      Some (match st with [] => jput [chr 10] p | _ => p end)
  end.
(** "%04x" of a byte, "%03o" of a byte below 32 (external: printf). *)
Definition hexdigit (n : N) : byte := if N.ltb n 10 then chr (48 + n) else chr (87 + n).
(** fprintf "\u%04x", sprinter-json.c:97-117. *)
Definition u04x (c : byte) : bytes := ["0"%char; "0"%char; hexdigit (code c / 16); hexdigit (code c mod 16)].
(** fprintf "\%03o", sprinter-sexp.c. *)
Definition o03 (c : byte) : bytes := [chr (48 + code c / 64); chr (48 + code c / 8 mod 8); chr (48 + code c mod 8)].
(** sprinter-json.c:97-117 [json_string_len]. *)
Definition BSL : byte := chr 92.
(** [json_escape]: as above, sprinter-json.c:97-117. *)
Definition json_escape (c : byte) : bytes :=
  if beq c (chr 34) then [BSL; chr 34] else if beq c BSL then [BSL; BSL]
  else if beq c (chr 8) then [BSL; "b"%char] else if beq c (chr 12) then [BSL; "f"%char]
  else if beq c (chr 10) then [BSL; "n"%char] else if beq c (chr 9) then [BSL; "t"%char]
  else if N.leb 32 (code c) then [c]
  else [BSL; "u"%char] ++ u04x c.
(** [json_string_len]: as above, sprinter-json.c:97-117. *)
Definition json_string_len (s : bytes) (p : json) : json :=
  jput ([chr 34] ++ flat_map json_escape s ++ [chr 34]) (json_begin_value p).
(** sprinter-json.c:127-159: integer, boolean, null, map_key. *)
Definition json_map_key (k : bytes) (p : json) : option json :=
  let p := jput (lit ": ") (json_string_len k p) in
  match j_state p with
  | [] => None
  | (_, close) :: st => Some {| j_state := (true, close) :: st; j_sep := j_sep p; j_out := j_out p |}
  end.
(** [json_call]: as above, sprinter-json.c:127-159. *)
Definition json_call (o : op) (p : json) : option json :=
  match o with
  | BeginMap => Some (json_begin_aggregate "{" "}" p)
  | BeginList => Some (json_begin_aggregate "[" "]" p)
  | End => json_end p
  | Str s => Some (json_string_len s p)
  | Int z => Some (jput (decz z) (json_begin_value p))
  | Bool b => Some (jput (if b then lit "true" else lit "false") (json_begin_value p))
  | Null => Some (jput (lit "null") (json_begin_value p))
  | Key k => json_map_key k p
  | Separator => Some {| j_state := j_state p; j_sep := true; j_out := j_out p |}
  end.
(** [json_run]: as above, sprinter-json.c:127-159. *)
Fixpoint json_run (l : list op) (p : json) : option json :=
  match l with [] => Some p | o :: l => match json_call o p with Some p => json_run l p | None => None end end.

(** ** sprinter-sexp.c *)
Record sexp := { s_state : list bool; s_sep : bool; s_out : bytes }.
(** sprinter-sexp.c. *)
Definition sexp_init : sexp := {| s_state := []; s_sep := false; s_out := [] |}.
(** fputs / fputc on the output stream. *)
Definition sput (s : bytes) (p : sexp) : sexp := {| s_state := s_state p; s_sep := s_sep p; s_out := s_out p ++ s |}.
(** sprinter-sexp.c:50-68 [sexp_begin_value]. *)
Definition sexp_begin_value (p : sexp) : sexp :=
  match s_state p with
  | [] => p
  | first :: st =>
      if first : bool then {| s_state := false :: st; s_sep := s_sep p; s_out := s_out p |}
      else if s_sep p then {| s_state := s_state p; s_sep := false; s_out := s_out p ++ [chr 10] |}
      else sput [" "%char] p
  end.
(** sprinter-sexp.c:72-107 [sexp_begin_aggregate], [sexp_end]. *)
Definition sexp_begin_aggregate (p : sexp) : sexp :=
  let p := sput ["("%char] (sexp_begin_value p) in
  {| s_state := true :: s_state p; s_sep := s_sep p; s_out := s_out p |}.
(** [sexp_end]: as above, sprinter-sexp.c:72-107. *)
Definition sexp_end (p : sexp) : option sexp :=
  match s_state p with
  | [] => None
  | _ :: st =>
      let p := {| s_state := st; s_sep := s_sep p; s_out := s_out p ++ [")"%char] |} in
      Some (match st with [] => sput [chr 10] p | _ => p end)
  end.
(** sprinter-sexp.c:109-132 [sexp_string_len]. *)
Definition sexp_escape (c : byte) : bytes :=
  if beq c (chr 34) then [BSL; chr 34] else if beq c BSL then [BSL; BSL]
  else if beq c (chr 10) then [BSL; "n"%char]
  else if N.leb 32 (code c) then [c]
  else BSL :: o03 c.
(** [sexp_string_len]: as above, sprinter-sexp.c:109-132. *)
Definition sexp_string_len (s : bytes) (p : sexp) : sexp :=
  sput ([chr 34] ++ flat_map sexp_escape s ++ [chr 34]) (sexp_begin_value p).
(** sprinter-sexp.c:144-162 [sexp_keyword]. *)
Definition keyword_char (c : byte) : bool := isalnum c || beq c "-" || beq c "_".
(** [sexp_keyword]: as above, sprinter-sexp.c:144-162. *)
Definition sexp_keyword (k : bytes) (p : sexp) : option sexp :=
  if forallb keyword_char k then Some (sput (":"%char :: k) p) else None.
(** [sexp_call]: as above, sprinter-sexp.c:144-162. *)
Definition sexp_call (o : op) (p : sexp) : option sexp :=
  match o with
  | BeginMap | BeginList => Some (sexp_begin_aggregate p)
  | End => sexp_end p
  | Str s => Some (sexp_string_len s p)
  | Int z => Some (sput (decz z) (sexp_begin_value p))
  | Bool b => Some (sput (if b then lit "t" else lit "nil") (sexp_begin_value p))
  | Null => Some (sput (lit "nil") (sexp_begin_value p))
  | Key k => sexp_keyword k (sexp_begin_value p)
  | Separator => Some {| s_state := s_state p; s_sep := true; s_out := s_out p |}
  end.
(** [sexp_run]: as above, sprinter-sexp.c:144-162. *)
Fixpoint sexp_run (l : list op) (p : sexp) : option sexp :=
  match l with [] => Some p | o :: l => match sexp_call o p with Some p => sexp_run l p | None => None end end.
