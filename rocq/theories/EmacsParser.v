(** Model of the incremental S-expression parser of the Emacs front end
    (emacs/notmuch-parser.el) and of the process filters that feed it
    (emacs/notmuch.el, emacs/notmuch-tree.el, emacs/notmuch-address.el), with the two Emacs
    primitives it uses: [read] and [parse-partial-sexp].

    Simplifications: the buffer is the text after point (what is before point is deleted and
    never looked at again); characters are bytes, so that a piece of output may even end
    within a multibyte character; after a signalled error nothing more is modelled; the
    result function is recorded as being applied to its argument and returns normally. *)
From Verif Require Import Bytes Decimal Sprinter SprinterSpec.
Local Open Scope nat_scope.

(** ** [read] of Emacs (src/lread.c of Emacs, not part of /repo; called in
    emacs/notmuch-parser.el:68, 83, 105, 111), for lists, strings with the escapes for quote, backslash and
    newline and octal escapes of three digits, and atoms of letters, digits, minus, underscore
    and colon; anything else is refused, where Emacs would understand more.
    A state of the reader: the lists that are open (innermost first, elements in reverse)
    and what is being read: nothing, an atom, a string, an escape with some digits. *)
Inductive rstate :=
| Between (stack : list (list datum))
| Atom (stack : list (list datum)) (tok : bytes)
| Strg (stack : list (list datum)) (acc : bytes)
| Esc (stack : list (list datum)) (acc : bytes) (digits : list N).
(** One character: go on, a value is complete (with or without this character), an error. *)
Inductive rstep := Next (st : rstate) | Finish (d : datum) (consumed : bool) | Bad.
(** What an atom is: keyword, number or symbol. *)
Definition atom_of (tok : bytes) : datum :=
  match tok with
  | c :: t => if beq c ":" then DKey t else match read_number tok with Some (z, []) => DInt z | _ => DSym tok end
  | [] => DSym []
  end.
(** The value [d] is complete. *)
Definition complete (stack : list (list datum)) (d : datum) : rstep :=
  match stack with [] => Finish d true | top :: st => Next (Between ((d :: top) :: st)) end.
(** A character where a value may begin. *)
Definition between_step (stack : list (list datum)) (c : byte) : rstep :=
  if ws c then Next (Between stack)
  else if beq c ")" then match stack with [] => Bad | top :: st => complete st (DList (rev top)) end
  else if beq c "(" then Next (Between ([] :: stack))
  else if beq c (chr 34) then Next (Strg stack [])
  else if symbol_char c then Next (Atom stack [c])
  else Bad.
(** A character anywhere. *)
Definition step (st : rstate) (c : byte) : rstep :=
  match st with
  | Between stack => between_step stack c
  | Atom stack tok =>
      if symbol_char c then Next (Atom stack (c :: tok))
      else match stack with
           | [] => Finish (atom_of (rev tok)) false
           | top :: st => between_step ((atom_of (rev tok) :: top) :: st) c
           end
  | Strg stack acc =>
      if beq c (chr 34) then complete stack (DStr (rev acc))
      else if beq c BSL then Next (Esc stack acc [])
      else Next (Strg stack (c :: acc))
  | Esc stack acc digits =>
      match digits, octval c with
      | [], Some n => Next (Esc stack acc [n])
      | [], None =>
          if beq c (chr 34) then Next (Strg stack (chr 34 :: acc))
          else if beq c BSL then Next (Strg stack (BSL :: acc))
          else if beq c "n" then Next (Strg stack (chr 10 :: acc))
          else Bad
      | [a], Some b => Next (Esc stack acc [a; b])
      | [a; b], Some d => let n := (a * 64 + b * 8 + d)%N in if N.ltb n 256 then Next (Strg stack (chr n :: acc)) else Bad
      | _, _ => Bad
      end
  end.
(** (read (current-buffer)): a value and what follows it, the error end-of-file, another
    error. *)
Inductive rres := Value (d : datum) (rest : bytes) | Eof | Invalid.
(** See [rres]; the loop of read0 in src/lread.c of Emacs. *)
Fixpoint rd (st : rstate) (s : bytes) : rres :=
  match s with
  | [] => match st with Atom [] tok => Value (atom_of (rev tok)) [] | _ => Eof end
  | c :: s' =>
      match step st c with
      | Next st => rd st s'
      | Finish d true => Value d s'
      | Finish d false => Value d s
      | Bad => Invalid
      end
  end.
(** [read] at point (called in emacs/notmuch-parser.el:68, 83, 105, 111). *)
Definition el_read (s : bytes) : rres := rd (Between []) s.

(** ** [parse-partial-sexp] (emacs/notmuch-parser.el:86-103) with target depth 0, in a buffer
    with the standard syntax table: the depth in parentheses, whether in a string, whether
    after an escape character.  Scanning stops where a parenthesis brings the depth to 0. *)
Record scan_state := { sc_depth : Z; sc_string : bool; sc_quoted : bool }.
(** The state nil: outside everything. *)
Definition scan_init : scan_state := {| sc_depth := 0; sc_string := false; sc_quoted := false |}.
(** The standard syntax table: opening and closing characters. *)
Definition opening (c : byte) : bool := beq c "(" || beq c "[" || beq c "{".
(** See [opening]. *)
Definition closing (c : byte) : bool := beq c ")" || beq c "]" || beq c "}".
(** One character: the new state, and whether to stop. *)
Definition scan1 (s : scan_state) (c : byte) : scan_state * bool :=
  let '{| sc_depth := n; sc_string := str; sc_quoted := q |} := s in
  if q then ({| sc_depth := n; sc_string := str; sc_quoted := false |}, false)
  else if beq c BSL then ({| sc_depth := n; sc_string := str; sc_quoted := true |}, false)
  else if beq c (chr 34) then ({| sc_depth := n; sc_string := negb str; sc_quoted := false |}, false)
  else if str then (s, false)
  else if opening c then ({| sc_depth := n + 1; sc_string := false; sc_quoted := false |}, Z.eqb (n + 1) 0)
  else if closing c then ({| sc_depth := n - 1; sc_string := false; sc_quoted := false |}, Z.eqb (n - 1) 0)
  else (s, false).
(** parse-partial-sexp from a state to the end of the text (emacs/notmuch-parser.el:88-91). *)
Fixpoint scan (st : scan_state) (s : bytes) : scan_state :=
  match s with
  | [] => st
  | c :: s => let '(st, stop) := scan1 st c in if stop then st else scan st s
  end.

(** ** emacs/notmuch-parser.el *)

(** The vector of notmuch-sexp-create-parser (emacs/notmuch-parser.el:28-50); the marker is
    counted from point, which does not move while there is one. *)
Record parser := { p_depth : nat; p_pos : option nat; p_partial : option scan_state }.
(** notmuch-sexp-create-parser, emacs/notmuch-parser.el:28-46. *)
Definition create_parser : parser := {| p_depth := 0; p_pos := None; p_partial := None |}.
(** The symbols 'retry and 'end that the functions return besides values. *)
Definition RETRY : datum := DSym (lit "retry").
(** See [RETRY]. *)
Definition END_ : datum := DSym (lit "end").
(** notmuch-sexp-read, emacs/notmuch-parser.el:52-123: the value (or 'retry or 'end), the
    parser and the text after point; None: an error is signalled. *)
Definition sexp_read (sp : parser) (buf : bytes) : option (datum * parser * bytes) :=
  let buf := dropwhile ws buf in
  match buf with
  | [] => Some (RETRY, sp, buf)
  | c :: buf' =>
      if beq c ")" then
        match p_depth sp with
        | O => None
        | S n => Some (END_, {| p_depth := n; p_pos := p_pos sp; p_partial := p_partial sp |}, buf')
        end
      else if beq c "(" then
        let extend :=
          let new := scan (match p_partial sp with Some st => st | None => scan_init end)
                          (skipn (match p_pos sp with Some n => n | None => 0 end) buf) in
          if Z.ltb (sc_depth new) 0 then None (* cl-assert *)
          else if Z.eqb (sc_depth new) 0 then
            match el_read buf with
            | Value d rest => Some (d, {| p_depth := p_depth sp; p_pos := None; p_partial := None |}, rest)
            | _ => None
            end
          else Some (RETRY, {| p_depth := p_depth sp; p_pos := Some (length buf); p_partial := Some new |}, buf) in
        match p_partial sp with
        | None =>
            match el_read buf with
            | Value d rest => Some (d, sp, rest)
            | Invalid => None
            | Eof => extend
            end
        | Some _ => extend
        end
      else
        match el_read buf with
        | Value d rest =>
            match d, rest with
            | DStr _, _ | _, _ :: _ => Some (d, sp, rest)
            | _, [] => Some (RETRY, sp, buf)
            end
        | Eof => Some (RETRY, sp, buf)
        | Invalid => None
        end
  end.
(** notmuch-sexp-begin-list, emacs/notmuch-parser.el:125-143: whether to retry, the parser and the
    text after point. *)
Definition sexp_begin_list (sp : parser) (buf : bytes) : option (bool * parser * bytes) :=
  let buf := dropwhile ws buf in
  match buf with
  | [] => Some (true, sp, buf)
  | c :: buf' => if beq c "(" then Some (false, {| p_depth := S (p_depth sp); p_pos := p_pos sp; p_partial := p_partial sp |}, buf') else None
  end.

(** The buffer-local state of notmuch-sexp-parse-partial-list (emacs/notmuch-parser.el:145-151),
    the text after point, and the values to which the result function was applied. *)
Inductive lstate := LBegin | LResult | LEnd.
(** See [lstate]. *)
Record stream := { e_parser : parser; e_state : lstate; e_buf : bytes; e_results : list datum }.
(** A new buffer: emacs/notmuch-parser.el:162-165. *)
Definition stream_init : stream := {| e_parser := create_parser; e_state := LBegin; e_buf := []; e_results := [] |}.
(** A case of cl-case, emacs/notmuch-parser.el:178-182. *)
Definition is_sym (d : datum) (s : string) : bool := match d with DSym x => bseq x (lit s) | _ => false end.
(** The loop of notmuch-sexp-parse-partial-list, emacs/notmuch-parser.el:153-191; None: an
    error is signalled (or the fuel is used up, which the theorems exclude). *)
Fixpoint parse_loop (fuel : nat) (st : stream) : option stream :=
  match fuel with
  | O => None
  | S f =>
      match e_state st with
      | LBegin =>
          match sexp_begin_list (e_parser st) (e_buf st) with
          | None => None
          | Some (true, sp, buf) => Some {| e_parser := sp; e_state := LBegin; e_buf := buf; e_results := e_results st |}
          | Some (false, sp, buf) => parse_loop f {| e_parser := sp; e_state := LResult; e_buf := buf; e_results := e_results st |}
          end
      | LResult =>
          match sexp_read (e_parser st) (e_buf st) with
          | None => None
          | Some (d, sp, buf) =>
              if is_sym d "retry" then Some {| e_parser := sp; e_state := LResult; e_buf := buf; e_results := e_results st |}
              else if is_sym d "end" then parse_loop f {| e_parser := sp; e_state := LEnd; e_buf := buf; e_results := e_results st |}
              else parse_loop f {| e_parser := sp; e_state := LResult; e_buf := buf; e_results := e_results st ++ [d] |}
          end
      | LEnd =>
          match dropwhile ws (e_buf st) with
          | [] => Some {| e_parser := e_parser st; e_state := LEnd; e_buf := []; e_results := e_results st |}
          | _ => None (* Trailing garbage following expression *)
          end
      end
  end.
(** notmuch-search-process-filter (emacs/notmuch.el:914-929), notmuch-tree-process-filter
    (emacs/notmuch-tree.el:1124-1137), notmuch-address-harvest-filter
    (emacs/notmuch-address.el:265-272): a piece of output arrives. *)
Definition process_filter (st : stream) (chunk : bytes) : option stream :=
  let buf := e_buf st ++ chunk in
  parse_loop (length buf + 3) {| e_parser := e_parser st; e_state := e_state st; e_buf := buf; e_results := e_results st |}.
(** All the pieces, as they arrive. *)
Fixpoint filter_all (st : stream) (chunks : list bytes) : option stream :=
  match chunks with
  | [] => Some st
  | c :: chunks => match process_filter st c with Some st => filter_all st chunks | None => None end
  end.
