(** Model of message-id parsing (lib/message-id.c) and of reference parsing
    (lib/add-message.cc:13-38, 229-262).

    isspace is that of the C locale, on bytes.  The comment nesting depth is an
    unbounded number (an int in C).  Allocation does not fail. *)
From Verif Require Import Bytes StrUtil.
Local Open Scope nat_scope.

(** lib/message-id.c:12-39 [skip_space_and_comments]: the nested loops as one
    automaton, [nesting] = 0 outside comments. *)
Fixpoint skip_sc (nesting : nat) (s : bytes) : bytes :=
  match s with
  | [] => []
  | c :: s' =>
      match nesting with
      | O => if isspace c then skip_sc O s'
             else if beq c "("%char then skip_sc 1 s'
             else s
      | S n => if beq c "("%char then skip_sc (S nesting) s'
               else if beq c ")"%char then skip_sc n s'
               else if beq c "\"%char then match s' with [] => [] | _ :: s'' => skip_sc nesting s'' end
               else skip_sc nesting s'
      end
  end.
(** [skip_space_and_comments]: as above, lib/message-id.c:12-39. *)
Definition skip_space_and_comments (s : bytes) : bytes := skip_sc 0 s.

(** lib/message-id.c:87-94: removing blanks inside the id; after a removal the
    character moved into place is stepped over without being looked at. *)
Definition blank (c : byte) : bool := beq c " "%char || beq c (chr 9).
(** [collapse]: as above, lib/message-id.c:87-94. *)
Fixpoint collapse (s : bytes) : bytes :=
  match s with
  | [] => []
  | c :: s' => if blank c then match s' with [] => [] | d :: s'' => d :: collapse s'' end
               else c :: collapse s'
  end.

(** lib/message-id.c:41-97 [_notmuch_message_id_parse]: result and [*next] ([None]
    when [*next] is not set). *)
Definition message_id_parse (message_id : bytes) : option bytes * option bytes :=
  match message_id with
  | [] => (None, None)
  | _ =>
      let s := skip_space_and_comments message_id in
      let s := dropwhile (fun c => negb (beq c "<"%char)) s in
      match s with
      | [] => (None, Some [])
      | _ :: s =>
          let s := skip_space_and_comments s in
          let '(body, rest) := span (fun c => negb (beq c ">"%char)) s in
          match rest with
          | [] => (* unterminated: end points at the NUL and is not moved back *)
              (match body with [] => None | _ => Some (collapse body) end, Some [])
          | _ :: next =>
              (* end--, and end <= s means at most one character *)
              (match body with [] | [_] => None | _ => Some (collapse body) end, Some next)
          end
      end
  end.

(** lib/message-id.c:99-126 [_notmuch_message_id_parse_strict]. *)
Definition message_id_parse_strict (message_id : bytes) : option bytes :=
  match message_id with
  | [] => None
  | _ =>
      match skip_space message_id with
      | c :: s =>
          if beq c "<"%char then
            let '(body, rest) := span (fun c => negb (beq c ">"%char)) s in
            if existsb isspace body then None
            else match rest with
                 | [] => None
                 | _ :: after => match skip_space after with [] => Some body | _ => None end
                 end
          else None
      | [] => None
      end
  end.

(** lib/add-message.cc:13-38 [parse_references]: the set of ids added to the hash
    table (as a list without repetition, in order of first insertion) and the last
    one. *)
Fixpoint parse_references_loop (fuel : nat) (self refs : bytes) (hash : list bytes) (last_ref : option bytes)
  : option (list bytes * option bytes) :=
  match refs with
  | [] => Some (hash, last_ref)
  | _ =>
      match fuel with
      | O => None
      | S f =>
          match message_id_parse refs with
          | (r, Some next) =>
              match r with
              | Some ref =>
                  if bseq ref self then parse_references_loop f self next hash last_ref
                  else parse_references_loop f self next (if existsb (bseq ref) hash then hash else hash ++ [ref]) (Some ref)
              | None => parse_references_loop f self next hash last_ref
              end
          | (_, None) => None
          end
      end
  end.
(** [parse_references]: as above, lib/add-message.cc:13-38. *)
Definition parse_references (self refs : bytes) (hash : list bytes) : option (list bytes * option bytes) :=
  parse_references_loop (length refs) self refs hash None.

(** lib/add-message.cc:229-262, the part of _notmuch_database_link_message_to_parents
    that reads the headers: the referenced ids and the "replyto" term if any. *)
Definition read_parents (self references in_reply_to : bytes) : option (list bytes * option bytes) :=
  match parse_references self references [] with
  | None => None
  | Some (h1, last_ref) =>
      match parse_references self in_reply_to h1 with
      | None => None
      | Some (h2, irt) =>
          Some (h2, match message_id_parse_strict in_reply_to with
                    | Some id => Some id
                    | None => match last_ref with Some id => Some id | None => irt end
                    end)
      end
  end.

(** lib/message-file.c:362-371: the id of a message, from its Message-Id header;
    [None]: no header, a hash of the file is used. *)
Definition header_message_id (header : bytes) : option bytes :=
  match header with
  | [] => None
  | _ => match fst (message_id_parse header) with Some id => Some id | None => Some header end
  end.
