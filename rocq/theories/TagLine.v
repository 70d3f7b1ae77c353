(** Model of batch tag lines (tag-util.c:37-191) and of the batch loop of
    'notmuch tag' (notmuch-tag.c:172-216). *)
From Verif Require Import Bytes Hex StrUtil DocMap Db TagOps.
Local Open Scope nat_scope.

(** notmuch-client.h:105-110 [chomp_newline].  On the empty string the code reads
    and may write str[-1]: [None] is that undefined behaviour. *)
Definition chomp_newline (s : bytes) : option bytes :=
  match s with
  | [] => None
  | _ => Some (if beq (last s NUL) (chr 10) then removelast s else s)
  end.

(** tag-util.c:37-52 [illegal_tag]: is there a complaint? *)
Definition illegal_tag (tag : bytes) (remove : bool) : bool :=
  (match tag with [] => true | _ => false end && negb remove) ||
  (beq (peek tag) "-"%char && negb remove).

(** util/hex-escape.c:133-139 [hex_decode_inplace] as its callers see it: the C
    string left in the buffer, or failure.  (The memory-level version is
    Hex.hex_decode_inplace; decode_c_inplace in TagLineProofs.v relates them.) *)
Definition decode_c (s : bytes) : option bytes :=
  let '(o, ok) := hex_decode_internal s in if ok then Some (c_string_of o) else None.

(** tag_parse_status_t and the results of parsing.  [P_ub] is undefined behaviour;
    TAG_PARSE_OUT_OF_MEMORY is not modelled. *)
Inductive parsed :=
| P_ub | P_skipped | P_invalid
| P_ok (ops : list tagop) (query : bytes).

(** tag-util.c:85-139: the token loop; [s] is the text from [tok + tok_len].
    A token is stored NUL-terminated and [tok_len++] steps over the terminator. *)
Fixpoint parse_tags (fuel : nat) (generous : bool) (s : bytes) (ops : list tagop) : parsed :=
  match fuel with
  | O => P_ub
  | S f =>
      match strtok_len (lit " ") s with
      | None => P_invalid                                  (* missing query string *)
      | Some (tok, rest) =>
          if bseq tok (lit "--") then
            match strtok_len (lit " ") rest with
            | None => P_invalid                            (* no query string after -- *)
            | Some (t, r) => P_ok ops (t ++ r)
            end
          else if negb (beq (peek tok) "-"%char) && negb (beq (peek tok) "+"%char) then P_ok ops (tok ++ rest)
          else
            match rest with
            | [] => P_invalid                              (* no query string *)
            | _ :: rest' =>
                let remove := beq (peek tok) "-"%char in
                let tag := tl tok in
                if negb generous && illegal_tag tag remove then P_invalid
                else match decode_c tag with
                     | None => P_invalid
                     | Some t => parse_tags f generous rest' (ops ++ [{| to_tag := t; to_remove := remove |}])
                     end
            end
      end
  end.

(** tag-util.c:54-154 [parse_tag_line] on a C string; [generous] is
    TAG_FLAG_BE_GENEROUS. *)
Definition parse_tag_line (generous : bool) (line : bytes) : parsed :=
  match chomp_newline line with
  | None => P_ub
  | Some line =>
      let tok := dropwhile (fun c => beq c " "%char || beq c (chr 9)) line in
      match tok with
      | [] => P_skipped
      | c :: _ => if beq c "#"%char then P_skipped
                  else parse_tags (S (length tok)) generous tok []
      end
  end.

(** tag-util.c:156-191 [parse_tag_command_line]: operations and the remaining
    arguments (joined into the query by query_string_from_args); [None] is
    TAG_PARSE_INVALID. *)
Fixpoint parse_tag_args (argv : list bytes) (ops : list tagop) : option (list tagop * list bytes) :=
  match argv with
  | [] => Some (ops, [])
  | a :: argv' =>
      if bseq a (lit "--") then Some (ops, argv')
      else if negb (beq (peek a) "+"%char) && negb (beq (peek a) "-"%char) then Some (ops, argv)
      else
        let remove := beq (peek a) "-"%char in
        if illegal_tag (tl a) remove then None
        else parse_tag_args argv' (ops ++ [{| to_tag := tl a; to_remove := remove |}])
  end.

(** notmuch-tag.c:172-216 [tag_file] over the lines read by getline.  [eval] stands
    for query parsing and evaluation by Xapian ([None]: the query is refused, the
    command stops).  Interruption by a signal is not modelled.  The result: outcome
    and database.  Returned value is [ret || warn]. *)
Inductive outcome := O_crash | O_return (failed : bool).
Section TagFile.
Variable eval : bytes -> option query.
Variable h : N.
(** [tag_file_loop]: as above, notmuch-tag.c:172-216. *)
Fixpoint tag_file_loop (ra : bool) (warn : bool) (lines : list bytes) (s : db) : outcome * db :=
  match lines with
  | [] => (O_return warn, s)
  | l :: lines' =>
      match parse_tag_line false (c_string_of l) with
      | P_ub => (O_crash, s)
      | P_skipped => tag_file_loop ra warn lines' s
      | P_invalid => tag_file_loop ra true lines' s
      | P_ok ops q =>
          match eval q with
          | None => (O_return true, s)
          | Some qq =>
              match tag_query optimize_infix h qq ops ra s with
              | (St_success, s) => tag_file_loop ra warn lines' s
              | (_, s) => (O_return true, s)
              end
          end
      end
  end.
(** [tag_file]: as above, notmuch-tag.c:172-216. *)
Definition tag_file (ra : bool) (lines : list bytes) (s : db) : outcome * db := tag_file_loop ra false lines s.
End TagFile.
