(** Independent specification for the text output of notmuch show: blocks that begin with a
    line "\fkind{..." and end with a line "\fkind}", and how a program reads them. *)
From Verif Require Import Bytes StrUtil Decimal Reply Sprinter Mime ShowPart ShowPartSpec.
Local Open Scope nat_scope.

(** The text: lines, and blocks with what is on the opening line. *)
Inductive item := Line (s : bytes) | Block (kind head : bytes) (items : list item).

(** Lines, each ended by a newline. *)
Fixpoint lines_from (cur s : bytes) : option (list bytes) :=
  match s with
  | [] => match cur with [] => Some [] | _ => None end
  | c :: s => if beq c (chr 10) then option_map (cons (rev cur)) (lines_from [] s) else lines_from (c :: cur) s
  end.
Definition lines_of (s : bytes) : option (list bytes) := lines_from [] s.

Inductive mark := Opens (kind head : bytes) | Closes (kind : bytes) | Text.
Definition letter (c : ascii) : bool := N.leb 97 (code c) && N.leb (code c) 122.
Fixpoint span_letters (s : bytes) : bytes * bytes :=
  match s with
  | c :: r => if letter c then let '(a, b) := span_letters r in (c :: a, b) else ([], s)
  | [] => ([], [])
  end.
Definition mark_of (l : bytes) : mark :=
  match l with
  | c :: r =>
      if beq c (chr 12) then
        let '(k, rest) := span_letters r in
        match rest with
        | d :: h => if beq d (chr 123) then Opens k h
                    else if beq d (chr 125) then match h with [] => Closes k | _ => Text end else Text
        | [] => Text
        end
      else Text
  | [] => Text
  end.
(** Reading: [open] are the blocks not yet closed, with what came before them. *)
Fixpoint read_items (ls : list bytes) (open : list (bytes * bytes * list item)) (acc : list item) : option (list item) :=
  match ls with
  | [] => match open with [] => Some (rev acc) | _ => None end
  | l :: ls =>
      match mark_of l with
      | Opens k h => read_items ls ((k, h, acc) :: open) []
      | Closes k => match open with
                    | (k', h, before) :: open => if bseq k k' then read_items ls open (Block k h (rev acc) :: before) else None
                    | [] => None
                    end
      | Text => read_items ls open (Line l :: acc)
      end
  end.
Definition read_text (s : bytes) : option (list item) := match lines_of s with Some ls => read_items ls [] [] | None => None end.

(** ** What should be read *)

Definition or_null (o : option bytes) : bytes := match o with Some s => s | None => lit "(null)" end.
Definition opt_line (name : string) (o : option bytes) : list item := match o with Some s => [Line (lit name ++ s)] | None => [] end.
Definition header_block (summary : list item) (h : hdrs) : item :=
  Block (lit "header") [] (summary ++ [Line (lit "Subject: " ++ or_null (h_subject h)); Line (lit "From: " ++ or_null (h_from h))] ++
                           opt_line "To: " (h_to h) ++ opt_line "Cc: " (h_cc h) ++ [Line (lit "Date: " ++ h_date h)]).
Definition text_lines (s : bytes) : list item := match lines_of s with Some l => map Line l | None => [] end.
(** A part: its number, file name, content id and type; its text, or that it is none; the
    headers of a message; the parts inside. *)
Fixpoint part_item (e : gmime) (o : sopts) (t : ptree) : item :=
  match t with
  | PT num n kids =>
      match n_part n with
      | None => Line []
      | Some p =>
          let inside := map (part_item e o) kids in
          let leaf := match p with OPart _ _ | OPkcs7 _ _ _ _ => true | _ => false end in
          Block (if match g_disposition e p with Some d => strcaseeq d (lit "attachment") | None => false end then lit "attachment" else lit "part")
            (lit " ID: " ++ dec (N.of_nat num) ++
             match (if leaf then g_filename e p else None) with Some f => lit ", Filename: " ++ f | None => [] end ++
             match g_cid e p with Some i => lit ", Content-id: " ++ i | None => [] end ++
             lit ", Content-type: " ++ o_mime (info_of p))
            match p with
            | OMessage _ _ _ => [header_block [] (g_headers e p); Block (lit "body") [] inside]
            | OMulti _ _ _ _ _ => inside
            | _ => (if has_text o p then text_lines (o_text (info_of p)) else [Line (lit "Non-text part: " ++ o_mime (info_of p))]) ++ inside
            end
      end
  end.
Fixpoint join_space (l : list bytes) : bytes := match l with [] => [] | [x] => x | x :: r => x ++ lit " " ++ join_space r end.
Definition flag (b : bool) : bytes := if b then lit "1" else lit "0".
Definition message_item (depth : Z) (from : bytes) (m : smsg) (h : hdrs) (body : list item) : item :=
  Block (lit "message")
    (lit " id:" ++ sm_id m ++ lit " depth:" ++ decz depth ++ lit " match:" ++ flag (sm_match m) ++ lit " excluded:" ++ flag (sm_excluded m) ++
     lit " filename:" ++ or_null (hd_error (sm_files m)))
    (header_block [Line (from ++ lit " (" ++ sm_relative m ++ lit ") (" ++ join_space (sm_tags m) ++ lit ")")] h :: body).

(** ** What must not be in the pieces *)

Definition one_line (s : bytes) : Prop := ~ In (chr 10) s.
Definition one_line_opt (o : option bytes) : Prop := match o with Some s => one_line s | None => True end.
Definition one_line_headers (h : hdrs) : Prop :=
  one_line_opt (h_subject h) /\ one_line_opt (h_from h) /\ one_line_opt (h_to h) /\ one_line_opt (h_cc h) /\ one_line (h_date h).
(** Text in which no line begins with a form feed, and whose last line is ended. *)
Definition harmless (s : bytes) : Prop := exists ls, s = concat (map (fun l => l ++ [chr 10]) ls) /\
  forall l, In l ls -> one_line l /\ hd_error l <> Some (chr 12).
Definition harmless_part (e : gmime) (o : sopts) (n : node) : Prop :=
  match n_part n with
  | None => True
  | Some p => one_line_opt (g_filename e p) /\ one_line_opt (g_cid e p) /\ one_line (o_mime (info_of p)) /\
              match p with OMessage _ _ _ => one_line_headers (g_headers e p) | OMulti _ _ _ _ _ => True | _ => has_text o p = true -> harmless (o_text (info_of p)) end
  end.
(** The message itself.  (The summary begins with the From header, so that must not begin with a form feed.) *)
Definition harmless_message (from : bytes) (m : smsg) (h : hdrs) : Prop :=
  one_line from /\ hd_error from <> Some (chr 12) /\ one_line (sm_id m) /\ one_line (sm_relative m) /\ Forall one_line (sm_tags m) /\ Forall one_line (sm_files m) /\ one_line_headers h.
