(** Model of the text and raw output of notmuch show: notmuch-show.c:26-40, 44-83, 550-649,
    935-1007, and the choice of the file, mime-node.c:84-142.

    GMime (external) as in ShowPart.v.  g_mime_stream_printf prints a NULL string as
    "(null)", as the C library does. *)
From Verif Require Import Bytes StrUtil Decimal Reply Sprinter Mime ShowPart.
Local Open Scope nat_scope.

(** The form feed and the newline. *)
Definition FF : ascii := chr 12.
(** the newline. *)
Definition LF : ascii := chr 10.
(** printf's "%s" of a pointer that may be NULL (external). *)
Definition pct_s (o : option bytes) : bytes := match o with Some s => s | None => lit "(null)" end.

(** notmuch-show.c:44-65 [_get_tags_as_string]. *)
Definition get_tags_as_string (tags : list bytes) : bytes :=
  match tags with [] => [] | t :: r => t ++ flat_map (fun t => lit " " ++ t) r end.
(** notmuch-show.c:68-83 [_get_one_line_summary]; [from] is the header of the message
    ("" if it has none). *)
Definition get_one_line_summary (from : bytes) (m : smsg) : bytes :=
  from ++ lit " (" ++ sm_relative m ++ lit ") (" ++ get_tags_as_string (sm_tags m) ++ lit ")".
(** notmuch-show.c:564-574: the line that opens a message.  [sm_files] are the file names, of
    which notmuch_message_get_filename gives the first. *)
Definition message_line (depth : Z) (m : smsg) : bytes :=
  FF :: lit "message{ id:" ++ sm_id m ++ lit " depth:" ++ decz depth ++ lit " match:" ++ (if sm_match m then lit "1" else lit "0") ++
  lit " excluded:" ++ (if sm_excluded m then lit "1" else lit "0") ++ lit " filename:" ++ pct_s (hd_error (sm_files m)) ++ [LF].
(** notmuch-show.c:582-586: "attachment" or "part". *)
Definition part_type (e : gmime) (p : obj) : bytes :=
  match g_disposition e p with Some d => if strcaseeq d (lit "attachment") then lit "attachment" else lit "part" | None => lit "part" end.
(** GMIME_IS_PART. *)
Definition is_leaf (p : obj) : bool := match p with OPart _ _ | OPkcs7 _ _ _ _ => true | _ => false end.
(** notmuch-show.c:576-597: the line that opens a part. *)
Definition part_line (e : gmime) (num : option nat) (p : obj) : bytes :=
  FF :: part_type e p ++ lit "{ ID: " ++ decz (match num with Some k => Z.of_nat k | None => -1 end) ++
  match (if is_leaf p then g_filename e p else None) with Some f => lit ", Filename: " ++ f | None => [] end ++
  match g_cid e p with Some i => lit ", Content-id: " ++ i | None => [] end ++
  lit ", Content-type: " ++ o_mime (info_of p) ++ [LF].
(** The line that closes: notmuch-show.c:643-646. *)
Definition close_line (k : bytes) : bytes := FF :: k ++ lit "}" ++ [LF].
(** notmuch-show.c:600-626: the headers. *)
Definition header_text (summary : option bytes) (h : hdrs) : bytes :=
  FF :: lit "header{" ++ [LF] ++
  match summary with Some s => s ++ [LF] | None => [] end ++
  lit "Subject: " ++ pct_s (h_subject h) ++ [LF] ++
  lit "From: " ++ pct_s (h_from h) ++ [LF] ++
  match h_to h with Some s => lit "To: " ++ s ++ [LF] | None => [] end ++
  match h_cc h with Some s => lit "Cc: " ++ s ++ [LF] | None => [] end ++
  lit "Date: " ++ h_date h ++ [LF] ++
  FF :: lit "header}" ++ [LF].
(** notmuch-show.c:628-638: the content of a leaf. *)
Definition leaf_text (o : sopts) (p : obj) : bytes :=
  if text_shown o p then o_text (info_of p) else lit "Non-text part: " ++ o_mime (info_of p) ++ [LF].
(** notmuch-show.c:640-641: the children in turn. *)
Section children.
  Variable go : option nat -> node -> wstate -> option (bytes * wstate).
  (** [text_children]: as above, notmuch-show.c:640-641. *)
  Fixpoint text_children (c : cctx) (p : node) (i todo : nat) (st : wstate) : option (bytes * wstate) :=
    match todo with
    | O => Some ([], st)
    | S todo' =>
        match mime_node_child c p i st with
        | None => None
        | Some (num, n, st1) =>
            match go num n st1 with
            | None => None
            | Some (l, (m, fs)) =>
                match text_children c p (S i) todo' (m, tl fs) with
                | None => None
                | Some (l', st2) => Some (l ++ l', st2)
                end
            end
        end
    end.
End children.
(** notmuch-show.c:550-649 [format_part_text] of a node that is not the root. *)
Fixpoint text_part (fuel : nat) (e : gmime) (c : cctx) (o : sopts) (num : option nat) (n : node) (st : wstate) : option (bytes * wstate) :=
  match fuel, n_part n with
  | S f, Some p =>
      let head := part_line e num p ++ match p with OMessage _ _ _ => header_text None (g_headers e p) | _ => [] end in
      match p with
      | OMessage _ _ _ =>
          if negb (so_body o) then Some (head ++ close_line (part_type e p), st)
          else match text_children (text_part f e c o) c n 0 (length (n_children n)) st with
               | Some (kids, st') => Some (head ++ FF :: lit "body{" ++ [LF] ++ kids ++ close_line (lit "body") ++ close_line (part_type e p), st')
               | None => None
               end
      | _ =>
          match text_children (text_part f e c o) c n 0 (length (n_children n)) st with
          | Some (kids, st') => Some (head ++ (if is_leaf p then leaf_text o p else []) ++ kids ++ close_line (part_type e p), st')
          | None => None
          end
      end
  | _, _ => None
  end.
(** notmuch-show.c:550-649 [format_part_text] of the root, the message. *)
Definition text_message (fuel : nat) (e : gmime) (c : cctx) (o : sopts) (depth : Z) (from : bytes) (msg : smsg) (h : hdrs) (body : obj) : option bytes :=
  let head := message_line depth msg ++ header_text (Some (get_one_line_summary from msg)) h in
  if negb (so_body o) then Some (head ++ close_line (lit "message"))
  else
    let '(root, st) := mime_node_root body in
    match text_children (text_part fuel e c o) c root 0 1 st with
    | Some (kids, _) => Some (head ++ FF :: lit "body{" ++ [LF] ++ kids ++ close_line (lit "body") ++ close_line (lit "message"))
    | None => None
    end.

(** ** Which file *)

(** open(2) (external): [can f]. *)
Section files.
  Variable can : bytes -> bool.
  (** mime-node.c:117-134: the loop over the file names, from number [i]; the answer is the
      file, or None: error. *)
  Fixpoint open_loop (dup i : Z) (files : list bytes) : option bytes :=
    match files with
    | [] => None
    | f :: r => if Z.leb dup i then (if can f then Some f else if Z.ltb 0 dup then None else open_loop dup (i + 1) r)
                else open_loop dup (i + 1) r
    end.
  (** mime-node.c:84-142: the file that is opened. *)
  Definition mime_node_open_file (dup : Z) (files : list bytes) : option bytes :=
    match files with
    | f :: _ => if Z.leb dup 0 && can f then Some f else open_loop dup 1 files
    | [] => None
    end.
  (** notmuch-show.c:26-40 [_get_filename]. *)
  Fixpoint get_filename (index i : Z) (files : list bytes) : option bytes :=
    match files with [] => None | f :: r => if Z.leb index i then Some f else get_filename index (i + 1) r end.
  (** notmuch-show.c:949-960: the file of raw output. *)
  Definition raw_file (dup : Z) (files : list bytes) : option bytes :=
    match get_filename dup 1 files with Some f => if can f then Some f else None | None => None end.
End files.

(** ** Raw output of a message *)

(** g_mime_stream_read (external): the answers, one after the other; a read error is
    [None]; when the list ends, g_mime_stream_eos is true. *)
Definition reads := list (option bytes).
(** notmuch-show.c:962-974: the loop; what is written and whether it succeeded (fwrite does
    not fail). *)
Fixpoint raw_loop (r : reads) : bytes * bool :=
  match r with
  | [] => ([], true)
  | None :: _ => ([], false)
  | Some b :: r => let '(out, ok) := raw_loop r in (b ++ out, ok)
  end.
