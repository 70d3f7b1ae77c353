(** What the command line of notmuch-emacs-mua means, and how Emacs understands Lisp, for C84. *)
From Verif Require Import Bytes.
Local Open Scope nat_scope.

(** ** Reading Lisp *)
(** Symbols, strings, lists, 'x and #'x. *)
Inductive lisp := LSym (s : bytes) | LStr (s : bytes) | LList (l : list lisp) | LQuote (d : lisp) | LFun (d : lisp).
(** What is open, innermost first (elements in reverse), and what is being read. *)
Inductive frame := FList (l : list lisp) | FQuote | FFun.
Inductive mode := Between | Sym (tok : bytes) | Str (acc : bytes) | Esc (acc : bytes) | Hash.
(** A datum is complete. *)
Fixpoint push (d : lisp) (st : list frame) : option (list frame) :=
  match st with
  | FList l :: st => Some (FList (d :: l) :: st)
  | FQuote :: st => push (LQuote d) st
  | FFun :: st => push (LFun d) st
  | [] => None
  end.
Definition blank (c : byte) : bool := beq c " "%char || beq c (chr 9) || beq c (chr 10).
(** Small letters, digits and "-" suffice here; other characters outside strings are refused. *)
Definition symbolic (c : byte) : bool := (N.leb 97 (code c) && N.leb (code c) 122) || (N.leb 48 (code c) && N.leb (code c) 57) || beq c "-"%char.
Definition between (st : list frame) (c : byte) : option (list frame * mode) :=
  if blank c then Some (st, Between)
  else if beq c "("%char then Some (FList [] :: st, Between)
  else if beq c ")"%char then match st with FList l :: ((_ :: _) as st') => option_map (fun s => (s, Between)) (push (LList (rev l)) st') | _ => None end
  else if beq c (chr 34) then Some (st, Str [])
  else if beq c "'"%char then Some (FQuote :: st, Between)
  else if beq c "#"%char then Some (st, Hash)
  else if symbolic c then Some (st, Sym [c])
  else None.
Definition feed1 (s : list frame * mode) (c : byte) : option (list frame * mode) :=
  let '(st, m) := s in
  match m with
  | Between => between st c
  | Sym tok => if symbolic c then Some (st, Sym (c :: tok))
               else match push (LSym (rev tok)) st with Some st => between st c | None => None end
  | Str acc => if beq c (chr 34) then option_map (fun s => (s, Between)) (push (LStr (rev acc)) st)
               else if beq c (chr 92) then Some (st, Esc acc)
               else Some (st, Str (c :: acc))
  | Esc acc => if beq c (chr 34) || beq c (chr 92) then Some (st, Str (c :: acc)) else None
  | Hash => if beq c "'"%char then Some (FFun :: st, Between) else None
  end.
Fixpoint feed (s : list frame * mode) (t : bytes) : option (list frame * mode) :=
  match t with [] => Some s | c :: t => match feed1 s c with Some s => feed s t | None => None end end.
(** The data a text consists of. *)
Definition read_all (t : bytes) : option (list lisp) :=
  match feed ([FList []], Between) t with Some ([FList l], Between) => Some (rev l) | _ => None end.

(** ** Evaluating it *)
Inductive field := Subject | To | Cc | Bcc.
Inductive place := At (f : field) | InBody.
(** A mail being composed: where point is, what the headers contain, the files put into the body. *)
Record draft := { d_point : option place; d_subject : bytes; d_to : bytes; d_cc : bytes; d_bcc : bytes; d_files : list bytes }.
Definition blank_draft : draft := {| d_point := None; d_subject := []; d_to := []; d_cc := []; d_bcc := []; d_files := [] |}.
Inductive window := Nothing | Composing (d : draft) | Mail_url (u : bytes) | Hello.
(** What Emacs has done: the directory, the window, whether it will end when the mail is sent. *)
Record session := { s_dir : option bytes; s_window : window; s_exit : bool }.
Definition new_session : session := {| s_dir := None; s_window := Nothing; s_exit := false |}.
Definition goto (p : place) (d : draft) : draft := {| d_point := Some p; d_subject := d_subject d; d_to := d_to d; d_cc := d_cc d; d_bcc := d_bcc d; d_files := d_files d |}.
(** Text is inserted at the end of the header in which point is. *)
Definition insert (t : bytes) (d : draft) : option draft :=
  let mk s t c b := Some {| d_point := d_point d; d_subject := s; d_to := t; d_cc := c; d_bcc := b; d_files := d_files d |} in
  match d_point d with
  | Some (At Subject) => mk (d_subject d ++ t) (d_to d) (d_cc d) (d_bcc d)
  | Some (At To) => mk (d_subject d) (d_to d ++ t) (d_cc d) (d_bcc d)
  | Some (At Cc) => mk (d_subject d) (d_to d) (d_cc d ++ t) (d_bcc d)
  | Some (At Bcc) => mk (d_subject d) (d_to d) (d_cc d) (d_bcc d ++ t)
  | _ => None
  end.
Definition insert_file (f : bytes) (d : draft) : option draft :=
  match d_point d with
  | Some InBody => Some {| d_point := d_point d; d_subject := d_subject d; d_to := d_to d; d_cc := d_cc d; d_bcc := d_bcc d; d_files := d_files d ++ [f] |}
  | _ => None
  end.
Definition compose (s : session) (k : draft -> option draft) : option session :=
  match s_window s with
  | Composing d => option_map (fun d => {| s_dir := s_dir s; s_window := Composing d; s_exit := s_exit s |}) (k d)
  | _ => None
  end.
Definition open_window (s : session) (w : window) : option session :=
  match s_window s with Nothing => Some {| s_dir := s_dir s; s_window := w; s_exit := s_exit s |} | _ => None end.
(** One expression.  Anything but these is refused. *)
Definition eval (s : session) (e : lisp) : option session :=
  match e with
  | LList [LSym f] =>
      if bseq f (lit "message-goto-subject") then compose s (fun d => Some (goto (At Subject) d))
      else if bseq f (lit "message-goto-to") then compose s (fun d => Some (goto (At To) d))
      else if bseq f (lit "message-goto-cc") then compose s (fun d => Some (goto (At Cc) d))
      else if bseq f (lit "message-goto-bcc") then compose s (fun d => Some (goto (At Bcc) d))
      else if bseq f (lit "message-goto-body") then compose s (fun d => Some (goto InBody d))
      else if bseq f (lit "notmuch-mua-new-mail") then open_window s (Composing blank_draft)
      else if bseq f (lit "notmuch") then open_window s Hello
      else None
  | LList [LSym f; LStr t] =>
      if bseq f (lit "insert") then compose s (insert t)
      else if bseq f (lit "insert-file") then compose s (insert_file t)
      else if bseq f (lit "browse-url-mail") then open_window s (Mail_url t)
      else if bseq f (lit "cd") then Some {| s_dir := Some t; s_window := s_window s; s_exit := s_exit s |}
      else None
  | LList [LSym f; LQuote (LSym x)] => if bseq f (lit "require") && bseq x (lit "notmuch") then Some s else None
  | LList [LSym f; LFun (LSym g); LQuote (LSym x)] =>
      if bseq f (lit "message-add-action") && bseq g (lit "save-buffers-kill-terminal") && bseq x (lit "exit")
      then Some {| s_dir := s_dir s; s_window := s_window s; s_exit := true |} else None
  | _ => None
  end.
Fixpoint evals (s : session) (es : list lisp) : option session :=
  match es with [] => Some s | e :: es => match eval s e with Some s => evals s es | None => None end end.
(** emacs --eval: one expression, (prog1 'done ...). *)
Definition eval_text (t : bytes) : option session :=
  match read_all t with
  | Some [LList (LSym p :: LQuote (LSym d) :: es)] => if bseq p (lit "prog1") && bseq d (lit "done") then evals new_session es else None
  | _ => None
  end.

(** ** The command line *)
Inductive flag := Print | No_window | Client | Auto_daemon | Create_frame | Hello_flag.
Inductive item := Set_field (f : field) (v : bytes) | Body (file : bytes) | Flag (f : flag).
(** doc/man1/notmuch-emacs-mua.rst: how an option is written, in one word or two. *)
Inductive spells : list bytes -> item -> Prop :=
| s_subject v : spells [lit "--subject=" ++ v] (Set_field Subject v)
| s_s v : spells [lit "-s"; v] (Set_field Subject v)
| s_s1 v : v <> [] -> spells [lit "-s" ++ v] (Set_field Subject v)
| s_to v : spells [lit "--to=" ++ v] (Set_field To v)
| s_cc v : spells [lit "--cc=" ++ v] (Set_field Cc v)
| s_c v : spells [lit "-c"; v] (Set_field Cc v)
| s_c1 v : v <> [] -> spells [lit "-c" ++ v] (Set_field Cc v)
| s_bcc v : spells [lit "--bcc=" ++ v] (Set_field Bcc v)
| s_b v : spells [lit "-b"; v] (Set_field Bcc v)
| s_b1 v : v <> [] -> spells [lit "-b" ++ v] (Set_field Bcc v)
| s_body v : spells [lit "--body=" ++ v] (Body v)
| s_i v : spells [lit "-i"; v] (Body v)
| s_i1 v : v <> [] -> spells [lit "-i" ++ v] (Body v)
| s_print : spells [lit "--print"] (Flag Print)
| s_nw : spells [lit "--no-window-system"] (Flag No_window)
| s_client : spells [lit "--client"] (Flag Client)
| s_daemon : spells [lit "--auto-daemon"] (Flag Auto_daemon)
| s_frame : spells [lit "--create-frame"] (Flag Create_frame)
| s_hello : spells [lit "--hello"] (Flag Hello_flag).
Inductive spelled : list bytes -> list item -> Prop :=
| sp_nil : spelled [] []
| sp_cons w i ws l : spells w i -> spelled ws l -> spelled (w ++ ws) (i :: l).
(** A word that is not an option. *)
Definition operand (w : bytes) : Prop := match w with "-"%char :: _ :: _ => False | _ => True end.
(** What the options say. *)
Definition values (f : field) (l : list item) : list bytes :=
  flat_map (fun i => match i, f with Set_field Subject v, Subject | Set_field To v, To | Set_field Cc v, Cc | Set_field Bcc v, Bcc => [v] | _, _ => [] end) l.
Definition files (l : list item) : list bytes := flat_map (fun i => match i with Body v => [v] | _ => [] end) l.
Definition flagged (f : flag) (l : list item) : bool :=
  existsb (fun i => match i, f with Flag Print, Print | Flag No_window, No_window | Flag Client, Client | Flag Auto_daemon, Auto_daemon
                                 | Flag Create_frame, Create_frame | Flag Hello_flag, Hello_flag => true | _, _ => false end) l.
(** Options that modify the message. *)
Definition modifies (i : item) : bool := match i with Flag _ => false | _ => true end.
Fixpoint comma_list (l : list bytes) : bytes := match l with [] => [] | [x] => x | x :: l => x ++ lit ", " ++ comma_list l end.
(** Emacs ends when the mail is sent, if it was started for it. *)
Definition exits (l : list item) : bool := negb (flagged Client l) || flagged Create_frame l || flagged Auto_daemon l || flagged No_window l.
(** The words given to emacs or emacsclient before --eval. *)
Definition words (l : list item) : list bytes :=
  (if flagged No_window l then [lit "-nw"] else []) ++
  (if flagged Client l then (if flagged Create_frame l || flagged Auto_daemon l then [lit "-c"] else []) ++
                            (if flagged Auto_daemon l then [lit "--alternate-editor="] else []) else []).
(** An option that does not exist. *)
Inductive unknown : bytes -> Prop :=
| u_short c t : ~ In c [chr 115; chr 99; chr 98; chr 105; chr 104; chr 45] -> unknown ("-"%char :: c :: t)
| u_long c t : (forall i, ~ spells [lit "--" ++ c :: t] i) -> lit "--" ++ c :: t <> lit "--help" -> unknown (lit "--" ++ c :: t).
Definition is_mailto (w : bytes) : bool := starts_with (lit "mailto:") w.
(** The words that remain begin with one that is not an option. *)
Definition operands (pos : list bytes) : Prop := match pos with [] => True | w :: _ => operand w end.
