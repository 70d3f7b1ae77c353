(** Model of emacs/notmuch-draft.el: saving and resuming drafts in the Emacs front end.  The
    buffer is a list of headers (name and value, without the blanks around the value) and a
    body of bytes; letter case is that of ASCII.  message.el and mml.el (external) are the
    functions on headers below; encoding the mail as MIME and back (mml-to-mime, mime-to-mml)
    is taken to give the same text. *)
From Verif Require Import Bytes.
Local Open Scope nat_scope.

(** ** Regular expressions *)
(** Two characters under case-fold-search [f] (external). *)
Definition same_char (f : bool) (a b : byte) : bool := if f then beq (tolower a) (tolower b) else beq a b.
(** A literal (regexp-quote) at the start of a text (external): what follows. *)
Fixpoint literal (f : bool) (p s : bytes) : option bytes :=
  match p, s with
  | [], _ => Some s
  | x :: p, c :: s => if same_char f x c then literal f p s else None
  | _ :: _, [] => None
  end.
(** "\(t1\|t2\|...\)" (emacs/notmuch-draft.el:124-126). *)
Definition tag_at (f : bool) (tags : list bytes) (s : bytes) : bool := existsb (fun t => match literal f t s with Some _ => true | None => false end) tags.
(** "/?\(...\)" (emacs/notmuch-draft.el:124-126). *)
Definition slash_tag (f : bool) (tags : list bytes) (s : bytes) : bool :=
  tag_at f tags s || match s with c :: s => beq c "/"%char && tag_at f tags s | [] => false end.
(** "!*/?\(...\)" (emacs/notmuch-draft.el:124-126). *)
Fixpoint bangs_tag (f : bool) (tags : list bytes) (s : bytes) : bool :=
  slash_tag f tags s || match s with c :: s => beq c "!"%char && bangs_tag f tags s | [] => false end.
(** "<#!*/?\(...\)" (emacs/notmuch-draft.el:124-126). *)
Definition quotable (f : bool) (tags : list bytes) (s : bytes) : bool :=
  match s with a :: b :: r => beq a "<"%char && beq b "#"%char && bangs_tag f tags r | _ => false end.
(** "<#!+/?\(...\)" (emacs/notmuch-draft.el:137-139). *)
Definition unquotable (f : bool) (tags : list bytes) (s : bytes) : bool :=
  match s with a :: b :: c :: r => beq a "<"%char && beq b "#"%char && beq c "!"%char && bangs_tag f tags r | _ => false end.
(** emacs/notmuch-draft.el:128-131: search, go two characters into the match, insert "!", go on from there. *)
Fixpoint quote_loop (f : bool) (tags : list bytes) (s : bytes) : bytes :=
  match s with
  | [] => []
  | a :: t => if quotable f tags s then match t with b :: r => a :: b :: "!"%char :: quote_loop f tags r | [] => [a] end
              else a :: quote_loop f tags t
  end.
(** emacs/notmuch-draft.el:141-144: the same, deleting a character. *)
Fixpoint unquote_loop (f : bool) (tags : list bytes) (s : bytes) : bytes :=
  match s with
  | [] => []
  | a :: t => if unquotable f tags s then match t with b :: _ :: r => a :: b :: unquote_loop f tags r | _ => s end
              else a :: unquote_loop f tags t
  end.

(** ** Headers *)
(** The buffer. *)
Record mail := { m_headers : list (bytes * bytes); m_body : bytes }.
(** Header names do not depend on case (external). *)
Definition same_name (a b : bytes) : bool := bseq (map tolower a) (map tolower b).
(** message-remove-header (external). *)
Definition remove_header (n : bytes) (m : mail) : mail := {| m_headers := filter (fun h => negb (same_name (fst h) n)) (m_headers m); m_body := m_body m |}.
(** message-add-header (external). *)
Definition add_header (n v : bytes) (m : mail) : mail := {| m_headers := m_headers m ++ [(n, v)]; m_body := m_body m |}.
(** message-fetch-field with FIRST (external). *)
Definition fetch (n : bytes) (m : mail) : option bytes := option_map snd (find (fun h => same_name (fst h) n) (m_headers m)).
(** The newline. *)
Definition NL : byte := chr 10.
(** (looking-at "<#secure[^\n]*>\n"), emacs/notmuch-draft.el:117: the line and what follows. *)
Definition secure_line (f : bool) (s : bytes) : option (bytes * bytes) :=
  let '(line, rest) := span (fun c => negb (beq c NL)) s in
  match rest, literal f (lit "<#secure") line with
  | _ :: rest, Some y => match rev y with c :: _ => if beq c ">"%char then Some (line, rest) else None | [] => None end
  | _, _ => None
  end.
(** The header of emacs/notmuch-draft.el:120, 148-149. *)
Definition SECURE : bytes := lit "X-Notmuch-Emacs-Secure".
(** The header of emacs/notmuch-draft.el:218, 269. *)
Definition DRAFT : bytes := lit "X-Notmuch-Emacs-Draft".
(** emacs/notmuch-draft.el:112-131 [notmuch-draft-quote-some-mml]. *)
Definition quote_some_mml (f : bool) (tags : list bytes) (m : mail) : mail :=
  let m := match secure_line f (m_body m) with
           | Some (line, rest) => add_header SECURE line {| m_headers := m_headers m; m_body := rest |}
           | None => m
           end in
  {| m_headers := m_headers m; m_body := quote_loop f tags (m_body m) |}.
(** emacs/notmuch-draft.el:133-152 [notmuch-draft-unquote-some-mml]. *)
Definition unquote_some_mml (f : bool) (tags : list bytes) (m : mail) : mail :=
  let b := unquote_loop f tags (m_body m) in
  let secure := fetch SECURE m in
  let m := remove_header SECURE m in
  {| m_headers := m_headers m; m_body := match secure with Some t => t ++ [NL] ++ b | None => b end |}.
(** emacs/notmuch-draft.el:203-219: what is saved (Message-ID and Date are deletable headers, the
    default). *)
Definition save_text (f : bool) (tags : list bytes) (id date : bytes) (m : mail) : mail :=
  let m := add_header (lit "Message-ID") (lit "<" ++ id ++ lit ">") (remove_header (lit "Message-ID") m) in
  let m := add_header (lit "Date") date (remove_header (lit "Date") m) in
  quote_some_mml f tags (add_header DRAFT (lit "True") m).
(** emacs/notmuch-draft.el:260-272: what is edited again (without the new Fcc header of a mail that
    is not a draft). *)
Definition resume_text (f : bool) (tags : list bytes) (m : mail) : mail :=
  let m := remove_header (lit "Date") (remove_header (lit "Message-ID") m) in
  let draft := existsb (fun h => same_name (fst h) DRAFT) (m_headers m) in
  let m := remove_header DRAFT m in
  if draft then unquote_some_mml f tags m else m.

(** ** Saving *)
(** ".*" and then a literal (external): it follows on the same line, and so does what [k] wants. *)
Fixpoint later_on_line (f : bool) (p : bytes) (k : bytes -> bool) (s : bytes) : bool :=
  match literal f p s with Some r => k r | None => false end ||
  match s with c :: t => negb (beq c NL) && later_on_line f p k t | [] => false end.
(** emacs/notmuch-draft.el:98-100 [notmuch-draft-encryption-tag-regex], at the start of a text. *)
Definition encryption_tag (f : bool) (s : bytes) : bool :=
  match literal f (lit "<#part encrypt") s with Some _ => true | None => false end ||
  match literal f (lit "<#secure") s with
  | Some r => later_on_line f (lit "mode=") (later_on_line f (lit "encrypt>") (fun _ => true)) r
  | None => false
  end.
(** emacs/notmuch-draft.el:154-158 [notmuch-draft--has-encryption-tag]. *)
Fixpoint has_encryption_tag (f : bool) (s : bytes) : bool := encryption_tag f s || match s with _ :: t => has_encryption_tag f t | [] => false end.
(** notmuch-draft-save-plaintext (emacs/notmuch-draft.el:83-92). *)
Inductive setting := Never | Ask | Always.
(** emacs/notmuch-draft.el:160-175 [notmuch-draft--query-encryption], [yes]: the answer. *)
Definition allowed (p : setting) (yes : bool) : bool := match p with Never => false | Ask => yes | Always => true end.
(** The database as far as drafts go (saved mails, by id, with their text and whether they are
    tagged deleted), the buffer's notmuch-draft-id and whether it was sent. *)
Record drafts := { saved : list (bytes * mail * bool); current : option bytes; sent : bool }.
(** emacs/notmuch-draft.el:105-110 [notmuch-draft--mark-deleted]; [None]: notmuch tag failed. *)
Definition mark_deleted (tag_works : bool) (d : drafts) : option drafts :=
  match current d with
  | None => Some d
  | Some i => if tag_works
              then Some {| saved := map (fun '(j, m, x) => (j, m, x || bseq i j)) (saved d); current := current d; sent := sent d |}
              else None
  end.
(** What the user does and what happens then: saving (new id, date, text, the answer to the question,
    whether notmuch insert and notmuch tag work) and sending (whether notmuch tag and the
    transport work). *)
Inductive act := Save (id date : bytes) (m : mail) (yes insert_works tag_works : bool) | Send (tag_works transport_works : bool).
(** emacs/notmuch-draft.el:184-231 [notmuch-draft-save], 283 (message-send-hook runs before the
    mail is sent). *)
Definition step (f : bool) (tags : list bytes) (p : setting) (d : drafts) (a : act) : drafts :=
  match a with
  | Save id date m yes insert_works tag_works =>
      if has_encryption_tag f (m_body m) && negb (allowed p yes) then d
      else if negb insert_works then d
      else let d := {| saved := saved d ++ [(id, save_text true tags id date m, false)]; current := current d; sent := sent d |} in
           match mark_deleted tag_works d with
           | None => d
           | Some d => {| saved := saved d; current := Some id; sent := sent d |}
           end
  | Send tag_works transport_works =>
      match mark_deleted tag_works d with
      | None => d
      | Some d => {| saved := saved d; current := current d; sent := transport_works || sent d |}
      end
  end.
(** A sequence of these, in one buffer. *)
Definition run (f : bool) (tags : list bytes) (p : setting) (d : drafts) (l : list act) : drafts := fold_left (step f tags p) l d.
