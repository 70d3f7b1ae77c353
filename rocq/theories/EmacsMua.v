(** Model of emacs/notmuch-emacs-mua, the shell script that starts composing a mail in Emacs
    from the command line.  Bash (external): getopts, with OPTIND set to 1 before each call,
    looks at the first word only; parameter expansion with pattern substitution replaces
    every occurrence; word splitting with the default IFS. *)
From Verif Require Import Bytes.
Local Open Scope nat_scope.

(** emacs/notmuch-emacs-mua:29-30: ${s//x/y}, for one character. *)
Definition replace_char (x : byte) (y s : bytes) : bytes := concat (map (fun c => if beq c x then y else [c]) s).
(** The backslash and the quotation mark. *)
Definition BS : byte := chr 92.
(** See [BS]. *)
Definition QUOTE : byte := chr 34.
(** emacs/notmuch-emacs-mua:25-31 [escape]. *)
Definition escape (s : bytes) : bytes := replace_char QUOTE [BS; QUOTE] (replace_char BS [BS; BS] s).

(** The variables of the script: emacs/notmuch-emacs-mua:36-46 (AUTO_DAEMON, CREATE_FRAME, NO_WINDOW and
    USE_EMACSCLIENT are empty or one value). *)
Record mua := {
  v_print : bool; v_no_window : bool; v_client : bool; v_daemon : bool; v_frame : bool;
  v_elisp : bytes; v_mailto : bytes; v_hello : bool; v_to_sep : bytes; v_cc_sep : bytes; v_bcc_sep : bytes
}.
(** emacs/notmuch-emacs-mua:36-46. *)
Definition mua_init : mua :=
  {| v_print := false; v_no_window := false; v_client := false; v_daemon := false; v_frame := false;
     v_elisp := []; v_mailto := []; v_hello := false; v_to_sep := []; v_cc_sep := []; v_bcc_sep := [] |}.
(** ELISP="${ELISP}..." (emacs/notmuch-emacs-mua:88-106). *)
Definition add_elisp (e : bytes) (v : mua) : mua :=
  {| v_print := v_print v; v_no_window := v_no_window v; v_client := v_client v; v_daemon := v_daemon v; v_frame := v_frame v;
     v_elisp := v_elisp v ++ e; v_mailto := v_mailto v; v_hello := v_hello v; v_to_sep := v_to_sep v; v_cc_sep := v_cc_sep v; v_bcc_sep := v_bcc_sep v |}.
(** TO_SEP, CC_SEP and BCC_SEP (emacs/notmuch-emacs-mua:93, 97, 101). *)
Definition set_seps (t c b : bytes) (v : mua) : mua :=
  {| v_print := v_print v; v_no_window := v_no_window v; v_client := v_client v; v_daemon := v_daemon v; v_frame := v_frame v;
     v_elisp := v_elisp v; v_mailto := v_mailto v; v_hello := v_hello v; v_to_sep := t; v_cc_sep := c; v_bcc_sep := b |}.
(** The other variables (emacs/notmuch-emacs-mua:106-123). *)
Definition set_flags (p n c d f h : bool) (v : mua) : mua :=
  {| v_print := p; v_no_window := n; v_client := c; v_daemon := d; v_frame := f;
     v_elisp := v_elisp v; v_mailto := v_mailto v; v_hello := h; v_to_sep := v_to_sep v; v_cc_sep := v_cc_sep v; v_bcc_sep := v_bcc_sep v |}.

(** What happens in the end: exit 1, the manual page, the printed text, or Emacs (or
    emacsclient) run with some words and the Lisp to evaluate. *)
Inductive outcome := Fails | Manual | Prints (text : bytes) | Runs (client : bool) (flags : list bytes) (elisp : bytes).

(** The options after getopts and emacs/notmuch-emacs-mua:63-75. *)
Inductive opt := OSubject | OTo | OCc | OBcc | OBody | OHelp | OPrint | ONoWindow | OClient | OAutoDaemon | OCreateFrame | OHello.
(** ELISP="${ELISP} (...) (... \"...\")" (emacs/notmuch-emacs-mua:87-105). *)
Definition form (goto command arg : bytes) : bytes :=
  lit " (message-goto-" ++ goto ++ lit ") (" ++ command ++ lit " " ++ [QUOTE] ++ arg ++ [QUOTE] ++ lit ")".
(** emacs/notmuch-emacs-mua:82-129: one option; [None] for --help. *)
Definition handle (o : opt) (optarg : bytes) (v : mua) : option mua :=
  let a := escape optarg in
  match o with
  | OHelp => None
  | OSubject => Some (add_elisp (form (lit "subject") (lit "insert") a) v)
  | OTo => Some (set_seps (lit ", ") (v_cc_sep v) (v_bcc_sep v) (add_elisp (form (lit "to") (lit "insert") (v_to_sep v ++ a)) v))
  | OCc => Some (set_seps (v_to_sep v) (lit ", ") (v_bcc_sep v) (add_elisp (form (lit "cc") (lit "insert") (v_cc_sep v ++ a)) v))
  | OBcc => Some (set_seps (v_to_sep v) (v_cc_sep v) (lit ", ") (add_elisp (form (lit "bcc") (lit "insert") (v_bcc_sep v ++ a)) v))
  | OBody => Some (add_elisp (form (lit "body") (lit "insert-file") a) v)
  | OPrint => Some (set_flags true (v_no_window v) (v_client v) (v_daemon v) (v_frame v) (v_hello v) v)
  | ONoWindow => Some (set_flags (v_print v) true (v_client v) (v_daemon v) (v_frame v) (v_hello v) v)
  | OClient => Some (set_flags (v_print v) (v_no_window v) true (v_daemon v) (v_frame v) (v_hello v) v)
  | OAutoDaemon => Some (set_flags (v_print v) (v_no_window v) (v_client v) true true (v_hello v) v)
  | OCreateFrame => Some (set_flags (v_print v) (v_no_window v) (v_client v) (v_daemon v) true (v_hello v) v)
  | OHello => Some (set_flags (v_print v) (v_no_window v) (v_client v) (v_daemon v) (v_frame v) true v)
  end.
(** emacs/notmuch-emacs-mua:65-68: long options with an argument, [${opt#--*=}]. *)
Definition long_with_arg (w : bytes) : option (opt * bytes) :=
  match strip_prefix (lit "--subject=") w, strip_prefix (lit "--to=") w, strip_prefix (lit "--cc=") w, strip_prefix (lit "--bcc=") w, strip_prefix (lit "--body=") w with
  | Some a, _, _, _, _ => Some (OSubject, a)
  | _, Some a, _, _, _ => Some (OTo, a)
  | _, _, Some a, _, _ => Some (OCc, a)
  | _, _, _, Some a, _ => Some (OBcc, a)
  | _, _, _, _, Some a => Some (OBody, a)
  | _, _, _, _, _ => None
  end.
(** emacs/notmuch-emacs-mua:69-71: long options without one. *)
Definition long_flag (w : bytes) : option opt :=
  if bseq w (lit "--help") then Some OHelp else if bseq w (lit "--print") then Some OPrint else if bseq w (lit "--no-window-system") then Some ONoWindow
  else if bseq w (lit "--client") then Some OClient else if bseq w (lit "--auto-daemon") then Some OAutoDaemon
  else if bseq w (lit "--create-frame") then Some OCreateFrame else if bseq w (lit "--hello") then Some OHello else None.
(** The optstring ":s:c:b:i:h" (emacs/notmuch-emacs-mua:49); all but h take an argument. *)
Definition short_opt (c : byte) : option opt :=
  if beq c "s"%char then Some OSubject else if beq c "c"%char then Some OCc else if beq c "b"%char then Some OBcc else if beq c "i"%char then Some OBody else None.

(** The loop emacs/notmuch-emacs-mua:49-134, with getopts: the variables and the words that are left, or
    how the script ends. *)
Fixpoint options (ws : list bytes) (v : mua) : (mua * list bytes) + outcome :=
  match ws with
  | [] => inl (v, ws)
  | w :: rest =>
      match w with
      | d :: c :: t =>
          if negb (beq d "-"%char) then inl (v, ws)
          else if bseq w (lit "--") then inl (v, ws)
          else if beq c "-"%char then
            match long_with_arg w with
            | Some (o, a) => match handle o a v with Some v => options rest v | None => inr Manual end
            | None => match long_flag w with
                      | Some o => match handle o (lit "-") v with Some v => options rest v | None => inr Manual end
                      | None => inr Fails
                      end
            end
          else if beq c "h"%char then inr Manual
          else match short_opt c with
               | None => inr Fails
               | Some o =>
                   match t with
                   | _ :: _ => match handle o t v with Some v => options rest v | None => inr Manual end
                   | [] => match rest with
                           | a :: rest' => match handle o a v with Some v => options rest' v | None => inr Manual end
                           | [] => inr Fails
                           end
                   end
               end
      | _ => inl (v, ws)
      end
  end.
(** emacs/notmuch-emacs-mua:137-151: the positional parameters. *)
Fixpoint positional (ws : list bytes) (v : mua) : option mua :=
  match ws with
  | [] => Some v
  | w :: rest =>
      let a := escape w in
      if starts_with (lit "mailto:") a then
        match v_mailto v with
        | _ :: _ => None
        | [] => positional rest {| v_print := v_print v; v_no_window := v_no_window v; v_client := v_client v; v_daemon := v_daemon v; v_frame := v_frame v;
                                   v_elisp := v_elisp v; v_mailto := a; v_hello := v_hello v; v_to_sep := v_to_sep v; v_cc_sep := v_cc_sep v; v_bcc_sep := v_bcc_sep v |}
        end
      else positional rest (add_elisp (form (lit "to") (lit "insert") (a ++ lit ", ")) v)
  end.
(** IFS (external): blank, tab, newline. *)
Definition ifs (c : byte) : bool := beq c " "%char || beq c (chr 9) || beq c (chr 10).
(** Word splitting (external). *)
Fixpoint split_words (cur s : bytes) : list bytes :=
  match s with
  | [] => match cur with [] => [] | _ => [cur] end
  | c :: s => if ifs c then match cur with [] => split_words [] s | _ => cur :: split_words [] s end else split_words (cur ++ [c]) s
  end.
(** echo (external). *)
Fixpoint echo (ws : list bytes) : bytes := match ws with [] => [] | [w] => w | w :: ws => w ++ lit " " ++ echo ws end.
(** emacs/notmuch-emacs-mua:153-187: the rest; [glob] is pathname expansion (external), [pwd] the
    current directory. *)
Definition finish (glob : bytes -> list bytes) (pwd : bytes) (v : mua) : outcome :=
  let main :=
    match v_mailto v with
    | _ :: _ => match v_elisp v with _ :: _ => None | [] => Some (lit "(browse-url-mail " ++ [QUOTE] ++ v_mailto v ++ [QUOTE] ++ lit ")") end
    | [] => match v_elisp v, v_hello v with
            | [], true => Some (lit "(notmuch)")
            | _, _ => Some (lit "(notmuch-mua-new-mail) " ++ v_elisp v)
            end
    end in
  match main with
  | None => Fails
  | Some e =>
      let e := e ++ if negb (v_client v) || v_frame v || v_no_window v then lit " (message-add-action #'save-buffers-kill-terminal 'exit)" else [] in
      let e := lit "(prog1 'done (require 'notmuch) (cd " ++ [QUOTE] ++ escape pwd ++ [QUOTE] ++ lit ") " ++ e ++ lit ")" in
      if v_print v then Prints (echo (flat_map glob (split_words [] e)))
      else
        let nw := if v_no_window v then [lit "-nw"] else [] in
        if v_client v then Runs true (nw ++ (if v_frame v then [lit "-c"] else []) ++ (if v_daemon v then [lit "--alternate-editor="] else [])) e
        else Runs false nw e
  end.
(** The script. *)
Definition emacs_mua (glob : bytes -> list bytes) (pwd : bytes) (args : list bytes) : outcome :=
  match options args mua_init with
  | inr o => o
  | inl (v, ws) => match positional ws v with Some v => finish glob pwd v | None => Fails end
  end.
