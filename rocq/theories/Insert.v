(** Model of mail delivery (notmuch-insert.c). *)
From Verif Require Import Bytes StrUtil Fs.
Local Open Scope nat_scope.

(** ** Folder names *)
Definition SL : byte := "/"%char.
(** notmuch-insert.c:93-106 [is_valid_folder_name]; [p] walks over the components. *)
Fixpoint valid_from (fuel : nat) (p : bytes) : bool :=
  match fuel with
  | O => false
  | S fuel =>
      match p with
      | c0 :: c1 :: r =>
          if beq c0 "." && beq c1 "." && (beq (peek r) NUL || beq (peek r) SL) then false
          else match dropwhile (fun c => negb (beq c SL)) p with [] => true | _ :: p => valid_from fuel p end
      | _ => match dropwhile (fun c => negb (beq c SL)) p with [] => true | _ :: p => valid_from fuel p end
      end
  end.
(** [is_valid_folder_name]: as above, notmuch-insert.c:93-106. *)
Definition is_valid_folder_name (folder : bytes) : bool := valid_from (S (length folder)) folder.
(** notmuch-insert.c:551-557, the maildir for a folder. *)
Definition maildir_of (mail_root folder : bytes) : bytes := strip_trailing (mail_root ++ SL :: folder) SL.

(** ** Writing the message *)
(** Results of successive read calls on the input; the list ends with end of file (read
    returns 0).  [R_sigint]: SIGINT is handled before the next turn of the loop. *)
Inductive rd := R_data (b : bytes) | R_eintr | R_error | R_sigint.
(** Results of successive write calls: at most [n] bytes, EINTR, another error.  When the
    list is used up, writes write everything they are given. *)
Inductive wr := W_ok (n : nat) | W_eintr | W_error.

(** notmuch-insert.c:244-262 [write_buf]: also returns the remaining write results.  A
    write of nothing returns 0, which counts as an error. *)
Fixpoint write_buf (ws : list wr) (path buf : bytes) (w : world) : bool * list wr * world :=
  match ws with
  | [] => match buf with [] => (false, [], w) | _ => (true, [], sys_append path buf w) end
  | W_eintr :: ws => match buf with [] => (true, ws, w) | _ => write_buf ws path buf w end
  | W_error :: ws => (false, ws, w)
  | W_ok n :: ws =>
      match firstn n buf with
      | [] => (false, ws, w)
      | b => let w := sys_append path b w in
             match skipn n buf with [] => (true, ws, w) | rest => write_buf ws path rest w end
      end
  end.
(** [From_]: as above, notmuch-insert.c:244-262. *)
Definition From_ : bytes := lit "From ".
(** [header]: as above, notmuch-insert.c:244-262. *)
Definition header : bytes := lit "X-Envelope-From: ".
(** notmuch-insert.c:291-296: the test for "From " on the first data read, and the header
    written for it; the third component is what remains of the data. *)
Definition from_line (first : bool) (ws : list wr) (path b : bytes) (w : world) : bool * list wr * bytes * world :=
  if first && starts_with From_ b then
    let '(ok, ws, w) := write_buf ws path header w in (ok, ws, skipn 5 b, w)
  else (true, ws, b, w).
(** notmuch-insert.c:268-306 [copy_fd]; [late]: SIGINT is handled after the last read. *)
Fixpoint copy_fd (rs : list rd) (ws : list wr) (late first empty : bool) (path : bytes) (w : world) : bool * world :=
  match rs with
  | [] | R_data [] :: _ => (negb late && negb empty, w)
  | R_sigint :: _ => (false, w)
  | R_eintr :: rs => copy_fd rs ws late first empty path w
  | R_error :: _ => (false, w)
  | R_data b :: rs =>
      let '(ok, ws, p, w) := from_line first ws path b w in
      if negb ok then (false, w)
      else
        let '(ok, ws, w) := write_buf ws path p w in
        if negb ok then (false, w) else copy_fd rs ws late false false path w
  end.
(** One run of the delivery: [names] are the base names tempfilename generates in turn;
    the booleans say whether the calls succeed. *)
Record run := { names : list bytes; open_ok : bool; reads : list rd; writes : list wr; late : bool; fsync_ok : bool; unlink_ok : bool; rename_ok : bool; syncdir_ok : bool }.
(** maildir/tmp/name, notmuch-insert.c:213-242. *)
Definition tmp_path (maildir name : bytes) : bytes := maildir ++ lit "/tmp/" ++ name.
(** notmuch-insert.c:213-242 [maildir_mktemp]: names that exist are skipped (O_EXCL). *)
Fixpoint maildir_mktemp (ok : bool) (ns : list bytes) (maildir : bytes) (w : world) : option bytes * world :=
  match ns with
  | [] => (None, w)
  | n :: ns =>
      match now w (tmp_path maildir n) with
      | Some _ => maildir_mktemp ok ns maildir w
      | None => if ok then (Some (tmp_path maildir n), sys_create (tmp_path maildir n) w) else (None, w)
      end
  end.
(** [cleanup]: as above, notmuch-insert.c:213-242. *)
Definition cleanup (r : run) (p : bytes) (w : world) : world := if unlink_ok r then sys_unlink p w else w.
(** notmuch-insert.c:312-339 [maildir_write_tmp]. *)
Definition maildir_write_tmp (r : run) (maildir : bytes) (w : world) : option bytes * world :=
  match maildir_mktemp (open_ok r) (names r) maildir w with
  | (None, w) => (None, w)
  | (Some path, w) =>
      let '(ok, w) := copy_fd (reads r) (writes r) (late r) true true path w in
      if negb ok then (None, cleanup r path w)
      else if negb (fsync_ok r) then (None, cleanup r path w)
      else (Some path, sys_fsync path w)
  end.
(** notmuch-insert.c:346-387 [maildir_write_new]: memcpy writes "new" over the "tmp". *)
Definition overlay_new (maildir path : bytes) : bytes := firstn (length maildir + 1) path ++ lit "new" ++ skipn (length maildir + 4) path.
(** [maildir_write_new]: as above, notmuch-insert.c:346-387. *)
Definition maildir_write_new (r : run) (maildir : bytes) (w : world) : option bytes * world :=
  match maildir_write_tmp r maildir w with
  | (None, w) => (None, w)
  | (Some tmppath, w) =>
      let newpath := overlay_new maildir tmppath in
      if negb (rename_ok r) then (None, cleanup r tmppath w)
      else
        let w := sys_rename tmppath newpath w in
        if negb (syncdir_ok r) then (None, cleanup r newpath w) else (Some newpath, w)
  end.

(** ** The command after the options (notmuch-insert.c:568-619) *)
Inductive index_status := I_success | I_duplicate | I_not_email | I_other.
(** What happens after the file is in new/: [moved] is where synchronising the flags
    renames the new file to, if it does. *)
Record index_run := { opts_ok : bool; idx : index_status; tag_ok : bool; sync : bool; sync_ok : bool; moved : option bytes; close_ok : bool; keep : bool; unlink2_ok : bool }.
(** notmuch-insert.c:401-464 [add_file]: whether it reports success, and whether the flags
    were synchronised.  Its effects on the database are in MailStore.v and Maildir.v. *)
Definition add_file (i : index_run) : bool * bool :=
  match idx i with
  | I_not_email | I_other => (false, false)
  | I_duplicate => if sync i then (sync_ok i || keep i, true) else (true, false)
  | I_success => if negb (tag_ok i) then (keep i, false) else if sync i then (sync_ok i || keep i, true) else (true, false)
  end.
(** [insert]: as above, notmuch-insert.c:401-464. *)
Definition insert (r : run) (i : index_run) (maildir : bytes) (w : world) : bool * world :=
  match maildir_write_new r maildir w with
  | (None, w) => (false, w)
  | (Some newpath, w) =>
      if negb (opts_ok i) then (false, w)
      else
        let '(ok, synced) := add_file i in
        let w := match synced, moved i with true, Some q => sys_rename newpath q w | _, _ => w end in
        if ok && close_ok i then (true, w)
        else if keep i then (true, w)
        else (false, if unlink2_ok i then sys_unlink newpath w else w)
  end.

(** ** Creating the folder *)
Fixpoint split_slash (acc s : bytes) : list bytes :=
  match s with [] => [acc] | c :: s => if beq c SL then acc :: split_slash [] s else split_slash (acc ++ [c]) s end.
(** Names as the file system resolves them: empty and "." components do not matter
    (external; no symbolic links, no ".." here). *)
Definition resolve (path : bytes) : list bytes := filter (fun c => negb (bseq c [] || bseq c (lit "."))) (split_slash [] path).
(** Directories ([true]) and other files ([false]); all states passed are recorded. *)
Definition tree := list bytes -> option bool.
(** equality of directory paths. *)
Definition lbseq (a b : list bytes) : bool := if list_eq_dec bytes_eq_dec a b then true else false.
(** current directory tree and every earlier state. *)
Record tworld := { tnow : tree; tpast : list tree }.
(** every tree an observer can find, in order. *)
Definition tseen (w : tworld) : list tree := tpast w ++ [tnow w].
(** mkdir(2). *)
Definition tmkdir (k : list bytes) (w : tworld) : tworld :=
  {| tnow := fun q => if lbseq q k then Some true else tnow w q; tpast := tpast w ++ [tnow w] |}.
(** What comes before the last slash. *)
Fixpoint before_last_slash (s : bytes) : option bytes :=
  match s with
  | [] => None
  | c :: s => match before_last_slash s with Some p => Some (c :: p) | None => if beq c SL then Some [] else None end
  end.
(** notmuch-insert.c:113-154 [mkdir_recursive]; [ok] says whether a mkdir that is not
    refused otherwise succeeds, and whether syncing the parent does. *)
Fixpoint mkdir_recursive (fuel : nat) (ok sok : bytes -> bool) (path : bytes) (w : tworld) : bool * tworld :=
  match fuel with
  | O => (false, w)
  | S fuel =>
      match tnow w (resolve path) with
      | Some isdir => (isdir, w)
      | None =>
          let '(go, has_parent, w) :=
            match before_last_slash path with
            | Some (c :: p) => let '(r, w) := mkdir_recursive fuel ok sok (c :: p) w in (r, true, w)
            | _ => (true, false, w)
            end in
          if negb go then (false, w)
          else
            (* mkdir: fails if something is there *)
            match tnow w (resolve path) with
            | Some _ => (false, w)
            | None => if ok path then ((negb has_parent || sok path)%bool, tmkdir (resolve path) w) else (false, w)
            end
      end
  end.
