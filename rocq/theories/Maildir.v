(** Model of the maildir flag functions of lib/message.cc.

    A pointer into a string is its index.  Flags are compared as unsigned codes; a byte
    of 128 or more makes both the signed and the unsigned reading of the code return
    NULL.  Not modelled: allocation failure, Xapian exceptions. *)
From Verif Require Import Bytes.
Local Open Scope nat_scope.

(** character constant. *)
Definition SLASH : byte := "/"%char.

(** External: strrchr and strstr of the C library. *)
Fixpoint strrchr (c : byte) (s : bytes) : option nat :=
  match s with
  | [] => None
  | x :: s' => match strrchr c s' with Some i => Some (S i) | None => if beq x c then Some 0 else None end
  end.
(** strstr (C library). *)
Fixpoint strstr (needle s : bytes) : option nat :=
  if starts_with needle s then Some 0
  else match s with
       | [] => None
       | _ :: s' => match strstr needle s' with Some i => Some (S i) | None => None end
       end.

(** lib/message.cc:1731-1759 [_filename_is_in_maildir]: index of "cur/" or "new/". *)
Definition filename_is_in_maildir (filename : bytes) : option nat :=
  match strrchr SLASH filename with
  | None => None
  | Some slash =>
      if Nat.ltb slash 4 then None
      else let slash := slash - 4 in
           if negb (beq (peek (skipn slash filename)) SLASH) then None
           else let dir := S slash in
                if starts_with (lit "cur/") (skipn dir filename) || starts_with (lit "new/") (skipn dir filename)
                then Some dir else None
  end.

(** lib/message.cc:70-77 [flag2tag]. *)
Definition flag2tag : list (byte * bytes * bool) :=
  [("D"%char, lit "draft", false); ("F"%char, lit "flagged", false); ("P"%char, lit "passed", false);
   ("R"%char, lit "replied", false); ("S"%char, lit "unread", true)].

(** lib/message.cc:1761-1806 [_ensure_maildir_flags] with force: the combined flags of all
    names, or [None] if no name has any maildir information. *)
Fixpoint combine_flags (files : list bytes) (combined : bytes) (seen : bool) : bytes * bool :=
  match files with
  | [] => (combined, seen)
  | filename :: files =>
      match filename_is_in_maildir filename with
      | None => combine_flags files combined seen
      | Some dir =>
          match strstr (lit ":2,") filename with
          | Some flags => combine_flags files (combined ++ skipn (flags + 3) filename) true
          | None => if starts_with (lit "new/") (skipn dir filename) then combine_flags files combined true
                    else combine_flags files combined seen
          end
      end
  end.
(** [ensure_maildir_flags]: as above, lib/message.cc:1761-1806. *)
Definition ensure_maildir_flags (files : list bytes) : option bytes :=
  let '(flags, seen) := combine_flags files [] false in if seen then Some flags else None.
(** lib/message.cc:1821-1837 [notmuch_message_has_maildir_flag_st]. *)
Definition has_maildir_flag (files : list bytes) (flag : byte) : bool :=
  match ensure_maildir_flags files with Some flags => strchr_found flags flag | None => false end.

(** Tags as a set of terms (adding a present tag and removing an absent one do nothing). *)
Definition add_tag (t : bytes) (tags : list bytes) : list bytes := if existsb (bseq t) tags then tags else t :: tags.
(** notmuch_message_remove_tag on the tag list, lib/message.cc:1687-1719. *)
Definition remove_tag (t : bytes) (tags : list bytes) : list bytes := filter (fun x => negb (bseq t x)) tags.

(** lib/message.cc:1839-1872 [notmuch_message_maildir_flags_to_tags]. *)
Definition maildir_flags_to_tags (files tags : list bytes) : list bytes :=
  match ensure_maildir_flags files with
  | None => tags
  | Some flags =>
      fold_left (fun tags e => let '(flag, tag, inverse) := e in
                   if xorb (strchr_found flags flag) inverse then add_tag tag tags else remove_tag tag tags)
                flag2tag tags
  end.

(** lib/message.cc:1880-1926 [_get_maildir_flag_actions]: the flags to set and to clear. *)
Definition flags_of_tag (tag : bytes) (acc : bytes * bytes) : bytes * bytes :=
  fold_left (fun acc e => let '(flag, t, inverse) := e in
               if bseq tag t then (if inverse : bool then (fst acc, snd acc ++ [flag]) else (fst acc ++ [flag], snd acc)) else acc)
            flag2tag acc.
(** [get_maildir_flag_actions]: as above, lib/message.cc:1880-1926. *)
Definition get_maildir_flag_actions (tags : list bytes) : bytes * bytes :=
  let acc := fold_left (fun acc tag => flags_of_tag tag acc) tags ([], []) in
  fold_left (fun acc e => let '(flag, _, inverse) := e in
               if inverse : bool then (if strchr_found (snd acc) flag then acc else (fst acc ++ [flag], snd acc))
               else (if strchr_found (fst acc) flag then acc else (fst acc, snd acc ++ [flag])))
            flag2tag acc.

(** lib/message.cc:1946-2042 [_new_maildir_filename].  The flag map is a function on
    codes; [flags_in_map] may not be negative in the code, it is an integer here. *)
Definition fmap := N -> bool.
(** [fset]: as above, lib/message.cc:1946-2042. *)
Definition fset (i : N) (v : bool) (m : fmap) : fmap := fun j => if N.eqb j i then v else m j.
(** [scan_flags]: as above, lib/message.cc:1946-2042. *)
Fixpoint scan_flags (flags : bytes) (last : N) (m : fmap) (n : Z) : option (fmap * Z) :=
  match flags with
  | [] => Some (m, n)
  | c :: flags =>
      let flag := code c in
      if N.ltb flag last then None
      else if N.ltb 127 flag then None
      else if m flag then None
      else scan_flags flags flag (fset flag true m) (n + 1)
  end.
(** [set_flags]: as above, lib/message.cc:1946-2042. *)
Fixpoint set_flags (flags : bytes) (m : fmap) (n : Z) (changed : bool) : fmap * Z * bool :=
  match flags with
  | [] => (m, n, changed)
  | c :: flags => if m (code c) then set_flags flags m n changed
                  else set_flags flags (fset (code c) true m) (n + 1) true
  end.
(** [clear_flags]: as above, lib/message.cc:1946-2042. *)
Fixpoint clear_flags (flags : bytes) (m : fmap) (n : Z) (changed : bool) : fmap * Z * bool :=
  match flags with
  | [] => (m, n, changed)
  | c :: flags => if m (code c) then clear_flags flags (fset (code c) false m) (n - 1) true
                  else clear_flags flags m n changed
  end.
(** The loop writing the flags in increasing order. *)
Definition map_flags (m : fmap) : bytes := map chr (filter m (map N.of_nat (seq 0 128))).

(** [NM_null]: not safe to rename; [NM_copy]: a copy of the name; [NM_new name size]: the
    new name, written into [size] allocated bytes. *)
Inductive new_name := NM_null | NM_copy (name : bytes) | NM_new (name : bytes) (size : Z).
(** lib/message.cc:1946-2042, keeping the buffer. *)
Definition new_maildir_filename_buf (filename to_set to_clear : bytes) : new_name :=
  let info := match strstr (lit ":2,") filename with Some i => i | None => length filename end in
  let scan := match strstr (lit ":2,") filename with
              | Some i => scan_flags (skipn (i + 3) filename) 0 (fun _ => false) 0
              | None => Some (fun _ => false, 0%Z)
              end in
  match scan with
  | None => NM_null
  | Some (m, n) =>
      let '(m, n, changed) := set_flags to_set m n false in
      let '(m, n, changed) := clear_flags to_clear m n changed in
      let in_new := match filename_is_in_maildir filename with
                    | Some dir => starts_with (lit "new/") (skipn dir filename) | None => false end in
      if in_new && Nat.eqb info (length filename) && negb changed then NM_copy filename
      else
        let size := (Z.of_nat info + 3 + n + 1)%Z in
        let filename_new := firstn info filename ++ lit ":2," ++ map_flags m in
        let filename_new :=
          match filename_is_in_maildir filename_new with
          | Some dir => if starts_with (lit "new/") (skipn dir filename_new)
                        then firstn dir filename_new ++ lit "cur/" ++ skipn (dir + 4) filename_new else filename_new
          | None => filename_new
          end in
        NM_new filename_new size
  end.
(** lib/message.cc:1946-2042. *)
Definition new_maildir_filename (filename to_set to_clear : bytes) : option bytes :=
  match new_maildir_filename_buf filename to_set to_clear with
  | NM_null => None
  | NM_copy n | NM_new n _ => Some n
  end.

(** lib/message.cc:2044-2107 [notmuch_message_tags_to_maildir_flags].  [disk]: contents by
    path.  rename(2) (external) replaces the target; it fails if the source is missing
    or [rename_ok] says so (each name is processed once).  The iterator walks the list
    of names as it was at the start.  The names of the message and the disk after the
    call; writing the document with each rename is left out (C13). *)
Definition disk := bytes -> option bytes.
(** [rename_file]: as above, lib/message.cc:2044-2107. *)
Definition rename_file (f g : bytes) (d : disk) : disk :=
  fun p => if bseq p g then d f else if bseq p f then None else d p.
(** [add_name]: as above, lib/message.cc:2044-2107. *)
Definition add_name (n : bytes) (l : list bytes) : list bytes := if existsb (bseq n) l then l else l ++ [n].
(** [remove_name]: as above, lib/message.cc:2044-2107. *)
Definition remove_name (n : bytes) (l : list bytes) : list bytes := filter (fun x => negb (bseq n x)) l.
(** [sync_names]: as above, lib/message.cc:2044-2107. *)
Fixpoint sync_names (rename_ok : bytes -> bool) (to_set to_clear : bytes) (files : list bytes) (names : list bytes) (d : disk) : list bytes * disk :=
  match files with
  | [] => (names, d)
  | filename :: files =>
      match filename_is_in_maildir filename with
      | None => sync_names rename_ok to_set to_clear files names d
      | Some _ =>
          match new_maildir_filename filename to_set to_clear with
          | None => sync_names rename_ok to_set to_clear files names d
          | Some filename_new =>
              if bseq filename filename_new then sync_names rename_ok to_set to_clear files names d
              else if rename_ok filename && match d filename with Some _ => true | None => false end
              then sync_names rename_ok to_set to_clear files (add_name filename_new (remove_name filename names))
                     (rename_file filename filename_new d)
              else sync_names rename_ok to_set to_clear files names d
          end
      end
  end.
(** [tags_to_maildir_flags]: as above, lib/message.cc:2044-2107. *)
Definition tags_to_maildir_flags (rename_ok : bytes -> bool) (tags names : list bytes) (d : disk) : list bytes * disk :=
  let '(to_set, to_clear) := get_maildir_flag_actions tags in
  sync_names rename_ok to_set to_clear names names d.
