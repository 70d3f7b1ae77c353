(** Model of lib/features.cc and of the places that read and write the "features"
    and "version" metadata (lib/open.cc, lib/database.cc).
    Simplified: the feature set is an [N] bit mask; allocation never fails. *)
From Verif Require Import Bytes StrUtil.
Local Open Scope N_scope.

(** character constant. *)
Definition TAB : byte := chr 9.
(** character constant. *)
Definition NL : byte := chr 10.

(** lib/database-private.h:66-121 (bit numbers) and lib/features.cc:3-36
    [feature_names]: bit value, name, flags. *)
Definition feature_names : list (N * bytes * bytes) :=
  [(1,   lit "multiple paths per message", lit "rw");
   (2,   lit "relative directory paths", lit "rw");
   (4,   lit "from/subject/message-ID in database", lit "w");
   (8,   lit "exact folder:/path: search", lit "rw");
   (16,  lit "mail documents for missing messages", lit "w");
   (32,  lit "indexed MIME types", lit "w");
   (64,  lit "modification tracking", lit "w");
   (128, lit "index body and headers separately", lit "w")].

(** lib/database-private.h:302-317. *)
Definition FEATURES_V0 : N := 0.
(** [FEATURES_V1]: as above, lib/database-private.h:302-317. *)
Definition FEATURES_V1 : N := N.lor FEATURES_V0 (N.lor 1 2).
(** [FEATURES_V2]: as above, lib/database-private.h:302-317. *)
Definition FEATURES_V2 : N := N.lor FEATURES_V1 8.
(** [FEATURES_CURRENT]: as above, lib/database-private.h:302-317. *)
Definition FEATURES_CURRENT : N := N.lor 1 (N.lor 2 (N.lor 8 (N.lor 16 64))).
(** lib/database-private.h: NOTMUCH_DATABASE_VERSION. *)
Definition DATABASE_VERSION : N := 3.

(** lib/features.cc:38-50 [_notmuch_database_print_features]. *)
Fixpoint print_features_loop (tbl : list (N * bytes * bytes)) (features : N) (res : bytes) : bytes :=
  match tbl with
  | [] => res
  | (v, name, flags) :: tbl' =>
      print_features_loop tbl' features
        (if N.land features v =? 0 then res else res ++ name ++ [TAB] ++ flags ++ [NL])
  end.
(** [print_features]: as above, lib/features.cc:38-50. *)
Definition print_features (features : N) : bytes := print_features_loop feature_names features [].

(** lib/features.cc:90-96: the value of a known name. *)
Fixpoint find_feature (tbl : list (N * bytes * bytes)) (name : bytes) : option N :=
  match tbl with
  | [] => None
  | (v, n, _) :: tbl' => if bseq n name then Some v else find_feature tbl' name
  end.

(** lib/features.cc:85-110: one iteration.  [tok] is the [llen] bytes at [features];
    [incompat] is [*incompat_out]. *)
Definition parse_line (mode : byte) (tok : bytes) (st : N * option bytes) : N * option bytes :=
  let '(res, incompat) := st in
  if mem TAB tok then
    let '(name, flags) := span (fun c => negb (beq c TAB)) tok in
    match find_feature feature_names name with
    | Some v => (N.lor res v, incompat)
    | None =>
        if mem mode flags then
          let old := match incompat with None => [] | Some o => o end in
          (res, Some (old ++ (match old with [] => [] | _ => lit ", " end) ++ name))
        else (res, incompat)
    end
  else (res, incompat).

(** lib/features.cc:84: the strtok_len loop. *)
Fixpoint parse_loop (fuel : nat) (mode : byte) (s : bytes) (st : N * option bytes) : N * option bytes :=
  match fuel with
  | O => st
  | S f => match strtok_len [NL] s with
           | None => st
           | Some (tok, rest) => parse_loop f mode rest (parse_line mode tok st)
           end
  end.

(** lib/features.cc:65-114 [_notmuch_database_parse_features] with non-NULL
    incompat_out, initially NULL. *)
Definition parse_features (features : bytes) (version : N) (mode : byte) : N * option bytes :=
  if version =? 0 then (FEATURES_V0, None)
  else if version =? 1 then (FEATURES_V1, None)
  else if version =? 2 then (FEATURES_V2, None)
  else parse_loop (S (length features)) mode features (0, None).

(** lib/open.cc:512-537 in _finish_open: version and feature check. *)
Inductive open_check := OpenVersionTooNew (v : N) | OpenRequires (msg : bytes) | OpenOk (features : N).
(** [check_open]: as above, lib/open.cc:512-537. *)
Definition check_open (version : N) (features : bytes) (read_write : bool) : open_check :=
  if DATABASE_VERSION <? version then OpenVersionTooNew version
  else match parse_features features version (if read_write then "w"%char else "r"%char) with
       | (f, None) => OpenOk f
       | (_, Some m) => OpenRequires m
       end.

(** lib/database.cc:806-820 [notmuch_database_needs_upgrade]. *)
Definition needs_upgrade (read_write : bool) (version features : N) : bool :=
  read_write &&
  (negb (N.ldiff FEATURES_CURRENT features =? 0) ||
   ((0 <? version) && (version <? DATABASE_VERSION))).

(** lib/database.cc:865,922,1081-1082: the metadata a successful upgrade writes:
    (features string, version). *)
Definition upgrade_metadata (features : N) : bytes * N :=
  (print_features (N.lor features FEATURES_CURRENT), DATABASE_VERSION).

(** lib/open.cc:806-811: features of a newly created database (then upgraded). *)
Definition create_features (parsed : N) : N := N.lor (N.lor (N.lor parsed 4) 32) 128.
