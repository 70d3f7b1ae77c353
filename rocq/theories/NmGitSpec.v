(** Independent specification for 'notmuch git' (doc/man1/notmuch-git.rst). *)
From Verif Require Import Bytes Terms Dump DumpSpec NmGit.
Local Open Scope nat_scope.

(** "encode": alphanumerics and the characters [+-_@=.:,~] are kept, every other octet is
    '%' and two lower-case hexadecimal digits. *)
Definition kept (c : byte) : Prop :=
  In c (lit "ABCDEFGHIJKLMNOPQRSTUVWXYZ") \/ In c (lit "abcdefghijklmnopqrstuvwxyz") \/
  In c (lit "0123456789") \/ In c (lit "+-_@=.:,~").
Definition lowhex (n : N) : byte := nth (N.to_nat n) (lit "0123456789abcdef") (ascii_of_N 0).
Inductive encoded : bytes -> bytes -> Prop :=
| enc_nil : encoded [] []
| enc_kept c s e : kept c -> encoded s e -> encoded (c :: s) (c :: e)
| enc_octet c s e : ~ kept c -> encoded s e ->
    encoded (c :: s) ("%"%char :: lowhex (N_of_ascii c / 16) :: lowhex (N_of_ascii c mod 16) :: e).

(** The hash: four lower-case hexadecimal digits. *)
Definition hash_ok (hash : bytes -> bytes) : Prop :=
  forall x, exists a b c d, hash x = [a; b; c; d] /\
    In a (lit "0123456789abcdef") /\ In b (lit "0123456789abcdef") /\
    In c (lit "0123456789abcdef") /\ In d (lit "0123456789abcdef").

(** tags/encode($id)/encode($tag) and tags/hash1(id)/hash2(id)/encode($id)/encode($tag). *)
Definition path_for (hash : bytes -> bytes) (v : fmt) (id tag p : bytes) : Prop :=
  exists ei et, encoded id ei /\ encoded tag et /\
    match v with
    | V0 => p = lit "tags/" ++ ei ++ lit "/" ++ et
    | V1 => exists a b c d, hash ei = [a; b; c; d] /\
              p = lit "tags/" ++ [a; b] ++ lit "/" ++ [c; d] ++ lit "/" ++ ei ++ lit "/" ++ et
    end.

(** Characters git prints as they are: no control character, space, double quote,
    backslash or octet above 126. *)
Definition printed_as_is (c : byte) : Prop :=
  (32 < N_of_ascii c < 127)%N /\ c <> """"%char /\ c <> "\"%char.

(** Message ids as the tools pass them around: no blank, no line break. *)
Definition plain_id (id : bytes) : Prop :=
  cstr id /\ forall c, In c id -> c <> " "%char /\ c <> ascii_of_N 10 /\ c <> ascii_of_N 13.

(** The tags of a list that carry the prefix, without it. *)
Fixpoint unprefixed (prefix : bytes) (tags : list bytes) : list bytes :=
  match tags with
  | [] => []
  | t :: tags' => match strip_prefix prefix t with Some x => x :: unprefixed prefix tags' | None => unprefixed prefix tags' end
  end.

(** Names git accepts as a file name. *)
Definition file_name (s : bytes) : Prop :=
  s <> [] /\ s <> lit "." /\ s <> lit ".." /\ map tolower s <> lit ".git".
Definition legal_tag (t : bytes) : Prop := t <> [] /\ forall r, t <> "-"%char :: r.

(** ** Commands *)

(** The database says: mail [id] carries the tag [prefix ++ tag]. *)
Definition tracked (prefix : bytes) (db : gdb) (id tag : bytes) : Prop :=
  exists m, In m (g_msgs db) /\ g_mail m = true /\ g_id m = id /\ In (prefix ++ tag) (g_tags m).
(** A git tree says: message [id] carries the tag. *)
Definition holds (hash : bytes -> bytes) (v : fmt) (tree : list bytes) (id tag : bytes) : Prop :=
  exists p, path_for hash v id tag p /\ In p tree.
Definition is_mail (db : gdb) (id : bytes) : Prop := exists m, In m (g_msgs db) /\ g_mail m = true /\ g_id m = id.
Definition in_database (db : gdb) (id : bytes) : Prop := exists m, In m (g_msgs db) /\ g_id m = id.

(** Databases as notmuch writes them; ids without blanks and line breaks. *)
Definition db_ok (props : bytes -> list (bytes * bytes)) (db : gdb) : Prop :=
  NoDup (map g_id (g_msgs db)) /\ g_uuid db <> [] /\
  forall m, In m (g_msgs db) ->
    plain_id (g_id m) /\ g_id m <> [] /\ length (g_id m) <= 189 /\ (g_mod m <= g_rev db)%N /\ tsorted (g_tags m) /\
    (forall t, In t (g_tags m) -> cstr t /\ length t <= 200) /\
    (forall k w, In (k, w) (props (g_id m)) -> cstr k /\ cstr w /\ ~ In "="%char k /\ length k + length w <= 235).
(** A prefix notmuch git can work with: no '~', no upper-case letter. *)
Definition prefix_ok (prefix : bytes) : Prop :=
  cstr prefix /\ ~ In "~"%char prefix /\ map tolower prefix = prefix.
(** Every tracked tag, and its message id, can be a file name. *)
Definition usable (prefix : bytes) (db : gdb) : Prop :=
  forall id tag, tracked prefix db id tag -> file_name id /\ file_name tag.
(** A tree of a notmuch-git repository: the FORMAT file and tags 'notmuch tag' accepts. *)
Definition tree_ok (hash : bytes -> bytes) (v : fmt) (prefix : bytes) (tree : list bytes) : Prop :=
  tsorted tree /\ forall p, In p tree -> p = lit "FORMAT" \/
    exists id tag, path_for hash v id tag p /\ file_name id /\ file_name tag /\
      cstr (prefix ++ tag) /\ length (prefix ++ tag) <= 200 /\ legal_tag (prefix ++ tag).
(** Tracked tags that 'notmuch tag' accepts. *)
Definition tags_legal (prefix : bytes) (db : gdb) : Prop :=
  forall id tag, tracked prefix db id tag -> legal_tag (prefix ++ tag).

(** What the cached private index says of the database: either it is not going to be
    used, or it agrees with the messages last changed before the cached revision, and
    has entries of mail only. *)
Definition cache_valid (hash : bytes -> bytes) (v : fmt) (prefix : bytes) (r : grepo) (db : gdb) : Prop :=
  match r_cache r with
  | None => True
  | Some c =>
      gc_sum c <> None /\
      (gc_prefix c = prefix -> gc_sum c = r_priv r ->
       gc_uuid c = g_uuid db /\ (gc_lastmod c <= g_rev db)%N /\
       forall idx, r_priv r = Some idx -> tsorted idx /\
         (forall p, In p idx -> exists m tag, In m (g_msgs db) /\ g_mail m = true /\ path_for hash v (g_id m) tag p /\
            file_name (g_id m) /\ file_name tag /\ ((g_mod m <= gc_lastmod c)%N -> In (prefix ++ tag) (g_tags m))) /\
         (forall m tag, In m (g_msgs db) -> g_mail m = true -> (g_mod m <= gc_lastmod c)%N -> In (prefix ++ tag) (g_tags m) ->
            exists p, path_for hash v (g_id m) tag p /\ In p idx))
  end.
(** The index cache of commits. *)
Definition commit_cache_valid (r : grepo) : Prop :=
  forall h sum, r_icache r = Some (h, Some sum) -> h = sum.

(** Databases change by adding messages and changing tags; both give the message a
    revision above all earlier ones. *)
Definition evolves (db db' : gdb) : Prop :=
  g_uuid db' = g_uuid db /\
  (forall m, In m (g_msgs db) -> g_mail m = true ->
     exists m', In m' (g_msgs db') /\ g_id m' = g_id m /\ g_mail m' = true /\ (m' = m \/ (g_rev db < g_mod m')%N)) /\
  (forall m', In m' (g_msgs db') -> g_mail m' = true -> In m' (g_msgs db) \/ (g_rev db < g_mod m')%N).

(** An exact status. *)
Definition status_exact (hash : bytes -> bytes) (v : fmt) (prefix : bytes) (head : list bytes) (db : gdb) (s : gstatus) : Prop :=
  (forall id tag, In (id, tag) (s_added s) <-> tracked prefix db id tag /\ ~ holds hash v head id tag) /\
  (forall id tag, In (id, tag) (s_deleted s) <-> holds hash v head id tag /\ ~ tracked prefix db id tag /\ in_database db id) /\
  (forall id tag, In (id, tag) (s_missing s) <-> holds hash v head id tag /\ ~ in_database db id).
