(** What notmuch search, address and reply should print, after devel/schemata and the manual
    pages. *)
From Verif Require Import Bytes StrUtil Decimal XQuery Thread Query Address Sprinter SprinterSpec SearchCmdSpec ShowPartSpec ShowTextSpec.
Local Open Scope nat_scope.

(** ** devel/schemata *)

Definition ttwo (t : type) : type := fun v => exists a b, v = VList [a; b] /\ t a /\ t b.
Definition tthread_summary (version : nat) : type := tobject
  ([req "thread" tstring; req "timestamp" tint; req "date_relative" tstring; req "matched" tint; req "total" tint;
    req "authors" tstring; req "subject" tstring; req "tags" (tlist tstring)] ++
   (if 2 <=? version then [req "query" (ttwo (tor tstring tnull))] else [])).
Definition tsearch_summary (version : nat) : type := tlist (tthread_summary version).
(** search_threads, search_messages, search_files, search_tags *)
Definition tstrings : type := tlist tstring.
(** (devel/schemata has none for notmuch address.) *)
Definition tmailbox : type := tobject [req "name" tstring; req "address" tstring; req "name-addr" tstring; opt "count" tint].
Definition treply (version depth : nat) : type :=
  tobject [req "reply-headers" treply_headers; req "original" (tmessage version true depth)].

(** ** What the values say *)

Definition ids (want : bool) (t : thread) : list bytes :=
  map (fun m => xd_mid (mb_doc m)) (filter (fun m => Bool.eqb (mb_match m) want) (th_messages t)).
(** A query that stands for exactly these messages; null if there are none. *)
Definition names_messages (l : list bytes) (v : value) : Prop :=
  (v = VNull /\ l = []) \/ (exists s, v = VStr s /\ l <> [] /\ forall l', ids_query s l' <-> l' = l).
Record displays_thread (version : nat) (oldest_first : bool) (relative : Z -> bytes) (authors : bytes) (t : thread) (v : value) : Prop := {
  dt_thread : field "thread" v = Some (VStr (th_id t));
  dt_timestamp : field "timestamp" v = Some (VInt (if oldest_first then th_oldest t else th_newest t));
  dt_relative : field "date_relative" v = Some (VStr (relative (if oldest_first then th_oldest t else th_newest t)));
  dt_matched : field "matched" v = Some (VInt (Z.of_nat (th_matched t)));
  dt_total : field "total" v = Some (VInt (Z.of_nat (th_total t)));
  dt_authors : field "authors" v = Some (VStr authors);
  dt_subject : field "subject" v = Some (VStr (match th_subject t with Some s => s | None => [] end));
  dt_tags : field "tags" v = Some (VList (map VStr (th_tags t)));
  dt_query : 2 <= version -> exists a b, field "query" v = Some (VList [a; b]) /\ names_messages (ids true t) a /\ names_messages (ids false t) b;
  dt_no_query : version < 2 -> field "query" v = None
}.
Record displays_mailbox (name_addr : option bytes -> bytes -> bytes) (b : shown_box) (v : value) : Prop := {
  db_name : field "name" v = Some (VStr (match p_name b with Some s => s | None => [] end));
  db_address : field "address" v = Some (VStr (p_addr b));
  db_name_addr : field "name-addr" v = Some (VStr (name_addr (p_name b) (p_addr b)));
  db_count : field "count" v = option_map (fun n => VInt (Z.of_nat n)) (p_count b)
}.

(** ** A reader of a line of the summary *)

Record line := { l_id : bytes; l_date : bytes; l_matched : N; l_total : N; l_files : N; l_rest : bytes }.
(** Up to a character that is taken away. *)
Fixpoint until (c : byte) (s : bytes) : option (bytes * bytes) :=
  match s with
  | [] => None
  | x :: s => if beq x c then Some ([], s) else match until c s with Some (a, b) => Some (x :: a, b) | None => None end
  end.
Definition drop_last (s : bytes) : bytes := removelast s.
(** thread:ID DATE [MATCHED/TOTAL] REST or thread:ID DATE [MATCHED/TOTAL(FILES)] REST, the
    date after any number of blanks. *)
Definition read_line (s : bytes) : option line :=
  if bseq (firstn 7 s) (lit "thread:") then
    match until " " (skipn 7 s) with
    | Some (id, s) =>
        match until "[" (dropwhile (fun c => beq c " ") s) with
        | Some (date, s) =>
            let '(matched, s) := read_digits 0 s in
            match s with
            | c :: s =>
                if beq c "/" then
                  let '(total, s) := read_digits 0 s in
                  let '(files, s) := match s with
                    | c :: s' => if beq c "(" then let '(n, s) := read_digits 0 s' in (n, skipn 1 s) else (total, s)
                    | [] => (total, s)
                    end in
                  if bseq (firstn 2 s) (lit "] ") then
                    Some {| l_id := id; l_date := drop_last date; l_matched := matched; l_total := total; l_files := files; l_rest := skipn 2 s |}
                  else None
                else None
            | [] => None
            end
        | None => None
        end
    | None => None
    end
  else None.
(** What makes the beginning of the lines readable; the dates of C66 are such. *)
Definition plain_date (s : bytes) : Prop := ~ In "["%char s /\ one_line s /\ match s with c :: _ => c <> " "%char | [] => False end.
Definition plain_line (oldest_first : bool) (relative : Z -> bytes) (t : thread) : Prop :=
  ~ In " "%char (th_id t) /\ one_line (th_id t) /\ plain_date (relative (if oldest_first then th_oldest t else th_newest t)) /\ Forall one_line (th_tags t).

(** The tags at the end of a line: between the last '(' and the last character, separated by blanks. *)
Fixpoint words (cur : bytes) (s : bytes) : list bytes :=
  match s with
  | [] => [cur]
  | c :: s => if beq c " " then cur :: words [] s else words (cur ++ [c]) s
  end.
Definition read_tags (s : bytes) : option (list bytes) :=
  match rev s with
  | c :: r => if beq c ")" then match until "(" r with Some ([], _) => Some [] | Some (x, _) => Some (words [] (rev x)) | None => None end else None
  | [] => None
  end.
Definition plain_tag (s : bytes) : Prop := s <> [] /\ ~ In " "%char s /\ ~ In "("%char s.
