(** Model of notmuch-count.c.  The library calls are those of Query.v.

    [parse] is the query parser; a count fits the printed type (unsigned int, int); the
    database is not changed while the command runs; allocation does not fail. *)
From Verif Require Import Bytes Terms XQuery DocSet Thread Query SearchCmd Decimal TagLine Dump.
Local Open Scope nat_scope.

(** notmuch-count.c:24-28. *)
Inductive count_output := C_THREADS | C_MESSAGES | C_FILES.

(** notmuch-count.c:31-62 [count_files]; [files d]: the file names of a message. *)
Definition count_files (db : list xdoc) (files : xdoc -> list bytes) (q : query) : option nat :=
  match search_messages db q with
  | None => None
  | Some m => Some (fold_left (fun count d => fold_left (fun count _ => S count) (files d) count) (ms_docs m) 0)
  end.

Section C.
Variable db : list xdoc.
Variable files : xdoc -> list bytes.
Variable parse : bytes -> option xq.
Variable uuid : bytes.
Variable revision : N.

(** notmuch-count.c:65-133 [print_count]: what is printed, [None] for -1 (then nothing is
    printed on the standard output). *)
Definition print_count (query_str : bytes) (exclude_tags : list bytes) (output : count_output) (print_lastmod : bool) : option bytes :=
  match add_excludes (query_create (parse query_str)) exclude_tags with
  | None => None
  | Some q =>
      match (match output with
             | C_MESSAGES => count_messages db q
             | C_THREADS => count_threads db q
             | C_FILES => count_files db files q
             end) with
      | None => None
      | Some n => Some (dec (N.of_nat n) ++
                        if print_lastmod then (chr 9 :: uuid) ++ (chr 9 :: dec revision) ++ [NL] else [NL])
      end
  end.

(** notmuch-count.c:135-153 [count_file]: the output, and how it ended.  A line is a C
    string: it ends at a NUL byte in the input. *)
Inductive outcome := Done | Failed | Undefined.
(** [count_file]: as above, notmuch-count.c:135-153. *)
Fixpoint count_file (lines : list bytes) (exclude_tags : list bytes) (output : count_output) (print_lastmod : bool) : bytes * outcome :=
  match lines with
  | [] => ([], Done)
  | line :: lines' =>
      match chomp_newline (takewhile nonul line) with
      | None => ([], Undefined)
      | Some query =>
          match print_count query exclude_tags output print_lastmod with
          | None => ([], Failed)
          | Some o => let '(r, ok) := count_file lines' exclude_tags output print_lastmod in (o ++ r, ok)
          end
      end
  end.

(** notmuch-count.c:155-227 [notmuch_count_command] after option parsing: [input] is the
    batch input if --batch or --input was given; [args]: a query was given as argument.
    [tags] is search.exclude_tags. *)
Definition count_command (input : option bytes) (args : bool) (query_str : bytes) (exclude : bool) (tags : list bytes)
    (output : count_output) (print_lastmod : bool) : bytes * outcome :=
  let exclude_tags := if exclude then tags else [] in
  match input with
  | Some text => if args then ([], Failed) else count_file (split_lines text) exclude_tags output print_lastmod
  | None => match print_count query_str exclude_tags output print_lastmod with
            | None => ([], Failed)
            | Some o => (o, Done)
            end
  end.
End C.
