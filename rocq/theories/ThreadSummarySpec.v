(** What a thread returned by a search should tell about itself, stated on the documents of
    the database. *)
From Verif Require Import Bytes XQuery Thread Query QuerySpec.
From Coq Require Import Sorted.
Local Open Scope nat_scope.

(** [th] is a thread some client obtained from a thread search: it may call
    notmuch_threads_valid, _get and _move_to_next in any order. *)
Definition thread_result (db : list xdoc) (q : query) (th : thread) : Prop :=
  exists ts cs l ts', search_threads db q = Some ts /\ run_calls db cs ts = Some (l, ts') /\ In th l.

(** the documents of the messages of the thread, in its order; those that matched. *)
Definition thread_mail (th : thread) : list xdoc := map mb_doc (th_messages th).
Definition matched_mail (th : thread) : list xdoc := map mb_doc (filter mb_match (th_messages th)).

(** the author to display for a message: the name (or address) of the first From address,
    "Last, First" turned around when the address allows it. *)
Definition display_author (d : xdoc) : option bytes :=
  match xd_from d, xd_author d with Some from, Some a => Some (cleanup_author a from) | _, _ => None end.

(** names in order of first appearance, each once. *)
Fixpoint first_seen (seen : list bytes) (l : list (option bytes)) : list bytes :=
  match l with
  | [] => []
  | None :: l' => first_seen seen l'
  | Some a :: l' => if in_dec bytes_eq_dec a seen then first_seen seen l' else a :: first_seen (seen ++ [a]) l'
  end.
Definition without (m l : list bytes) : list bytes := filter (fun a => if in_dec bytes_eq_dec a m then false else true) l.

Fixpoint comma_list (l : list bytes) : bytes :=
  match l with
  | [] => []
  | [a] => a
  | a :: l' => a ++ lit ", " ++ comma_list l'
  end.
(** "matched, matched| other, other". *)
Definition authors_line (matched others : list bytes) : bytes :=
  comma_list matched ++ match others with [] => [] | _ => lit "| " ++ comma_list others end.

(** "Re: ", "Aw: ", "Vs: " or "Sv: " in any case. *)
Definition reply_prefix (p : bytes) : Prop :=
  map tolower p = lit "re: " \/ map tolower p = lit "aw: " \/ map tolower p = lit "vs: " \/ map tolower p = lit "sv: ".
(** [r] is [s] without one such prefix, and nothing else removed. *)
Definition bare (s r : bytes) : Prop :=
  (exists p, reply_prefix p /\ s = p ++ r) \/ (r = s /\ forall p t, reply_prefix p -> s <> p ++ t).
(** the (non-empty) bare subject of a message. *)
Definition bare_subject (d : xdoc) (r : bytes) : Prop :=
  exists s, xd_subject d = Some s /\ bare s r /\ r <> [].
Definition raw_subject (d : xdoc) : bytes := match xd_subject d with Some s => s | None => [] end.

(** [r] is how the author [raw] of a message with header From: [from] is shown: as it is,
    or, if it reads "Last, First" and the From header contains "First.Last" in any case
    (any blanks in either name also replaced by dots), as "First Last". *)
Definition contains_nocase (h n : bytes) : Prop :=
  exists a b c, h = a ++ b ++ c /\ map tolower b = map tolower n.
Definition dotted (s : bytes) : bytes := map (fun c => if beq c " "%char then "."%char else c) s.
Definition last_first (raw last first : bytes) : Prop :=
  exists blanks, raw = last ++ lit "," ++ blanks ++ first /\ ~ In ","%char last /\
    (forall c, In c blanks -> c = " "%char) /\ (forall r, first <> " "%char :: r) /\ blanks ++ first <> [].
Definition shown_as (raw from r : bytes) : Prop :=
  (exists last first, last_first raw last first /\ contains_nocase from (dotted (first ++ lit " " ++ last)) /\ r = first ++ lit " " ++ last) \/
  ((forall last first, last_first raw last first -> ~ contains_nocase from (dotted (first ++ lit " " ++ last))) /\ r = raw).
