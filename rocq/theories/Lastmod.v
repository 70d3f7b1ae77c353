(** Model of lib/lastmod-fp.cc and of the lastmod part of _sexp_parse_range
    (lib/parse-sexp.cc:514-577). *)
From Verif Require Import Bytes Decimal.
Local Open Scope Z_scope.

(** limits.h. *)
Definition LONG_MAX : Z := 2 ^ 63 - 1.
(** [LONG_MIN]: as above, lib/parse-sexp.cc:514-577. *)
Definition LONG_MIN : Z := - 2 ^ 63.

(** External: std::stol (strtol base 10): leading white space, optional sign,
    digits; the rest of the text is not looked at.  [None]: std::invalid_argument or
    std::out_of_range, both std::logic_error. *)
Definition stol (s : bytes) : option Z :=
  let s := dropwhile isspace s in
  let '(neg, s) := match s with
                   | c :: r => if beq c "-"%char then (true, r)
                               else if beq c "+"%char then (false, r) else (false, s)
                   | [] => (false, s)
                   end in
  if isdigit (peek s) then
    let n := Z.of_N (fst (read_digits 0 s)) in
    let z := if neg then - n else n in
    if (LONG_MIN <=? z) && (z <=? LONG_MAX) then Some z else None
  else None.

(** External: conversion of a long to double, round to nearest, ties to even
    (53-bit significand), as an integer. *)
Definition round53 (n : Z) : Z :=
  if n <? 2 ^ 53 then n
  else let e := Z.log2 n - 52 in
       let q := n / 2 ^ e in
       let r := n mod 2 ^ e in
       let half := 2 ^ (e - 1) in
       let q' := if r <? half then q else if half <? r then q + 1
                 else if Z.even q then q else q + 1 in
       q' * 2 ^ e.
(** conversion of strtol result to double, lib/lastmod-fp.cc:26-69. *)
Definition to_double (z : Z) : Z := if z <? 0 then - round53 (- z) else round53 z.

(** A query as the set of documents it matches; a document is represented by the
    number stored in its last-modification slot, if any.  OP_VALUE_RANGE compares the
    serialised strings; Xapian::sortable_serialise is strictly increasing on doubles
    and never empty (external), so this is a comparison of doubles, and a document
    without the value (empty string) sorts before every bound. *)
Definition value_range (from to : Z) (last_mod : option Z) : bool :=
  match last_mod with
  | None => false
  | Some rev => (to_double from <=? to_double rev) && (to_double rev <=? to_double to)
  end.

(** lib/lastmod-fp.cc:26-69 [_notmuch_lastmod_strings_to_query]; [None] is
    NOTMUCH_STATUS_BAD_QUERY_SYNTAX.  [current] is the database revision. *)
Definition lastmod_strings_to_query (current : Z) (from to : bytes) : option (option Z -> bool) :=
  match (match from with [] => Some 0 | _ => stol from end) with
  | None => None
  | Some from_idx =>
      let from_idx := if from_idx <? 0 then from_idx + current else from_idx in
      match (match to with [] => Some LONG_MAX | _ => stol to end) with
      | None => None
      | Some to_idx =>
          let to_idx := if to_idx <? 0 then to_idx + current else to_idx in
          Some (value_range from_idx to_idx)
      end
  end.

(** lib/parse-sexp.cc:514-577 [_sexp_parse_range] for prefix "lastmod"; the
    arguments are the elements after the keyword: [Some atom] or [None] for a list. *)
Definition sexp_lastmod (current : Z) (args : list (option bytes)) : option (option Z -> bool) :=
  let star (s : bytes) : bytes := if bseq s (lit "*") then [] else s in
  match args with
  | [] => Some (fun _ => true)
  | None :: _ => None
  | Some from :: rest =>
      match rest with
      | [] => lastmod_strings_to_query current (star from) (star from)
      | [Some to] => lastmod_strings_to_query current (star from) (star to)
      | _ => None
      end
  end.
