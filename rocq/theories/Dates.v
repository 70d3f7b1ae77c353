(** Model of parse-time-string/parse-time-string.c and of lib/parse-time-vrp.cc: date
    expressions and date: ranges.

    Simplifications: the C library's calendar is Calendar.v, with a local time zone at a
    fixed offset; error codes are not distinguished ([Err]); signed overflow is [Undef];
    expressions contain no NUL byte (they come from c_str ()). *)
From Verif Require Import Bytes Calendar.
From Coq Require Import ZArith.
Open Scope Z_scope.

(** result of a parser step: value, error code or undefined behaviour. *)
Inductive res (A : Type) := Ok (a : A) | Err | Undef.
Arguments Ok {A} a. Arguments Err {A}. Arguments Undef {A}.
(** sequencing of parser steps (early return on error). *)
Definition bind {A B} (r : res A) (k : A -> res B) : res B :=
  match r with Ok a => k a | Err => Err | Undef => Undef end.
Notation "'do' x <- r ; k" := (bind r (fun x => k)) (at level 200, x name, r at level 100, k at level 200).

(** enum field, parse-time-string.c:115-144, and enum field_set, 147-151. *)
Inductive field := SEC | MIN | HOUR | MDAY | MON | YEAR | WDAY | ISDST | AMPM | TZ
                 | RSEC | RMIN | RHOUR | RDAY | RMON | RYEAR | RWEEK.
(** [field_eqb]: as above, parse-time-string.c:115-144. *)
Definition field_eqb (a b : field) : bool :=
  match a, b with
  | SEC, SEC | MIN, MIN | HOUR, HOUR | MDAY, MDAY | MON, MON | YEAR, YEAR | WDAY, WDAY | ISDST, ISDST
  | AMPM, AMPM | TZ, TZ | RSEC, RSEC | RMIN, RMIN | RHOUR, RHOUR | RDAY, RDAY | RMON, RMON | RYEAR, RYEAR
  | RWEEK, RWEEK => true
  | _, _ => false
  end.
(** [fset]: as above, parse-time-string.c:115-144. *)
Inductive fset := UNSET_ | SET_ | NOW_.
(** [upd]: as above, parse-time-string.c:115-144. *)
Definition upd {A} (m : field -> A) (f : field) (v : A) : field -> A := fun g => if field_eqb g f then v else m g.
(** abs_to_rel_field, 160-167. *)
Definition rel (f : field) : field :=
  match f with SEC => RSEC | MIN => RMIN | HOUR => RHOUR | MDAY => RDAY | MON => RMON | _ => RYEAR end.
(** get_field_epoch_value, 170-179. *)
Definition epoch (f : field) : Z := match f with MDAY | MON => 1 | YEAR => 1970 | _ => 0 end.

(** struct state, 182-192. *)
Record state := mk_state {
  val : field -> Z; fset_ : field -> fset; last : option field; delim : byte;
  plen : Z; pval : Z; pdelim : byte
}.
(** zero-initialised state, parse-time-string.c:1494-1500. *)
Definition init : state := mk_state (fun _ => 0) (fun _ => UNSET_) None NUL 0 0 NUL.

(** is_field_set, parse-time-string.c:280-285. *)
Definition is_set (st : state) (f : field) : bool := match fset_ st f with UNSET_ => false | _ => true end.
(** clears postponed_value/length/delim, parse-time-string.c:216-242. *)
Definition no_postponed (st : state) : state := mk_state (val st) (fset_ st) (last st) (delim st) 0 0 NUL.
(** records how a field was set, parse-time-string.c:288-327. *)
Definition mark (st : state) (f : field) (k : fset) : state :=
  mk_state (val st) (upd (fset_ st) f k) (last st) (delim st) (plen st) (pval st) (pdelim st).
(** the end of set_field and of add_to_field: unset_delim, the value, last_field. *)
Definition put (st : state) (f : field) (v : Z) : state :=
  mk_state (upd (val st) f v) (fset_ st) (Some f) NUL (plen st) (pval st) (pdelim st).

(** set_field (300-322) when no number is postponed. *)
Definition set_plain (st : state) (f : field) (v : Z) : res state :=
  if is_set st f then Err else Ok (put (mark st f SET_) f v).

(** validity checkers, 385-425. *)
Definition is_valid_12hour (h : Z) : bool := (1 <=? h) && (h <=? 12).
(** parse-time-string.c:392-400. *)
Definition is_valid_time (h m s : Z) : bool :=
  ((h =? 24) && (m =? 0) && (s =? 0)) || ((0 <=? h) && (h <=? 23) && (0 <=? m) && (m <=? 59) && (0 <=? s) && (s <=? 59)).
(** parse-time-string.c:402-406. *)
Definition is_valid_mday (d : Z) : bool := (1 <=? d) && (d <=? 31).
(** parse-time-string.c:408-412. *)
Definition is_valid_mon (m : Z) : bool := (1 <=? m) && (m <=? 12).
(** parse-time-string.c:414-418. *)
Definition is_valid_year (y : Z) : bool := 1970 <=? y.

(** setting several fields in turn; set_abs_time (430-451) and set_abs_date (454-475) with
    the UNSET arguments left out. *)
Fixpoint set_all (set : state -> field -> Z -> res state) (st : state) (l : list (field * Z)) : res state :=
  match l with
  | [] => Ok st
  | (f, v) :: l' => do st' <- set st f v; set_all set st' l'
  end.
(** set_user_tz, 827-841. *)
Definition user_tz (sign : byte) (hour min : Z) : option Z :=
  if (hour <? 0) || (14 <? hour) || (min <? 0) || (59 <? min) || negb (min mod 15 =? 0) then None
  else let tz := hour * 60 + min in Some (if beq sign "-"%char then - tz else tz).

(** parse_postponed_number, 848-910.  The number is consumed first, so the nested set_field
    calls find none. *)
Definition parse_postponed (st0 : state) : res state :=
  if plen st0 =? 0 then Ok st0
  else
    let v := pval st0 in let n := plen st0 in let d := pdelim st0 in let st := no_postponed st0 in
    if (n =? 1) || (n =? 2) then
      if match last st with Some MON => true | _ => false end then
        if is_valid_mday v then set_plain st MDAY v else Err
      else if (n =? 2) && (beq d "+"%char || beq d "-"%char) then
        match user_tz d v 0 with Some tz => set_plain st TZ tz | None => Err end
      else Err
    else if n =? 4 then
      if negb (is_valid_year v) then
        if beq d "+"%char || beq d "-"%char then
          match user_tz d (v / 100) (v mod 100) with Some tz => set_plain st TZ tz | None => Err end
        else Err
      else set_plain st YEAR v
    else if n =? 6 then
      let h := v / 10000 in let m := v / 100 mod 100 in let s := v mod 100 in
      if is_valid_time h m s then set_all set_plain st [(HOUR, h); (MIN, m); (SEC, s)] else Err
    else if n =? 8 then
      let y := v / 10000 in let m := v / 100 mod 100 in let d := v mod 100 in
      if is_valid_year y && is_valid_mon m && is_valid_mday d then set_all set_plain st [(YEAR, y); (MON, m); (MDAY, d)] else Err
    else Err.

(** set_postponed_number, 244-260. *)
Definition set_postponed (st : state) (v n : Z) : res state :=
  let d := delim st in
  do st' <- parse_postponed st;
  Ok (mk_state (val st') (fset_ st') (last st') (delim st') n v d).

(** set_field, 300-322. *)
Definition set_field (st : state) (f : field) (v : Z) : res state :=
  if is_set st f then Err
  else do st' <- parse_postponed (mark st f SET_); Ok (put st' f v).
(** add_to_field, 348-368. *)
Definition add_to_field (st : state) (f : field) (v : Z) : res state :=
  do st' <- parse_postponed (mark st f SET_);
  if fits_int (val st' f + v) then Ok (put st' f (val st' f + v)) else Undef.
(** set_fields_to_now, 330-344. *)
Fixpoint set_now (st : state) (l : list field) : res state :=
  match l with
  | [] => Ok st
  | f :: l' => do st' <- set_field st f 0; set_now (mark st' f NOW_) l'
  end.

(** ** Keywords, 478-488 and 629-720. *)
Inductive setter := K_FIELD | K_REL | K_NUMBER | K_MONTH | K_AMPM | K_TIMEOFDAY | K_TODAY | K_NOW | K_ORDINAL | K_IGNORE.
(** struct keyword, parse-time-string.c:483-488. *)
Record keyword := mk_kw { kw_name : bytes; kw_case : bool; kw_field : field; kw_value : Z; kw_set : setter }.
(** constructor shorthand for the table at parse-time-string.c:629-720. *)
Definition K (s : String.string) (f : field) (v : Z) (k : setter) : keyword := mk_kw (lit s) false f v k.
(** The field of TM_NONE entries is not used. *)
Definition keywords : list keyword := [
  K "sun|day" WDAY 0 K_FIELD; K "mon|day" WDAY 1 K_FIELD; K "tue|sday" WDAY 2 K_FIELD; K "wed|nesday" WDAY 3 K_FIELD;
  K "thu|rsday" WDAY 4 K_FIELD; K "fri|day" WDAY 5 K_FIELD; K "sat|urday" WDAY 6 K_FIELD;
  K "jan|uary" MON 1 K_MONTH; K "feb|ruary" MON 2 K_MONTH; K "mar|ch" MON 3 K_MONTH; K "apr|il" MON 4 K_MONTH;
  K "may" MON 5 K_MONTH; K "jun|e" MON 6 K_MONTH; K "jul|y" MON 7 K_MONTH; K "aug|ust" MON 8 K_MONTH;
  K "sep|tember" MON 9 K_MONTH; K "oct|ober" MON 10 K_MONTH; K "nov|ember" MON 11 K_MONTH; K "dec|ember" MON 12 K_MONTH;
  K "y|ears" RYEAR 1 K_REL; K "mo|nths" RMON 1 K_REL; mk_kw (lit "M") true RMON 1 K_REL; K "w|eeks" RWEEK 1 K_REL;
  K "d|ays" RDAY 1 K_REL; K "h|ours" RHOUR 1 K_REL; K "hr|s" RHOUR 1 K_REL; K "mi|nutes" RMIN 1 K_REL;
  K "mins" RMIN 1 K_REL; mk_kw (lit "m") true RMIN 1 K_REL; K "s|econds" RSEC 1 K_REL; K "secs" RSEC 1 K_REL;
  K "one" SEC 1 K_NUMBER; K "two" SEC 2 K_NUMBER; K "three" SEC 3 K_NUMBER; K "four" SEC 4 K_NUMBER;
  K "five" SEC 5 K_NUMBER; K "six" SEC 6 K_NUMBER; K "seven" SEC 7 K_NUMBER; K "eight" SEC 8 K_NUMBER;
  K "nine" SEC 9 K_NUMBER; K "ten" SEC 10 K_NUMBER; K "dozen" SEC 12 K_NUMBER; K "hundred" SEC 100 K_NUMBER;
  K "this" SEC 0 K_NUMBER; K "last" SEC 1 K_NUMBER;
  K "yesterday" RDAY 1 K_REL; K "today" SEC 0 K_TODAY; K "now" SEC 0 K_NOW; K "noon" SEC 12 K_TIMEOFDAY;
  K "midnight" SEC 0 K_TIMEOFDAY; K "am" AMPM 0 K_AMPM; K "a.m." AMPM 0 K_AMPM; K "pm" AMPM 1 K_AMPM; K "p.m." AMPM 1 K_AMPM;
  K "st" SEC 0 K_ORDINAL; K "nd" SEC 0 K_ORDINAL; K "rd" SEC 0 K_ORDINAL; K "th" SEC 0 K_ORDINAL; K "ago" SEC 0 K_IGNORE;
  K "pst" TZ (-480) K_FIELD; K "mst" TZ (-420) K_FIELD; K "cst" TZ (-360) K_FIELD; K "est" TZ (-300) K_FIELD;
  K "ast" TZ (-240) K_FIELD; K "nst" TZ (-210) K_FIELD; K "gmt" TZ 0 K_FIELD; K "utc" TZ 0 K_FIELD; K "wet" TZ 0 K_FIELD;
  K "cet" TZ 60 K_FIELD; K "eet" TZ 120 K_FIELD; K "fet" TZ 180 K_FIELD; K "wat" TZ 60 K_FIELD; K "cat" TZ 120 K_FIELD;
  K "eat" TZ 180 K_FIELD ].

(** match_keyword, 742-778: the number of matching characters, 0 for no match. *)
Definition isalpha (c : byte) : bool := isupper c || islower c.
(** parse-time-string.c:742-779. *)
Fixpoint match_keyword (mcase pm : bool) (s kw : bytes) (n : nat) : nat :=
  match kw with
  | [] => if isalpha (peek s) then 0%nat else n
  | k :: kw' =>
      if beq k "|"%char then match_keyword mcase true s kw' n
      else if negb (isalpha (peek s)) then (if pm then n else 0%nat)
      else if (if mcase then beq (peek s) k else beq (tolower (peek s)) (tolower k))
      then match_keyword mcase pm (tl s) kw' (S n)
      else 0%nat
  end.
(** match with the | and - marks, parse-time-string.c:742-779. *)
Definition kw_match (s : bytes) (kw : keyword) : nat := match_keyword (kw_case kw) false s (kw_name kw) 0.
(** table scan of parse_keyword, parse-time-string.c:784-823. *)
Fixpoint find_keyword (l : list keyword) (s : bytes) : option (keyword * nat) :=
  match l with
  | [] => None
  | kw :: l' => match kw_match s kw with O => find_keyword l' s | n => Some (kw, n) end
  end.

(** the setters, 493-625. *)
Definition kw_apply (st : state) (kw : keyword) : res state :=
  match kw_set kw with
  | K_FIELD => set_field st (kw_field kw) (kw_value kw)
  | K_REL =>
      let mult := if plen st =? 0 then 1 else pval st in
      if fits_int (mult * kw_value kw) then add_to_field (no_postponed st) (kw_field kw) (mult * kw_value kw) else Undef
  | K_NUMBER => set_postponed st (kw_value kw) (-1)
  | K_MONTH =>
      do st' <- (if (plen st =? 1) || (plen st =? 2) then
                   if is_valid_mday (pval st) then set_field (no_postponed st) MDAY (pval st) else Err
                 else Ok st);
      set_field st' (kw_field kw) (kw_value kw)
  | K_AMPM =>
      do st' <- (if (plen st =? 1) || (plen st =? 2) then
                   if is_valid_12hour (pval st) then set_all set_field (no_postponed st) [(HOUR, pval st); (MIN, 0); (SEC, 0)] else Err
                 else Ok st);
      set_field st' (kw_field kw) (kw_value kw)
  | K_TIMEOFDAY => set_all set_field st [(HOUR, kw_value kw); (MIN, 0); (SEC, 0)]
  | K_TODAY => set_now st [YEAR; MON; MDAY]
  | K_NOW => set_now st [HOUR; MIN; SEC]
  | K_ORDINAL =>
      if plen st =? 0 then Err
      else if negb ((plen st =? 1) || (plen st =? 2)) then Err
      else
        let v := pval st in
        if bseq (kw_name kw) (lit "st") && negb ((v =? 1) || (v =? 21) || (v =? 31)) then Err
        else if bseq (kw_name kw) (lit "nd") && negb ((v =? 2) || (v =? 22)) then Err
        else if bseq (kw_name kw) (lit "rd") && negb ((v =? 3) || (v =? 23)) then Err
        else if bseq (kw_name kw) (lit "th") && negb (is_valid_mday v) then Err
        else set_field (no_postponed st) MDAY v
  | K_IGNORE => Ok st
  end.
(** parse_keyword, 784-821. *)
Definition parse_keyword (st : state) (s : bytes) : res (state * bytes) :=
  match find_keyword keywords s with
  | None => Err
  | Some (kw, n) => do st' <- kw_apply st kw; Ok (st', skipn n s)
  end.

(** ** Numbers. *)
(** set_timestamp, 914-937 (the loop goes from seconds to years). *)
Definition set_timestamp (st : state) (t : Z) : res state :=
  match gmtime t with
  | None => Err
  | Some b => if negb (fits_int (t_year b)) then Undef else
              set_all set_field st [(SEC, t_sec b); (MIN, t_min b); (HOUR, t_hour b); (MDAY, t_mday b);
                                    (MON, t_mon b); (YEAR, t_year b); (TZ, 0)]
  end.
(** unsigned long to time_t. *)
Definition to_time_t (v : Z) : Z := if v <? 2 ^ 63 then v else v - 2 ^ 64.
(** parse_single_number, 940-953. *)
Definition parse_single_number (st : state) (v n : Z) : res state :=
  if beq (delim st) "@"%char then set_timestamp st (to_time_t v)
  else if int_max <? v then Err
  else set_postponed st v n.
(** parse-time-string.c:961-965. *)
Definition is_date_sep (c : byte) : bool := beq c "/"%char || beq c "-"%char || beq c "."%char.
(** parse-time-string.c:967-971. *)
Definition is_sep (c : byte) : bool := beq c ":"%char || is_date_sep c.
(** expand_year, 975-985 (None is UNSET). *)
Definition expand_year (year n : Z) : option Z :=
  if n =? 2 then Some ((if year <? 70 then 2000 else 1900) + year) else if n =? 4 then Some year else None.
(** set a field unless UNSET, parse-time-string.c:430-475. *)
Definition opt_field (f : field) (v : option Z) : list (field * Z) := match v with Some v => [(f, v)] | None => [] end.
(** validate unless UNSET, parse-time-string.c:392-427. *)
Definition opt_valid (p : Z -> bool) (v : option Z) : bool := match v with Some v => p v | None => true end.
(** one or two digits, parse-time-string.c:988-1058. *)
Definition one_or_two (n : Z) : bool := (n =? 1) || (n =? 2).
(** no, two or four digits, parse-time-string.c:988-1058. *)
Definition zero_two_four (n : Z) : bool := (n =? 0) || (n =? 2) || (n =? 4).
(** parse_date, 988-1058. *)
Definition date_fields (sep : byte) (v1 v2 v3 n1 n2 n3 : Z) : option (option Z * option Z * option Z) :=
  if beq sep "/"%char then
    if negb (one_or_two n1) then None
    else if one_or_two n2 && zero_two_four n3 then Some (expand_year v3 n3, Some v1, Some v2)
    else if (n2 =? 4) && (n3 =? 0) then Some (Some v2, Some v1, None)
    else None
  else if beq sep "-"%char then
    if (n1 =? 4) && (n2 =? 2) && ((n3 =? 0) || (n3 =? 2)) then
      Some (Some v1, Some v2, if n3 =? 0 then None else Some v3)
    else if (n1 =? 2) && (n2 =? 2) && zero_two_four n3 then Some (expand_year v3 n3, Some v2, Some v1)
    else if (n1 =? 2) && (n2 =? 4) && (n3 =? 0) then Some (Some v2, Some v1, None)
    else None
  else
    if negb (one_or_two n1) || negb (one_or_two n2) || negb (zero_two_four n3) then None
    else Some (expand_year v3 n3, Some v2, Some v1).
(** parse-time-string.c:988-1058. *)
Definition parse_date (st : state) (sep : byte) (v1 v2 v3 n1 n2 n3 : Z) : res state :=
  match date_fields sep v1 v2 v3 n1 n2 n3 with
  | None => Err
  | Some (y, m, d) =>
      if opt_valid is_valid_year y && opt_valid is_valid_mon m && opt_valid is_valid_mday d
      then set_all set_field st (opt_field YEAR y ++ opt_field MON m ++ opt_field MDAY d)
      else Err
  end.
(** parse_time, 1061-1094. *)
Definition parse_time (st : state) (v1 v2 v3 n1 n2 n3 : Z) : res state :=
  if negb (one_or_two n1) || negb (n2 =? 2) || negb ((n3 =? 0) || (n3 =? 2)) then Err
  else if is_set st HOUR && is_set st MIN && (n1 =? 2) && (n3 =? 0) && (beq (delim st) "+"%char || beq (delim st) "-"%char)
  then match user_tz (delim st) v1 v2 with Some tz => set_field st TZ tz | None => Err end
  else if is_valid_time v1 v2 (if n3 =? 0 then 0 else v3)
  then set_all set_field st ([(HOUR, v1); (MIN, v2)] ++ (if n3 =? 0 then [] else [(SEC, v3)]))
  else Err.
(** strtoul_len, 1097-1104, on a digit: the value (at most ULONG_MAX), the digits, the rest. *)
Definition digits_value (ds : bytes) : Z :=
  fold_left (fun acc c => 10 * acc + (Z.of_N (code c) - 48)) ds 0.
(** parse-time-string.c:1097-1105. *)
Definition strtoul_len (s : bytes) : Z * Z * bytes :=
  let ds := takewhile isdigit s in
  (Z.min (digits_value ds) (2 ^ 64 - 1), Z.of_nat (List.length ds), dropwhile isdigit s).
(** parse_number, 1110-1146. *)
Definition parse_number (st : state) (s : bytes) : res (state * bytes) :=
  let '(v1, n1, p) := strtoul_len s in
  if negb (is_sep (peek p)) || negb (isdigit (peek (tl p))) then
    do st' <- parse_single_number st v1 n1; Ok (st', p)
  else
    let sep := peek p in
    let '(v2, n2, p2) := strtoul_len (tl p) in
    let '(v3, n3, p3) := if beq (peek p2) sep && isdigit (peek (tl p2)) then strtoul_len (tl p2) else (0, 0, p2) in
    do st' <- (if beq sep ":"%char then parse_time st v1 v2 v3 n1 n2 n3 else parse_date st sep v1 v2 v3 n1 n2 n3);
    Ok (st', p3).

(** parse_delim, 1155-1170. *)
Definition set_delim (st : state) (c : byte) : state :=
  mk_state (val st) (fset_ st) (last st) c (plen st) (pval st) (pdelim st).
(** parse-time-string.c:1155-1170. *)
Fixpoint parse_delim (st : state) (s : bytes) : state * bytes :=
  match s with
  | [] => (st, [])
  | c :: s' => if isalnum c then (st, s) else parse_delim (set_delim st c) s'
  end.

(** parse_input, 1176-1208; every round consumes something, so the fuel is the length. *)
Fixpoint parse_loop (fuel : nat) (st : state) (s : bytes) : res state :=
  match s with
  | [] => parse_postponed st
  | c :: _ =>
      match fuel with
      | O => Err
      | S f =>
          do p <- (if isalpha c then parse_keyword st s
                   else if isdigit c then parse_number st s
                   else Ok (parse_delim st s));
          parse_loop f (fst p) (snd p)
      end
  end.
(** parse-time-string.c:1176-1216. *)
Definition parse_input (s : bytes) : res state := parse_loop (List.length s) init s.

(** ** Output. *)
Inductive rounding := ROUND_DOWN | NO_ROUND | ROUND_UP | ROUND_UP_INCLUSIVE.
(** round == UP or UP_INCLUSIVE, parse-time-string.c:1326-1490. *)
Definition rounds_up (r : rounding) : bool := match r with ROUND_UP | ROUND_UP_INCLUSIVE => true | _ => false end.
(** round == PARSE_TIME_NO_ROUND. *)
Definition no_round (r : rounding) : bool := match r with NO_ROUND => true | _ => false end.
(** round == PARSE_TIME_ROUND_UP_INCLUSIVE, parse-time-string.c:1326-1490. *)
Definition inclusive (r : rounding) : bool := match r with ROUND_UP_INCLUSIVE => true | _ => false end.

(** tm_get_field, 1274-1292. *)
Definition tm_get (b : tm) (f : field) : Z :=
  match f with SEC => t_sec b | MIN => t_min b | HOUR => t_hour b | MDAY => t_mday b | MON => t_mon b | YEAR => t_year b
             | WDAY => t_wday b | _ => 0 end.
(** initialize_now, 1219-1247. *)
Definition initialize_now (off now : Z) (st : state) : option tm :=
  if is_set st TZ then gmtime (now + val st TZ * 60) else localtime off now.
(** order of next_abs_field, parse-time-string.c:153-158. *)
Definition abs_fields : list field := [SEC; MIN; HOUR; MDAY; MON; YEAR].
(** 1341-1347. *)
Definition fill_now (st : state) (b : tm) : state :=
  fold_left (fun st f => match fset_ st f with
                         | NOW_ => mk_state (upd (val st) f (tm_get b f)) (upd (fset_ st) f SET_)
                                            (last st) (delim st) (plen st) (pval st) (pdelim st)
                         | _ => st
                         end) abs_fields st.
(** 1356-1371. *)
Definition weekday (st : state) (b : tm) : res state :=
  if is_set st WDAY && negb (is_set st MDAY) then
    let wday := val st WDAY in let today := t_wday b in
    let rel_days := if wday <? today then today - wday else today + 7 - wday in
    do st' <- add_to_field st RDAY rel_days;
    Ok (mk_state (upd (val st') WDAY 0) (upd (fset_ st') WDAY UNSET_) (last st') (delim st') (plen st') (pval st') (pdelim st'))
  else Ok st.
(** fixup_ampm, 1295-1323 (the result of add_to_field is ignored: it cannot fail here). *)
Definition fixup_ampm (st : state) : res state :=
  if negb (is_set st AMPM) then Ok st
  else if negb (is_set st HOUR) then Err
  else
    let hour := val st HOUR in
    if negb (is_valid_12hour hour) then Err
    else
      let hdiff := if negb (val st AMPM =? 0) then (if negb (hour =? 12) then 12 else 0)
                   else (if hour =? 12 then -12 else 0) in
      add_to_field st RHOUR (- hdiff).
(** set_field whose failure (field already set) is ignored. *)
Definition set_if_unset (st : state) (f : field) (v : Z) : state := if is_set st f then st else put (mark st f SET_) f v.
(** the rounding loop, 1381-1416. *)
Definition round_field (b : tm) (acc : state * rounding * rounding) (f : field) : res (state * rounding * rounding) :=
  let '(st, round, week) := acc in
  do acc' <-
    (if no_round round then Ok acc
     else if is_set st f || is_set st (rel f) then
       do st' <- (if rounds_up round && negb (field_eqb f SEC) then
                    do st1 <- add_to_field st (rel f) (-1);
                    if inclusive round then add_to_field st1 RSEC 1 else Ok st1
                  else Ok st);
       Ok (st', NO_ROUND, week)
     else if field_eqb f MDAY && is_set st RWEEK then Ok (st, NO_ROUND, round)
     else Ok (set_if_unset st f (epoch f), round, week));
  let '(st', round', week') := acc' in
  Ok (set_if_unset st' f (tm_get b f), round', week').
(** the rounding loop of create_output, parse-time-string.c:1326-1490. *)
Fixpoint round_fields (b : tm) (acc : state * rounding * rounding) (l : list field) : res (state * rounding * rounding) :=
  match l with
  | [] => Ok acc
  | f :: l' => do acc' <- round_field b acc f; round_fields b acc' l'
  end.
(** int arithmetic: overflow is undefined (C language). *)
Definition int (z : Z) : res Z := if fits_int z then Ok z else Undef.
(** 1431-1438.  The subtractions are done in int. *)
Definition output_tm (st : state) : res tm :=
  do s <- int (val st SEC - val st RSEC);
  do mi <- int (val st MIN - val st RMIN);
  do h <- int (val st HOUR - val st RHOUR);
  do d0 <- int (val st MDAY - val st RDAY);
  do w <- int (7 * val st RWEEK);
  do d <- int (d0 - w);
  do mo0 <- int (val st MON - val st RMON);
  do mo <- int (mo0 - 1);
  do y0 <- int (val st YEAR - val st RYEAR);
  do y <- int (y0 - 1900);
  Ok (mk_tm s mi h d (mo + 1) (y + 1900) 0).
(** create_output, 1326-1487, in steps: before the rounding (1341-1375), ... *)
Definition prep (b : tm) (st : state) : res state := do st1 <- weekday (fill_now st b) b; fixup_ampm st1.
(** ... the week rounding of the output (1450-1470; normalize_tm, 1259-1271), ... *)
Definition week_tail (off : Z) (week : rounding) (t : Z) : res tm :=
  if t =? -1 then Err
  else match localtime off t with
       | None => Err
       | Some n =>
           if rounds_up week then
             Ok (mk_tm (if inclusive week then -1 else 0) 0 0 (t_mday n + 7 - t_wday n) (t_mon n) (t_year n) 0)
           else Ok (mk_tm 0 0 0 (t_mday n - t_wday n) (t_mon n) (t_year n) 0)
       end.
(** week rounding in create_output, parse-time-string.c:1326-1490. *)
Definition week_adjust (off : Z) (week : rounding) (t0 : tm) : res tm :=
  if no_round week then Ok t0 else week_tail off week (mktime off t0).
(** ... the conversion to a time stamp, ... *)
Definition emit (off : Z) (st4 : state) (t1 : tm) : res Z :=
  do t <- (if is_set st4 TZ then
             do mi <- int (t_min t1 - val st4 TZ);
             Ok (timegm (mk_tm (t_sec t1) mi (t_hour t1) (t_mday t1) (t_mon t1) (t_year t1) 0))
           else Ok (mktime off t1));
  if t =? -1 then Err else Ok t.
(** ... and all of it from the rounding loop on. *)
Definition finish (off : Z) (round : rounding) (b : tm) (st2 : state) : res Z :=
  do acc <- round_fields b (st2, round, NO_ROUND) abs_fields;
  let '(st3, _, week) := acc in
  let st4 := if no_round week then st3
             else fold_left (fun st f => set_if_unset st f (tm_get b f)) [SEC; MIN; HOUR; MDAY] st3 in
  do t0 <- output_tm st4;
  do t1 <- week_adjust off week t0;
  emit off st4 t1.
(** parse-time-string.c:1326-1490. *)
Definition create_output (off now : Z) (round : rounding) (st0 : state) : res Z :=
  match initialize_now off now st0 with
  | None => Err
  | Some b => do st2 <- prep b st0; finish off round b st2
  end.
(** parse_time_string, 1492-1510. *)
Definition parse_time_string (off now : Z) (round : rounding) (s : bytes) : res Z :=
  do st <- parse_input s; create_output off now round st.

(** ** lib/parse-time-vrp.cc. *)
(** A bound of a value range: DBL_MIN (the least positive number), DBL_MAX, or a time. *)
Inductive bound := DblMin | DblMax | At (t : Z).
(** does a message with time stamp [ts] lie in the range?  sortable_serialise keeps the order
    (and is exact up to 2^53). *)
Definition above (b : bound) (ts : Z) : bool := match b with DblMin => 0 <? ts | DblMax => false | At t => t <=? ts end.
(** upper end of a Xapian value range, lib/parse-time-vrp.cc:27-83. *)
Definition below (b : bound) (ts : Z) : bool := match b with DblMin => ts <=? 0 | DblMax => true | At t => ts <=? t end.
(** _notmuch_date_strings_to_query, parse-time-vrp.cc:27-68. *)
Definition date_range (off now : Z) (begin_ end_ : bytes) : res (bound * bound) :=
  do from <- (match begin_ with
              | [] => Ok DblMin
              | _ => do t <- parse_time_string off now ROUND_DOWN begin_; Ok (At t)
              end);
  do to <- (match end_ with
            | [] => Ok DblMax
            | _ => let str := if bseq end_ (lit "!") && negb (bseq begin_ []) then begin_ else end_ in
                   do t <- parse_time_string off now ROUND_UP_INCLUSIVE str; Ok (At t)
            end);
  Ok (from, to).
(** DateFieldProcessor, parse-time-vrp.cc:84-107: date:expr. *)
Definition date_single (off now : Z) (s : bytes) : res (bound * bound) :=
  do f <- parse_time_string off now ROUND_DOWN s;
  do t <- parse_time_string off now ROUND_UP_INCLUSIVE s;
  Ok (At f, At t).
(** [in_range]: as above, parse-time-vrp.cc:84-107. *)
Definition in_range (r : bound * bound) (ts : Z) : bool := above (fst r) ts && below (snd r) ts.
