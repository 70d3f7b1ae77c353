(** Model of lib/string-map.c. *)
From Verif Require Import Bytes.
Local Open Scope nat_scope.

(** notmuch_string_pair_t, lib/string-map.c:30-33. *)
Definition pair_t : Type := (bytes * bytes)%type.
(** lib/string-map.c:35-39 struct _notmuch_string_map ([length] is the list's). *)
Record string_map := { sm_sorted : bool; sm_pairs : list pair_t }.

(** lib/string-map.c:47-61 *)
Definition sm_create : string_map := {| sm_sorted := true; sm_pairs := [] |}.
(** lib/string-map.c:63-84 [_notmuch_string_map_append]; the sentinel after the last
    pair is the end of the list. *)
Definition sm_append (m : string_map) (key value : bytes) : string_map :=
  {| sm_sorted := false; sm_pairs := sm_pairs m ++ [(key, value)] |}.

(** lib/string-map.c:86-97 [cmppair]. *)
Definition cmppair (a b : pair_t) : comparison :=
  match bcmp (fst a) (fst b) with Eq => bcmp (snd a) (snd b) | c => c end.

(** qsort (external): insertion sort stands for it; [cmppair] is 0 only on equal
    pairs, so every sorting algorithm gives the same array. *)
Fixpoint insert_pair (x : pair_t) (l : list pair_t) : list pair_t :=
  match l with
  | [] => [x]
  | y :: l' => match cmppair x y with Gt => y :: insert_pair x l' | _ => x :: l end
  end.
(** qsort with cmppair (C library), lib/string-map.c:86-111; a stable order is chosen among equal pairs (SIMPLIFICATION). *)
Definition qsort_pairs (l : list pair_t) : list pair_t := fold_right insert_pair [] l.

(** lib/string-map.c:99-111 [_notmuch_string_map_sort]. *)
Definition sm_sort (m : string_map) : string_map :=
  match sm_pairs m with
  | [] => m
  | _ => if sm_sorted m then m else {| sm_sorted := true; sm_pairs := qsort_pairs (sm_pairs m) |}
  end.

(** lib/string-map.c:113-120 [string_cmp]. *)
Definition string_cmp (a b : bytes) (exact : bool) : comparison :=
  if exact then bcmp a b else bcmp a (firstn (length a) b).

(** default pair for total list access. *)
Definition dflt : pair_t := ([], []).
(** lib/string-map.c:132-140: the loop; [fuel] bounds the iterations. *)
Fixpoint bsearch_loop (fuel : nat) (arr : list pair_t) (key : bytes) (exact : bool) (first last : nat) : nat :=
  match fuel with
  | O => first
  | S f =>
      if Nat.ltb first last then
        let mid := (first + last) / 2 in
        match string_cmp key (fst (nth mid arr dflt)) exact with
        | Gt => bsearch_loop f arr key exact (mid + 1) last
        | _ => bsearch_loop f arr key exact first mid
        end
      else first
  end.
(** lib/string-map.c:122-148 [bsearch_first]: index of the pair found, or NULL. *)
Definition bsearch_first (arr : list pair_t) (key : bytes) (exact : bool) : option nat :=
  match arr with
  | [] => None
  | _ => let first := bsearch_loop (length arr) arr key exact 0 (length arr - 1) in
         match string_cmp key (fst (nth first arr dflt)) exact with
         | Eq => Some first
         | _ => None
         end
  end.

(** store to pairs[i].value, lib/string-map.c:150-166. *)
Fixpoint set_value (i : nat) (v : bytes) (l : list pair_t) : list pair_t :=
  match i, l with
  | _, [] => []
  | O, (k, _) :: l' => (k, v) :: l'
  | S i', p :: l' => p :: set_value i' v l'
  end.
(** lib/string-map.c:150-166 [_notmuch_string_map_set]. *)
Definition sm_set (m : string_map) (key val : bytes) : string_map :=
  let m := sm_sort m in
  match bsearch_first (sm_pairs m) key true with
  | None => sm_append m key val
  | Some i => {| sm_sorted := sm_sorted m; sm_pairs := set_value i val (sm_pairs m) |}
  end.
(** lib/string-map.c:168-181 [_notmuch_string_map_get] (the sorted map is kept). *)
Definition sm_get (m : string_map) (key : bytes) : option bytes * string_map :=
  let m := sm_sort m in
  match bsearch_first (sm_pairs m) key true with
  | None => (None, m)
  | Some i => (Some (snd (nth i (sm_pairs m) dflt)), m)
  end.

(** lib/string-map.c:183-250: an iterator; [None] is current == NULL, otherwise the
    pairs from [current] to the sentinel. *)
Record sm_iterator := { it_key : bytes; it_exact : bool; it_current : option (list pair_t) }.
(** [it_create]: as above, lib/string-map.c:183-250. *)
Definition it_create (m : string_map) (key : bytes) (exact : bool) : sm_iterator :=
  let m := sm_sort m in
  {| it_key := key; it_exact := exact;
     it_current := match bsearch_first (sm_pairs m) key exact with
                   | None => None | Some i => Some (skipn i (sm_pairs m)) end |}.
(** [it_valid]: as above, lib/string-map.c:183-250. *)
Definition it_valid (it : sm_iterator) : bool :=
  match it_current it with
  | None | Some [] => false
  | Some (p :: _) => match string_cmp (it_key it) (fst p) (it_exact it) with Eq => true | _ => false end
  end.
(** [it_next]: as above, lib/string-map.c:183-250. *)
Definition it_next (it : sm_iterator) : sm_iterator :=
  if it_valid it then
    {| it_key := it_key it; it_exact := it_exact it;
       it_current := match it_current it with Some l => Some (tl l) | None => None end |}
  else it.
(** [it_pair]: as above, lib/string-map.c:183-250. *)
Definition it_pair (it : sm_iterator) : option pair_t :=
  if it_valid it then match it_current it with Some (p :: _) => Some p | _ => None end else None.
(** The loop "for (; valid; next) use key, value". *)
Fixpoint it_loop (fuel : nat) (it : sm_iterator) : list pair_t :=
  match fuel with
  | O => []
  | S f => match it_pair it with
           | None => []
           | Some p => p :: it_loop f (it_next it)
           end
  end.
(** all pairs an iterator yields. *)
Definition it_all (it : sm_iterator) : list pair_t :=
  match it_current it with None => [] | Some l => it_loop (S (length l)) it end.
