(** What the headers of a message are, in terms of its file (C65). *)
From Verif Require Import Bytes ReplySpec.
Local Open Scope nat_scope.

(** The raw values of the headers with the given name (upper or lower case), in order. *)
Inductive instances (header : bytes) : list (bytes * bytes) -> list bytes -> Prop :=
| in_nil : instances header [] []
| in_same n v hs vs : same_but_case n header -> instances header hs vs -> instances header ((n, v) :: hs) (v :: vs)
| in_other n v hs vs : ~ same_but_case n header -> instances header hs vs -> instances header ((n, v) :: hs) vs.

Definition concatenated (header : bytes) : Prop :=
  same_but_case header (lit "received") \/ same_but_case header (lit "delivered-to").

(** Texts with one space between them. *)
Fixpoint spaced (l : list bytes) : bytes :=
  match l with
  | [] => []
  | [x] => x
  | x :: l' => x ++ lit " " ++ spaced l'
  end.

Section S.
Variable decode : bytes -> option bytes.

(** The value of a header of a file with headers [hs]: [None] is no answer. *)
Inductive header_value (hs : list (bytes * bytes)) (header : bytes) : option bytes -> Prop :=
| hv_absent : instances header hs [] -> header_value hs header (Some [])
| hv_first v vs : ~ concatenated header -> instances header hs (v :: vs) -> header_value hs header (decode v)
| hv_all v vs ds : concatenated header -> instances header hs (v :: vs) -> map decode (v :: vs) = map Some ds ->
    header_value hs header (Some (spaced ds))
| hv_after_bad pre v post ds : concatenated header -> instances header hs (pre ++ v :: post) ->
    decode v = None -> map decode post = map Some ds ->
    header_value hs header (Some (spaced ds)).

Definition file_value (f : option (list (bytes * bytes))) (header : bytes) (r : option bytes) : Prop :=
  match f with
  | None => r = None
  | Some hs => header_value hs header r
  end.
End S.

Definition absent (r : option bytes) : Prop := r = None \/ r = Some [].

(** The path [p] is below the directory [root]. *)
Definition below (root p : bytes) : Prop := exists rest, p = root ++ lit "/" ++ rest.
