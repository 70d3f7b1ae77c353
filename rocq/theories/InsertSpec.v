(** What delivery must do. *)
From Verif Require Import Bytes Fs Insert.

(** The message as delivered: a leading mbox "From " line becomes a header. *)
Definition delivered (input : bytes) : bytes :=
  match strip_prefix (lit "From ") input with Some rest => lit "X-Envelope-From: " ++ rest | None => input end.
(** The input is what the reads return, up to end of file. *)
Fixpoint input_of (rs : list rd) : bytes :=
  match rs with
  | [] | R_data [] :: _ => []
  | R_data b :: rs => b ++ input_of rs
  | _ :: rs => input_of rs
  end.
(** The bytes of the first read that returns any. *)
Fixpoint first_read (rs : list rd) : bytes :=
  match rs with
  | R_data b :: _ => b
  | R_eintr :: rs => first_read rs
  | _ => []
  end.
(** The components of a path: what is between slashes. *)
Inductive components : bytes -> list bytes -> Prop :=
| comp_one s : ~ In "/"%char s -> components s [s]
| comp_cons s r l : ~ In "/"%char s -> components r l -> components (s ++ "/"%char :: r) (s :: l).
(** Following a path from a directory given by its components, ".." going up. *)
Fixpoint walk (from : list bytes) (cs : list bytes) : list bytes :=
  match cs with
  | [] => from
  | c :: cs => walk (if bseq c [] then from else if bseq c (lit ".") then from else if bseq c (lit "..") then removelast from else from ++ [c]) cs
  end.
