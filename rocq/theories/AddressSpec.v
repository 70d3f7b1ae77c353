(** What the address command should show (doc/man1/notmuch-address.rst). *)
From Verif Require Import Bytes XQuery Thread Reply ReplySpec Address.
Local Open Scope nat_scope.

(** A name (if any) and an address. *)
Definition box := (option bytes * bytes)%type.
Definition box_dec (x y : box) : {x = y} + {x <> y}.
Proof. repeat decide equality. Defined.
(** All mailboxes in the requested headers of the messages, in order. *)
Definition occurrences (headers : list hname) (header : xdoc -> hname -> list address) (l : list xdoc) : list box :=
  concat (map (fun d => concat (map (fun h => boxes (header d h)) headers)) l).
(** Headers wanted: From for the sender (also if nothing is said), To, Cc and Bcc for the
    recipients. *)
Definition wanted (sender recipients : bool) : list hname :=
  match sender, recipients with
  | true, true => [H_FROM; H_TO; H_CC; H_BCC]
  | false, true => [H_TO; H_CC; H_BCC]
  | _, false => [H_FROM]
  end.

(** A list without its repetitions: the first occurrences. *)
Fixpoint firsts (l : list box) : list box :=
  match l with
  | [] => []
  | x :: r => x :: filter (fun y => if box_dec x y then false else true) (firsts r)
  end.
(** How often a mailbox occurs; how often an address does, in any letter case. *)
Definition times (occs : list box) (b : box) : nat := count_occ box_dec occs b.
Definition times_address (occs : list box) (addr : bytes) : nat :=
  length (filter (fun b => bseq (map tolower (snd b)) (map tolower addr)) occs).
(** [b] occurs before any occurrence of [c]. *)
Definition before (occs : list box) (b c : box) : Prop :=
  exists pre post, occs = pre ++ b :: post /\ ~ In c pre.
(** The variant of an address that stands for all: the most frequent, of these the first. *)
Definition favourite (occs : list box) (b : box) : Prop :=
  In b occs /\ forall c, In c occs -> same_but_case (snd c) (snd b) ->
    times occs c < times occs b \/ times occs c = times occs b /\ before occs b c.
