(** Numbers as users write them. *)
From Verif Require Import Bytes.
Local Open Scope Z_scope.

Definition digits_value (ds : bytes) : Z :=
  fold_left (fun acc c => 10 * acc + (Z.of_N (N_of_ascii c) - 48)) ds 0.
Definition digit_run (ds : bytes) : Prop :=
  ds <> [] /\ Forall (fun c => 48 <= Z.of_N (N_of_ascii c) <= 57) ds.

(** An optional sign and digits. *)
Definition number_text (s : bytes) (z : Z) : Prop :=
  exists ds, digit_run ds /\
    ((s = ds /\ z = digits_value ds) \/ (s = "+"%char :: ds /\ z = digits_value ds) \/
     (s = "-"%char :: ds /\ z = - digits_value ds)).

(** The revision a bound stands for: negative numbers count back from the current one. *)
Definition bound (current z : Z) : Z := if z <? 0 then current + z else z.

Definition in_long (z : Z) : Prop := - 2 ^ 63 <= z < 2 ^ 63.
