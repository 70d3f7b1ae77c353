(** Independent specifications for the string utilities. *)
From Verif Require Import Bytes.
Local Open Scope N_scope.

Definition is_space_byte (c : byte) : Prop :=
  In (N_of_ascii c) [9; 10; 11; 12; 13; 32].

(** Text form of a query term "prefix:term" (util/string-util.h:50-78): quoted with
    inner quotes doubled, or bare text without blanks, controls or ')'. *)
Inductive doubled : bytes -> bytes -> Prop :=
| dbl_nil : doubled [] []
| dbl_quote t d : doubled t d -> doubled (""""%char :: t) (""""%char :: """"%char :: d)
| dbl_plain c t d : c <> """"%char -> doubled t d -> doubled (c :: t) (c :: d).

Inductive term_text : bytes -> bytes -> Prop :=   (* text, term *)
| tt_quoted t d : doubled t d -> term_text (""""%char :: d ++ [""""%char]) t
| tt_bare t : (forall c, In c t -> 32 < N_of_ascii c /\ c <> ")"%char) ->
    (forall r, t <> """"%char :: r) -> term_text t t.

Definition boolean_term_text (s p t : bytes) : Prop :=
  exists ws1 ws2 body,
    s = ws1 ++ p ++ ":"%char :: body ++ ws2 /\
    Forall is_space_byte ws1 /\ Forall is_space_byte ws2 /\
    p <> [] /\ ~ In ":"%char p /\ (forall c r, p = c :: r -> ~ is_space_byte c) /\
    term_text body t.

(** Splitting a ';'-separated list: a ';' immediately preceded by a backslash
    (inside the same item) does not separate. *)
Fixpoint split_items (prev_backslash : bool) (cur : bytes) (s : bytes) : list bytes :=
  match s with
  | [] => [cur]
  | c :: s' =>
      if Ascii.eqb c ";"%char && negb prev_backslash
      then cur :: split_items false [] s'
      else split_items (Ascii.eqb c "\"%char) (cur ++ [c]) s'
  end.

Definition trim_left (s : bytes) : bytes := dropwhile isspace s.
Definition trim (s : bytes) : bytes := rev (trim_left (rev (trim_left s))).
Definition nonempty (s : bytes) : bool := match s with [] => false | _ => true end.

(** The list a config value stands for. *)
Definition config_list (s : bytes) : list bytes :=
  filter nonempty (map trim (split_items false [] s)).

(** Join with ';'. *)
Fixpoint join_semicolon (vs : list bytes) : bytes :=
  match vs with
  | [] => []
  | [v] => v
  | v :: vs' => v ++ ";"%char :: join_semicolon vs'
  end.

(** Values that can be stored in a list: non-empty, no ';', no blank at either
    end, not ending in a backslash. *)
Definition storable_value (v : bytes) : Prop :=
  v <> [] /\ ~ In ";"%char v /\ isspace (hd NUL v) = false /\
  isspace (last v NUL) = false /\ last v NUL <> "\"%char.
