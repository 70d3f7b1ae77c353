(** Specification vocabulary for database features: a feature string is a sequence
    of lines; a line with a tab declares the feature named before the (first) tab,
    required in the modes listed after it. *)
From Verif Require Import Bytes.

(** The eight features this version knows, in order of their number. *)
Definition known_names : list bytes :=
  [lit "multiple paths per message"; lit "relative directory paths";
   lit "from/subject/message-ID in database"; lit "exact folder:/path: search";
   lit "mail documents for missing messages"; lit "indexed MIME types";
   lit "modification tracking"; lit "index body and headers separately"].

(** Lines of a text, split at newlines. *)
Fixpoint text_lines (cur : bytes) (s : bytes) : list bytes :=
  match s with
  | [] => [cur]
  | c :: s' => if Ascii.eqb c (chr 10) then cur :: text_lines [] s' else text_lines (cur ++ [c]) s'
  end.

(** The (name, flags) a line declares, if it has a tab. *)
Fixpoint declared (l : bytes) : option (bytes * bytes) :=
  match l with
  | [] => None
  | c :: l' => if Ascii.eqb c (chr 9) then Some ([], l')
               else match declared l' with Some (n, f) => Some (c :: n, f) | None => None end
  end.

Definition declarations (s : bytes) : list (bytes * bytes) :=
  flat_map (fun l => match declared l with Some d => [d] | None => [] end) (text_lines [] s).

Definition blocks (mode : byte) (d : bytes * bytes) : bool :=
  negb (existsb (bseq (fst d)) known_names) && mem mode (snd d).

(** Names the database requires in this mode that this version does not know. *)
Definition missing (mode : byte) (s : bytes) : list bytes :=
  map fst (filter (blocks mode) (declarations s)).

Fixpoint comma_list (l : list bytes) : bytes :=
  match l with
  | [] => []
  | [x] => x
  | x :: l' => x ++ lit ", " ++ comma_list l'
  end.
