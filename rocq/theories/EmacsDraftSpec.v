(** What saving and resuming drafts should do, for C85. *)
From Verif Require Import Bytes EmacsDraft.
Local Open Scope nat_scope.

(** MML tags are words. *)
Definition word (t : bytes) : Prop := t <> [] /\ Forall (fun c => isalnum c = true \/ c = "-"%char) t.
(** The same text, or the same but for case. *)
Definition same_text (f : bool) (a b : bytes) : Prop := if f then map tolower a = map tolower b else a = b.
(** Headers that are made anew when a mail is sent. *)
Definition kept (h : bytes * bytes) : bool := negb (same_name (fst h) (lit "Message-ID")) && negb (same_name (fst h) (lit "Date")).
(** No headers of notmuch's own. *)
Definition ordinary (m : mail) : Prop := Forall (fun h => same_name (fst h) (lit "X-Notmuch-Emacs-Draft") = false /\ same_name (fst h) (lit "X-Notmuch-Emacs-Secure") = false) (m_headers m).
(** What asks for encryption: <#part encrypt...> and <#secure ... mode=...encrypt> on a line. *)
Inductive asks_encryption : bytes -> Prop :=
| ask_part a b : asks_encryption (a ++ lit "<#part encrypt" ++ b)
| ask_secure a x y b : ~ In (chr 10) x -> ~ In (chr 10) y -> asks_encryption (a ++ lit "<#secure" ++ x ++ lit "mode=" ++ y ++ lit "encrypt>" ++ b).
(** Drafts that are not tagged deleted. *)
Definition live (d : drafts) : list bytes := flat_map (fun '(i, _, deleted) => if deleted : bool then [] else [i]) (saved d).
Definition ids (d : drafts) : list bytes := map (fun '(i, _, _) => i) (saved d).
Definition new_ids (l : list act) : list bytes := flat_map (fun a => match a with Save i _ _ _ _ _ => [i] | _ => [] end) l.
(** notmuch tag never fails. *)
Definition tags_work (l : list act) : Prop := Forall (fun a => match a with Save _ _ _ _ _ t | Send t _ => t = true end) l.
(** Apart from other drafts, at most the one this buffer knows about. *)
Definition at_most_one (others : list bytes) (d : drafts) : Prop :=
  live d = others \/ exists i, current d = Some i /\ live d = others ++ [i].
