(** Independent specification of replies (doc/man1/notmuch-reply.rst). *)
From Verif Require Import Bytes Reply.
Local Open Scope nat_scope.

(** Equal but for the case of letters. *)
Definition same_but_case (a b : bytes) : Prop := map tolower a = map tolower b.
(** One of the user's configured addresses. *)
Definition configured (u : accounts) (a : bytes) : Prop := a = a_primary u \/ In a (a_other u).
Definition own (u : accounts) (a : bytes) : Prop := a <> [] /\ exists o, configured u o /\ same_but_case o a.

(** The mailboxes of a header in order, groups opened. *)
Fixpoint boxes_of (a : address) : list (option bytes * bytes) :=
  match a with
  | Mailbox n x => [(n, x)]
  | Group l => concat (map boxes_of l)
  end.
Definition boxes (l : list address) : list (option bytes * bytes) := concat (map boxes_of l).

(** [keep P l r]: [r] is [l] without the members that fail [P]. *)
Inductive keep {A} (P : A -> Prop) : list A -> list A -> Prop :=
| k_nil : keep P [] []
| k_yes x l r : P x -> keep P l r -> keep P (x :: l) (x :: r)
| k_no x l r : ~ P x -> keep P l r -> keep P (x :: l) r.
Definition as_recipients (t : rtype) (l : list (option bytes * bytes)) : list recipient :=
  map (fun b => {| r_type := t; r_name := fst b; r_addr := snd b |}) l.
(** The other people's addresses of a header, as recipients of the given type. *)
Definition others (u : accounts) (t : rtype) (l : list address) (rs : list recipient) : Prop :=
  exists bs, keep (fun b => ~ own u (snd b)) (boxes l) bs /\ rs = as_recipients t bs.
(** The first of the user's own addresses. *)
Definition first_own (u : accounts) (l : list address) (from : option bytes) : Prop :=
  match from with
  | None => forall b, In b (boxes l) -> ~ own u (snd b)
  | Some a => exists pre n post, boxes l = pre ++ (n, a) :: post /\ own u a /\ forall b, In b pre -> ~ own u (snd b)
  end.

(** Whom a reply to the sender addresses: Reply-To if there is one, unless its only address
    is already among the recipients of the message. *)
Definition sender_is (m : mime) (l : list address) : Prop :=
  (m_reply_to m = [] /\ l = m_from m) \/
  (m_reply_to m <> [] /\
   ((exists n n' a, m_reply_to m = [Mailbox n a] /\ In (Mailbox n' a) (m_to m ++ m_cc m ++ m_bcc m)) /\ l = m_from m \/
    ~ (exists n n' a, m_reply_to m = [Mailbox n a] /\ In (Mailbox n' a) (m_to m ++ m_cc m ++ m_bcc m)) /\ l = m_reply_to m)).

(** Quoted text: every line is preceded by "> ", carriage returns are left out. *)
Fixpoint lines_of (cur : bytes) (s : bytes) : list bytes :=
  match s with
  | [] => match cur with [] => [] | _ => [cur] end
  | c :: r => if beq c (chr 10) then (cur ++ [c]) :: lines_of [] r else lines_of (cur ++ [c]) r
  end.
Definition no_cr (s : bytes) : bytes := filter (fun c => negb (beq c (chr 13))) s.
Definition quoted (s : bytes) : bytes := concat (map (fun l => lit "> " ++ no_cr l) (lines_of [] s)).

(** The first member of a list with a property. *)
Definition first_such {A} (P : A -> Prop) (l : list A) (res : option A) : Prop :=
  match res with
  | Some x => exists pre post, l = pre ++ x :: post /\ P x /\ Forall (fun y => ~ P y) pre
  | None => Forall (fun y => ~ P y) l
  end.
(** [part] occurs in [text], but for case. *)
Definition occurs (part text : bytes) : Prop := exists a q b, text = a ++ q ++ b /\ same_but_case part q.
(** The configured address found in a header ([None]: no such header). *)
Definition mentioned (u : accounts) (text : option bytes) (res : option bytes) : Prop :=
  match text with
  | None | Some [] => res = None
  | Some t => first_such (fun a => occurs a t) (a_primary u :: a_other u) res
  end.
(** Host names: labels separated by dots. *)
Fixpoint host_of (labels : list bytes) : bytes :=
  match labels with [] => [] | [l] => l | l :: r => l ++ "."%char :: host_of r end.
(** The first word of a text. *)
Definition first_word_is (text word : bytes) : Prop :=
  exists blanks rest, text = blanks ++ word ++ rest /\ word <> [] /\
    (forall c, In c blanks -> c = " "%char \/ c = chr 9) /\
    (forall c, In c word -> ~ (c = " "%char \/ c = chr 9)) /\
    (rest = [] \/ exists c r, rest = c :: r /\ (c = " "%char \/ c = chr 9)).
