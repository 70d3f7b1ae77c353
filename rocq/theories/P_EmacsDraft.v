(** C85: drafts in the Emacs front end. *)
From Verif Require Import Bytes EmacsDraft EmacsDraftSpec EmacsDraftProofs.
Local Open Scope nat_scope.

(** Saving a mail and resuming it gives the same body (MML tags, quoted tags and the line that
    asks for encryption included) and the same headers, but for Message-ID and Date. *)
Theorem C85_round_trip f tags id date m : Forall word tags -> ordinary m ->
  resume_text f tags (save_text f tags id date m) = {| m_headers := filter kept (m_headers m); m_body := m_body m |}.
Proof. apply round_trip. Qed.

(** What is saved contains none of the chosen tags, so that none is acted upon (as an attachment
    that is read now, for instance). *)
Theorem C85_hidden f tags id date m t t' a r : Forall word tags -> In t tags -> same_text f t t' ->
  m_body (save_text f tags id date m) <> a ++ lit "<#" ++ t' ++ r /\ m_body (save_text f tags id date m) <> a ++ lit "<#/" ++ t' ++ r.
Proof.
  intros W I S. rewrite save_body. assert (H := hidden f tags W _ _ (le_n (length match secure_line f (m_body m) with Some (_, rest) => rest | None => m_body m end)) a).
  assert (T := tag_at_same f tags t t' r I S). split; intros E.
  - specialize (H (t' ++ r) E). unfold slash_tag in H. rewrite T in H. discriminate H.
  - specialize (H (chr 47 :: t' ++ r) E). unfold slash_tag in H. rewrite T in H. cbn in H. rewrite orb_true_r in H. discriminate H.
Qed.

(** A mail that asks for encryption is saved only if the user agreed. *)
Theorem C85_consent f tags p d id date m yes insert_works tag_works : asks_encryption (m_body m) ->
  step f tags p d (Save id date m yes insert_works tag_works) <> d -> p = Always \/ (p = Ask /\ yes = true).
Proof.
  intros A N. cbn [step] in N. rewrite (asks_has f _ A) in N. destruct p; cbn [allowed negb andb] in N; [now destruct N| |auto]. destruct yes; [auto|now destruct N].
Qed.

(** However often a mail is saved, whatever fails (but tagging), at most one draft of it is left, the last
    one saved; the drafts of other mails are not touched.  Nothing is left once it was sent. *)
Theorem C85_one_draft f tags p others d l :
  at_most_one others d -> match current d with Some i => In i (ids d) /\ ~ In i others | None => True end ->
  tags_work l -> NoDup (new_ids l) -> (forall i, In i (new_ids l) -> ~ In i (ids d) /\ ~ In i others) ->
  let d1 := run f tags p d l in
  at_most_one others d1 /\
  (forall i date m yes insert_works, ~ In i (ids d) -> ~ In i others -> ~ In i (new_ids l) ->
     let d2 := step f tags p d1 (Save i date m yes insert_works true) in
     d2 = d1 \/ (live d2 = others ++ [i] /\ In (i, save_text true tags i date m, false) (saved d2))) /\
  (forall transport_works, live (step f tags p d1 (Send true transport_works)) = others).
Proof.
  intros M T W ND F d1. destruct (run_inv f tags p others l d M T W ND F) as (M1 & T1 & I1). fold d1 in M1, T1, I1. split; [exact M1|]. split.
  - intros i date m yes ins N1 N2 N3 d2. destruct (save_live f tags p others d1 i date m yes ins M1 T1) as [E|(L & _ & _ & S)]; auto. intros X. apply I1 in X as [X|X]; contradiction.
  - intros tr. apply (send_live f tags p others d1 tr M1 T1).
Qed.

(** When tagging fails after a draft was saved, the buffer does not know about it: the next
    version is saved beside it, and both stay. *)
Theorem C85_tag_fails_refuted : exists l m, let d := run true [] Always {| saved := []; current := None; sent := false |} l in
  l = [Save (lit "1") [] m true true true; Save (lit "2") [] m true true false; Save (lit "3") [] m true true true] /\ live d = [lit "2"; lit "3"].
Proof. eexists _, {| m_headers := []; m_body := lit "x" |}. split; [reflexivity|]. reflexivity. Qed.
(** The draft is tagged deleted before the mail is sent: if sending fails, there is neither a draft nor
    a sent mail. *)
Theorem C85_send_fails_refuted : exists m, let d := run true [] Always {| saved := []; current := None; sent := false |} [Save (lit "1") [] m true true true; Send true false] in
  live d = [] /\ sent d = false.
Proof. exists {| m_headers := []; m_body := lit "x" |}. split; reflexivity. Qed.
(** Tags that ask for encryption and are not noticed: the mail is saved although the user said never. *)
Theorem C85_consent_refuted : forall b, In b [lit "<#secure method=pgpmime mode=encrypt sender=me@x>"; lit "<#part type=text/plain encrypt=pgpmime>"] ->
  exists m, m_body m = b ++ [NL] ++ lit "secret" /\
    live (step true [] Never {| saved := []; current := None; sent := false |} (Save (lit "1") [] m false true true)) = [lit "1"].
Proof. intros b [<-|[<-|[]]]; eexists {| m_headers := []; m_body := _ |}; split; reflexivity. Qed.
(** Saving does not look at case, resuming does if case-fold-search is nil: a tag in capitals stays quoted. *)
Theorem C85_case_refuted : exists m, ordinary m /\ m_body (resume_text false [lit "part"] (save_text true [lit "part"] (lit "1") [] m)) <> m_body m.
Proof. exists {| m_headers := []; m_body := lit "<#PART>" |}. split; [constructor|]. intros H. discriminate H. Qed.

(** ** Examples *)
Example tags2 : list bytes := [lit "part"; lit "multipart"].
Example words2 : Forall word tags2.
Proof. unfold tags2, word. repeat constructor; discriminate. Qed.
Example letter : mail := {| m_headers := [(lit "To", lit "a@x"); (lit "date", lit "yesterday")]; m_body := lit "<#secure method=pgpmime mode=signencrypt>" ++ [NL] ++ lit "see <#part filename=x><#/PART> and <#!part> and <#partial> <#!/mml>" |}.
Example letter_saved : save_text true tags2 (lit "i") (lit "now") letter =
  {| m_headers := [(lit "To", lit "a@x"); (lit "Message-ID", lit "<i>"); (lit "Date", lit "now"); (DRAFT, lit "True"); (SECURE, lit "<#secure method=pgpmime mode=signencrypt>")];
     m_body := lit "see <#!part filename=x><#!/PART> and <#!!part> and <#!partial> <#!/mml>" |}.
Proof. reflexivity. Qed.
Example letter_resumed : resume_text true tags2 (save_text true tags2 (lit "i") (lit "now") letter) = {| m_headers := [(lit "To", lit "a@x")]; m_body := m_body letter |}.
Proof. rewrite C85_round_trip; [reflexivity|exact words2|]. repeat constructor. Qed.
Example letter_asks : asks_encryption (m_body letter).
Proof. apply (ask_secure [] (lit " method=pgpmime ") (lit "sign") (NL :: lit "see <#part filename=x><#/PART> and <#!part> and <#partial> <#!/mml>")); cbn; intros H; repeat (destruct H as [H|H]; [discriminate H|]); exact H. Qed.
Example letter_refused : step true tags2 Never {| saved := []; current := None; sent := false |} (Save (lit "i") (lit "now") letter true true true) = {| saved := []; current := None; sent := false |}.
Proof. reflexivity. Qed.
(** A resumed draft, saved twice, once in vain, and sent; another draft stays. *)
Example history : let m := {| m_headers := []; m_body := lit "x" |} in
  let d := {| saved := [(lit "other", m, false); (lit "0", m, false)]; current := Some (lit "0"); sent := false |} in
  at_most_one [lit "other"] d /\
  live (run true [] Ask d [Save (lit "1") [] m true true true; Save (lit "2") [] m true false true; Save (lit "3") [] m true true true]) = [lit "other"; lit "3"] /\
  live (run true [] Ask d [Save (lit "1") [] m true true true; Send true true]) = [lit "other"].
Proof. split; [right; eexists; split; reflexivity|]. split; reflexivity. Qed.

Print Assumptions C85_round_trip.
Print Assumptions C85_hidden.
Print Assumptions C85_consent.
Print Assumptions C85_one_draft.
Print Assumptions C85_tag_fails_refuted.
Print Assumptions C85_send_fails_refuted.
Print Assumptions C85_consent_refuted.
Print Assumptions C85_case_refuted.
