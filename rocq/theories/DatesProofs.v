(** Proofs about Dates.v: rounding. *)
From Verif Require Import Bytes Calendar CalendarSpec CalendarProofs Dates.
From Coq Require Import ZArith Lia.
Open Scope Z_scope.

Lemma field_eqb_eq f g : field_eqb f g = true <-> f = g.
Proof. destruct f, g; cbn; split; intro H; congruence. Qed.
Lemma field_eqb_refl f : field_eqb f f = true. Proof. destruct f; reflexivity. Qed.
Lemma upd_same {A} (m : field -> A) f v : upd m f v f = v.
Proof. unfold upd. rewrite field_eqb_refl. reflexivity. Qed.

(** states after parsing: no postponed number, unset fields are zero. *)
Definition Clean (st : state) : Prop := plen st = 0 /\ forall f, is_set st f = false -> val st f = 0.

Definition E (st : state) (f : field) (v : Z) : state := put (mark st f SET_) f v.
Lemma val_E st f v g : val (E st f v) g = if field_eqb g f then v else val st g.
Proof. reflexivity. Qed.
Lemma set_E st f v g : is_set (E st f v) g = if field_eqb g f then true else is_set st g.
Proof. unfold is_set, E. cbn [fset_ put mark]. unfold upd. destruct (field_eqb g f); reflexivity. Qed.
Lemma plen_E st f v : plen (E st f v) = plen st. Proof. reflexivity. Qed.
Lemma siu_set st f v : is_set st f = true -> set_if_unset st f v = st.
Proof. unfold set_if_unset. intros ->. reflexivity. Qed.
Lemma siu_unset st f v : is_set st f = false -> set_if_unset st f v = E st f v.
Proof. unfold set_if_unset. intros ->. reflexivity. Qed.
Lemma val_siu st f v g : val (set_if_unset st f v) g = if field_eqb g f && negb (is_set st f) then v else val st g.
Proof. unfold set_if_unset. destruct (is_set st f); [rewrite Bool.andb_false_r; reflexivity|]. rewrite Bool.andb_true_r. reflexivity. Qed.
Lemma set_siu st f v g : is_set (set_if_unset st f v) g = (field_eqb g f || is_set st g).
Proof.
  unfold set_if_unset. destruct (is_set st f) eqn:F.
  - destruct (field_eqb g f) eqn:G; [apply field_eqb_eq in G; subst; exact F|reflexivity].
  - change (is_set (E st f v) g = field_eqb g f || is_set st g). rewrite set_E. destruct (field_eqb g f); reflexivity.
Qed.
Lemma plen_siu st f v : plen (set_if_unset st f v) = plen st.
Proof. unfold set_if_unset. destruct (is_set st f); reflexivity. Qed.
Lemma add_clean st f v : plen st = 0 ->
  add_to_field st f v = if fits_int (val st f + v) then Ok (E st f (val st f + v)) else Undef.
Proof.
  intro P. unfold add_to_field, parse_postponed. cbn [plen mark]. rewrite P. cbn [Z.eqb bind val]. reflexivity.
Qed.

Definition fill (b : tm) (st : state) (l : list field) : state := fold_left (fun s f => set_if_unset s f (tm_get b f)) l st.
Lemma round_none b l : forall st w, round_fields b (st, NO_ROUND, w) l = Ok (fill b st l, NO_ROUND, w).
Proof. induction l as [|f l IH]; intros st w; [reflexivity|]. cbn [round_fields round_field no_round bind]. rewrite IH. reflexivity. Qed.
Lemma set_fill b l : forall st g, is_set (fill b st l) g = existsb (field_eqb g) l || is_set st g.
Proof.
  induction l as [|f l IH]; intros st g; [reflexivity|]. cbn [fill fold_left existsb]. fold (fill b (set_if_unset st f (tm_get b f)) l).
  rewrite IH, set_siu. destruct (field_eqb g f), (existsb (field_eqb g) l); reflexivity.
Qed.
Lemma val_fill b l : NoDup l -> forall st g, val (fill b st l) g = if existsb (field_eqb g) l && negb (is_set st g) then tm_get b g else val st g.
Proof.
  induction 1 as [|f l N D IH]; intros st g; [reflexivity|]. cbn [fill fold_left existsb].
  fold (fill b (set_if_unset st f (tm_get b f)) l). rewrite IH, set_siu, val_siu.
  destruct (field_eqb g f) eqn:G; cbn [orb andb negb].
  - apply field_eqb_eq in G. subst. rewrite Bool.andb_false_r. reflexivity.
  - reflexivity.
Qed.

Definition hit (st : state) (f : field) : bool := is_set st f || is_set st (rel f).
Lemma round_skip b st r w f l :
  hit st f = false -> (field_eqb f MDAY && is_set st RWEEK = false) -> no_round r = false ->
  round_fields b (st, r, w) (f :: l) = round_fields b (E st f (epoch f), r, w) l.
Proof.
  intros H W N. cbn [round_fields round_field]. unfold hit in H. rewrite N, H, W. apply Bool.orb_false_iff in H as [H1 _].
  rewrite siu_unset by exact H1. cbn [bind]. rewrite siu_set; [reflexivity|]. rewrite set_E, field_eqb_refl. reflexivity.
Qed.
Lemma round_hit_down b st w f l : hit st f = true ->
  round_fields b (st, ROUND_DOWN, w) (f :: l) = Ok (fill b st (f :: l), NO_ROUND, w).
Proof. intros H. cbn [round_fields round_field no_round rounds_up]. unfold hit in H. rewrite H. cbn [andb bind]. rewrite round_none. reflexivity. Qed.
Lemma round_hit_sec b st w r l : no_round r = false -> hit st SEC = true ->
  round_fields b (st, r, w) (SEC :: l) = Ok (fill b st (SEC :: l), NO_ROUND, w).
Proof. intros N H. cbn [round_fields round_field]. unfold hit in H. rewrite N, H. cbn [field_eqb negb]. rewrite Bool.andb_false_r. cbn [bind]. rewrite round_none. reflexivity. Qed.
Lemma round_hit_up b st w f l : plen st = 0 -> field_eqb f SEC = false -> field_eqb RSEC (rel f) = false -> hit st f = true ->
  match round_fields b (st, ROUND_UP_INCLUSIVE, w) (f :: l) with
  | Ok a => a = (fill b (E (E st (rel f) (val st (rel f) - 1)) RSEC (val st RSEC + 1)) (f :: l), NO_ROUND, w)
  | Err => False
  | Undef => fits_int (val st (rel f) - 1) = false \/ fits_int (val st RSEC + 1) = false
  end.
Proof.
  intros P F NR H. cbn [round_fields round_field no_round rounds_up inclusive]. unfold hit in H. rewrite H, F. cbn [negb andb bind].
  rewrite add_clean by exact P. replace (val st (rel f) + -1) with (val st (rel f) - 1) by lia.
  destruct (fits_int (val st (rel f) - 1)) eqn:F1; [|cbn [bind]; auto]. cbn [bind].
  rewrite add_clean by (cbn; exact P). rewrite val_E, NR. destruct (fits_int (val st RSEC + 1)) eqn:F2; [|cbn [bind]; auto]. cbn [bind].
  rewrite round_none. reflexivity.
Qed.
Lemma round_week b st w r l : hit st MDAY = false -> is_set st RWEEK = true -> no_round r = false ->
  round_fields b (st, r, w) (MDAY :: l) = Ok (fill b st (MDAY :: l), NO_ROUND, r).
Proof.
  intros H W N. cbn [round_fields round_field]. unfold hit in H. rewrite N, H, W. cbn [field_eqb andb bind]. rewrite round_none. reflexivity.
Qed.

(** ** The finest unit given. *)
Definition finest0 (st : state) : option unit_of_time :=
  if hit st SEC then Some Second else if hit st MIN then Some Minute else if hit st HOUR then Some Hour
  else if hit st MDAY then Some Day else if is_set st RWEEK then Some Week
  else if hit st MON then Some Month else if hit st YEAR then Some Year else None.
Definition rank (u : option unit_of_time) : Z :=
  match u with Some Second => 0 | Some Minute => 1 | Some Hour => 2 | Some Day => 3 | Some Week => 3 | Some Month => 4 | Some Year => 5 | None => 6 end.
Definition frank (f : field) : Z :=
  match f with SEC => 0 | MIN => 1 | HOUR => 2 | MDAY => 3 | MON => 4 | YEAR => 5 | _ => 7 end.
Definition is_abs (f : field) : bool := existsb (field_eqb f) abs_fields.
Definition is_week (u : option unit_of_time) : bool := match u with Some Week => true | _ => false end.
Definition now_or (b : tm) (st : state) (f : field) : Z := if is_set st f then val st f else tm_get b f.
(** the relative field that rounding up changes. *)
Definition up_field (u : option unit_of_time) : option field :=
  match u with Some Minute => Some RMIN | Some Hour => Some RHOUR | Some Day => Some RDAY | Some Month => Some RMON
             | Some Year => Some RYEAR | _ => None end.
Definition up_change (r : rounding) (u : option unit_of_time) (f : field) : Z :=
  if rounds_up r then
    match up_field u with
    | Some g => if field_eqb f g then -1 else if field_eqb f RSEC then 1 else 0
    | None => 0
    end
  else 0.
Definition rounded (b : tm) (st : state) (r : rounding) (st3 : state) : Prop :=
  plen st3 = 0 /\
  (forall f, is_abs f = true -> is_set st3 f = true /\ val st3 f = if frank f <? rank (finest0 st) then epoch f else now_or b st f) /\
  (forall f, is_abs f = false -> val st3 f = val st f + up_change r (finest0 st) f) /\
  is_set st3 TZ = is_set st TZ.
Definition bounded (st : state) (m : Z) : Prop := forall f, - m <= val st f <= m.

Lemma NoDup_dec (l : list field) : (fix go l := match l with [] => true | f :: l' => negb (existsb (field_eqb f) l') && go l' end) l = true -> NoDup l.
Proof.
  induction l as [|f l IH]; intro H; [constructor|]. apply Bool.andb_true_iff in H as [H1 H2]. constructor; [|apply IH, H2].
  intro K. apply Bool.negb_true_iff in H1. rewrite <- Bool.not_true_iff_false, existsb_exists in H1. apply H1. exists f. split; [exact K|apply field_eqb_refl].
Qed.
Ltac nodup := apply NoDup_dec; reflexivity.
Ltac split_hit := repeat match goal with H : hit _ _ = false |- _ => unfold hit in H; apply Bool.orb_false_iff in H; destruct H end.
Ltac simpl_state := repeat (rewrite ?set_fill, ?set_E, ?set_siu, ?val_E; cbn [field_eqb existsb orb andb negb rel epoch]).

Lemma plen_fill b l : forall st, plen (fill b st l) = plen st.
Proof. induction l as [|f l IH]; intro st; [reflexivity|]. cbn [fill fold_left]. fold (fill b (set_if_unset st f (tm_get b f)) l). rewrite IH. apply plen_siu. Qed.
Ltac use_set st := repeat match goal with H : is_set st _ = _ |- _ => rewrite H end.
Ltac finish_rounded st :=
  split_hit; unfold rounded, now_or;
  split; [rewrite ?plen_fill; cbn; assumption|split; [|split]];
  [ intros f A; destruct f; try discriminate A; rewrite ?val_fill by nodup; simpl_state; use_set st;
    cbn [negb orb andb frank rank Z.ltb Z.compare Pos.compare Pos.compare_cont]; (split; [reflexivity|]); try reflexivity; try (match goal with |- context [is_set st ?g] => destruct (is_set st g); reflexivity end)
  | intros f A; destruct f; try discriminate A; rewrite ?val_fill by nodup; simpl_state; unfold up_change; cbn; try lia
  | simpl_state; reflexivity ].

Definition week_of (r : rounding) (u : option unit_of_time) : rounding := if is_week u then r else NO_ROUND.
Lemma hit_E st f v g : field_eqb g f = false -> field_eqb (rel g) f = false -> hit (E st f v) g = hit st g.
Proof. intros A B. unfold hit. rewrite !set_E, A, B. reflexivity. Qed.

Lemma round_down_spec b st : plen st = 0 ->
  exists st3 r', round_fields b (st, ROUND_DOWN, NO_ROUND) abs_fields = Ok (st3, r', week_of ROUND_DOWN (finest0 st)) /\ rounded b st ROUND_DOWN st3.
Proof.
  intros P. unfold week_of. destruct (finest0 st) as [[]|] eqn:F; unfold rounded; rewrite F; cbn [is_week]; unfold finest0 in F;
  repeat match goal with H : (if ?x then _ else _) = _ |- _ => destruct x eqn:?; try discriminate H end; unfold abs_fields.
  all: repeat (rewrite round_skip; [|cbn [rel field_eqb]; rewrite ?hit_E by reflexivity; first [assumption|reflexivity]
                                    |cbn [field_eqb andb]; rewrite ?set_E; cbn [field_eqb]; first [assumption|reflexivity]|reflexivity]).
  all: first [rewrite round_hit_down by (rewrite ?hit_E by reflexivity; assumption)
             |rewrite round_week by first [reflexivity|rewrite ?hit_E by reflexivity; assumption|rewrite ?set_E; cbn [field_eqb]; assumption]
             |cbn [round_fields]].
  all: eexists _, _; split; [reflexivity|].
  all: finish_rounded st.
Qed.

Lemma fits_iff z : fits_int z = true <-> - 2147483648 <= z <= 2147483647.
Proof. unfold fits_int, int_max. rewrite Bool.andb_true_iff, !Z.leb_le. lia. Qed.
Lemma round_nil b a : round_fields b a [] = Ok a.
Proof. reflexivity. Qed.
Lemma round_up_spec b st : plen st = 0 ->
  match round_fields b (st, ROUND_UP_INCLUSIVE, NO_ROUND) abs_fields with
  | Ok (st3, r', w) => w = week_of ROUND_UP_INCLUSIVE (finest0 st) /\ rounded b st ROUND_UP_INCLUSIVE st3
  | Err => False
  | Undef => ~ bounded st 2000000000
  end.
Proof.
  intros P. unfold week_of. destruct (finest0 st) as [[]|] eqn:F; unfold rounded; rewrite F; cbn [is_week]; unfold finest0 in F;
  repeat match goal with H : (if ?x then _ else _) = _ |- _ => destruct x eqn:?; try discriminate H end; unfold abs_fields.
  all: repeat (rewrite round_skip; [|cbn [rel field_eqb]; rewrite ?hit_E by reflexivity; first [assumption|reflexivity]
                                    |cbn [field_eqb andb]; rewrite ?set_E; cbn [field_eqb]; first [assumption|reflexivity]|reflexivity]).
  1: rewrite round_hit_sec by first [reflexivity|assumption].
  all: try (rewrite round_week by first [reflexivity|rewrite ?hit_E by reflexivity; assumption|rewrite ?set_E; cbn [field_eqb]; assumption]).
  all: try rewrite round_nil.
  all: try (lazymatch goal with |- NO_ROUND = _ /\ _ => idtac | |- ROUND_UP_INCLUSIVE = _ /\ _ => idtac end; split; [reflexivity|finish_rounded st; fail]).
  all: match goal with P : plen _ = 0 |- context [round_fields ?b (?s, _, _) (?f :: ?l)] =>
         pose proof (round_hit_up b s NO_ROUND f l P eq_refl eq_refl ltac:(rewrite ?hit_E by reflexivity; assumption)) as K;
         destruct (round_fields b (s, ROUND_UP_INCLUSIVE, NO_ROUND) (f :: l)) as [[[st3 r'] w']| |]
       end.
  all: try contradiction K.
  all: try (lazymatch type of K with (_, _) = _ => idtac end; apply pair_equal_spec in K; destruct K as [K ->]; apply pair_equal_spec in K; destruct K as [-> _];
            split; [reflexivity|finish_rounded st; fail]).
  all: intro B; rewrite !val_E in K; cbn [rel field_eqb] in K.
  all: destruct K as [K|K]; apply Bool.not_true_iff_false in K; apply K, fits_iff; match goal with B : bounded _ _ |- context [val _ ?g] => pose proof (B g); lia end.
Qed.
