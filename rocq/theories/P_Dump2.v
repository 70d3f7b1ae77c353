(** Property C06, continued: limits of the round trip. *)
From Verif Require Import Bytes Hex HexSpec HexProofs StrUtil StrUtilSpec StrUtilProofs Terms Meta MetaProofs StringMap DocMap
  Db DbSpec DbProofs Props PropsSpec PropsProofs TagOps TagOpsSpec TagOpsProofs TagLine TagLineSpec TagLineProofs Dump DumpSpec
  DumpProofs DumpProofs2 DumpProofs3.
Local Open Scope nat_scope.

Definition mk (terms : list string) : doc := {| d_terms := map lit terms; d_lastmod := 1 |}.
Definition db_of (l : list (N * doc)) : rstate :=
  {| rs_db := open_db {| st_docs := l; st_ub := 1 |} 0 true; rs_cfg := [(lit "k", lit "old")] |}.
Definition result_terms (k : N) (x : rres) : option (list bytes) :=
  match x with R_ok r => option_map d_terms (dget k (st_docs (vis (rs_db r)))) | _ => None end.

(** A round trip that satisfies the hypotheses of C06_dump_restore and changes both
    tags, properties and configuration. *)
Definition ex_src : list (bytes * doc) :=
  [(lit "a@x", mk ["Kin box"; "Qa@x"; "XPROPERTYp=1"; "XPROPERTYp=2"]%string); (lit "b@x", mk ["Qb@x"]%string)].
Definition ex_target : rstate :=
  db_of [(1%N, mk ["Kother"; "Qa@x"; "XPROPERTYq=9"]%string); (2%N, mk ["Knew"; "Qb@x"]%string); (3%N, mk ["Kkeep"; "Qc@x"]%string)].
Definition ex_cfg : list (bytes * bytes) := [(lit "k", lit "v w"); (lit "user.name", lit "x=y")].
Example C06_hypotheses_met :
  Forall (fun p => storable (fst p) (snd p)) ex_src /\ NoDup (map fst ex_src) /\ Forall cfg_item_ok ex_cfg /\ NoDup (map fst ex_cfg) /\
  ready (rs_db ex_target) /\
  (forall id d, In (id, d) ex_src -> exists k e, dget k (st_docs (vis (rs_db ex_target))) = Some e /\ has_id e id) /\
  (forall id d, In (id, d) ex_src -> ~ In "("%char id).
Proof.
  split; [apply Forall_forall; intros [id d] [[= <- <-]|[[= <- <-]|[]]]; apply storable_b_sound; reflexivity|].
  split; [repeat constructor; cbn; intuition discriminate|]. split; [repeat constructor; cbn; discriminate|].
  split; [repeat constructor; cbn; intuition discriminate|]. split; [apply ready_b_sound; reflexivity|]. split.
  - intros id d [[= <- <-]|[[= <- <-]|[]]]; [exists 1%N|exists 2%N]; eexists; (split; [reflexivity|]); cbn; tauto.
  - intros id d [[= <- <-]|[[= <- <-]|[]]]; cbn; intuition discriminate.
Qed.
Example C06_nontrivial :
  exists ms, Forall2 (fun p m => read_message (snd p) = Some m) ex_src ms /\
  forall compressed, exists r',
    restore compressed 5 F_auto everything false (dump false everything ex_cfg ms) ex_target = R_ok r' /\
    rs_cfg r' = [(lit "k", lit "v w"); (lit "user.name", lit "x=y")] /\
    map (fun e => (fst e, d_terms (snd e))) (st_docs (vis (rs_db r'))) =
      [(1%N, map lit ["Kin box"; "Qa@x"; "XPROPERTYp=1"; "XPROPERTYp=2"]%string); (2%N, [lit "Qb@x"]); (3%N, map lit ["Kkeep"; "Qc@x"]%string)].
Proof.
  eexists. split; [repeat constructor|]. intros compressed. eexists. split; [vm_compute; reflexivity|now vm_compute].
Qed.

(** Properties of a message that had none when dumped are not removed. *)
Theorem C06_properties_cleared_refuted :
  ~ (forall compressed h id d m cfg e t e', storable id d -> read_message d = Some m ->
       dget 1%N (st_docs (vis (rs_db t))) = Some e -> has_id e id ->
       result_terms 1 (restore compressed h F_batch everything false (dump false everything cfg [m]) t) = Some e' ->
       forall a b, props e' a b <-> props (d_terms d) a b).
Proof.
  intros H.
  pose (d := mk ["Kx"; "Qa@x"]%string). pose (t := db_of [(1%N, mk ["Kx"; "Qa@x"; "XPROPERTYq=9"]%string)]).
  assert (S : storable (lit "a@x") d).
  { apply storable_b_sound; reflexivity. }
  destruct (H (fun x => x) 5%N (lit "a@x") d {| dm_id := lit "a@x"; dm_tags := [lit "x"]; dm_props := [] |} []
              (mk ["Kx"; "Qa@x"; "XPROPERTYq=9"]%string) t (map lit ["Kx"; "Qa@x"; "XPROPERTYq=9"]%string) S eq_refl eq_refl) with (a := lit "q") (b := lit "9") as [X _].
  - cbn. tauto.
  - vm_compute. reflexivity.
  - destruct X as [_ X].
    + split; [cbn; intros [X|X]; [discriminate|exact X]|cbn; tauto].
    + cbn in X. repeat (destruct X as [X|X]; [discriminate|]). exact X.
Qed.
Print Assumptions C06_properties_cleared_refuted.

(** With automatic format detection a '(' in the first id makes restore take the dump
    for sup format: nothing is restored and success is reported. *)
Theorem C06_auto_format_refuted :
  let m := {| dm_id := lit "a(b@x"; dm_tags := [lit "old"]; dm_props := [] |} in
  let t := db_of [(1%N, mk ["Knew"; "Qa(b@x"]%string)] in
  (forall compressed, result_terms 1 (restore compressed 5 F_auto everything false (dump false everything [] [m]) t) =
     Some (map lit ["Knew"; "Qa(b@x"]%string)) /\
  (forall compressed, result_terms 1 (restore compressed 5 F_batch everything false (dump false everything [] [m]) t) =
     Some (map lit ["Kold"; "Qa(b@x"]%string)).
Proof. split; intros; vm_compute; reflexivity. Qed.
Print Assumptions C06_auto_format_refuted.

(** A properties line for a message that is not in the database dereferences NULL;
    so does a config line without a value. *)
Theorem C06_missing_message_crash_refuted :
  (forall compressed h i, inc_properties i = true ->
     restore compressed h F_batch i false (lit "#= gone@x a=b" ++ [chr 10]) (db_of [(1%N, mk ["Qa@x"]%string)]) = R_crash) /\
  (forall compressed h i, inc_config i = true ->
     restore compressed h F_batch i false (lit "#@ key" ++ [chr 10]) (db_of [(1%N, mk ["Qa@x"]%string)]) = R_crash).
Proof. split; intros compressed h [c p t] H; cbn in H; subst; destruct c || destruct p; destruct t; vm_compute; reflexivity. Qed.
Print Assumptions C06_missing_message_crash_refuted.

(** restore --include=properties still applies the tag lines of the input. *)
Theorem C06_include_properties_only_refuted :
  ~ (forall compressed h i input k r d, inc_tags i = false ->
       option_map d_terms (dget k (st_docs (vis (rs_db r)))) = Some d ->
       forall d', result_terms k (restore compressed h F_batch i false input r) = Some d' ->
       forall x, In (lit "K" ++ x) d' <-> In (lit "K" ++ x) d).
Proof.
  intros H. specialize (H (fun x => x) 5%N {| inc_config := false; inc_properties := true; inc_tags := false |}
    (lit "+new -- id:a@x" ++ [chr 10]) 1%N (db_of [(1%N, mk ["Qa@x"]%string)]) [lit "Qa@x"] eq_refl eq_refl (map lit ["Knew"; "Qa@x"]%string)).
  assert (L : result_terms 1 (restore (fun x => x) 5 F_batch {| inc_config := false; inc_properties := true; inc_tags := false |} false
    (lit "+new -- id:a@x" ++ [chr 10]) (db_of [(1%N, mk ["Qa@x"]%string)])) = Some (map lit ["Knew"; "Qa@x"]%string)) by (vm_compute; reflexivity).
  destruct (H L (lit "new")) as [X _]. destruct X as [X|[]]; [now left|discriminate].
Qed.
Print Assumptions C06_include_properties_only_refuted.
