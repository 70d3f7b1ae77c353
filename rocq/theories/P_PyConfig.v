(** Property C90: in Python the configuration of a database behaves as a dictionary of texts. *)
From Coq Require Import Sorting.Sorted.
From Verif Require Import Bytes StringMap StringMapProofs PyTags PyTagsSpec PyTagsProofs PyTagsProofs2 PyConfig PyConfigSpec PyConfigProofs.

(** Whatever texts the library's map holds, they are a dictionary. *)
Theorem C90_is_a_dict :
  forall c, (sm_sorted (c_map c) = true -> StronglySorted (fun a b => bcmp (fst a) (fst b) <> Gt) (sm_pairs (c_map c))) ->
  NoDup (map fst (sm_pairs (c_map c))) ->
  (forall kb vb, In (kb, vb) (sm_pairs (c_map c)) -> exists k v, encode k = Some kb /\ encode v = Some vb /\ ~ In NUL kb /\ ~ In NUL vb) ->
  exists f, holds c f.
Proof.
  intros c So Un T.
  exists (fun k => match encode k with
                   | Some kb => match find (fun p => match bcmp (fst p) kb with Eq => true | _ => false end) (sm_pairs (c_map c)) with
                                | Some (_, vb) => match decode_ignore vb with [] => None | v => Some v end
                                | None => None
                                end
                   | None => None
                   end).
  split; [exact So|]. split; [exact Un|]. split; [exact T|]. intros k v. split.
  - destruct (encode k) as [kb|] eqn:E; [|discriminate]. destruct (find _ _) as [[kb' vb]|] eqn:F; [|discriminate]. apply find_some in F. destruct F as [I Q]. cbn [fst] in Q.
    assert (kb' = kb). { destruct (bcmp kb' kb) eqn:B; try discriminate. now apply bcmp_eq. } subst kb'.
    destruct (T kb vb I) as (k' & v' & E' & Ev & _). rewrite (decode_ignore_encode _ _ Ev). destruct v' as [|x v']; [discriminate|]. intros X. injection X as <-. split; [discriminate|]. eauto.
  - intros (N & kb & vb & E & Ev & I). rewrite E. destruct (find _ _) as [[kb' vb']|] eqn:F.
    + apply find_some in F. destruct F as [I' Q]. cbn [fst] in Q. assert (kb' = kb). { destruct (bcmp kb' kb) eqn:B; try discriminate. now apply bcmp_eq. } subst kb'.
      rewrite (unique_In _ _ _ _ Un I' I), (decode_ignore_encode _ _ Ev). destruct v; [now elim N|reflexivity].
    + exfalso. apply (find_none _ _ F) in I. cbn [fst] in I. assert (B : bcmp kb kb = Eq) by now apply bcmp_eq. rewrite B in I. discriminate.
Qed.
Print Assumptions C90_is_a_dict.

Lemma items_spec c f : holds c f -> forall l, (forall k, In k l -> f k <> None) -> exists r, items_of l c = Ok r /\ map fst r = l /\ forall k v, In (k, v) r -> f k = Some v.
Proof.
  intros Hc l. induction l as [|k l IH]; intros A; [exists []; repeat split; intros ? ? []|]. cbn [items_of].
  pose proof (A k (or_introl eq_refl)) as N. destruct (key_plain c f k Hc N) as (P & _). rewrite (getitem_spec c f k Hc P). destruct (f k) as [v|] eqn:F; [|now elim N].
  destruct IH as (r & -> & M & V); [intros k' I; apply A; now right|]. eexists. split; [reflexivity|]. cbn [map fst]. rewrite M. split; [reflexivity|].
  intros k' v' [X|X]; [injection X as <- <-; exact F|now apply V].
Qed.

(** Reading: config[k], k in config and config.get (k, d) give what the dictionary says; iterating over it gives each
    of its keys once, len () counts them, and items () gives exactly the pairs. *)
Theorem C90_reading :
  forall c f, holds c f ->
  (forall k, plain k -> getitem (Str k) c = match f k with Some v => Ok v | None => Raised KeyError end) /\
  (forall k, plain k -> config_contains (Str k) c = Ok (match f k with Some _ => true | None => false end)) /\
  (forall k d, plain k -> config_get (Str k) d c = Ok (match f k with Some v => v | None => d end)) /\
  NoDup (config_iter c) /\ (forall k, In k (config_iter c) <-> f k <> None) /\
  config_len c = length (config_iter c) /\
  (exists r, config_items c = Ok r /\ map fst r = config_iter c /\ forall k v, In (k, v) r <-> f k = Some v).
Proof.
  intros c f Hc. assert (G := fun k => getitem_spec c f k Hc).
  split; [exact G|]. split; [intros k P; unfold config_contains; rewrite (G k P); now destruct (f k)|].
  split; [intros k d P; unfold config_get; rewrite (G k P); now destruct (f k)|].
  split; [exact (config_iter_nodup c f Hc)|]. split; [intros k; exact (config_iter_in c f k Hc)|]. split; [reflexivity|].
  destruct (items_spec c f Hc (config_iter c)) as (r & E & M & V); [intros k I; now apply (config_iter_in c f k Hc)|].
  exists r. split; [exact E|]. split; [exact M|]. intros k v. split; [apply V|]. intros F.
  assert (I : In k (map fst r)) by (rewrite M; apply (config_iter_in c f k Hc); congruence).
  apply in_map_iff in I. destruct I as ((k' & v') & X & I). cbn in X. subst k'. assert (v' = v) by (apply V in I; congruence). now subst.
Qed.
Print Assumptions C90_reading.

Lemma pop_spec c f k : holds c f -> c_writable c = true -> plain k ->
  match f k with
  | Some v => exists c', config_pop (Str k) c = (c', Ok v) /\ c_writable c' = true /\ holds c' (del_in f k)
  | None => config_pop (Str k) c = (c, Raised KeyError)
  end.
Proof.
  intros Hc W P. unfold config_pop. rewrite (getitem_spec c f k Hc P). destruct (f k) as [v|] eqn:F; [|reflexivity].
  destruct (delitem_spec c f k Hc W P) as (c' & -> & W' & H'). exists c'. auto.
Qed.

(** Changing: every call with texts does to the dictionary what it means; KeyError comes exactly when pop or popitem find
    nothing, and then nothing changes. *)
Theorem C90_changes :
  forall o c f, holds c f -> c_writable c = true -> proper_call o ->
  exists c' e f', config_perform o c = (c', e) /\ c_writable c' = true /\ holds c' f' /\
    ((dict_key_error o f /\ e = Some KeyError /\ c' = c /\ f' = f) \/ (~ dict_key_error o f /\ e = None /\ dict_meaning o f f')).
Proof.
  intros o c f Hc W Pr. destruct o as [k v|k|k| | |k v|l]; cbn [proper_call config_perform dict_key_error dict_meaning] in *.
  - destruct Pr as (k' & v' & -> & -> & Pk & Pv). destruct (setitem_spec c f k' v' Hc W Pk Pv) as (c' & -> & W' & H'). exists c', None, (set_in f k' v'). auto 9.
  - destruct Pr as (k' & -> & Pk). destruct (delitem_spec c f k' Hc W Pk) as (c' & -> & W' & H'). exists c', None, (del_in f k'). auto 9.
  - destruct Pr as (k' & -> & Pk). pose proof (pop_spec c f k' Hc W Pk) as X. destruct (f k') as [v|] eqn:F.
    + destruct X as (c' & -> & W' & H'). exists c', None, (del_in f k'). split; [reflexivity|]. split; [exact W'|]. split; [exact H'|]. right. split; [discriminate|]. auto.
    + rewrite X. exists c, (Some KeyError), f. auto 9.
  - destruct (popitem_spec c f Hc W) as [(k & v & c' & F & -> & W' & H' & _)|[N ->]].
    + exists c', None, (del_in f k). split; [reflexivity|]. split; [exact W'|]. split; [exact H'|]. right. split; [intros A; rewrite A in F; discriminate|]. split; [reflexivity|].
      exists k. split; [congruence|]. reflexivity.
    + exists c, (Some KeyError), f. auto 9.
  - destruct (clear_spec c f Hc W) as (c' & f' & -> & W' & H' & N). exists c', None, f'. auto 9.
  - destruct Pr as (k' & v' & -> & -> & Pk & Pv). unfold config_setdefault. rewrite (getitem_spec c f k' Hc Pk). destruct (f k') as [w|] eqn:F.
    + exists c, None, f. split; [reflexivity|]. split; [exact W|]. split; [exact Hc|]. right. split; [tauto|]. split; [reflexivity|]. intros x. reflexivity.
    + destruct (setitem_spec c f k' v' Hc W Pk Pv) as (c' & -> & W' & H'). exists c', None, (set_in f k' v'). split; [reflexivity|]. split; [exact W'|]. split; [exact H'|]. right. split; [tauto|]. split; [reflexivity|]. reflexivity.
  - destruct (update_spec l c f Hc W Pr) as (c' & -> & W' & H'). exists c', None, (update_in f l). auto 9.
Qed.
Print Assumptions C90_changes.

(** pop and popitem give the value that they take away. *)
Theorem C90_popped :
  forall c f, holds c f -> c_writable c = true ->
  (forall k v, plain k -> f k = Some v -> snd (config_pop (Str k) c) = Ok v) /\
  (forall k v, snd (config_popitem c) = Ok (k, v) -> f k = Some v).
Proof.
  intros c f Hc W. split.
  - intros k v P F. pose proof (pop_spec c f k Hc W P) as X. rewrite F in X. destruct X as (c' & -> & _). reflexivity.
  - intros k v. destruct (popitem_spec c f Hc W) as [(k' & v' & c' & F & -> & _)|[_ ->]]; [|discriminate]. intros X. cbn in X. injection X as <- <-. exact F.
Qed.
Print Assumptions C90_popped.

(** Any history of such calls. *)
Theorem C90_history :
  forall os c f, holds c f -> c_writable c = true -> Forall proper_call os ->
  exists f', as_dicts os f f' /\ holds (config_performs os c) f'.
Proof.
  induction os as [|o os IH]; intros c f Hc W Pr; [exists f; split; [constructor|exact Hc]|]. inversion Pr as [|? ? P1 P2]. subst.
  destruct (C90_changes o c f Hc W P1) as (c' & e & f' & E & W' & H' & D). cbn [config_performs]. rewrite E. cbn [fst].
  destruct (IH c' f' H' W' P2) as (g & A & B). exists g. split; [|exact B]. destruct D as [(K & _ & _ & ->)|(K & _ & M)]; [now apply as_dicts_error|now apply (as_dicts_change o os f f')].
Qed.
Print Assumptions C90_history.

Lemma setitem_readonly k v c : c_writable c = false -> fst (setitem k v c) = c /\ snd (setitem k v c) <> None.
Proof. intros W. unfold setitem. destruct (as_bytes k); [|now split]. destruct (as_bytes v); [|now split]. rewrite W. now split. Qed.
Lemma pop_readonly k c : c_writable c = false -> exists e, config_pop k c = (c, Raised e).
Proof.
  intros W. unfold config_pop. destruct (getitem k c); [|eauto]. unfold delitem. destruct (setitem_readonly k (Str []) c W) as [A B].
  destruct (setitem k (Str []) c) as [c' [e|]]; cbn in *; [subst; eauto|now elim B].
Qed.
Lemma popitem_readonly c : c_writable c = false -> exists e, config_popitem c = (c, Raised e).
Proof. intros W. unfold config_popitem. destruct (config_iter c) as [|k l]; [eauto|]. destruct (pop_readonly (Str k) c W) as (e & ->). eauto. Qed.

(** A database open for reading only is never changed, whatever the call; nor is any database by an assignment of
    something that is neither text nor bytes, or of a text without an encoding, which raises the exception. *)
Theorem C90_errors :
  (forall o c, c_writable c = false -> fst (config_perform o c) = c) /\
  (forall k v c, plain k -> plain v -> c_writable c = false -> snd (setitem (Str k) (Str v) c) = Some ReadOnlyDatabaseError) /\
  (forall k v c e, as_bytes k = Raised e \/ (exists b, as_bytes k = Ok b) /\ as_bytes v = Raised e -> setitem k v c = (c, Some e)) /\
  (forall n c, getitem (Other n) c = Raised TypeError /\ config_contains (Other n) c = Raised TypeError) /\
  (forall s c, encode s = None -> getitem (Str s) c = Raised UnicodeEncodeError).
Proof.
  split; [|split; [|split; [|split]]].
  - intros o c W. destruct o as [k v|k|k| | |k v|l]; cbn [config_perform].
    + now apply setitem_readonly.
    + unfold delitem. now apply setitem_readonly.
    + destruct (pop_readonly k c W) as (e & ->). reflexivity.
    + destruct (popitem_readonly c W) as (e & ->). reflexivity.
    + unfold config_clear. cbn [clear_loop]. destruct (popitem_readonly c W) as (e & ->). destruct e; reflexivity.
    + unfold config_setdefault. destruct (getitem k c) as [?|e]; [reflexivity|]. destruct e; try reflexivity. now apply setitem_readonly.
    + destruct l as [|[k v] l]; [reflexivity|]. cbn [config_update]. destruct (setitem_readonly k v c W) as [A B]. destruct (setitem k v c) as [c' [e|]]; [exact A|now elim B].
  - intros k v c (kb & E & _) (vb & Ev & _) W. unfold setitem. cbn [as_bytes]. rewrite E, Ev, W. reflexivity.
  - intros k v c e H. unfold setitem. destruct H as [->|((b & ->) & ->)]; reflexivity.
  - intros n c. split; reflexivity.
  - intros s c E. unfold getitem. cbn [as_bytes]. rewrite E. reflexivity.
Qed.
Print Assumptions C90_errors.

(** ** What is not so *)
Definition empty_config : config := {| c_writable := true; c_map := sm_create |}.
Definition config_with (l : list (bytes * bytes)) : config := {| c_writable := true; c_map := {| sm_sorted := false; sm_pairs := l |} |}.
Lemma empty_holds : holds empty_config (fun _ => None).
Proof. split; [intros _; constructor|]. split; [constructor|]. split; [intros ? ? []|]. intros k v. split; [discriminate|]. intros (_ & ? & ? & _ & _ & []). Qed.

(** A dictionary raises KeyError when a missing key is deleted; the configuration does not, whatever the key. *)
Theorem C90_del_refuted :
  forall c f k, holds c f -> c_writable c = true -> plain k -> f k = None -> snd (delitem (Str k) c) = None.
Proof. intros c f k Hc W P _. destruct (delitem_spec c f k Hc W P) as (c' & -> & _). reflexivity. Qed.
Print Assumptions C90_del_refuted.

(** A value of bytes that are not UTF-8 can be set, and is then not there. *)
Theorem C90_bytes_refuted :
  exists k v c, setitem (Str k) (Byts v) empty_config = (c, None) /\ v <> [] /\ sm_pairs (c_map c) <> [] /\
    getitem (Str k) c = Raised KeyError /\ config_iter c = [].
Proof. exists [97%N], [Ascii.ascii_of_N 255]. eexists. split; [vm_compute; reflexivity|]. split; [discriminate|]. split; [discriminate|]. split; vm_compute; reflexivity. Qed.
Print Assumptions C90_bytes_refuted.

(** A key is cut at its first NUL: setting one key sets another. *)
Theorem C90_nul_refuted :
  exists k k' v c, k <> k' /\ setitem (Str k) (Str v) empty_config = (c, None) /\ getitem (Str k') c = Ok v /\ config_iter c = [k'].
Proof. exists [97%N; 0%N; 98%N], [97%N], [120%N]. eexists. split; [discriminate|]. split; [vm_compute; reflexivity|]. split; vm_compute; reflexivity. Qed.
Print Assumptions C90_nul_refuted.

(** clear () stops without an exception at a key that is not UTF-8, and leaves it and every value after it; and
    list (config.items ()) raises KeyError. *)
Theorem C90_clear_refuted :
  exists c c', config_clear c = (c', None) /\ c' = c /\ getitem (Str [122%N]) c' = Ok [120%N] /\ config_items c = Raised KeyError.
Proof.
  exists {| c_writable := true; c_map := {| sm_sorted := true; sm_pairs := [([Ascii.ascii_of_N 97; Ascii.ascii_of_N 255], [Ascii.ascii_of_N 120]); ([Ascii.ascii_of_N 122], [Ascii.ascii_of_N 120])] |} |}.
  eexists. split; [vm_compute; reflexivity|]. split; [reflexivity|]. split; vm_compute; reflexivity.
Qed.
Print Assumptions C90_clear_refuted.

(** ** Examples *)
Lemma plain_one n : (n < 128)%N -> n <> 0%N -> plain [n].
Proof.
  intros L Z. exists [Ascii.ascii_of_N n]. split; [cbn [encode]; unfold encode1; apply N.ltb_lt in L; now rewrite L|]. intros [X|[]].
  apply (f_equal Ascii.N_of_ascii) in X. rewrite Ascii.N_ascii_embedding in X by lia. apply Z. rewrite X. reflexivity.
Qed.
(** config['a'] = 'x'; config['b'] = 'y'; config.setdefault ('a', 'z'); del config['b']; config.pop ('b'). *)
Definition example_calls : list config_call :=
  [CSet (Str [97%N]) (Str [120%N]); CSet (Str [98%N]) (Str [121%N]); CSetdefault (Str [97%N]) (Str [122%N]); CDel (Str [98%N]); CPop (Str [98%N])].
Example C90_calls_proper : Forall proper_call example_calls.
Proof. unfold example_calls. repeat first [apply Forall_nil | apply Forall_cons]; cbn [proper_call]; 
    try (do 2 eexists; split; [reflexivity|]; split; [reflexivity|]; split; (apply plain_one; [lia|discriminate]));
    try (eexists; split; [reflexivity|]; apply plain_one; [lia|discriminate]).
Qed.
Example C90_example :
  holds empty_config (fun _ => None) /\ getitem (Str [97%N]) (config_performs example_calls empty_config) = Ok [120%N] /\
  config_iter (config_performs example_calls empty_config) = [[97%N]] /\ config_len (config_performs [CClear] (config_performs example_calls empty_config)) = O.
Proof. split; [exact empty_holds|]. split; [vm_compute; reflexivity|]. split; vm_compute; reflexivity. Qed.
