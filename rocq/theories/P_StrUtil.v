(** Properties C04, C29, C41 (util/string-util.c, lib/config.cc). *)
From Verif Require Import Bytes Hex StrUtil StrUtilSpec StrUtilProofs.
Local Open Scope N_scope.

(** C04: building a term with make_boolean_term and parsing it gives back prefix
    and term, for every term text and every prefix a query can name. *)
Theorem C04_boolean_term_roundtrip :
  forall p t, p <> [] -> ~ In ":"%char p -> isspace (hd NUL p) = false ->
  parse_boolean_term (make_boolean_term (Some p) t) = Some (p, t).
Proof. exact make_parse_roundtrip. Qed.
Print Assumptions C04_boolean_term_roundtrip.

Theorem C04_boolean_term_roundtrip_blanks :
  forall p t ws1 ws2, p <> [] -> ~ In ":"%char p -> isspace (hd NUL p) = false ->
  Forall is_space_byte ws1 -> Forall is_space_byte ws2 ->
  parse_boolean_term (ws1 ++ make_boolean_term (Some p) t ++ ws2) = Some (p, t).
Proof. exact make_parse_roundtrip_ws. Qed.
Print Assumptions C04_boolean_term_roundtrip_blanks.

(** The parser accepts exactly the specified syntax, with its meaning. *)
Theorem C04_parse_meets_spec :
  forall s p t, parse_boolean_term s = Some (p, t) <-> boolean_term_text s p t.
Proof. exact parse_boolean_term_iff. Qed.
Print Assumptions C04_parse_meets_spec.

(** The text plus its terminator fits in the buffer that is used, whatever buffer
    the caller passed; and the de-quoted term fits in the array allocated for it. *)
Theorem C04_make_buffer_large_enough :
  forall p t buf, (length (make_boolean_term p t) + 1 <= make_boolean_term_bufsize p t buf)%nat.
Proof. intros p t buf. pose proof (make_fits p t buf). lia. Qed.
Print Assumptions C04_make_buffer_large_enough.

Theorem C04_unquote_buffer_large_enough :
  forall pos o r, unquote_loop pos [] = Some (o, r) -> (length o + 1 <= length (""""%char :: pos))%nat.
Proof. intros pos o r H. apply unquote_fits in H. lia. Qed.
Print Assumptions C04_unquote_buffer_large_enough.

(** A term is left bare only when Xapian's query parser would read it as one word:
    it is non-empty and made of printable ASCII other than quote and parentheses;
    every other term is written between quotes. *)
Theorem C04_bare_only_when_safe :
  forall p t,
  let head := match p with Some p => p ++ [":"%char] | None => [] end in
  (make_boolean_term p t = head ++ t /\ t <> [] /\
   (forall c, In c t -> 32 < N_of_ascii c <= 127 /\ c <> """"%char /\ c <> "("%char /\ c <> ")"%char)) \/
  (exists d, doubled t d /\ make_boolean_term p t = head ++ """"%char :: d ++ [""""%char]).
Proof. exact make_bare_or_quoted. Qed.
Print Assumptions C04_bare_only_when_safe.

Example C04_nontrivial :
  make_boolean_term (Some (lit "id")) (lit "a ""b"")@c") = lit "id:""a """"b"""")@c""" /\
  parse_boolean_term (lit " id:""a """"b"""")@c"" ") = Some (lit "id", lit "a ""b"")@c") /\
  parse_boolean_term (lit "id:a)b") = None /\ parse_boolean_term (lit "id:""a") = None.
Proof. now vm_compute. Qed.

(** C29: iterating over the values of a config item yields the items of the
    ';'-separated list: blanks trimmed, empty items dropped. *)
Theorem C29_config_values_meet_spec :
  forall s, config_values s = config_list s.
Proof. exact config_values_spec. Qed.
Print Assumptions C29_config_values_meet_spec.

Theorem C29_config_list_roundtrip :
  forall vs, Forall storable_value vs -> config_values (join_semicolon vs) = vs.
Proof. exact join_roundtrip. Qed.
Print Assumptions C29_config_list_roundtrip.

Example C29_nontrivial :
  Forall storable_value [lit "new"; lit "un read"; lit "\x"] /\
  config_values (lit " new ;; un read;  \x;") = [lit "new"; lit "un read"; lit "\x"].
Proof.
  split; [|now vm_compute].
  repeat constructor; try (vm_compute; congruence); vm_compute; intuition discriminate.
Qed.

(** The restriction to storable values is needed: a value ending in a backslash is
    merged with the next one, and there is no escape that yields a literal ';'
    without also keeping the backslash. *)
Theorem C29_backslash_value_refuted :
  ~ (forall v w : bytes, v <> [] -> w <> [] -> ~ In ";"%char v -> ~ In ";"%char w ->
     isspace (last v NUL) = false -> isspace (hd NUL w) = false -> isspace (hd NUL v) = false ->
     isspace (last w NUL) = false -> config_values (join_semicolon [v; w]) = [v; w]).
Proof.
  intros H. specialize (H (lit "a\") (lit "b")).
  vm_compute in H. discriminate H; intuition discriminate.
Qed.
Print Assumptions C29_backslash_value_refuted.

Theorem C29_no_value_is_a_bare_semicolon :
  forall s v, In v (config_values s) -> forall a b, v = a ++ ";"%char :: b -> exists a', a = a' ++ ["\"%char].
Proof. exact config_values_semicolon. Qed.
Print Assumptions C29_no_value_is_a_bare_semicolon.

(** C41: text output contains no C0 control characters, has the same length, and
    every other byte is unchanged (tab and newline become a space). *)
Theorem C41_sanitize :
  forall s, length (sanitize_string s) = length s /\
  Forall (fun c => 32 <= N_of_ascii c) (sanitize_string s) /\
  (forall i c, nth_error s i = Some c -> 32 <= N_of_ascii c -> nth_error (sanitize_string s) i = Some c) /\
  (forall i c, nth_error s i = Some c -> c = chr 9 \/ c = chr 10 -> nth_error (sanitize_string s) i = Some " "%char).
Proof. exact sanitize_spec. Qed.
Print Assumptions C41_sanitize.

Example C41_nontrivial :
  sanitize_string (lit "a" ++ [chr 27; chr 10; chr 9; chr 200] ++ lit "b") = lit "a?  " ++ [chr 200] ++ lit "b".
Proof. now vm_compute. Qed.

(** The stronger reading "no control character at all" fails: DEL passes. *)
Theorem C41_del_passes_refuted :
  ~ (forall s, Forall (fun c => 32 <= N_of_ascii c /\ N_of_ascii c <> 127) (sanitize_string s)).
Proof. intros H. specialize (H [chr 127]). inversion H as [|? ? [_ K] _]. now apply K. Qed.
Print Assumptions C41_del_passes_refuted.
