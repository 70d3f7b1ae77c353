(** Model of what an object for a message (notmuch_message_t) remembers: lib/message.cc, lib/message-property.cc.

    Such an object has a document of Xapian, which reads the terms from the database until it is
    first changed and is a copy from then on (Xapian: Document), and remembers what it has read.
    The functions below are those that fill in what is remembered, forget it, and change the document.

    Simplifications: a document is the values of its terms by prefix; their order, the terms with
    other prefixes (folder:, path:, words) and the conversion of file names and properties from terms
    are left out (C12, C26, C27).  The message id never changes and is left out.  Reading succeeds. *)
From Verif Require Import Bytes.
From Coq Require Import List Arith Bool Ascii.
Import ListNotations.
Local Open Scope nat_scope.

(** The prefixes (lib/prefix.cc:31-54). *)
Inductive field := Thread | Tag | Type_ | File | Prop_ | Ref | Replyto.
(** Is it the same prefix (strcmp in lib/message.cc:456-497)? *)
Definition field_eqb (a b : field) : bool :=
  match a, b with
  | Thread, Thread | Tag, Tag | Type_, Type_ | File, File | Prop_, Prop_ | Ref, Ref | Replyto, Replyto => true
  | _, _ => false
  end.
(** lib/prefix.cc:31-54: strlen (_find_prefix (...)). *)
Definition prefix_len (f : field) : nat :=
  match f with Thread | Tag | Type_ => 1 | File | Ref => 10 | Prop_ => 9 | Replyto => 8 end.
(** The terms of a document of Xapian (lib/message.cc:365-366). *)
Definition doc := field -> list bytes.
(** Xapian: Document::add_term (lib/message.cc:1528). *)
Definition doc_add (d : doc) (f : field) (v : bytes) : doc :=
  fun g => if field_eqb g f then (if in_dec bytes_eq_dec v (d f) then d f else d f ++ [v]) else d g.
(** Xapian: Document::remove_term (lib/message.cc:1600). *)
Definition doc_remove (d : doc) (f : field) (p : bytes -> bool) : doc :=
  fun g => if field_eqb g f then filter (fun v => negb (p v)) (d f) else d g.

(** What is remembered (lib/message.cc:29-60): thread_id, tag_list, the flag "ghost", filename_term_list,
    filename_list, property_term_list, property_map, reference_list, in_reply_to. *)
Inductive slot := SThread | STag | SType | SFileTerms | SFileList | SPropTerms | SPropMap | SRef | SReplyto.
(** Is it the same field of the structure (lib/message.cc:29-60)? *)
Definition slot_eqb (a b : slot) : bool :=
  match a, b with
  | SThread, SThread | STag, STag | SType, SType | SFileTerms, SFileTerms | SFileList, SFileList
  | SPropTerms, SPropTerms | SPropMap, SPropMap | SRef, SRef | SReplyto, SReplyto => true
  | _, _ => false
  end.
(** An object for a message (lib/message.cc:29-60); [own]: the copy of the document, once it was changed. *)
Record message := { own : option doc; cache : slot -> option (list bytes); last_view : nat; modified : bool; frozen : nat }.
(** A new object (lib/message.cc:107-175). *)
Definition fresh : message := {| own := None; cache := fun _ => None; last_view := 0; modified := false; frozen := 0 |}.
(** The database (lib/database-private.h:232-298): the document in it, notmuch->view, and its mode. *)
Record world := { stored : doc; view : nat; writable : bool }.
(** Opening it (lib/open.cc:312-340). *)
Definition opened (d : doc) (w : bool) : world := {| stored := d; view := 1; writable := w |}.
(** message->doc as Xapian shows it (lib/message.cc:365-366). *)
Definition read (w : world) (m : message) : doc := match own m with Some d => d | None => stored w end.
(** Assignment to a field of the structure (lib/message.cc:456-497). *)
Definition set_cache (m : message) (c : slot -> option (list bytes)) : message :=
  {| own := own m; cache := c; last_view := last_view m; modified := modified m; frozen := frozen m |}.
(** Assignment to a field of the structure (lib/message.cc:1088, 1146). *)
Definition put (c : slot -> option (list bytes)) (s : slot) (v : option (list bytes)) : slot -> option (list bytes) :=
  fun t => if slot_eqb t s then v else c t.
(** Assignment to message->doc and message->modified (lib/message.cc:1528-1529). *)
Definition set_doc (m : message) (d : doc) : message :=
  {| own := Some d; cache := cache m; last_view := last_view m; modified := true; frozen := frozen m |}.

(** lib/message.cc:311-342 [_notmuch_message_get_term]: the first, or a null pointer. *)
Definition first_term (l : list bytes) : option (list bytes) := match l with [] => None | v :: _ => Some [v] end.
(** lib/message.cc:344-454 [_notmuch_message_ensure_metadata]. *)
Definition ensure_metadata (w : world) (m : message) (f : option (list bytes)) : message :=
  if match f with Some _ => view w <=? last_view m | None => false end then m
  else
    let d := read w m in
    let c := cache m in
    {| own := own m; last_view := view w; modified := modified m; frozen := frozen m;
       cache := fun s =>
         match s with
         | SThread => match c SThread with None => first_term (d Thread) | x => x end
         | STag => match c STag with None => Some (d Tag) | x => x end
         | SType => match c SType with None => Some (d Type_) | x => x end
         | SFileTerms => match c SFileTerms, c SFileList with None, None => Some (d File) | x, _ => x end
         | SFileList => c SFileList
         | SPropTerms => match c SPropMap, c SPropTerms with None, None => Some (d Prop_) | _, x => x end
         | SPropMap => c SPropMap
         | SRef => match c SRef with None => Some (d Ref) | x => x end
         | SReplyto => match c SReplyto with
                       | None => match first_term (d Replyto) with None => Some [] | x => x end
                       | x => x
                       end
         end |}.
(** lib/message.cc:456-497 [_notmuch_message_invalidate_metadata]. *)
Definition invalidate (m : message) (f : field) : message :=
  set_cache m (fun s =>
    match s, f with
    | SThread, Thread | STag, Tag | SType, Type_ | SFileTerms, File | SFileList, File
    | SPropTerms, Prop_ | SPropMap, Prop_ | SReplyto, Replyto => None
    | _, _ => cache m s
    end).
(** lib/message.cc:1508-1539 [_notmuch_message_add_term]; [None]: too long. *)
Definition add_term (w : world) (m : message) (f : field) (v : bytes) : option message :=
  if 245 <? prefix_len f + length v then None else Some (invalidate (set_doc m (doc_add (read w m) f v)) f).
(** lib/message.cc:1583-1615 [_notmuch_message_remove_term] (removing what is not there throws, and leaves the
    document unchanged and "modified" as it is). *)
Definition remove_term (w : world) (m : message) (f : field) (v : bytes) : option message :=
  if 245 <? prefix_len f + length v then None
  else Some (invalidate (if in_dec bytes_eq_dec v (read w m f) then set_doc m (doc_remove (read w m) f (bseq v)) else m) f).
(** lib/message.cc:698-724 [_notmuch_message_remove_terms], here for properties. *)
Definition remove_terms (w : world) (m : message) (pre : bytes) : message :=
  invalidate (if existsb (starts_with pre) (read w m Prop_) then set_doc m (doc_remove (read w m) Prop_ (starts_with pre)) else m) Prop_.
(** lib/message.cc:1349-1373 [_notmuch_message_sync]. *)
Definition sync (w : world) (m : message) : world * message :=
  if negb (writable w) then (w, m)
  else if negb (modified m) then (w, m)
  else ({| stored := read w m; view := view w; writable := writable w |},
        {| own := own m; cache := cache m; last_view := last_view m; modified := false; frozen := frozen m |}).
(** "if (! message->frozen) _notmuch_message_sync (message)" (lib/message.cc:1676-1677, lib/message-property.cc:113-114). *)
Definition sync_thawed (w : world) (m : message) : world * message := if frozen m =? 0 then sync w m else (w, m).

(** ** Reading *)
(** What can be asked: notmuch_message_get_tags, get_thread_id, get_filenames, get_flag (NOTMUCH_MESSAGE_FLAG_GHOST),
    get_properties, and, within the library, the In-Reply-To (lib/message.cc:584-604, 1170-1284, lib/message-property.cc:177-184). *)
Inductive getter := Tags | Thread_id | Filenames | Ghost | Properties | In_reply_to.
(** lib/message.cc:1261-1284 [notmuch_message_get_tags], 591-604 [notmuch_message_get_thread_id], 584-589, 1196-1215;
    1078-1147 [_notmuch_message_ensure_filename_list]; 2189-2219 [_notmuch_message_ensure_property_map]. *)
Definition get (w : world) (m : message) (g : getter) : message * option (list bytes) :=
  match g with
  | Tags => let m1 := ensure_metadata w m (cache m STag) in (m1, cache m1 STag)
  | Thread_id => let m1 := ensure_metadata w m (cache m SThread) in (m1, cache m1 SThread)
  | In_reply_to => let m1 := ensure_metadata w m (cache m SReplyto) in (m1, cache m1 SReplyto)
  | Ghost => let m1 := match cache m SType with Some _ => m | None => ensure_metadata w m None end in (m1, cache m1 SType)
  | Filenames =>
      match cache m SFileList with
      | Some l => (m, Some l)
      | None => let m1 := ensure_metadata w m (cache m SFileTerms) in
                let l := cache m1 SFileTerms in
                (set_cache m1 (put (put (cache m1) SFileList l) SFileTerms None), l)
      end
  | Properties =>
      match cache m SPropMap with
      | Some l => (m, Some l)
      | None => let m1 := ensure_metadata w m (cache m SPropTerms) in
                let l := cache m1 SPropTerms in
                (set_cache m1 (put (put (cache m1) SPropMap l) SPropTerms None), l)
      end
  end.

(** ** Changing *)
(** What is done with a message.  [Rename]: a file is renamed by notmuch_message_tags_to_maildir_flags (lib/message.cc:2044-2107);
    [Reindex]: notmuch_message_reindex (lib/message.cc:2235-2358) of a message with a file, with the terms that
    linking and indexing add; [Changed]: notmuch_database_reopen of a database that is only read (lib/open.cc:841-887), to which
    another process has written. *)
Inductive op :=
| Get (g : getter)
| Add_tag (t : bytes) | Remove_tag (t : bytes) | Remove_all_tags
| Add_property (key value : bytes) | Remove_property (key value : bytes) | Remove_properties (pre : bytes)
| Rename (old new : bytes)
| Freeze | Thaw
| Reindex (adds : list (field * bytes))
| Changed (d : doc).
(** A change by one function and what follows it: 1652-1719 of lib/message.cc. *)
Definition then_sync (w : world) (m : message) (x : option message) : world * message :=
  match x with Some m1 => sync_thawed w m1 | None => (w, m) end.
(** lib/message.cc:2125-2136: the loop over the tags that were there. *)
Fixpoint remove_each (w : world) (m : message) (l : list bytes) : message * bool :=
  match l with
  | [] => (m, true)
  | t :: l => match remove_term w m Tag t with Some m1 => remove_each w m1 l | None => (m, false) end
  end.
(** lib/message.cc:1508-1539, for one term after another (indexing; status not looked at). *)
Fixpoint add_each (w : world) (m : message) (l : list (field * bytes)) : message :=
  match l with
  | [] => m
  | (f, v) :: l => add_each w (match add_term w m f v with Some m1 => m1 | None => m end) l
  end.
(** lib/message.cc:731-786 [_notmuch_message_remove_indexed_terms]: note that the cache is left alone. *)
Definition automatic (t : bytes) : bool := bseq t (lit "encrypted") || bseq t (lit "signed") || bseq t (lit "attachment").
(** lib/message.cc:731-786 [_notmuch_message_remove_indexed_terms]. *)
Definition remove_indexed_terms (w : world) (m : message) : message :=
  let m1 := ensure_metadata w m None in
  let '(m2, tags) := get w m1 Tags in
  let '(m3, props) := get w m2 Properties in
  set_doc m3 (fun f => match f with
                       | Type_ => [lit "mail"]
                       | Tag => filter (fun t => negb (automatic t)) (match tags with Some l => l | None => [] end)
                       | Prop_ => match props with Some l => l | None => [] end
                       | _ => []
                       end).
(** One operation: lib/message.cc:1652-1719, 2109-2175, 2044-2107, 2235-2358, lib/message-property.cc:80-163, lib/open.cc:841-887;
    each that changes something begins with _notmuch_database_ensure_writable (lib/database.cc:471-485).
    A tag may have 200 bytes (lib/notmuch.h:1822), the key of a property no "=". *)
Definition step (w : world) (m : message) (o : op) : world * message :=
  match o with
  | Get g => (w, fst (get w m g))
  | Changed d => if writable w then (w, m) else ({| stored := d; view := S (view w); writable := false |}, m)
  | _ =>
  if negb (writable w) then (w, m) else
  match o with
  | Add_tag t => if 200 <? length t then (w, m) else then_sync w m (add_term w m Tag t)
  | Remove_tag t => if 200 <? length t then (w, m) else then_sync w m (remove_term w m Tag t)
  | Remove_all_tags =>
      let '(m1, tags) := get w m Tags in
      let '(m2, ok) := remove_each w m1 (match tags with Some l => l | None => [] end) in
      if ok then sync_thawed w m2 else (w, m2)
  | Add_property k v => if existsb (beq "=") k then (w, m) else then_sync w m (add_term w m Prop_ (k ++ "=" :: v)%char)
  | Remove_property k v => if existsb (beq "=") k then (w, m) else then_sync w m (remove_term w m Prop_ (k ++ "=" :: v)%char)
  | Remove_properties pre => sync_thawed w (remove_terms w m pre)
  | Rename old new =>
      match remove_term w m File old with
      | None => (w, m)
      | Some m1 => match add_term w m1 File new with Some m2 => sync w m2 | None => (w, m1) end
      end
  | Freeze => (w, {| own := own m; cache := cache m; last_view := last_view m; modified := modified m; frozen := S (frozen m) |})
  | Thaw => match frozen m with
            | O => (w, m)
            | S n => sync_thawed w {| own := own m; cache := cache m; last_view := last_view m; modified := modified m; frozen := n |}
            end
  | Reindex adds =>
      let '(w1, m1) := sync_thawed w (remove_terms w (remove_indexed_terms w (fst (get w (fst (get w m Thread_id)) Filenames))) (lit "index.")) in
      sync w1 (add_each w1 m1 adds)
  | _ => (w, m)
  end
  end.
(** A program that uses one object. *)
Fixpoint run (w : world) (m : message) (os : list op) : world * message :=
  match os with [] => (w, m) | o :: os => let '(w1, m1) := step w m o in run w1 m1 os end.
(** A program that uses several objects for the same message, by number. *)
Fixpoint run_all (w : world) (ms : nat -> message) (os : list (nat * op)) : world * (nat -> message) :=
  match os with
  | [] => (w, ms)
  | (i, o) :: os => let '(w1, m1) := step w (ms i) o in run_all w1 (fun j => if j =? i then m1 else ms j) os
  end.
