* **Hex escaping**: `%00` decodes to NUL; `isxdigit` is applied to plain `char`; `out_size` is
  not reset when `*out == NULL`.
* **Batch tagging**: legality of tags is tested before hex decoding, so an illegal tag (for
  instance empty, or starting with `-`) can be added through escapes (T, C07).
* **Restore**: `find_message` returns ghost messages; exit status is success despite malformed
  lines; an unterminated `#= id foo` line makes the property parser read out of bounds;
  messages dumped without properties keep the target's (T, C06).
* **Reindex** of an unfrozen message writes a document without thread and files half way.
  Re-indexing after files changed on disk can leave a message in two threads (T, C43).
* **Tag optimisation**: combining the query with the tag conditions is wrong for
  s-expression queries (T, C09).
* **Maildir**: renaming replaces an existing target silently (T, C16); files under a directory
  whose name contains ":2," are never renamed; notmuch_message_tags_to_maildir_flags
  writes a frozen message to the database (lib/message.cc:2098).
* **gz_getline**: a NUL byte merges lines, and an empty chunk reads buf[-1] (T, C40); `*bufptr` is
  stale after a reallocation followed by an error.
* **Dump file**: a failing mkstemp may unlink a file that is not ours (T, C30).
* **Compaction**: after a failed second rename the database is missing from its path (T, C31).
* **Insert**: bad index options leave the delivered message behind; after a flag sync the moved
  file is left behind on failure; a "From " line split between two reads is not rewritten; an
  input of exactly "From " fails; `--create-folder` with "//" fails (T, C32, C33).
* **Printers**: the s-expression printer does not distinguish false/null and list/map and aborts
  on unusual keys; JSON is not valid for strings which are not UTF-8 (T, C36, C37).
* **Paths**: relative_path does not check for a component boundary; doubled slashes give a file two
  identities; `path:a/**` is confused with a directory literally named `**`; `folder:x/cur` never
  matches; long directory paths abort (T, C26, C27).
* **Features**: an upgrade drops unknown but accepted features from the metadata (T, C28).
* **lastmod:** trailing text after a number is ignored; inexact beyond 2^53 (T, C38).
* **Options**: integer overflow wraps; a refused integer option still assigns; the `--include`
  keyword arrays of notmuch-dump.c:382 and notmuch-restore.c:258 lack the `{ 0, 0 }` terminator,
  so an unknown keyword reads past the array (T, C46).
* **notmuch new**: a directory turned into a file keeps its recorded contents; mail in a
  symlinked directory is missed when nlink is 2; a temporarily unreadable message is not
  retried (T, C34); "tmp" and ".notmuch" directories recorded earlier are never cleaned.
* **Threads**: circular references lose messages from display (T, C23); count_messages always
  subtracts excluded messages (T, C25); authors may read "(null)"; only one "Re:" is stripped;
  oldest date in FLAG mode (T, C42, C47); count_threads leaves the sort order changed on error;
  calling notmuch_threads_get twice without moving yields different threads.
* **S-expression queries**: `(matching …)` outside a field dereferences NULL; saved `()` or atom
  crashes; a self-referencing saved query recurses forever; `mimetype` combines with "and" although
  documented as "or"; parameters inside `(matching …)` are undefined; a saved non-macro query
  sees its caller's parameters (T, C39, C48); `(query x)` with a broken saved infix query
  throws an uncaught exception; trailing slashes are stripped in place from shared macro arguments.
* **Dates**: "a.m."/"p.m." are never understood; signed overflow with large numbers; expressions
  without any date accepted as 1970; 2021-02-31 runs into March; the time -1 is
  treated as an error; `date:..X` excludes times <= 0 (T in part, C45).
* **Configuration**: a `database.path` in the metadata competes with the opened path; with
  NOTMUCH_DATABASE set and another path in the file the handle reports the file's; the typo
  "database.backup_path" leaves a relative backup_dir unexpanded; path "/" is reported as ""
  (T, C49); the manual says primary_email defaults to the host name, the code uses "localhost".
* **Opening and creating**: empty NOTMUCH_DATABASE or NOTMUCH_CONFIG are not ignored although
  notmuch.h says "if non-empty"; a failed creation leaves a database behind, so that the next
  attempt says it exists; HOME and XDG_DATA_HOME unset dereferences NULL (T, C50).
* **Reply**: a person named in two headers is addressed twice; a munged Reply-To is recognised
  only in the exact spelling of the recipient, else the author gets no reply; a host with an
  empty label ("mx.ma..com") makes a single label count as the domain; an address is "found" as a part of a
  longer one; the unused decoding direction of the filter does not treat lines after an empty
  line (T, C51).
* **Search command**: `--offset=1 --limit=2147483647` overflows a signed sum (with gcc nothing is
  shown); `--output=tags '*'` lists tags of excluded messages; a line break in a file name makes
  the text format ambiguous (T, C52); `--duplicate=0` shows all ids but no files.
* **Cryptographic status**: an outer `multipart/signed` that cannot be verified or has not two
  parts, or a `multipart/encrypted` that cannot be decrypted, is not a payload and does not end
  the envelope: with a validly signed message as its first part, the status says the whole
  message is signed although any other text is shown beside it (C54). The control part of a
  `multipart/encrypted` is recognised by a case-sensitive comparison, otherwise it is taken for
  the payload and its cleartext subject exported as protected (C54).
* **index.decrypt=nostash is not like true (C56)**: the manual says it is the same except for the stashing. With nostash (and auto) no decryption result is asked for, and the code that marks the message as decrypted is inside the test for it: the protected subject is not indexed and the copy of the headers for old programs is (`C56_nostash_like_true_refuted`).
* **Encrypted inside of signed (C56)**: while indexing, the child of a multipart/signed is taken for the payload before it is decrypted, unlike when showing: such a message is decrypted "in part" for the index and "fully" for show, its protected subject is not found by subject: (`C56_encrypted_in_signed_refuted`).
* **mbox output** (C57): the loop over the lines of a message file ends only at end of file (notmuch-show.c, format_part_mbox); a read error (a damaged compressed file) is not one, so the command writes the last line for ever. A NUL byte in a line loses the rest of the line.
* **show, unreadable messages** (C58): for a message whose file cannot be read nothing is printed, not even null, so its node is a list of one element; the schema promises two (C58_unreadable_schema_refuted).
* **show --unthreaded** (C58): the nodes are printed without the list of replies that the schema promises (C58_unthreaded_schema_refuted); a negative --offset together with --exclude=false counts without the excluded messages and prints the wrong window (C58_unthreaded_offset_refuted).
* **Filter of indexed text** (C60): the first character after uuencoded data is lost; "begin" is recognised in the middle of a line, and "bbegin" hides it; an apostrophe in an HTML comment hides the text after it; text after a NUL byte is not indexed; the filter runs before the conversion of the character set, so markup in UTF-16 or ISO-2022-JP is misread.
* **Regular expression fields** (C61): a trailing slash is stripped from the value of every boolean field of this kind, so a tag "todo/" is not found by tag:todo/ ; a tag beginning with "/" can only be searched as an expression; an empty subject or sender is not stored, so subject:/^$/ never matches; text after a NUL in a value is not looked at.
* **config set** (C62): `notmuch config set new.tags 'a;b' c` writes an escape that the library does not understand; a value that is not UTF-8 is accepted and then no command can read the file, not even config set; a section "a.b" in the file can hide an item set as a.b.c; `.name` reports success and sets nothing; `index.header.from.X` passes the check that prefixes do not begin with a lower case letter.
* **Upgrade** (C63): the status of adding the file name of an old message is ignored and the data cleared, so a message whose file name is too long for a term (225 to 255 bytes) loses its only file (C63_long_name_kept_refuted); after a failed upgrade the features of the handle stay at the target, so needs_upgrade says no and further writes use the new format (C63_handle_after_failure_refuted); if the first count fails, a transaction that was not begun is cancelled and Xapian throws (C63_count_failure_reported_refuted); a NULL directory is used if its document cannot be created; the comment says that all messages get revision 1, but each gets its own.
* **Directories** (C64): notmuch_directory_delete on a directory that still lists something leaves its subdirectories known but listed by no directory, even after it comes back, and file names of messages that cannot be made (C64_delete_nonempty_refuted); an object kept after its directory was deleted brings it back when its time is set (C64_stale_object_refuted).
* **Message files** (C65): the check that a file is inside the mail root compares only the beginning of the name, so with root /home/u/mail a file /home/u/mail-archive/x (or /home/u/mail/../x) is accepted (C65_open_below_root_refuted); a Received header that can't be decoded makes those before it be forgotten (C65_all_received_refuted); only the first file of a message is tried for headers that are not in the database, so they can't be read if it is gone although another copy exists; a From or Subject that cannot be decoded would be passed as NULL to a std::string.
* **Relative dates** (C66): the conditions mix elapsed seconds and weekdays, so with daylight saving time a time of the same day, more than 24 hours ago, is shown as a date (C66_dst_today_refuted), and a time eight days ago as "Yest." (C66_dst_yesterday_refuted); an elapsed hour and a minute is printed as "1h 60s" (C66_elapsed_carry_refuted).
* **Count** (C67): like notmuch tag --batch, a batch line that begins with a NUL byte makes chomp_newline read (and perhaps write) before the start of the buffer (C67_every_line_handled_refuted).
* **notmuch setup** (C68): an answer with tags that begins with a space gives an empty tag; `notmuch_conffile_is_new (config)` is called after `notmuch_conffile_close (config)` on every successful run (use after free, notmuch-setup.c:245-249); a line that begins with NUL makes chomp_newline look at the byte before the buffer; additional addresses can be replaced but not removed; Enter for the current additional addresses copies those in effect (for example from the environment or the database) into the file.
* **Hooks** (C69): a hook that exists but whose interpreter does not (execl: ENOENT) makes the child exit with status 0, so the hook counts as having succeeded (hooks.c:69-79); notmuch new goes on.
* **Exit status** (C70): `notmuch config get ...` without a configuration file prints "Try running 'notmuch setup'" and exits with status 0 (notmuch.c:580-584: goto DONE with ret still EXIT_SUCCESS).
* **Failed addition** (C71): notmuch_database_index_file always ends its atomic section with end_atomic (lib/add-message.cc:587), even after a failed begin_atomic; nothing cancels it, so what was written before the failure is committed. Threads stay joined by the references of a file that is not in the database (C71_failure_leaves_threads_refuted); an exception in the middle of _merge_threads leaves a thread split (C71_failure_splits_thread_refuted), and adding the file again with success does not rejoin it, because the reference already resolves to the winner (C71_retry_mends_threads_refuted).
* **Subqueries** (C72): `thread:{q}` also looks at ghost documents, so `thread:{not tag:x}` finds a thread all of whose messages have the tag, if a parent is missing (lib/query.cc:828-874, C72_thread_of_found_refuted); `query:NAME` of a name that is not set finds nothing although an empty query finds everything (lib/query-fp.cc:27-43 bypasses lib/query.cc:189-190, C72_named_refuted); a saved query that refers to itself recurses without end (C72_terminates_refuted); an empty `thread:` value makes `str.at (0)` throw std::out_of_range, which no caller catches (lib/thread-fp.cc:34, C72_errors_reported_refuted); a query object with infix syntax keeps the thread ids of its first search (C72_reuse_infix_refuted), one with s-expression syntax is parsed anew at each use because query->parsed is never set (lib/query.cc:232-247, C72_reuse_sexp).
* **notmuch git, encoding** (C73): a tag prefix containing `~` matches nothing (the prefix is compared in Python's quoting, which keeps `~`, with a dump that escapes it); the help text says every octet outside its list is escaped but `~` is kept; a message id containing ` -- id:` stops the program with a ValueError; tags `.`, `..`, `.git` and the empty rest of a tag equal to the prefix are silently ignored by `git update-index`.
* **notmuch git, clone** (C74): `clone` reads the format before the repository exists (so format 0 is assumed: tag paths of format 1 are read as wrong ids), and calls `checkout` only when no message carries the prefix, in which case `check_safe_fraction` finds a total of 0 and stops it: the tags of the clone are never loaded.
* **notmuch git, missing messages** (C74): ghosts count as known messages, so `commit` deletes the tags of messages that are only referred to; without the Python bindings `known` is always true (the output of `notmuch search` is a string, compared with None), so `commit` deletes the tags of all messages the database lacks.
* **notmuch git, private index** (C74): the cache of the private index is not dropped when the database uuid changed: stale entries are reported and committed as added; tags of removed messages stay in the index for ever; the revision is read after the dump, so a change made in between is never noticed; a prefix with an upper-case letter finds nothing because wildcard queries are lower-cased; `count_messages` leaves out messages with excluded tags, so the safe fraction is of a smaller number; the query of the incremental run has unbalanced parentheses, so that the tag part is ignored (which happens to be what makes removal of the last prefixed tag work).
* **notmuch new: directory moved away and back** (C75): if a run is killed while it removes a vanished directory from the database, and the directory is then moved back with its old modification time, its already removed mails are missed by all later runs without --full-scan: `_remove_directory` deletes the files first and the directory document (with the recorded mtime) last, and does not reset the mtime. The same holds for a change of new.ignore (documented: use --full-scan).
* **HHMMSS with a zone** (C45): `date:"2012-03-04 101112 +05:30"` is refused although both forms are documented and `101112 +0530` is accepted: the six digits are still a postponed number when the zone is read, so `+05:30` is taken for a second time of day (parse-time-string.c:1061-1094; C45_six_digits_and_zone_refuted).
* **--body=false** (C76): documented as leaving the bodies out, it also shows the subject outside where the full output has the protected one, and `"crypto": {}` for encrypted and signed mail (notmuch-show.c:661-712: the children are not visited, so nothing is decrypted; C76_body_false_only_omits_the_body_refuted).
* **show.extra_headers** (C76): a name that is printed anyway is printed twice; with `Subject` the second one - the one most JSON readers take - is the subject outside (C76_header_keys_distinct_always_refuted).
* **devel/schemata** (C76): does not say that `signed.encrypted`, `signed.headers` and `decrypted.header-mask` are optional, nor that the content of an opened PKCS#7 part is a list of parts; the status "unknown" and the error "alg-unsupported" are never printed.
* **Emacs tagging** (C79): undo is not an inverse: it removes a tag from messages that already had it, and cannot find messages that the operation took out of the query (`-inbox` on `tag:inbox`) -- `C79_undo_refuted`, `C79_undo_selection_refuted`. A query containing a newline is cut at it and more messages are tagged (`C79_newline_query_refuted`). The check `^[-+]\\S-+$` matches any *line* of the string, so a change containing a newline passes, as does `--`, which the batch grammar reads as the end of the operations (`C79_validated_newline_refuted`, `C79_validated_refuted`).* **Killed tagging** (C80): a message whose new tags were flushed but whose file was not yet renamed when 'notmuch tag' was killed is left out by the optimised query of a repeated run, so its maildir flags stay out of date; and a file renamed before the flush makes a later 'notmuch new' with synchronize_flags change only the tags that have flags, half of the operations.
* **Text output** (C81): the text of a mail is not escaped, so a mail can close its part and open another, or (without a final newline) hide the closing line; with --duplicate the opening line names the first file, not the one shown; raw output (without --duplicate) fails if the first file of a message is gone, where the other formats use the next one.
* **Forged lines in notmuch search** (C82): authors and subjects are sanitized in the text output of notmuch search, tags are not. A tag with a newline (from a tag command, a dump file or a mail delivered with `+tag`) makes one thread print as two, the second with an identifier, subject and tags of choice (`C82_text_newline_in_tag_refuted`). Besides, the end of the authors and of the subject cannot be told (`C82_text_ambiguous_refuted`).* **Python: a list of messages is a use after free** (C83): MessageIter.__next__ destroys the iterator when it reaches the end (_base.py:224-230), and the library allocates the messages of a query below the iterator (lib/query.cc:508), so every message kept from `db.messages(q)` past the end of the loop, as in `list(db.messages(q))`, points to freed memory. Its alive property is False, but methods do not look at it: they call the library with the dangling pointer.
* **Python: frozen() and iterators** (C83): when a `with message.frozen():` block fails, the message is freed and its pointer replaced (_message.py:320-332). An iterator over its tags, filenames or properties that still exists then has freed memory, says it is alive because its parent is, and is freed a second time when it is finalized.
* **Python: alive says too little** (C83): a thread is allocated below the query, not below the iterator that gave it (lib/query.cc:674), so it can be used after the iteration has ended, but it says it is not alive, and its own memory is then not given back before the query is.
* **Python: iterators after their end** (C83): a second next() on an exhausted iterator raises ObjectDestroyedError instead of StopIteration, because the pointer is gone; Python requires StopIteration for ever.
* **notmuch-emacs-mua --print changes the Lisp** (C84): `echo ${ELISP}` is not quoted (emacs/notmuch-emacs-mua:176), so runs of blanks and newlines in a subject become one blank and words with `*` or `?` are replaced by names of files.
* **notmuch-emacs-mua: --to and an operand are glued** (C84): `--to=a b` puts "ab, " in To:, because operands are inserted without looking at TO_SEP (emacs/notmuch-emacs-mua:148); several operands leave a trailing ", ".
* **notmuch-emacs-mua: "--" is a recipient** (C84): when getopts meets "--" the loop ends without the shift of line 132, so "--" stays and is inserted in To:.
* **Emacs: encryption not noticed when saving a draft** (C85): the regular expression of emacs/notmuch-draft.el:99 wants "encrypt>" at the end of the secure tag and "encrypt" as the first attribute of a part; `<#secure method=pgpmime mode=encrypt sender=me@x>` and `<#part type=text/plain encrypt=pgpmime>` are saved and indexed in the clear even with notmuch-draft-save-plaintext set to never.
* **Emacs: the draft is deleted before the mail is sent** (C85): notmuch-draft--mark-deleted is in message-send-hook (emacs/notmuch-draft.el:283), which runs before sending; if sending fails the draft is already tagged deleted.
* **Emacs: forgotten draft** (C85): when notmuch tag fails after notmuch insert has stored the new draft (emacs/notmuch-draft.el:221-230), notmuch-draft-id keeps the old id and the new draft is never tagged deleted.
* **Emacs: quoting of tags and case** (C85): saving binds case-fold-search to t (emacs/notmuch-maildir-fcc.el:150), resuming uses the user's value; with nil, `<#PART` stays quoted after resuming.
* **Emacs: Fcc reports success without storing** (C86): notmuch-maildir-fcc-write-buffer-to-maildir returns t even when the link failed because the name exists (the `t` of emacs/notmuch-maildir-fcc.el:358 is outside the catch), contrary to its documentation ("nil otherwise"); the mail then stays in tmp only and nobody is told.
* **notmuch compact ignores --uuid** (C87): notmuch-compact.c:48 passes NULL although the database is open, so `notmuch compact --uuid=X` only warns and compacts another database. External commands (`notmuch --uuid=X emacs-mua`) ignore it too.
* **A refused `notmuch new` has already made a database** (C87): main creates the database before the command reads its options, so `notmuch new --uuid=X` (refused) and even `notmuch new --help`, run where there is no database, leave a new one; `notmuch search --help` without a database shows no help at all, while `notmuch --help search` does. notmuch(1) calls the two places equivalent.
* `notmuch --uuid=X COMMAND` prints "Warning: ignoring --uuid=X" (notmuch.c:97-100, called with NULL from main) although the command does obey it (C87_uuid).
* **Python tags: == with a set raises** (C88): `message.tags == {'inbox'}` raises AttributeError ('set' object has no attribute 'iter'), because ImmutableTagSet.__eq__ (_tags.py:110) calls other.iter(); all other comparisons accept sets.
* **Python tags that are not UTF-8** (C88): iterating ignores the undecodable bytes, so the text it gives is not a member; pop() returns it without removing the tag, so `while tags: tags.pop()` never ends; two tags can give the same text.
* **Python tags and bytes** (C88): documented as accepting bytes or str, but `tags - {b'a'}`, `tags <= {b'a'}` treat b'a' as different from the tag a although `b'a' in tags`; NUL cuts the tag that add() adds.
* **Python: message.tags |= {...}** (C88): Message.tags is a property without a setter, so the statement changes the tags and then raises AttributeError.
* **Python: nesting frozen() is not safe** (C89): documented as safe, but when the exception of an inner `with msg.frozen()` is caught inside the outer one, the message was replaced by one that is not frozen: the outer block's earlier changes are lost, later ones are stored at once, and its end raises UnbalancedFreezeThawError (_message.py:320-336).
* **Python: interrupted frozen()** (C89): `except Exception` does not catch KeyboardInterrupt and SystemExit; the message then stays frozen and later changes are silently never stored.
* **Python: frozen() on messages of threads** (C89): OwnedMessage._destroy does nothing, so after a failed block the thread's message stays frozen and changed; got again from the thread it shows the tags that were rolled back, and changes to it are never stored.
* **Python: abort() in a nested section** (C89): the outer `with db.atomic()` ends without an exception although everything was discarded and the database is closed, because end_atomic only decrements the count that the inner section left behind. AtomicContext.alive raises AttributeError (there is no self.parent).
* **Python: revisions of different databases** (C89): DbRevision.__lt__ and __eq__ return False for different UUIDs, from which total_ordering derives that each is greater than the other.
* **Python: del config['missing']** (C90) raises no KeyError: __delitem__ sets the empty string (_config.py:87-88).
* **Python: config values that are not UTF-8** (C90): config[k] = b'\xff' succeeds, and the key is then not there, because the value is decoded with errors='ignore' and an empty text means KeyError. A *key* that is not UTF-8 is iterated over under another name: list(config.items()) raises KeyError, and clear() stops at it without an exception and leaves it and every value after it. Keys are cut at NUL.
* **Python: changing the configuration while iterating over it** (not modelled): config.clear() takes a new iterator each time, but `for k in config: config[k] = ...` with a new key makes the library reallocate and sort the array under the C iterator (lib/string-map.c:63-111).
* **Emacs: '*' in a search view** (C91): the help of notmuch-search-mode (emacs/notmuch.el:395-399) still warns that '*' also tags messages that arrived after the buffer was made. It does not: stable queries name the messages shown. But it tags only the matched messages of each thread and draws every line as if all the messages of the thread had changed (`C91_display_tag_all_refuted`): '* -x' removes x from the display of threads in which an unmatched message still has it.
* **Python: properties that are not UTF-8** (C92): pop() of such a value returns it and leaves it in the message, because the lossy text is passed to remove() (_message.py:584-594), so popping until KeyError never ends; popitem() raises KeyError although the map is not empty if the first key is not UTF-8 (`C92_pop_refuted`, `C92_popitem_refuted`).
* **Python: del message.properties[k]** (C92) raises no KeyError for a missing key, and a key such as 'a=2' is not refused: it removes the values of 'a' that begin with '2=' (`C92_del_refuted`, the library part is in C12).
* **Python: message.properties.values()** (C92, not modelled): PropertiesValuesView has no _from_iterable, so `values() & other` gives a view of a generator: len() of it raises TypeError and `in` consumes it (_message.py:691-708).
* **Databases without ghost messages** (C93): the thread id stored for a missing message is not updated when its thread is merged into another, so messages that refer to the same missing message may be in different threads until it arrives (`C93_common_missing_parent_refuted`); the children loop removes the reference term before the new message is written, so after a failed addition the message added again may miss the thread (`C93_failed_addition_refuted`); references of 190 to 235 bytes are looked up by the hash but stored as written (`C93_long_reference_refuted`). `_notmuch_message_delete` creates ghost documents in such databases too (lib/message.cc:1430-1445), although the feature is not set.
* **Emacs show view: stale tags** (C94): notmuch-show-tag-message, which archiving and marking as read use, compares with the tags shown and runs nothing when these would not change, without an error, although the message in the database has got the tag since (`C94_stale_view_refuted`); notmuch-show-tag does run the command.
* **Emacs tree view: the message pane** (C94): notmuch-tree-tag-update-display redraws the header line in the pane but leaves the :tags property there (notmuch-show-update-tags instead of notmuch-show-set-tags), so after removing "inbox" in the tree view, un-archiving the same message in the pane does nothing (`C94_pane_refuted`).
* **Ruby bindings: nothing is kept alive** (C95): the data types have no dmark function, and no object refers to the one it came from. A query, message or directory is used after free once the collector has freed the Database (`C95_keeps_database_refuted`), Threads once it has freed the Query (`C95_keeps_query_refuted`), thread.messages once it has freed the Thread (`C95_keeps_thread_refuted`).
* **Ruby bindings: messages of a thread are stolen** (C95): each Ruby Message takes the library's message away from its thread, so that after the collector or destroy! has freed it, going through thread.messages again reads freed memory (`C95_messages_again_refuted`), and two Ruby objects for the same message free it twice (`C95_destroy_both_refuted`). thread.messages.tags frees all messages of the thread (`C95_thread_tags_refuted`).
* **Ruby bindings: message.replies.tags** (C95) of a message without replies passes a null pointer to notmuch_messages_collect_tags, which reads through it (`C95_no_replies_tags_refuted`). destroy! of an iterator inside its own each is a use after free (`C95_destroy_in_each_refuted`).
* **Ruby bindings: a collected Database loses changes** (C95): the collector only calls talloc_free, and the database has no talloc destructor, so that the Xapian database is neither closed nor committed (`C95_collected_changes_refuted`). Database.new leaks the wrapper made by its allocator (`C95_leak_refuted`).
* **Reindexing leaves stale answers** (C96): `_notmuch_message_remove_indexed_terms` clears the terms of the document without forgetting what was remembered (lib/message.cc:731-786), so that after notmuch_message_reindex the object still shows the automatic tags (attachment, signed, encrypted) and In-Reply-To of the old file (`C96_reindex_tags_refuted`, `C96_reindex_reply_refuted`).
* **Reopening does not refresh message objects** (C96): a new view makes `_notmuch_message_ensure_metadata` read the terms again, but it only fills in what is not there, so that what an object has shown once it shows for ever (`C96_reopen_for_ever_refuted`), along with newer values of what it had not yet read.
* **Two objects for the same message** (C96): each has its own copy of the document; a change through one overwrites a change through the other (`C96_two_objects_refuted`).
* **Maildir flags and long file names** (C96): when the renamed file has a name too long for a term, notmuch_message_tags_to_maildir_flags has renamed it and removed the old name from the object, does not add the new one and does not sync; the next change of the message stores it without a file (`C96_rename_too_long_refuted`).
* **Emacs hangs on deep citations** (C97): coolj-find-break-forward starts at the fill column and may find the space that ends the citation marks; the rest with the marks in front is then the same line again. A line of 80 characters, ">" and 39 times "> " and a letter, in a window 80 wide makes notmuch-wash-wrap-long-lines, which is on the default hook, insert lines for ever (`C97_terminates_refuted`); in deep threads, where the indentation is subtracted from the width, a few levels of citation suffice (`C97_terminates_deep_refuted`).
* **Error on long runs of ">"** (C97): when the marks are longer than the width, search-backward gets a bound on the wrong side of point, which is an error (`C97_error_refuted`).
* **Long lines after a wrapped citation** (C97): coolj-wrap-region compares point with the end as it was before the marks were inserted, and stops at the first two lines after it that need no wrapping (`C97_unfinished_refuted`).
* **Trailing blank line** (C98): the last step of notmuch-wash-elide-blank-lines looks for a line break after the end of the buffer and never does anything (`C98_trailing_refuted`).
* **Cited paragraphs run together** (C99): in the second regular expression of notmuch-wash-tidy-citations [^>] also matches a line break, so that after an empty line any line, also a cited one, counts as uncited and the line of marks after it is removed (`C99_paragraphs_refuted`).
