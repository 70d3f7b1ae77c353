{
"C01": [
"Hex.v",
"induction on the string; the per-byte facts by computation over all 256 bytes"
],
"C02": [
"Hex.v",
"as C01"
],
"C03": [
"Hex.v",
"induction with an invariant relating buffer size and bytes written"
],
"C04": [
"StrUtil.v",
"induction on the term; an automaton for quotes"
],
"C05": [
"Dump.v, TagLine.v",
"composition of the round trips C01, C04 and of the tag line parser"
],
"C06": [
"Dump.v, Db.v",
"line by line simulation of restore on the dump; induction on the list of messages"
],
"C07": [
"TagLine.v",
"equivalence of the parser with a grammar (relation), induction on the line"
],
"C08": [
"TagOps.v, Db.v",
"induction on the operation list"
],
"C09": [
"TagOps.v, StrUtil.v",
"monotonicity of the optimised query; round trip of the printed terms"
],
"C10": [
"MsgId.v",
"progress lemma, induction on fuel bounded by the length; grammar for well-formed headers"
],
"C11": [
"MsgId.v",
"induction on the list of references"
],
"C12": [
"StringMap.v, Props.v, Db.v",
"sortedness invariant of the map, binary search correctness, term-level multimap"
],
"C13": [
"Db.v",
"invariant over histories of calls; a frozen handle's changes stay in its document"
],
"C14": [
"Db.v",
"invariant over histories with crash, close, reopen and flush"
],
"C15": [
"Maildir.v",
"case analysis and induction on the file name"
],
"C16": [
"Maildir.v",
"induction on the list of files, disk as a function, failing renames"
],
"C17": [
"MailStore.v",
"reachable-state invariant preserved by each operation"
],
"C18": [
"MailStore.v",
"connected components as a reflexive-transitive closure; order independence from the characterisation"
],
"C19": [
"MailStore.v",
"invariant: unique ids, counters above all ids used"
],
"C20": [
"MailStore.v",
"invariant of placeholders (ghosts)"
],
"C21": [
"MailStore.v",
"as C17"
],
"C22": [
"ThreadTree.v",
"forest invariant, fuel bound by the number of messages"
],
"C23": [
"ThreadTree.v",
"well-founded ascent along parents for acyclic headers"
],
"C24": [
"Query.v, DocSet.v, Thread.v, XQuery.v",
"loop invariant of the iterator over the doc id set"
],
"C25": [
"Query.v",
"set algebra on query results"
],
"C26": [
"Paths.v",
"induction on components; injectivity of the directory table over histories"
],
"C27": [
"Paths.v",
"term-level characterisation over histories"
],
"C28": [
"Features.v",
"sweep over the table lifted to all sets; parser against a relation"
],
"C29": [
"StrUtil.v",
"induction on the list of values"
],
"C30": [
"DumpFile.v, Fs.v",
"all prefixes of the trace of system calls"
],
"C31": [
"Compact.v",
"all prefixes of the trace of directory operations"
],
"C32": [
"Insert.v, Fs.v",
"loop invariants of copy_fd/write_buf under arbitrary schedules; all states seen"
],
"C33": [
"Insert.v",
"equivalence with a component-wise specification; induction on the path"
],
"C34": [
"New.v, MailStore.v, Maildir.v",
"invariant of the two-way merge of sorted listings, induction on the tree"
],
"C35": [
"New.v",
"adds come before removals: invariant at every interruption point"
],
"C36": [
"Sprinter.v",
"independent RFC 8259 reader; round trip by induction on value trees"
],
"C37": [
"Sprinter.v",
"independent Lisp reader; round trip by induction on value trees"
],
"C38": [
"Lastmod.v",
"arithmetic case analysis"
],
"C39": [
"Sexp.v, XQuery.v",
"translation against a denotational semantics, induction on expressions"
],
"C40": [
"GzLine.v",
"loop invariant over gzgets chunks"
],
"C41": [
"StrUtil.v",
"induction on the string"
],
"C42": [
"Thread.v",
"case analysis; choice of the subject by induction on the messages"
],
"C43": [
"MailStore.v",
"re-indexing simulated as removal and addition on the invariant of C17"
],
"C44": [
"Meta.v, Terms.v",
"prefix incompatibility lifted to the sorted term list"
],
"C45": [
"Dates.v, Calendar.v, DatesForms.v (the documented forms)",
"calendar bijection; the parser as a fold over fields; per-form characterisations; P_DatesForms.v: all documented forms of dates, months, times, zones and number words, by a step-wise parsing relation over an abstract state (DatesProofs12-16)"
],
"C46": [
"Options.v, OptionTables.v",
"equivalence with a reading relation; all real tables shown to meet the hypotheses by computation"
],
"C47": [
"Thread.v",
"folds over the messages of a thread"
],
"C48": [
"Sexp.v",
"simulation between lazily bound environments and substitution"
],
"C49": [
"Config.v, StringMap.v",
"map algebra over the loading passes"
],
"C50": [
"Open.v, Config.v",
"case analysis over the search order; external mkdir/create with stated effects"
],
"C51": [
"Reply.v",
"addresses flattened to a list of mailboxes, loop invariants for both modes; the filter as a state machine, induction on the text"
],
"C52": [
"SearchCmd.v",
"the loops compute skipn/firstn of the library's result list (C24, C25), counting agrees with the list; the printed strings read back by a grammar"
],
"C53": [
"Address.v",
"the hash table after any list of occurrences equals a function of that list (induction from the right), then facts about that function; visiting order as a permutation"
],
"C54": [
"Mime.v",
"the walk of the formatters without numbers; induction over the layers of the envelope with the status as accumulator; growth invariant of the status for arbitrary messages"
],
"C55": [
"Mime.v",
"fuel adequacy by depth; invariant of the frames of next part numbers; simulation of the seek by the walk"
],
"C56": [
"IndexMime.v (on Mime.v)",
"the run of the indexer is related to a structural list of events by induction on the depth of parts; the specification folds over the tree and knows no status"
],
"C57": [
"Mbox.v, MboxSpec.v",
"the quoting is shown to be inverted by an independent mboxrd reader, by induction on the lines of the file; the read loop is a relation on the results of gz_getline, refutations by concrete results"
],
"C58": [
"ShowCmd.v, ShowCmdSpec.v (on Query.v, Thread.v, ThreadTree.v, SearchCmd.v)",
"the recursion over the reply forest is related to the trees of C26/C48, the set of messages printed to the specification of C24/C25/C52; counterexamples by computation on a concrete database"
],
"C59": [
"New.v, MailStore.v, Maildir.v",
"the effect of a run is a sequence of added files followed by a sequence of removals of files that are gone; an invariant on the documents with the new id over the first, and a frame lemma for the second (NewTagsProofs.v)"
],
"C60": [
"Discard.v (the scanner tables and filter_filter with its state carried between buffers)",
"the state machine's run over concatenated pieces is characterised by structural recursions, then by inductive specifications uu and html independent of the table"
],
"C61": [
"Regexp.v (posting source over a Xapian value stream with nondeterministic check; term expansion; the field processor)",
"simulation between the cursor and an abstract set-with-position (Xapian's documented contract), invariant: what is left of the stream against a bound; case analysis for the processor"
],
"C62": [
"ConfigCmd.v (the command, the key file as groups of keys with GLib's escaping), Config.v, StrUtil.v",
"escape/unescape cancel by induction; key file lookup lemmas; composed with C49_precedence and the C29 list round trip"
],
"C63": [
"Upgrade.v (the whole function as phases over messages, time stamps and thread ids, inside a transaction; on Paths.v, Features.v)",
"frame lemmas for each phase, an invariant of a message under each step composed with the path lemmas of C30-C32, and one master theorem for the success case"
],
"C64": [
"Directory.v (directory objects over the terms of the whole database; on Paths.v)",
"invariant of the store: consistent directory documents, one per directory, every message consistent with them; preserved by each operation; lists characterised by the prefix range lemma of Meta"
],
"C65": [
"MessageFile.v, MessageFileSpec.v",
"cache invariant (every cached value is the value of the file) by induction over calls; inductive specification of a header's value shown to be functional"
],
"C66": [
"RelDate.v, RelDateSpec.v, Calendar.v",
"arithmetic on day numbers; the texts are told apart by the character before the last two"
],
"C67": [
"CountCmd.v (with Query.v, SearchCmd.v)",
"composition with C24, C25 and C52: both are the length of lists without repetition and with the same elements"
],
"C68": [
"Setup.v (on ConfigCmd.v, Config.v)",
"each question reads one line (lemmas for the two loops); the result is a composition of six optional updates, each of which changes one item (find_raw lemmas of C62); a prefix of the dialogue fails by the same decomposition"
],
"C69": [
"Hooks.v",
"case analysis over the outcomes of the system calls; the trace of events of notmuch new is pre ++ work ++ post"
],
"C70": [
"Hooks.v",
"the table of commands is classified once (find_cases); main by cases"
],
"C71": [
"IndexFailure (list of all intermediate databases of index_file), MailStore",
"induction over the references with the invariant and soundness of MailStoreProofs; counterexamples by computation"
],
"C72": [
"FieldProc.v, FieldProcSpec.v",
"fuelled evaluation of the field processors over an arbitrary grammar; results do not depend on the fuel once it is enough (monotonicity); membership of found messages by unfolding the search; termination by well-founded induction on the texts used; refutations by concrete databases and by a self-referring name"
],
"C73": [
"NmGit.v, NmGitSpec.v",
"inductive specification of the encoding; quoting inverted by induction on the string, the path regular expression by takewhile/dropwhile lemmas; reading of the dump composed with the C08 dump lemmas; the batch line composed with the tag-line parser lemmas"
],
"C74": [
"NmGit.v, NmGitSpec.v",
"invariant on the cached private index (agrees with every message not changed since the recorded revision), preserved by status, commit, checkout and any evolution of the database; commands as composition of index operations on sorted path lists; refutations by concrete repositories"
],
"C75": [
"New.v, NewCrash.v (states after each atomic operation), NewHistorySpec.v",
"NewHistoryProofs*.v: invariant over histories: a recorded mtime is 0 or was found by some run, and the database agrees with that run's listing unless something happened to the directory since; preserved at every stop point of a run; hence `trustworthy` for the next run"
],
"C76": [
"ShowPart.v (format_message_sprinter, format_headers_sprinter, format_part_sprinter, signatures, crypto as calls to a sprinter), Sprinter.v, Mime.v",
"ShowPartProofs*.v: the calls are the flattening of a value computed from the tree of parts the MIME walk visits (induction over the tree); schema and content read off that value; composed with the reader theorems C36/C37 and the numbering theorems C55"
],
"C77": [
"ShowPart.v (show_part, find_dfs), Mime.v",
"ShowPartProofs*.v: the depth-first search visits the same tree as the full output, with the same crypto state before part k (induction with the state threaded)"
],
"C78": [
"EmacsParser.v (the parser, the filters; Emacs' read as a machine over characters and parse-partial-sexp as a scanner), Sprinter.v",
"EmacsParserProofs*.v: the scanner follows the reader character by character, scanning may be resumed, every proper prefix of a compound value is end-of-file; invariant of the stream over pieces: delivered elements, skipped white space, text after point and what is still to come make up the printed text; composed with the printer's layout (C37)"
],
"C79": [
"EmacsTag.v models validation, encoding, the batch text, the display update, history and undo; the command is run in the model of 'notmuch tag --batch' (TagLine.v, TagOps.v, Db.v) as a process of its own.",
"The text is shown to be in the batch grammar (C07) with the wanted operations; the effect comes from C09; the display update is proved equal to the last-operation-wins specification."
],
"C80": [
"The effects of a run (documents written, files renamed) as a list, killed at any point with flushes anywhere (TagKill.v: killed); Xapian's durability and rename(2) are external.",
"Invariant over beginnings of the list: only completely tagged documents are ever written (TagKillProofs.v); idempotence of tag_after for the repetition. Refuted: repeating brings the flags of the files up to date; all or nothing when flags are read back afterwards."
],
"C81": [
"format_part_text over the nodes of Mime.v (ShowText.v); GMime and the decoded text are external as in C76. The reader of blocks is in ShowTextSpec.v.",
"The output is the rendering of a tree of blocks (ShowTextProofs.v), rendering is read back by induction. Refuted: without the hypothesis on texts (forged parts, text without final newline), the file name on the opening line with --duplicate, raw output when the first file is gone."
],
"C82": [
"SearchOut.v (notmuch-search.c:157-262, 384-397, notmuch-reply.c:674-690), Sprinter.v, ShowPart.v, RelDate.v; SearchOutSpec.v has the schemata, what each value should say, and a reader of lines",
"The calls of the printer are those of a value given field by field; the schema and the fields are checked of it, C36 and C37 read it back. For text: each line is split again by the reader; lines have no newline because sanitize_string removes it."
],
"C83": [
"PyLife.v models the memory of the library as a talloc forest (a block, its parent; freeing frees what is below) and the objects of the bindings (class, parent object, pointer or none), with the method tables saying what each method returns and below which block the library allocates it, the alive properties, the _destroy methods, iterator exhaustion, finalizers and the rollback of Message.frozen. PyLifeSpec.v says which programs are careful (ask before use) and counted (reference counting).",
"Two invariants over all sequences of operations: the pointer of an object that is alive (or, for counted programs, not finalized) points to memory in use, because memory below a block belongs to objects that came out of the object of that block. Leaks: every block in use lies below the block of a database object. Refutations are concrete programs, evaluated."
],
"C84": [
"EmacsMua.v models the script with the relevant behaviour of getopts, word splitting and echo; EmacsMuaSpec.v gives a Lisp reader (strings with escapes, lists, quotes), an evaluator for the few functions used, and what a command line means.",
"The reader fed with escaped text collects exactly the text (induction over the bytes); the expression is read form by form, with an invariant over the options relating the Lisp so far, the separators and the mail so far."
],
"C85": [
"EmacsDraft.v models the regular expressions as functions with all backtracking choices, the search loops, the headers, saving, resuming and the history of drafts. message.el and mml.el are external; encoding as MIME and back is taken to be the identity.",
"Matching at a position is not changed by quoting later positions (tags are words), hence unquoting meets exactly the quoted positions; induction on the length. History: an invariant on the drafts that are not deleted."
],
"C86": [
"EmacsFcc.v models the naming and the steps (check, open, partial writes, link, delete, errors) on a file system as a function from paths to contents; EmacsFccSpec.v adds steps of other programs.",
"Invariant over reachable worlds; each own step is a guarantee about every path. Names: reading decimals back, and the maildir names of C15."
],
"C87": [
"CommandLine.v models main and the start of all commands on top of the option parser (Options.v) and the real option tables (OptionTables.v): parsing twice with shared global variables, creating or opening the database, and what was asked.",
"The readings of C46 give the assignments of a command line; the last assignment to each variable decides, by induction on the list; case analysis over the table of commands."
],
"C88": [
"PyTags.v models _tags.py, what it inherits from collections.abc (Set, MutableSet), UTF-8 encoding and decoding with errors ignored, and the tags in the library.",
"UTF-8 decoding inverts encoding (by cases on the length of the sequence); sorted lists without duplicates represent sets; induction over operands and over the calls."
],
"C89": [
"PyBlocks.v models frozen(), atomic(), abort() and exceptions as a small language of programs with a trace of the database after every library call, over the library model Db.v; DbRevision's comparisons as total_ordering derives them.",
"Mutual induction over programs and blocks: inside a frozen block the stored documents stay the same and the handle collects the changes (DbProofs.v gives their meaning as sets); inside a section nothing becomes durable and nesting is restored."
],
"C90": [
"PyConfig.v models ConfigMapping with the methods it inherits from MutableMapping over StringMap.v, with UTF-8 and C strings of PyTags.v.",
"A relation between the sorted array of the library and a function from texts to optional texts is preserved by every call (StringMapProofs.v gives get and set); induction over histories; clear() by the number of keys."
],
"C91": [
"EmacsSearch.v models the buffer as lines of any width, positions, text properties, the marker, the loop over a region, the stable queries (with SearchCmd.v for their text) and the tag commands over EmacsTag.v; EmacsSearchSpec.v says which lines meet a region and how a disjunction of ids is read.",
"The loop is followed line by line, with the marker moving as lines are replaced; a reader of disjunctions gets back the ids; C79 gives the effect on the store."
],
"C92": [
"PyProps.v models PropertiesMap with the methods it inherits over the message handles of Db.v and the reading of Props.v, with UTF-8 and C strings of PyTags.v.",
"The terms of the message represent a relation between texts; C12 gives each library call, and that UTF-8 encodings are prefix-free turns prefixes of bytes into prefixes of texts; induction over histories."
],
"C93": [
"LegacyThreads.v models additions without the feature (stored thread ids for missing messages, the parents loop, the children loop, merging) over the documents of MailStore.v.",
"An invariant of one thread per document; each loop only renames threads and drops references to the new message from documents it puts in its thread; a relation 'same thread, or referred to and missing' is kept by induction over histories; soundness for any equivalence containing the references."
],
"C94": [
"EmacsTree.v models filling the tree view, the search for the lines of a thread, the queries made of ids, and the commands that change tags in the two views, over notmuch-tag of EmacsTag.v; Xapian's reading of alternative ids is a hypothesis.",
"The loops over lines are described by the block of a thread; the query is read back as the ids of the block (quoting); C79 gives the effect of one command, extended by: ids do not change; invariant over histories of commands."
],
"C95": [
"RbLife.v models talloc's tree of blocks, the wrappers of the Ruby bindings that steal the library's objects, the methods that make objects, the each loops, tags, close, destroy! and the garbage collector; RbLifeSpec.v says what a tidy program is.",
"An invariant of tidy programs (every live object has its wrapper, its library object below it and everything that points into) is kept by every operation; a weaker one (roots are wrappers of live objects, trees of depth two, databases stay) is kept by every operation of any program. Each condition of tidy is shown to be needed by a program that breaks it."
],
"C96": [
"MsgCache.v models the fields of notmuch_message_t that remember parts of the document, how they are filled and forgotten, the functions that change the document, freezing, syncing, reindexing and reopening; MsgCacheSpec.v says what each operation does to the facts about a message, as sets.",
"An invariant (what is remembered is what the document says; an unmodified object agrees with the database; an unfrozen one is unmodified) is kept by every operation. Reindexing, reopening, a second object and a file name that becomes too long are shown to break the statement."
],
"C97": [
"Coolj.v models coolj.el function by function on the lines of a text, with the position in the buffer that the condition of the loop compares with the old end; CooljSpec.v says what citation marks are, what a broken line is and when a line cannot be broken.",
"Only breaks: induction over the loop. Termination: every break shortens the line when the marks are not wider than the width; the number of '>' bounds the width of marks of all lines that come about. Breaks: a case analysis of set-breakpoint by positions. Endless wrapping, an error and an unwrapped rest are shown by concrete texts."
],
"C98": [
"Elide.v models the four passes of notmuch-wash-elide-blank-lines on the lines of a buffer, for both readings of [[:space:]]; ElideSpec.v says what it is to lose only blank lines.",
"Each pass loses only blank lines (transitivity); after the passes blank lines are empty and apart. The documented removal of a trailing blank line is refuted."
],
"C99": [
"Tidy.v follows the three regular expressions of notmuch-wash-tidy-citations on the lines of a buffer; TidySpec.v says what it is to lose only lines of marks, and which lines say something.",
"Each pass loses only lines of marks (transitivity); with C98, the lines that say something are the same before and after both. That cited paragraphs may run together is shown by a concrete text."
]
}