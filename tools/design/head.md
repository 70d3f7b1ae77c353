# Formal model of notmuch in Rocq (Coq 8.16.1)

This file is generated by `tools/design.py` from `tools/design/*.md`,
`tools/design/plan.json`, `properties.jsonl` and `MANIFEST.json`.

## 1. What this is

`rocq/theories` holds a hand-written, executable model of large parts of notmuch and
machine-checked proofs of the properties listed in `properties.jsonl`.
For each area `X`:

* `X.v`: the model. Definitions only; each cites the file and lines of /repo it models
  and says what it leaves out.
* `XSpec.v`: the specification, written from the documentation or the English property,
  without using the model's helper functions where the claim is about what they compute.
* `XProofs*.v`: lemmas.
* `P_X.v`: the property theorems `Cnn_...`, concrete examples that meet their hypotheses,
  and `Print Assumptions` for each theorem.

Names ending in `_refuted` are theorems too: they state that a plausible stronger claim
is *false* of the modelled code and exhibit the counterexample. Names ending in `_partial`
prove part of a property; a property has status "partial" in the manifest only where the full
statement is false of the code (the refutation is given next to it).

## 2. Conventions

* A byte is `Ascii.ascii`; a C string is the `list ascii` before its NUL; a pointer walking
  a string is the remaining suffix, and reading at the end gives NUL (`peek`).
* Mutation becomes a returned value. Loops become structural recursion, or recursion on fuel
  whose exhaustion is a separate outcome which the theorems exclude (or which the theorem
  shows never happens with the fuel the entry point supplies).
* Crashes are explicit: `INTERNAL_ERROR`, NULL dereference, out-of-bounds access and signed
  overflow are outcomes (`None`, `Undef`, ...) of the model wherever the comment says so;
  theorems either exclude them or exhibit them.
* Effects of the world (which system call fails, what read(2) returns, which permutation a
  hash table enumerates, which of several equal elements qsort puts first, when a signal or a
  crash happens) are universally quantified arguments.
* Out-of-memory is not modelled unless said so.

## 3. Trusted base

* Coq 8.16.1's kernel (also `coqchk`), and its virtual machine for `vm_compute`, used for
  closed computations (tables of 256 bytes, examples).
* `Print Assumptions` prints "Closed under the global context" for **every** property
  theorem: no axiom, neither of ours nor of the standard library.
  (`coqchk` lists the `Under_rel` parameters of Coq's own ssreflect library among the
  axioms of loaded libraries, because the standard library's `ssr` files are loaded through
  the prelude of some imported file; no theorem depends on them.)
* The faithfulness of the hand-written model to the C/C++ text. The means used to control it:
  line citations on each definition, independent specifications, concrete examples, and
  seeded faults (section 6).
* External software, represented by definitions or universally quantified parameters with
  the assumptions written in the comments and statements:
  Xapian (term lists sorted and duplicate free, documents as finite maps, transactions,
  boolean matching, sorting; `Terms.v`, `DocMap.v`, `Db.v`, `XQuery.v`), zlib's gzgets/gzwrite,
  POSIX file system calls (`Fs.v`, `Compact.v`, `New.v`, `Open.v`), GMime's header and address
  parsing (addresses and header values are given), sfsexp's reader, glib's key files,
  hash tables and qsort (any order allowed), the C library's calendar with a fixed zone
  offset (`Calendar.v`), printf of integers (`Decimal.v`), SHA-1 (an arbitrary function).

## 4. Not modelled at all

GMime itself (parsing of files into parts, decoding, character sets) and Xapian's splitting of
text into words, the cryptography itself (util/crypto.c), Xapian's infix query parser, the bindings (of the Python ones, notmuch2, the lifetimes of objects (C83), tags (C88), frozen and atomic blocks (C89), the configuration (C90) and properties (C92) are modelled, of the Ruby ones the lifetimes of objects (C95), the rest not; Go not at all), the Vim front end and the Emacs front
end except its S-expression parser (C78), tagging (C79), the script notmuch-emacs-mua (C84), drafts (C85), Fcc to a maildir (C86) tagging in the search view (C91) and in the tree and show views (C94), the wrapping of long lines (C97), the eliding of blank lines (C98) and the tidying of citations (C99), the completion and test code.  Of notmuch-git.py: git itself beyond paths in trees and
index files, and the commands init, archive, log, fetch and push, which only call git.  Multi-threading: the library is not thread
safe and no claim is made; several processes are considered only through crash points,
arbitrary file-system schedules and Xapian's single-writer lock.

## 5. Properties: model, proof, status

