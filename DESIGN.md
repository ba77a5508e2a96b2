# Formal model of doublets-rs: design

Everything is in Rocq/Coq 8.16.1 under `rocq/theories` (logical root `Verif`).

## 1. Trusted base

* The Coq kernel, and what `Print Assumptions` prints under every theorem of the
  property files (`Prop*.v`): *Closed under the global context* for all of them.
  `coqchk -o` also lists seven constants `Coq.ssr.ssrunder.Under_rel.*`. They are
  opaque module members of the standard library, which is loaded with every file;
  no theorem uses them.
* The reading of the Rust text as the model below.  Every definition of the model
  carries a comment with file and lines.
* **External crates** (not in the repository; their submodule folders are empty).
  They are *not* modelled from source, they enter as explicit hypotheses of the
  theorems (`unit_env cf tops lops`):
  * `trees` — `NoRecurSzbTree::attach/detach` (search trees) and
    `AbsoluteCircularLinkedList::attach_as_first/detach` (free list); for C64 also
    `RelativeCircularLinkedList::attach_as_first/detach` on the list of one head, with
    the same contract.  The model
    takes these four operations as records of functions and the theorems assume
    the contracts `tree_ops_ok` (Trees.v) and `list_ops_ok` (Lists.v).  Attach inserts
    the node in a size-annotated search tree, weakly ordered by key, and touches only
    nodes of that tree.  Detach removes it and clears its fields, provided no other
    node of the tree has its key.  List operations do what their names say on a
    circular list.  A concrete implementation of both is part of the development
    (TreeImpl.v, Lists.v); it shows the contracts can be met and makes the models
    executable, which the examples use.  Nothing is claimed about balance.
  * `data` — `LinksConstants`, `Flow`, `ToQuery` (identity on slices), `LinkType`
    (unsigned integers).  `cfg_ok` (Base.v) lists what is assumed of the constants.
  * `mem` — `RawMem::alloc(n)` either gives a slice of `n` cells that keeps the old
    contents with zeroes in new cells, or fails and leaves memory alone.  Which of
    both happens is an arbitrary oracle in the state.  `allocated()` is the last
    successful capacity.
* Integers are `N` with explicit bounds checks where Rust has them: `+`/`-` on `T`
  panic on overflow (debug semantics).  WrapModel.v has the functions that add or subtract once
  more with wrapping, for release builds, and C101 to C104 compare the two; opening is shared, as it
  only subtracts 1 from lengths that are at least 1.  The operations of the external trees and
  lists are the same functions in both builds: what their own arithmetic does on a damaged
  tree is outside.  `try_from(..).expect` panics above `tmax`.
* For the release scripts (C89 to C97, C99): that JsText.v reads the regular expressions,
  `replace`, `split`, `trim` and `sort` they use as ECMAScript does.  Texts are sequences of
  code units; decoding and encoding of UTF-8 is outside.  Numbers are exact below 2^53 and end in
  an explicit `Inexact` from there on.

## 2. What is modelled

Results are `Val | Panic | UB | Diverge`, and inside `Val` Rust's `Ok | Err`.  Reads
through slices are bounds checked (`Panic`), `unwrap_unchecked` out of bounds is `UB`,
loops have fuel and return `Diverge` when it runs out.

| Rust | model |
|------|-------|
| `doublets/src/mem/unit/store.rs`, `unit/generic/*` | UnitModel.v, all functions |
| `Debug for Link`, `Display for Doublet`, `#[error(..)]` of `error.rs` | Display.v; the printing of integers (decimal) and of vectors is that of the Rust library |
| `doublets/src/mem/split/store.rs`, `split/generic/*` | SplitModel.v, all functions, without the `USE_LIST` branches (constant `false`); SourceList.v for `internal_sources_linked_list.rs`, which only they use |
| walks over trees, free lists | Trees.v, Lists.v |
| `doublets/src/data/traits.rs` | Iface.v (required methods as the record `LinksI`), Doublets.v (default methods), Ffi.v (`boxed`, the implementation for `Box`) |
| `doublets/src/data/handler.rs` (`Fuse`) | Doublets.v |
| `doublets/src/data/link.rs` | LinkModel.v |
| `doublets-decorators/src/*` | Decorators.v |
| `doublets-ffi/src/lib.rs` | Ffi.v |
| `doublets-ffi/ffi-attributes`, `doublets-ffi/env-decorators` | Macros.v |
| `scripts/*.mjs` | JsText.v (texts and regular expressions), Release.v (all six scripts) |
| `.github/workflows/ci.yml` | Workflow.v (the jobs auto-release and manual-release), Pipeline.v (all jobs: events, needs, conditions), Cancelled.v (concurrency) |

Choices and simplifications:

* Memory is a set of columns: functions from slot number to the fields of that slot.
  Slot 0 is the header exactly as in the `repr(C)` overlay, so the aliasing of header
  fields with the tree fields of slot 0 is kept.
  Layout.v spells the same memory out as a flat sequence of words and shows that every
  column is the word its struct field names (C63).  Accessors.v models the methods of the
  tree and list types on those words, and shows for every program over them that it works
  on one column and one root, or on the list fields (C75, C76): this is why `tree_ops` and
  `list_ops` may be functions of just these.
* Split store: the two memories grow one after the other.  If the data memory grew and
  the index memory did not, `data_ptr` is stale and every access through it is `UB`
  (C45).  The representation invariant of the other theorems has both or none grown
  (`both_or_none`).  A walk that reads both slices is bounded by the shorter one.
* Decorators are written against an earlier version of the trait.  They are modelled
  over the present one, over any store that obeys the contract `good_store`
  (GoodStore.v); the unit store is shown to obey it.  Over the split store, which does
  not, they are treated directly (C71, C72, SplitDecorators.v).
* FFI: handles are addresses in a heap of boxed stores; dropping one frees the store
  behind it, not the box.  File opening, path decoding
  and logging are an arbitrary success or failure.  Foreign callbacks thread a state.
* Crash points (C44, C60): the points between the tree operations, the free list
  operations and the field writes of one update, create or delete of the unit store
  (Crash.v, CrashWrites.v), and of the split store (C69, C70, SplitCrash.v), there also
  inside the loop that moves the users of a deleted link.  The writes inside one tree or list operation belong to the
  external crate; for the tree operations of an update of the unit store they are the first
  `n` accesses of an arbitrary program over the methods of the tree (C77, CrashInside.v), and
  so for every tree operation of either store (C78, CrashSteps.v); for the operations of the
  free lists the first `n` accesses of a program over the methods of the list (C79, CrashLists.v).
  TreeProgs.v gives such programs for the reference operations.  What a reopened store does
  after interrupted updates, creations and deletions of the unit store is C82; interruptions
  inside a tree or list operation are not part of its histories.
* Handlers of the modifying methods return a verdict, except in C88: there they may panic.
  The methods are written again for such handlers (Unwind.v, after the same lines), shown to
  be the same for handlers that return, and a panic ends the call with the store as it is at
  that moment; no destructor of the code touches the store.  A panic that reaches an
  `extern "C"` function of the FFI is not modelled, nor are panicking handlers of the reading
  methods, which cannot change the store.

* Release scripts: the files are a record of three (the manifest, the changelog, the entries of
  `changelog.d`), each there or not, with entries that can be read or not.  Writing and
  removing files does not fail.  The date is a parameter, console output is left out, the
  output file for the workflow is the list of what is written to it.  git and the command
  library are an arbitrary oracle that says from the commands before whether awaiting a command
  throws; whether the library throws for exit codes other than 0 is up to it.  Argument parsing
  (`lino-arguments`, `use-m`) gives the arguments, `gh` answers
  as an oracle says.
* Workflow: the two jobs that release are modelled step by step, from their first script on (Workflow.v).
  Of the other jobs the events, `needs`, `if`, the matrix, the step that checks file sizes and the step
  that looks for fragments are modelled (Pipeline.v); a job without a status function in its `if` runs if
  all jobs it needs ended well, and a run step is a shell that stops at the first command that fails,
  pipes ending as their last command does.  Every other step (checkout, tools, cargo, upload) is an oracle.
  A run that is cancelled has done the first commands of the
  whole run (Cancelled.v); a push of others while a run is under way is a refused push, an answer of git.  Jobs that
  run at the same time are outside.  `git rev-parse` in the shell, the
  build and GitHub are oracles.  What a run leaves on the branch is what it staged, `Cargo.toml`
  and `CHANGELOG.md`, if the push answered; a job starts with what the one before left there.
  Texts pasted into a shell command between double quotes stand for themselves unless they contain
  a double quote, a dollar sign, a backquote or a backslash, and end in an explicit `Unclear` then.
  `changelog.d` has no directories in it.  The other workflow file (benchmarks) is not modelled.

Not modelled: derived `Debug` and `Hash`, the rayon and smallvec variants of the
iterators (same collection code), logging, allocation of the `Vec` buffers, thread
interleavings (all reads take `&self` and are functions of the state in the model),
parsing and printing of token streams by the macros,
`ilinks_decorator.rs` (all comments), file mapping.

## 3. Disciplines on histories

The theorems speak about all states reached by a history of calls (`hist`/`histc` in
Obs.v: create, update, delete with any handlers, failed allocations, reopening).

* **Duplicate pairs** (both stores).  The trees order links by (source, target) only,
  without tie-break by index, so removal from a tree with two equal keys may remove the
  wrong node.  Histories may create duplicates but must not update or delete a link
  other than 0 -> 0 while another link has the same pair (`separable`).
* **Split store** in addition (SplitHist.v): `s_okc` — a created index is not referred
  to; `s_oku` — an update gives no source without a target, and lets a link refer to
  itself only while it has no source; `s_okd` — neither the deleted link nor a
  link that refers to it shares its pair with another link (`separable`).  Each clause is needed: C26, C28, C29 and C53 refute the claims
  without it.
* **Room**: some theorems assume one growth step above the internal range, and counts
  that add two results assume `2 * c_iend <= c_tmax` (C35 shows why).

## 4. Structure of the proofs

1. Abstract store `astate` (Spec.v): number of allocated slots, free list, partial map.
2. Representation invariants (UnitInv.v, SplitInv.v, Forest.v) and one lemma per
   function that it follows the abstract store (UnitOps/UnitLinks, SplitReads/
   SplitOps/SplitWrites/SplitLinks).
3. Contract `links_ok cf sp I R` (Iface.v): interface `I` follows the abstract
   store whenever the conditions `sp` hold.  Default methods and decorators are proved
   once over this contract (DoubletsOK.v, Claims.v, GoodStore.v, DecoratorClaims.v).
4. Obs.v is the vocabulary of the statements: it only uses the public calls
   (`get_link`, `create`, ...), so statements do not mention invariants or ghosts.
5. `*Claims.v`, SplitDefaults.v, RandomTest.v and MemUse.v prove the statements; `Prop*.v` repeat them with
   `Print Assumptions`.  `*_nonvacuous` theorems give a concrete state that meets the
   hypotheses; `*_refuted` theorems are counterexamples to the full statement;
   `*_partial` marks the proved part of such a statement.

RepoTests.v is a test of the models, not a proof: it runs the deterministic tests of
`doublets/tests/*.rs`, translated by hand, on both models.  RandomTest.v states the
randomized one for every outcome of its choices (C58), and Bench.v the benchmark programs for
every size and filter (C100).

`tools/` holds the generators of `Prop*.v` and `MANIFEST.json`, the mutation runner and
`sweep.py`, which screens the models with small random edits.
`seeded/LOG.jsonl` records the mutants.

## 5. Plan per property

See `properties.jsonl` for statements, `MANIFEST.json` for theorem names.

| id | modelled / how proved |
|----|------------------------|
| C01,C06,C08,C09 | unit model; invariant + refinement to an abstract map with free list |
| C02-C05,C23 | each/count/search proved equal to fold over an explicit list of matches |
| C07,C10,C12 | abstract state machine + refinement, induction over histories |
| C11 | corollary of refinement: results are never Panic/UB/Diverge |
| C13 | open on memory of reachable state; refuted in full, proved below the step |
| C14 | refuted for unit, proved for split |
| C15 | read off handler calls |
| C16-C18,C50 | refuted in full, proved for the restricted case; for rebase also what is left in the remaining case, by listing the pairs a link may have at any moment (RebaseHalf.v) |
| C19 | refuted |
| C20-C24,C42,C43,C47 | default methods over the refinement |
| C25,C30,C51 | split refinement under discipline |
| C26-C29 | refuted by concrete histories and for every store (SplitFailures.v, where the memory is followed with one link placed elsewhere), positive part through C25 |
| C31,C32,C49 | FFI model |
| C33-C35 | refuted/proved on the models |
| C36-C41 | decorators over a `LinksI` refining the abstract map; failures for every store in Failures.v |
| C44 | crash points as prefixes of the write sequence; refuted, proved elsewhere |
| C60 | crash points of create and delete; create proved, delete refuted and proved elsewhere |
| C45 | alloc oracle; unit proved, split refuted |
| C46 | Link model |
| C48 | refuted |
| C52-C57 | default methods on the split store; positive parts through C25 |
| C58 | test of `doublets/tests/extensions.rs` over the contract, for both stores |
| C63 | flat words against columns, field by field |
| C64 | lists given by successor and predecessor fields, for every history of attach, detach, data writes and growth; pigeonhole for arbitrary memories |
| C65 | the text is read back from the left: a decimal number ends where the digits end |
| C66 | one script per call, by parametricity done by hand: the functions are followed for every handler at once (HandlerClaims.v); no invariant is needed |
| C67 | equal abstract states give equal answers, step by step (Future.v); the detours give equal abstract states |
| C68 | the in-order walk of the internal tree of sources lists its keys sorted (Order.v); sorted lists with the same elements are equal; two histories with the same links and other visits for the other searches |
| C69,C70 | as C44 and C60 on the split store: the memory left at each point represents the abstract store with one link taken out of the trees (`hidden`), opening it keeps that (`s_open_smem`) |
| C71,C72 | the decorators of Decorators.v run over `split_links`; each call is followed on the representation of the split store, with the histories of SplitHist.v |
| C73,C74 | over `good_store`: create_link is followed step by step through each decorator; stacks by an invariant of histories (distinct pairs, every end present) |
| C75,C76 | programs over the methods as a free monad with two interpreters, on the flat memory and on the bare tree or list; simulation by induction on the program, once for all trees |
| C77 | the memory after a cut of any program is the point before the operation with one column changed, sizes of other nodes zero or not as before; so the representation of C44 holds for it (`crep_cols`) |
| C78 | a reopened store reads a link from whether its size in one tree is zero and from its pair, so a cut that leaves the sizes of other nodes zero or non-zero shows the state on one side of the operation or the other (`u_look`, `s_look`); the update of the split store then as in C69 |
| C79 | a reopened store reads a link as free if it is first or has a previous element and no size; a list in order (`in_order`) keeps all but one index so; refuted for that one, proved for the others |
| C80 | the sum of the two counts against the address type, without the room the other properties assume; refuted for links with one pair, proved otherwise |
| C81 | delete_query with [any, v]; refuted for links v -> v and for null, proved otherwise for both stores |
| C82 | life of a store through interrupted updates, creations and deletions: `wrep` (Scars.v) is `urep` with any set of nodes in each tree, `life` (AfterCrash.v) tracks the lost links and those missing from the tree of targets; partial, with refutations |
| C83 | free use of the two-memory store: `slife` (SplitLife.v) follows the links that are in the tree of outer references although what they refer to is a link; partial, with refutations |
| C84 | the sequence functions of tests/seq.rs (Sequences.v), over both stores; partial, with refutations |
| C85 | the default methods over `slife` (SplitFree.v; deleting several links in FreeDefaults.v, rebase in FreeRebase.v), from the claims of C83 alone; partial, with refutations |
| C86 | a split store used on after interruptions at any point (SplitScars.v: the operations on memories in which links are missing from trees; SplitAfterCrash.v: `clife`); partial, with refutations |
| C87 | the default methods on stores used on after interruptions (CrashDefaults.v); partial, with refutations |
| C88 | handlers that panic: both stores, default methods and decorator stacks (Unwind.v) |
| C89 | the regular expressions as matchers over texts (JsText.v), shown to find the first fit; the version is located by a relation on texts (ReleaseVersion.v); partial, with refutations |
| C90 | front matter as a relation on texts, the sort and the search for the highest by permutations (ReleaseNotes.v); partial, with refutations |
| C91 | the changelog as a text split in lines and joined again, the replacement of the mark with its patterns (ReleaseLog.v); partial, with a refutation |
| C92 | the lazy parts of the regular expression end at the first place that fits (ReleaseLog.v); partial, with a refutation |
| C93 | git as an oracle over the commands before; the run is a prefix of a plan (ReleaseRun.v); partial, with refutations |
| C94 | what is reached as an inductive relation, induction over trees (ReleaseRun.v); partial, with refutations |
| C95 | the job as a function of the branch and of oracles for git, the build and GitHub (Workflow.v); the version of the crate as a relation on texts (ReleaseJobs.v); partial, with a refutation |
| C96 | runs as a list, each on the branch the one before left; induction over it (ReleaseJobs.v); partial, with refutations |
| C97 | the jobs with their needs and conditions as tables, the steps as oracles and the scripts of Release.v (Pipeline.v); partial, with refutations |
| C98 | the decorators over `slife` (FreeDecorators.v), from the claims of C83 and C85; partial, with a refutation |
| C99 | a run cut after any of its commands, and histories of runs and pushes of others (Cancelled.v), on top of Workflow.v; partial, with a refutation |
| C100 | benchmark programs of `doublets/benches/iter.rs` (Bench.v) over the contract, for both stores |
| C101 | stores and usage counts with wrapping arithmetic (WrapModel.v), against UnitModel.v, SplitModel.v and Doublets.v |
| C102 | decorators (WrapDecorators.v with Decorators.v) and C interface (Ffi.v) over the stores of WrapModel.v |
| C103 | stores with wrapping arithmetic (WrapModel.v) on any state, and on the histories of AfterCrash.v, SplitLife.v and SplitAfterCrash.v |
| C104 | benchmark programs (Bench.v) and randomized test (RandomTest.v) over the stores of WrapModel.v |
| C61,C62 | induction over types; names by injectivity; the library's own items by computation |
| C59 | size lemmas for every function of the models, then induction over the states a history goes through |
