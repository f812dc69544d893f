# A Rocq model of terminusdb-store

Source: `/repo` (Rust, terminus-store 0.21.5). Everything is checked with Coq 8.16.1; the files are in
`rocq/theories` (logical name `Verif`). The properties are in `properties.jsonl`; `MANIFEST.json` says which
theorem carries which property.

## 1. How the code is modelled

* Functions of the code become total Gallina functions over lists, `nat` (ids, positions, lengths) and `N`
  (bytes, u32/u64 words where the width matters). A panic or an `io::Error` is an explicit `None`/error value, never a
  default that happens to be right.
* Loops become structural recursion, or recursion on fuel that is shown to be sufficient.
* Iterators are modelled by their state and their `next` function; "the iterator yields the list" is then a theorem.
* Concurrency: a transition system whose atomic steps are the lock-protected regions of the code (or single file
  operations); theorems are invariants by induction over all executions.
* Crash: a prefix of the sequence of file operations.

The crate `tdb-succinct` (log arrays, adjacency lists, wavelet trees, dictionaries) is not in `/repo`. Its structures are
modelled by what they contain (lists of numbers and bits) and its functions by their documented contract; this is part of
the trusted base (section 4).

## 2. Plan per property

| Property | What is modelled | How it is proved |
|---|---|---|
| C01 | `SimpleLayerBuilder`, dictionary building, child/base triple filters, the layer stack | refinement: visible string triples = set expression, by invariants of the builder and the stack |
| C02 | same | the committed result is shown to be a function of the two sets only |
| C03, C04, C05 | dictionaries, `IdMap`, the stack walk of the lookups | induction over the stack |
| C06, C07, C08, C09, C10 | per-layer files, the merge iterators, `triple_exists`, `single_triple_sp`, counts | induction over the stack with the invariant "additions not in parent, removals in parent" |
| C11 | builder phase 2 | from C01's invariants |
| C12 | `TripleFileBuilder`, object and predicate index, the three single-layer iterators, `layer_triple_exists` | encoding of grouped triples; each `next` is shown to walk it |
| C13 | `InternalTripleStackIterator` | induction over the layers between the two points |
| C14, C15 | `construct_idmaps`, dictionary rollup, delta rollup, loading | permutation lemmas for id maps; C13 |
| C16, C17 | `squash`, `squash_upto` | renumbering lemmas shared with the commit |
| C18 | `merge_base_layers`, `map_triple` | merge of sorted lists and index maps |
| C19, C20, C41 | hex / decimal printers and parsers on byte lists | round trip by induction |
| C21, C24, C25, C44 | label store and named graph as transition systems | invariants over all schedules |
| C22 | file operations of the directory label store with crash points | expected to be refuted: truncate then write |
| C23, C45 | the three label stores as state machines | bisimulation under a condition, and a counterexample without it |
| C26 | `StoreLayerBuilder` with its lock | invariant over all schedules |
| C27, C28 | `apply_diff`, `apply_delta` | from C01 |
| C29, C30 | archive header, offsets, slices, readers | round trip |
| C31, C32, C43 | LRU backend | invariants; the limit is expected to be refuted (`current` is never updated) |
| C33 | `CachedLayerStore` | transparency by invariant; `get_predicate_count` expected to be refuted |
| C34, C35 | pack export/import over store contents | round trip; the "ignored" clause expected to be refuted |
| C36 | parent walk | induction over the chain |
| C37 | `Layer` default methods | from C03, C06 |
| C38, C39 | the store as a map from names to directories; operations as transitions | frame invariant |
| C40 | directory listing | expected to be refuted for the directory and archive stores |
| C42 | triple streams | same walk lemma as C12 |
| C47 | the names of the files of a layer, the order in which each call writes them, loading from a directory with some of the files | invariant over all stages of writing, decided for each pair of files |
| C48 | the calls of the memory, directory and archive layer stores as state machines over files | refinement of one specification by each store, step by step |
| C49 | label names as paths in a file system with directories | the directory label store refines a map from names, for plain names; counterexamples for others |
| C50 | loading with rollup files of which only a part was written, in every state in which a call records a rollup | what loads is right, and exactly the layers that lead to the file do not load; the full claim is refuted |
| C51 | the map of files of the in-memory store, a call of `get_file` in its two steps | a file that was given while no other call was about to make it is the file from then on; refuted otherwise |
| C52 | the label store and the layer store over the paths of one file system | simulation of both specifications at once; every path of a label ends with ".label", no path of a layer does |
| C53 | the calls of Store.v run by threads of several processes, each with its own cache, on one store | the invariant of C38 (what is stored stays, each thread writes only into directories of its own, caches agree with the disk) for all caches at once: agreement with the disk is kept when the store grows |
| C54 | the steps of C21's callers and of C22's callers, without those that begin a call | a measure on the phases of each caller that falls with every step (labels); for forced updates a count over all callers of how many steps are left if nobody else wins, which can grow only when a caller wins and leaves; some caller can always go on because whoever holds a lock waits for nothing; the same on a pool of `cap` threads, where a waiting call takes a thread: enough with at most `cap` callers, refuted with one more. A lost attempt is traced to the update that succeeded; a family of runs, one for each number of lost attempts, refutes that forcing a head returns while new calls come (F54) |
| C55 | the callers of C21, each of which may be given up at any step, which unlocks its file | the invariant of C21 with files whose contents are any part of a label; locks are only held by callers that are there; a file that was made and lost its label has nobody left who could write it. The full claim is refuted |
| C56 | the callers of C21 with the times at which calls begin and return; calls on a name include deletions and new creations | the calls are ordered as the run goes, except that a call on a file that has lost its name is put before the deletion; for each name the calls fall into blocks, one per file, each a history of the file's register closed by the deletion; whoever has opened such a file began before the deletion |
| C57 | the callers of C24 and C25 together with create, open and delete; every call on the label store begins and returns at its own time | each call is put where the last of its calls on the label store was put by C56: a call on the label store that is not the last of a returned call changes nothing; between reading the label and a refused update the order of C56 holds a call that changed the label, and this call overlaps |
| C58 | `apply_delta` and `apply_diff` next to the callers of C26; each change is a call of its own, in any order | invariant over all schedules: the changes of a copying call are those made, those that came too late and those left; C26 applies to the calls on the builder |
| C59 | the writers of layers once more, with the bit widths of their arrays as an oracle, the chunked sort of the object index, and the widths id maps are written and read with | refinement: for every layer that can come about, each writer gives the layer that the writer with unbounded numbers gives |
| C60 | the calls on named graphs and on layers together, of one process with restarts (StoreHead.v) and of several (StoreProcs.v) | the heads form a chain (C24), the chain is that of the parent files (C39), layers do not change (C38); induction over the layers above the caller's layer |
| C61 | the label calls of both directory stores with one failing file operation (LabelFault.v): opening, locking, writing after any number of bytes, syncing | case analysis on the call and the fault, also for the claim that a fault is reported; a prefix of a label file reads as an error or as the label (C21); a file that is not a label stays so under all later calls, by induction. Refuted where the file has been truncated or made but not written (F43, F44) |
| C62 | the layers in memory with what they hold, handles, the map of weak references and loading as a program whose steps interleave (LayerIds.v); the files may change at any time | an invariant on the programs under way (none looks at the name without finding the layer, none removes or replaces it); that a load by itself leaves the layer in the map by weakest preconditions. Refuted for loads at the same time, for a removal that comes late and when the layer made by a rollup is in use (F45) |
| C63 | no new code: the builder and commit of Builder.v | the committed layer depends only on the names and on the triples of the two lists that are either above the parent's numbers or matter to it (a simulation of the calls, then one equation for each of the two lists); equality of the layers, file for file. Refuted for removals by ids above the parent's numbers next to new strings (F46), for additions by such ids see F17 |
| C64 | a file system with its log of directory changes, synchronizing and two kinds of loss of power; the file operations of writing layers (both stores), notes of rollups and labels, mixed with those of others (Durable.v) | an entry that is the same since the last synchronization is found; a file whose last operation is a synchronization keeps its bytes (induction over the run); with a journal a returned commit, a head set after it, a new label (with the cache) and a deletion followed by a commit survive; by POSIX alone a layer is there whole or not at all. Refuted by POSIX alone: the committed layer and head, the rollup, the new label; refuted even with a journal: a deletion (F47, F48, F49) |
| C65 | the label calls of LabelConc.v with readers that take no lock and read in pieces (LabelNoLock.v) | without the reading calls every run is a run with locks (refinement), so that C21, C22 and C44 carry over; a reader's pieces are a prefix of the text as long as that stays the same. Refuted for readers during an update (F50) |
| C66 | the shared builder of C26 with calls of `with_builder` whose closure makes any number of calls and may panic, which poisons the lock (BuilderPanic.v) | by an invariant: as long as the builder is in its place, nothing is taken or written; a panic leaves it in its place and no step but a panic is left. Refuted for the other callers, who lose their changes without an error (F51) |
| C67 | `labels` step by step on the callers of LabelConc.v: opening the directory, asking for entries, reading each file under its lock (LabelList.v) | each entry is a call of `get_label`, so that a run with listings is a run of LabelConc.v (refinement); an invariant relates a listing to the names that were in the directory all the time since it began, and to those that were there at some time. Refuted: that listings are snapshots, and that they do not fail because of deletions and creations (F52) |
| C68 | `head_version` with the loading of the layer, and update calls that are given a layer of any store, on the callers of Head.v (HeadLoad.v) | invariants over all runs: the layers of running calls, of labels that were set and of callers that load are in the store; parents of layers are in the store, so that a walk from a layer of the store ends at one. The label stores are shown to give only labels that were set. Refuted: the same when a caller passes a layer of another store, which is not checked (F53) |
| C69 | the callers of Head.v, over any label store that keeps its promise (C21) | versions only grow, and by one with each update, so two labels of one name with the same version are the same label; the reads and updates of the callers are placed on the history of the label. Refuted for a graph that is deleted and created again, where versions begin at 0 once more (F55) |
| C70 | the store by names with nothing left out of account (StoreAny.v), any number of threads | a syntactic account of what each call writes before it returns; invariant: whatever has files was there before, was returned, or is kept in the account of a call under way. A process that stops may leave a layer that nobody was given |

No property is dropped as inexpressible. Where only a part can be proved, the theorem has the suffix `_partial`; where the code violates the
property, a theorem with the suffix `_refuted` exhibits the counterexample and a companion theorem proves the part that does hold.

## 3. Files

Model files contain definitions only, each with the file and lines it models. `Spec*.v`, `LabelSpec.v` and `HeadSpec.v` hold the vocabulary
of the theorem statements. `*Facts.v`, `*Api.v` and `*Inv.v` hold proofs. `*Run.v` hold concrete cases. `Properties*.v` hold the theorems
of `MANIFEST.json`, each closed by a lemma, followed by `Print Assumptions` and an `Example` that meets its hypotheses.

| Part of the code | Model | Specification | Proofs | Properties |
|---|---|---|---|---|
| triple files of one layer: `layer/builder.rs`, `layer/internal/*_iterator.rs` | Succinct, TripleFiles, Merge | (lists of triples) | SuccinctFacts, TripleBuildFacts, IterFacts, TripleReadFacts, TripleQueryFacts, TripleIterFacts, MergeFacts, FilesApi | PropertiesFiles |
| loaded layers and their ancestors: `layer/internal/mod.rs`, `layer/layer.rs`, `layer/id_map.rs` | Layer, Resolve | Spec | StackFacts, StackCountFacts, DictFacts, WfFacts, SameFacts, ApiFacts, ResolveFacts | PropertiesLayer |
| layer builders: `layer/simple_builder.rs`, `layer/internal/{base,child}.rs` | Builder | Spec | InternFacts, BuilderFacts, CommitFacts, HistoryFacts, ReachFacts | PropertiesLayer |
| shared builders: `store/mod.rs` 38-225 | StoreBuilder, BuilderCopy | SpecBuilder, SpecCopy | StoreBuilderFacts, BuilderCopyFacts | PropertiesBuilder, PropertiesCopy |
| widths of numbers, chunked sorting: `layer/builder.rs`, `layer/id_map.rs` and the writers | Widths | SpecWidths | WidthsFacts | PropertiesWidths |
| updates of named graphs, down to the triples: `store/mod.rs`, `storage/layer.rs`, `storage/label.rs` | Head, Store, StoreHead, StoreProcs | SpecUpdates | UpdatesFacts | PropertiesUpdates |
| label files when the disk fails: `storage/directory.rs`, `storage/locking.rs` | LabelFault | SpecFault | LabelFaultFacts | PropertiesLabelFault |
| what is synchronized: `storage/directory.rs`, `storage/archive.rs`, `storage/locking.rs`, `storage/layer.rs` | Durable | SpecDurable | DurableFacts | PropertiesDurable |
| label files read without locks (feature `noreadlock`): `storage/locking.rs`, `storage/directory.rs` | LabelNoLock | SpecNoLock | NoLockFacts | PropertiesNoLock |
| identity of loaded layers: `storage/cache.rs`, `storage/layer.rs`, `store/mod.rs` | LayerIds | LayerIds (`in_use`, `alone`, `iexec`) | LayerIdsFacts | PropertiesLayerIds |
| rollups: `storage/delta.rs` | Rollup | Spec | RollupFacts, RollupSame | PropertiesRollup |
| squash, merge: `storage/layer.rs` 1831-2188, `layer/internal/base_merge.rs` | Squash, MergeBase | Spec | SquashFacts, MergeBaseFacts, SquashApi | PropertiesSquash |
| texts: names, labels, pointers | Names | SpecText, SpecUtf8 | NamesFacts, Utf8Facts | PropertiesCodec |
| label stores: `storage/directory.rs`, `storage/memory.rs`, `storage/locking.rs` | LabelSeq, LabelConc, LabelPath | LabelSpec, SpecLabelPath | LabelConcFacts, LabelSeqFacts, LabelPathFacts | PropertiesLabel, PropertiesLabelPath |
| named graphs: `store/mod.rs` 684-821 | Head, StoreHead | HeadSpec | HeadFacts, StoreHeadFacts | PropertiesHead, PropertiesStore |
| that calls on labels and named graphs return | LabelConc, LabelPool, Head | SpecProgress | LabelProgress, PoolProgress, HeadProgress | PropertiesProgress |
| label calls that are given up: `storage/directory.rs` 171-307, `storage/locking.rs` | LabelCancel | SpecCancel | LabelCancelFacts | PropertiesCancel |
| that label calls happen one at a time | LabelTimed | SpecLinear | LinearFacts | PropertiesLinear |
| that calls on named graphs happen one at a time: `store/mod.rs` 695-855 | GraphTimed | SpecGraph | GraphLinearFacts | PropertiesGraphs |
| layer stores by name and the layer cache: `storage/layer.rs`, `storage/cache.rs`, `store/mod.rs` | Store, StoreAny | SpecStore | StoreFacts, StoreLoadFacts, StoreCallFacts, StoreImportFacts, StoreExecFacts, StoreApi, StoreAnyFacts | PropertiesStore, PropertiesAny |
| archives: `storage/archive.rs` | FileNames, Archive, ArchiveStore | SpecArchive | ArchiveFacts, ArchiveStoreFacts, ArchiveApi, ArchiveRun | PropertiesArchive |
| the archive cache: `storage/archive.rs` 356-645 | Lru | SpecLru | LruFacts, LruInv, LruExec, LruApi, LruRun | PropertiesLru |
| packs: `storage/pack.rs` | Pack | SpecPack | PackFacts, PackImport, PackBackends, PackApi, PackArchive, PackRun | PropertiesPack |
| the layer stores by their calls: `storage/memory.rs`, `directory.rs`, `archive.rs`, `layer.rs` 355-395, 654-715 | Backend | SpecBackend | BackendFacts | PropertiesBackend |
| writing and loading the files of one layer: `storage/layer.rs`, `storage/file.rs`, `storage/copy.rs`, `storage/delta.rs`, `storage/consts.rs` | LayerFiles | SpecWriting | LayerFilesFacts, LayerFilesMade | PropertiesWriting |
| the note of a rollup while it is written: `storage/layer.rs` 678-715, `storage/archive.rs` 304-340 | RollupFile | (loads) | RollupFileFacts | PropertiesRollupFile |
| the files of the in-memory store: `storage/memory.rs` | MemFiles | (events) | MemFilesFacts | PropertiesMemFiles |
| a store in one directory: `store/mod.rs` 919-958, `storage/directory.rs` 18-115, `storage/archive.rs` 97-123 | StoreDir | SpecStoreDir | StoreDirFacts | PropertiesStoreDir |
| several processes: `store/mod.rs` 914-958, `storage/cache.rs` (one cache for each opened store) | StoreProcs | SpecStoreProcs | StoreProcsFacts | PropertiesStoreProcs |
| which call made a layer | StoreAny | SpecGiven | GivenFacts | PropertiesGiven |

`Prelude.v` and `ListFacts.v` hold orders, sorting and list facts.

How the parts fit together. A *stack* is a loaded layer with its ancestors. `reachable` (Spec.v) ranges over all stacks that commits,
rollups, squashes and merges can make; the layer properties hold for all of them. The store model by names keeps, per name, a layer record
with parent and rollup pointers; its calls load stacks and write records, step by step, interleaved and with crashes, and the proofs show
that every stack that can be loaded is one of the reachable ones up to `same_answers`. Below that, the archive and pack models work on the
files of a layer as byte strings; that a layer record and its files determine each other is the contract of tdb-succinct together with
C12.

## 4. Trusted base

**Coq.** The kernel of Coq 8.16.1 with `vm_compute`. Every `Print Assumptions` in `Properties*.v` prints "Closed under the global context". No file
declares an axiom, uses a functor or module type, or switches off a check. `coqchk -silent -o` on all `Properties*` modules ends without an error and
reports no axioms, no type-in-type and no unsafe fixpoints. `vcheck` lists seven axioms of
`Coq.ssr.ssrunder` (`Under_rel`, `Under_rel_from_rel`, `Under_relE`, `under_rel_done`, `Over_rel`, `over_rel`, `over_rel_done`): they belong to a module
type instance of Coq's own ssreflect library, which std++ loads; no theorem depends on them.

**The model itself.** That the Gallina functions say what the cited Rust lines do was checked by reading; `seeded/LOG.jsonl` records the wrong
programs the theorems were tried against.

**Contracts of code that is not in `/repo`.** They appear as definitions of the model or as hypotheses of theorems, never as axioms:

* `tdb-succinct`: log arrays, bit indexes (rank, select), adjacency lists, monotone log arrays, wavelet trees and typed dictionaries are
  modelled by the lists they hold (`Succinct.v`). Dictionary entries (`TypedDictEntry`) are an ordered type; that the lookup of an entry finds exactly the
  entries of the dictionary is part of the contract. Errors on corrupt files are not modelled, except for archives and text files.
* the width of a number (`util::calculate_width`): any function that gives enough bits (`enough` in `SpecWidths.v`); arrays refuse numbers that do
  not fit, and a wavelet tree must be read with the width it was written with (`Widths.v`).
* k-way merging and deduplication of sorted streams (`itertools::kmerge`, `dedup`): `Rollup.v`, `MergeBase.v`.
* the offset array in an archive header (`codec`, `codec_ok` in `Archive.v`): encoding is decoded again and knows its length.
* `tar` and `flate2` (`tar_codec`, `tar_ok` in `Pack.v`): well-formed entries are read back as they were written.
* the crate `lru`: a map with an order of use (`Lru.v`).
* `tokio`: `RwLock`/`Mutex` are exclusive (or shared) and unfair; a task can be dropped at any `await`; `watch` channels deliver the last
  value; `std::sync` locks are poisoned by panics while they are held. Blocking calls are run by a pool of a fixed number of threads (512 unless
  configured otherwise); a request that finds all threads busy waits (`LabelPool.v`). An operation on a file that a thread has begun is finished even
  if its call is dropped, and `try_into_std` refuses until then (`LabelCancel.v`).
* the operating system: single reads, writes, truncations, creations, renames and removals of files are atomic steps in one order that all
  processes see; `write_all` may be split anywhere; `flock` excludes. Paths are followed as in `LabelPath.v`, without links, and a file name has at most 255 bytes. A crash is a stop between two steps. A loss of
  power, after which what was not synchronized may be missing, is the subject of C64 alone: `Durable.v` states what POSIX promises and what file systems with a journal do, and takes from tdb-succinct that
  its builders end with `flush` and `sync_all`; what a loss of power leaves of a call that has not returned is not considered (the store may find a layer's directory without its files).
  Reading a directory that others change (C67): `LabelList.v` takes from POSIX that an entry that is there all the time is given exactly once and that an entry that is given was there at some time.
* `FileBackedStore` of tdb-succinct when a file exists already: any function `over` of the old and the new bytes (`Pack.v`); C48 asks that equally many bytes replace the old ones.
* loading a log array, bit array or dictionary from a file of which only the first part was written fails (`LayerFiles.v`). tdb-succinct compares
  the length that is noted at the end of such a file with the size of the file; that no first part passes this by chance is taken for granted.
* `rand`: layer names are fresh; the model takes an arbitrary name and, where the code would retry or overwrite, says so.

**Not modelled.**

* `store/sync.rs`: wrappers that run the asynchronous call on a runtime and wait.
* `logging/` and `storage/new_memory.rs`: no effect on results, or not reachable from the interface.
* `storage/file.rs` and the memory and file backed stores beyond "a file has the bytes written to it".
* the layer builders' parallel and asynchronous structure inside one commit, beyond the order in which files are finished (`LayerFiles.v`).
  The layer store model lets the files of one layer appear in one step: C47 shows that a layer with only a part of its files does not load.
  The archive model writes them one by one.
* memory exhaustion and overflow of ids beyond 2^64.

## 5. Findings

What the code does against the properties, found while proving. "By reading" means that no theorem exhibits it.

| No. | What happens | Where | Theorem |
|---|---|---|---|
| F1 | rolling up to an ancestor translates the predicates of loaded layers with the wrong id map: predicates are swapped when one of the layers is a partial rollup | `delta.rs:192-200` | C15_rollup_upto_refuted |
| F2 | the cached predicate count is the value count | `cache.rs:200` | C33_pred_count_refuted |
| F3 | `layer_changes` reads the files of the first layer again for every ancestor | `storage/layer.rs:323-326` | C13_layer_changes_refuted |
| F4 | the memory label store compares versions only, so a stale label updates a label that was deleted and created again | `memory.rs:80-149` | C21_memory_refuted, C23_delete_refuted |
| F5 | the cached directory label store does not truncate: clearing or shortening leaves old bytes | `directory.rs:317-457` | C45_clear_refuted, C22_cached_mixture_refuted |
| F6 | a label is truncated and then written: a crash between loses it | `directory.rs` | C22_refuted |
| F7 | listing layers fails in a directory store as soon as there is one; lists nothing in an archive store; lists unfinished layers in a memory store | `directory.rs`, `archive.rs`, `memory.rs` | C40_directory_refuted, C40_archive_refuted, C40_memory_refuted |
| F8 | the archive cache never updates its count of used bytes, so its limit has no effect | `archive.rs:356-645` | C32_refuted |
| F9 | the size of a rollup file of an archive is given as 22 bytes, it has 42 | `archive.rs` | C41_archive_rollup_size_refuted |
| F10 | `triples_p(0)` gives triples of other predicates | `layer/internal/mod.rs` | C08_predicate_zero_refuted |
| F11 | rolling up again to an ancestor may panic or fail | `storage/layer.rs` | C15_again_refuted, C15_after_full_refuted |
| F12 | importing makes a layer without files for each requested layer that is not in the pack; it erases existing layers in a memory store and panics for them in an archive store | `pack.rs:63-134` | C34_missing_refuted, C38_import_existing_refuted, C38_import_existing_archive |
| F13 | names with plus signs or capitals are accepted, texts with characters across word boundaries panic | `storage/layer.rs` | C19_panics_refuted, C20_panics_refuted, C41_panics_refuted |
| F14 | a rollup of a rollup loads with the wrong name | `storage/layer.rs` | C14_rollup_of_rollup_refuted |
| F15 | merging base layers ignores id maps of rollups | `base_merge.rs` | C18_rollup_refuted |
| F17 | adding an id triple with an unknown id makes the commit panic | `simple_builder.rs` | C01_unknown_id_refuted |
| F18 | the version of a label overflows: setting the label panics | `label.rs:28-34` | C21_overflow_refuted |
| F19 | opening an archive file beyond its end panics; an archive without files is stored without complaint | `archive.rs` | C29_beyond_end_refuted |
| F20 | dropping a task that loads an archive makes every later read of that layer panic | `archive.rs:356-645` | C43_cancel_refuted |
| F21 | `triple_additions_o` and `triple_removals_o` of a layer that is loaded: if the object does not occur in the delta, the triples of another object are given (read from the files, as without the cache, there are none) | `layer/internal/mod.rs:412-442`, `storage/cache.rs:493-519`, `store/mod.rs:513-540` | C12_delta_by_object_refuted, C33_by_object_refuted |
| F22 | an id triple whose subject is a value is accepted and cannot be shown as strings | `simple_builder.rs` | C01_value_subject_refuted |
| F23 | an imprecise rollup whose bound is not the ancestor asked for loses changes | `storage/layer.rs` | C15_imprecise_bound_refuted |
| F24 | reading a label while it is being created may give an error | `directory.rs` | part of LabelSpec |
| F25 | label names in directories: the label of the empty name cannot be changed, names with slashes are other names of a graph, open another graph or leave the directory, and names of 250 bytes and more cannot be used | `directory.rs:171-307` | C49_empty_refuted, C49_alias_refuted, C49_other_graph_refuted, C49_outside_refuted, C49_long_refuted |
| F26 | reading a layer while its rollup file is written may fail; it never gives another layer (C50_directory_right_partial) | `storage/layer.rs` | C50_refuted |
| F27 | two first accesses to a file in memory may get different files: what the first wrote is lost when the second makes the file anew | `memory.rs:59-75` | C51_refuted |
| F28 | an archive is written in pieces: after a crash or a failed store, and for a concurrent reader, there is half a file | `archive.rs` | C39_archive_torn_refuted, C31_pieces_refuted, C31_failed_store_refuted |
| F29 | a name can be created again between finalizing and storing; the archive is then a mixture | `archive.rs` | C29_name_reused_refuted |
| F30 | the archive reader reports errors as the end of the file | `archive.rs` | C30_error_refuted |
| F31 | panics while the construction lock is held make every later call panic | `archive.rs` | C46_archive_refuted |
| F32 | reading a layer while it is stored may say that it does not exist, and a cancelled load may make that permanent | `archive.rs:356-645` | C31_overlap_refuted, C43_cancel_missing_refuted |
| F33 | a failed import leaves layers under construction in an archive store: trying again panics, and then everything does | `pack.rs`, `archive.rs` | C46_failed_import_refuted, C34_twice_refuted |
| F34 | a rollup that is loaded while its files are being written may be loaded without its id maps, with other triples | `storage/layer.rs`, `file.rs` | C47_racing_refuted |
| F35 | rolling up a layer again writes over its rollup file; if only a part of it is overwritten (depending on how `FileBackedStore` opens an existing file) the pointer names a layer that never was | `storage/layer.rs:678-690` | C41_half_overwritten_refuted |
| F36 | the archive store does not say the parent of a layer that is not finalized, and answers for a file name of base layers with the file of the child layer; the other stores do neither | `archive.rs:1506-1508`, `consts.rs:259-506` | C48_open_parent_refuted, C48_other_kind_refuted |
| F37 | a process that stops while it records a rollup leaves a part of the rollup file; from then on the layer and its descendants do not load (archive store: loading panics), and rolling it up again fails since that loads it first | `storage/layer.rs:678-715`, `archive.rs:301-340` | C50_refuted, C50_no_others_load |
| F38 | callers that wait for the lock of a label file each keep a thread of tokio's pool of blocking threads (512 by default); when they keep all of them, the caller that has the lock gets no thread to read or write the file, and all of them, and every other file operation of the process, wait for ever | `storage/locking.rs:38-79` | C54_pool_refuted |
| F39 | a label update that is dropped (a timeout, a closed connection) after it has truncated the file and before it has written loses the label for ever; a dropped creation leaves a name that can be neither read nor created. Dropping a call while its file is being read or written panics | `storage/directory.rs:182-242`, `locking.rs:149-160, 276-287` | C55_set_refuted, C55_create_refuted, C55_panic_refuted |
| F40 | `apply_delta` drops the errors of the builder: on a builder that has been committed it returns Ok and does nothing, and if a commit comes in between it returns Ok with a part of its changes in the layer | `store/mod.rs:172-187` | C58_delta_late_refuted, C58_delta_half_refuted |
| F41 | `apply_diff` on a builder that has been committed, or is committed meanwhile, panics | `store/mod.rs:202, 213, 216` | C58_diff_refuted |
| F42 | a commit that fails uses up the builder: its changes are lost, `committed` says true and a further commit is refused because the builder "has already been committed" | `store/mod.rs:124-149` | C26_failed_commit_refuted |
| F43 | `set_label` of the directory store truncates the label file before it writes: if the write fails once (disk full), the label is lost; every later call on it fails until it is deleted, and so does `labels()` for all labels; likewise `create_label` leaves a name that can be neither read nor made | `storage/directory.rs:222-243, 263-288` | C61_directory_set_refuted, C61_directory_create_refuted |
| F44 | the cached store after a failed write: a failed `create_label` leaves a file that is not in the map, so that the name can never be made, `delete_label` does not remove it, and the whole directory can no longer be opened; a failed `set_label` may leave a label with the new version and the old layer; a failed `delete_label` hides a label that is back after a restart | `storage/directory.rs:367-402, 408-439, 441-453` | C61_cached_create_refuted, C61_cached_set_refuted, C61_cached_delete_refuted |
| F45 | the cache may lose a layer that is in use: a load that has met a dropped layer removes the entry of the name although another has put a new layer there; two loads at a time make two copies; a layer whose rollup is in use itself is made anew by every load. The copies do not compare as equal | `storage/cache.rs:48-69`, `storage/layer.rs:1460-1490` | C62_removed_refuted, C62_together_refuted, C62_rollup_refuted |
| F46 | a builder numbers new strings above the ids of the parent; a removal by such ids, which nobody has been given, takes back the addition of new strings | `layer/simple_builder.rs:110-216, 248-290` | C63_above_refuted |
| F47 | `finalize` synchronizes the directory of a layer, which secures its files, but not the directories above, which hold the entry of that directory; by POSIX a committed layer can be lost, with a head naming it, and a note of a rollup can outlive the layer it names, so that a layer that was safe no longer loads. The archive store synchronizes the directory of the archive but not the one above, which matters only when it is new | `storage/directory.rs:51-60, 96-114`, `storage/archive.rs:167-195`, `storage/layer.rs:678-690` | C64_layer_refuted, C64_rollup_refuted |
| F48 | the directory of the labels is never synchronized, so that by POSIX a created label can be lost | `storage/directory.rs:222-245, 368-402` | C64_created_refuted |
| F49 | nothing is synchronized after a label is deleted; it can come back after a loss of power on any file system | `storage/directory.rs:286-305, 445-456` | C64_deleted_refuted |
| F50 | in a build with the feature `noreadlock` a reader can be given an error for a label that is never absent, or a label that nobody ever wrote, made of the first part of the old text and the second part of the new one | `storage/locking.rs:56, 94`, `storage/directory.rs:171-180, 258-284` | C65_empty_refuted, C65_mixture_refuted |
| F51 | a panic in the closure of one caller of `with_builder` poisons the lock of the builder: all later calls of all callers panic, also `committed`, and changes of others, for which `Ok` was returned, can no longer be committed | `store/mod.rs:70-73, 117-120, 127-130` | C66_others_refuted |
| F52 | listing the labels of a directory store fails altogether when one of them is deleted between the reading of the directory and that of its file, or when its creation has made the file but not yet written it; and it may give labels that were never there at the same time | `storage/directory.rs:199-219` | C67_deleted_refuted, C67_created_refuted, C67_snapshot_refuted |
| F53 | `set_head`, `force_set_head` and `force_set_head_version` do not look at the store the layer belongs to: on a new named graph `set_head` accepts a layer of another store; from then on `head` fails ("layer not found even though it is pointed at by a label") and `set_head` refuses every layer of this store; only a forced update, or importing the layer, mends it | `store/mod.rs:713-719, 734-763` | C68_foreign_refuted |
| F54 | `force_set_head` reads the label again and retries whenever another update came first, without a limit and without a turn: while others keep updating the named graph, it may lose any number of times and not return (some caller succeeds each time, and without new calls it returns) | `store/mod.rs:765-791` | C54_force_refuted, C54_heads_lost |
| F55 | versions begin at 0 again when a named graph is deleted and created again: `force_set_head_version` with a version of the deleted graph is accepted by the new one and replaces a head that the caller never saw (all label stores) | `store/mod.rs:793-816`, `storage/label.rs` | C69_recreated_refuted |
| F56 | `rollup_upto` and `imprecise_rollup_upto` make the directory of the new layer before they find out that the bound is no ancestor; the call fails and the directory stays: the memory store lists it among the layers, and loading it gives an error instead of "no such layer" | `storage/layer.rs:1779-1783, 1814-1818` | C70_left_behind_refuted |
