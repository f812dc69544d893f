{"id": "C01", "title": "Commit semantics", "statement": "Let a builder be opened on a parent layer showing the set P of (subject,predicate,object) string triples (P is empty for a base layer), let A be the set of triples passed to add_value_triple and R the set passed to remove_value_triple before commit. After commit, the triples the new layer shows through triples()/id_triple_to_string are exactly (P minus (R minus A)) union (A minus R): adding and removing the same triple in one builder is a no-op, adding an existing triple or removing an absent one changes nothing.", "quantifier": "every parent layer built by any history of commits, every list of add/remove calls of any length, every string and typed value", "why_tests_cant": "the commit renumbers, sorts, dedups and filters the triples through an id translation; a mistake shows only for particular interleavings of old and new strings and of adds and removes, of which there are unboundedly many", "anchors": ["src/layer/simple_builder.rs: SimpleLayerBuilder::{add_value_triple,remove_value_triple,commit}", "src/layer/internal/child.rs: ChildLayerFileBuilderPhase2::{add_id_triples,remove_id_triples}", "src/layer/internal/base.rs: BaseLayerFileBuilderPhase2"]}
{"id": "C02", "title": "Commit does not depend on the order of the calls", "statement": "Two builders on the same parent that receive the same set of add calls and the same set of remove calls, in any order, with any repetition and any interleaving of adds with removes, commit layers with the same dictionaries, the same ids and the same stored triples.", "quantifier": "every parent, every pair of call sequences with equal sets of additions and equal sets of removals", "why_tests_cant": "fresh ids are handed out in call order before the final renumbering; independence of the schedule is a statement about all permutations", "anchors": ["src/layer/simple_builder.rs: calculate_triple, commit", "src/store/mod.rs: StoreLayerBuilder::with_builder"]}
{"id": "C03", "title": "Strings and ids translate both ways", "statement": "In every layer, subject_id(s)=Some(i) exactly when id_subject(i)=Some(s); likewise predicate_id/id_predicate, and object_node_id/object_value_id against id_object (with the right node/value kind). Distinct strings never share an id and distinct ids never share a string.", "quantifier": "every layer reachable through commits, rollups, squashes and merges, every string, every id including 0 and ids beyond the last", "why_tests_cant": "the id space is split over a stack of layers, each with sorted dictionaries and possibly a permutation map; off-by-one errors at layer boundaries appear only for specific stack shapes", "anchors": ["src/layer/internal/mod.rs: subject_id, predicate_id, object_node_id, object_value_id, id_subject, id_predicate, id_object", "src/layer/id_map.rs: IdMap"]}
{"id": "C04", "title": "The id space is contiguous", "statement": "In every layer each id from 1 to node_and_value_count() resolves to exactly one node or one value, each predicate id from 1 to predicate_count() resolves to a predicate, and id 0 and larger ids resolve to nothing; id_object_is_node agrees with the kind id_object returns.", "quantifier": "every reachable layer, every id", "why_tests_cant": "needs all ids of all stacks, including the boundary between nodes and values of each member of the stack", "anchors": ["src/layer/internal/mod.rs: node_and_value_count, predicate_count, id_object, id_object_is_node"]}
{"id": "C05", "title": "Ids are stable in descendants", "statement": "If a string has id i in a layer then it has id i in every descendant of that layer, and i resolves to the same string there; strings new in the child only get ids above the parent's counts.", "quantifier": "every layer, every chain of commits of any length above it, every string and id", "why_tests_cant": "a statement about unbounded histories", "anchors": ["src/layer/internal/mod.rs: subject_id, id_subject", "src/layer/simple_builder.rs: commit", "src/layer/internal/child.rs: add_node, add_predicate, add_value"]}
{"id": "C06", "title": "Point lookup agrees with enumeration", "statement": "triple_exists(s,p,o) is true exactly when the triple (s,p,o) is produced by triples().", "quantifier": "every reachable layer, every id triple", "why_tests_cant": "exists walks the stack top down with early exit, triples merges all positive and negative lists; they are two different algorithms over the same data", "anchors": ["src/layer/internal/mod.rs: triple_exists, triples, layer_triple_exists", "src/layer/internal/subject_iterator.rs: InternalTripleSubjectIterator"]}
{"id": "C07", "title": "Enumeration is sorted and without repetition", "statement": "triples() yields id triples in strictly ascending (subject,predicate,object) order; in particular no triple twice, even when it was removed and added again several times along the history.", "quantifier": "every reachable layer, every history of additions and removals of the same triple", "why_tests_cant": "a k-way merge with cancellation; only histories with repeated add/remove of the same triple in many layers exercise it", "anchors": ["src/layer/internal/subject_iterator.rs: InternalTripleSubjectIterator::next"]}
{"id": "C08", "title": "Restricted enumeration equals filtered enumeration", "statement": "triples_s(s), triples_sp(s,p) and triples_p(p) yield exactly the triples of triples() with that subject, subject and predicate, or predicate; triples_o(o) exactly those with that object; each without repetition and in the order documented by the iterators.", "quantifier": "every reachable layer, every valid id (1 or larger), present or not", "why_tests_cant": "each has its own index, seek position arithmetic and merge; errors sit at list ends and for ids between stored ids", "anchors": ["src/layer/internal/mod.rs: triples_s, triples_sp, triples_p, triples_o", "src/layer/internal/predicate_iterator.rs", "src/layer/internal/object_iterator.rs"]}
{"id": "C09", "title": "single_triple_sp finds a triple whenever there is one", "statement": "single_triple_sp(s,p) returns Some(t) only if t is a triple of the layer with that subject and predicate, and returns None only if there is none.", "quantifier": "every reachable layer, all ids", "why_tests_cant": "it keeps an exclusion set while walking the stack; wrong only for particular remove/re-add histories", "anchors": ["src/layer/internal/mod.rs: single_triple_sp"]}
{"id": "C10", "title": "Counts add up", "statement": "triple_count() equals the number of triples enumerated, triple_addition_count/triple_removal_count equal the sums over the stack, and triple_layer_addition_count/removal_count equal the number of triples that layer's delta enumerates (padding entries never counted).", "quantifier": "every reachable layer", "why_tests_cant": "counts are derived from array lengths minus padding; a wrong padding count shows only for particular gaps in subject ids", "anchors": ["src/layer/layer.rs: triple_count", "src/layer/internal/mod.rs: internal_triple_layer_addition_count, triple_addition_count, triple_removal_count"]}
{"id": "C11", "title": "A committed layer records exactly its net change", "statement": "triple_additions of a committed layer are exactly the triples it shows that its parent does not, triple_removals exactly those its parent shows and it does not; the two are disjoint.", "quantifier": "every parent, every commit", "why_tests_cant": "the filter depends on a lookup in an arbitrarily deep parent stack", "anchors": ["src/layer/internal/child.rs: ChildLayerFileBuilderPhase2", "src/store/mod.rs: StoreLayer::triple_additions, triple_removals"]}
{"id": "C12", "title": "Layer files decode to what was written", "statement": "For every strictly ascending list of id triples written into a layer's files (dense subject numbering of base layers or sparse numbering of child layers), loading the files gives back the same list by enumeration, and point lookup, lookup by subject, subject and predicate, predicate, and object, and the counts, all agree with that list.", "quantifier": "every ascending list of triples with nonzero ids, any gaps between subjects, any number of predicates per subject and objects per pair", "why_tests_cant": "adjacency lists with shared bit vectors and padding; the space of gap patterns is unbounded", "anchors": ["src/layer/builder.rs: TripleFileBuilder::add_triple, finalize, build_object_index, build_predicate_index", "src/layer/internal/subject_iterator.rs", "src/layer/internal/predicate_iterator.rs", "src/layer/internal/object_iterator.rs"]}
{"id": "C13", "title": "Changes between a layer and an ancestor are the net difference", "statement": "For a layer L and an ancestor U, layer_changes_upto / InternalTripleStackIterator yields, in ascending order and without repetition, Addition t exactly for the triples in L and not in U, and Removal t exactly for those in U and not in L. It fails with an error when U is not an ancestor.", "quantifier": "every pair of a layer and an ancestor, every history in between with repeated adds and removes", "why_tests_cant": "cancellation among several layers depends on the parity and order of all changes of one triple", "anchors": ["src/layer/internal/subject_iterator.rs: InternalTripleStackIterator", "src/storage/layer.rs: layer_changes_upto"]}
{"id": "C14", "title": "Rollup preserves the layer", "statement": "Loading a layer after rollup shows the same name, parent name, id-string translation for every id and string, counts of nodes, values and predicates, and the same triples as before the rollup.", "quantifier": "every layer stack, including stacks that contain rolled-up layers", "why_tests_cant": "the roll-up sorts all dictionaries of the stack together and must compensate by a permutation map; errors depend on how strings of different layers interleave", "anchors": ["src/storage/delta.rs: delta_rollup, dictionary_rollup", "src/layer/id_map.rs: construct_idmaps", "src/storage/layer.rs: rollup, get_layer_with_cache"]}
{"id": "C15", "title": "Partial rollup preserves the layer", "statement": "Loading a layer after rollup_upto an ancestor (or imprecise_rollup_upto) shows the same name, parent name, ids, strings and triples as before. A bound that is neither the layer nor one of its ancestors is refused.", "quantifier": "every stack, every ancestor to roll up to, including stacks that already contain roll-ups", "why_tests_cant": "combines permutation maps of several layers and a net-change computation between two points of the stack", "anchors": ["src/storage/delta.rs: delta_rollup_upto, imprecise_delta_rollup_upto, dictionary_rollup_upto", "src/storage/layer.rs: rollup_upto_with_cache, perform_rollup_upto_with_cache"]}
{"id": "C16", "title": "Squash preserves the string triples", "statement": "squash(L) makes a base layer that shows exactly the string triples of L, and whose dictionaries contain exactly the strings that occur in them.", "quantifier": "every layer stack, including ones with rolled-up layers", "why_tests_cant": "ids of every layer are renumbered through a sort of all used strings", "anchors": ["src/storage/layer.rs: squash", "src/store/mod.rs: StoreLayer::squash"]}
{"id": "C17", "title": "Partial squash preserves the string triples", "statement": "squash_upto(L,U) for an ancestor U makes a child of U that shows exactly the string triples of L. For any other layer U it fails.", "quantifier": "every stack and every proper ancestor", "why_tests_cant": "mixes ids below and above the boundary, which keep or change their number", "anchors": ["src/storage/layer.rs: squash_upto", "src/store/mod.rs: StoreLayer::squash_upto"]}
{"id": "C18", "title": "Merging base layers is union", "statement": "merge_base_layers of base layers gives a base layer that shows exactly the union of their string triples, with a duplicate-free dictionary.", "quantifier": "every list of base layers (built by commits), any overlap of strings and triples", "why_tests_cant": "k-way merge of dictionaries and triple streams through index maps", "anchors": ["src/layer/internal/base_merge.rs: merge_base_layers", "src/storage/layer.rs: merge_base_layer"]}
{"id": "C19", "title": "Layer names print and parse", "statement": "string_to_name(name_to_string(n)) = n for every name; name_to_string is injective and always 40 lower-case hex digits; string_to_name rejects any string that does not have 40 bytes.", "quantifier": "all 2^160 names, all strings", "why_tests_cant": "name space too large; boundary of zero padding per word", "anchors": ["src/storage/layer.rs: name_to_string, string_to_name, bytes_to_name"]}
{"id": "C20", "title": "Label files print and parse", "statement": "The bytes a directory label store writes for a label with any version and any optional layer are parsed back to exactly that label; files that do not have the two-line form are rejected with an error rather than misread.", "quantifier": "all versions in u64, all layer names and the empty label, all byte strings", "why_tests_cant": "unbounded decimal numbers and malformed contents", "anchors": ["src/storage/directory.rs: get_label_from_data, DirectoryLabelStore::set_label_option"]}
{"id": "C21", "title": "Label updates never lose a write", "statement": "Every successful set_label/clear_label replaced exactly the label the caller had read: among all updates attempted from the same label at most one succeeds, and the version of a label rises by exactly one with every successful update. This holds under every interleaving of callers.", "quantifier": "any number of concurrent callers, any schedule of their steps, any history", "why_tests_cant": "needs all interleavings", "anchors": ["src/storage/directory.rs: DirectoryLabelStore::set_label_option", "src/storage/memory.rs: MemoryLabelStore::set_label_option", "src/storage/locking.rs"]}
{"id": "C22", "title": "A crash never corrupts a label", "statement": "If the process stops at any point of set_label or create_label, then after restart get_label returns either the label before or the label after the operation (or no label, for creation), never an error or a mixture.", "quantifier": "every crash point in the sequence of file operations, every old and new label", "why_tests_cant": "crash points cannot be enumerated by unit tests", "anchors": ["src/storage/directory.rs: DirectoryLabelStore::create_label, set_label_option"]}
{"id": "C23", "title": "Label stores are interchangeable", "statement": "For every sequence of create_label, get_label, set_label, clear_label, delete_label calls, the memory store, the directory store and the cached directory store give the same answers.", "quantifier": "every sequence of calls of any length on any names", "why_tests_cant": "behaviour differs only after particular sequences such as delete and re-create with a stale label", "anchors": ["src/storage/memory.rs: MemoryLabelStore", "src/storage/directory.rs: DirectoryLabelStore, CachedDirectoryLabelStore"]}
{"id": "C24", "title": "The head only moves forward", "statement": "set_head(layer) returns true only if at that moment the head was unset or an ancestor of the new layer; under every interleaving of any number of threads calling set_head, the sequence of heads of a named graph is a chain of descendants.", "quantifier": "any number of threads, every schedule of label reads, ancestor checks and label writes", "why_tests_cant": "race between the ancestor check and the write", "anchors": ["src/store/mod.rs: NamedGraph::set_head", "src/storage/layer.rs: layer_is_ancestor_of"]}
{"id": "C25", "title": "Forced head updates", "statement": "force_set_head_version(layer, v) returns true only if it replaced the label whose version was v, and false without any effect otherwise; force_set_head returns only after its layer has been installed as head at one point of its execution; both raise the version by exactly one.", "quantifier": "every schedule of concurrent callers", "why_tests_cant": "retry loop under contention", "anchors": ["src/store/mod.rs: NamedGraph::force_set_head, force_set_head_version, head_version"]}
{"id": "C26", "title": "A builder commits at most once", "statement": "Of any number of concurrent calls of commit/commit_no_load on a shared builder exactly one succeeds; add/remove calls that return Ok took effect in the committed layer, and those that return an error did not; afterwards every call returns an error.", "quantifier": "any number of threads sharing a builder, every schedule", "why_tests_cant": "interleavings", "anchors": ["src/store/mod.rs: StoreLayerBuilder::with_builder, commit_no_load, commit, committed"]}
{"id": "C27", "title": "apply_diff reaches its target", "statement": "A fresh builder on layer A on which apply_diff(B) is called and which is then committed shows exactly the string triples of B.", "quantifier": "every pair of layers, related or not", "why_tests_cant": "depends on both stacks", "anchors": ["src/store/mod.rs: StoreLayerBuilder::apply_diff"]}
{"id": "C28", "title": "apply_delta is cherry-pick", "statement": "A fresh builder on layer A on which apply_delta(D) is called and which is then committed shows (triples of A minus D's removals) union D's additions, as strings.", "quantifier": "every layer A and every layer D", "why_tests_cant": "depends on both stacks; ids of D are foreign to A", "anchors": ["src/store/mod.rs: StoreLayerBuilder::apply_delta"]}
{"id": "C29", "title": "Archive files decode to what was written", "statement": "After a set of layer files of arbitrary contents has been written and the layer finalized in the archive store, each of these files reads back byte for byte, no other file exists, and both the whole-archive and the ranged reader agree.", "quantifier": "every subset of the 50 layer file kinds, every content including empty files, any write order", "why_tests_cant": "2^50 presence patterns and arbitrary sizes", "anchors": ["src/storage/archive.rs: ArchiveLayerStore::finalize, ArchiveHeader, Archive, ArchiveFilePresenceHeader, DirectoryArchiveBackend::read_layer_structure_bytes_from"]}
{"id": "C30", "title": "Chunked reads lose nothing", "statement": "Reading an archived file through any sequence of poll_read calls with any buffer sizes delivers exactly the bytes of the file in order and then end-of-file.", "quantifier": "every content, every sequence of buffer sizes, any chunking of the underlying reader", "why_tests_cant": "unbounded sequences of buffer sizes", "anchors": ["src/storage/archive.rs: BytesAsyncReader, ArchiveSliceReader"]}
{"id": "C31", "title": "The archive cache is transparent", "statement": "Reads through the LRU archive backend return the same bytes as reads from its origin, whatever was evicted, and a stored layer is immediately readable.", "quantifier": "every sequence of loads, stores and evictions, every cache limit", "why_tests_cant": "histories of evictions", "anchors": ["src/storage/archive.rs: LruArchiveBackend"]}
{"id": "C32", "title": "The archive cache respects its limit", "statement": "The total size of the archives held by the LRU cache never exceeds the configured limit.", "quantifier": "every sequence of loads and stores, every limit", "why_tests_cant": "histories", "anchors": ["src/storage/archive.rs: LruArchiveBackend::ensure_additional_cache_space, ensure_enough_cache_space"]}
{"id": "C33", "title": "The layer cache is transparent", "statement": "A cached layer store answers every get_layer, dictionary, count and delta query exactly as the uncached store does, for every history of commits, rollups, cache hits and dropped layers.", "quantifier": "every history of operations, every point at which cached layers are dropped", "why_tests_cant": "cache state depends on the whole history", "anchors": ["src/storage/cache.rs: CachedLayerStore, LockingHashMapLayerCache", "src/storage/layer.rs: get_layer_with_cache"]}
{"id": "C34", "title": "Packs transport layers unchanged", "statement": "Exporting a set of layers to a pack and importing them into a store that lacks them gives layers with the same names, parents and contents; only the requested layers are touched, and a requested layer that the pack does not contain is ignored.", "quantifier": "every store content, every set of exported and requested layers, every file content", "why_tests_cant": "arbitrary subsets of ids and stores", "anchors": ["src/storage/pack.rs: export_layers, import_layers, tar_append_layer"]}
{"id": "C35", "title": "Pack metadata", "statement": "pack_layer_parents of an exported pack lists exactly the exported layers, each with its parent.", "quantifier": "every set of layers", "why_tests_cant": "arbitrary sets", "anchors": ["src/storage/pack.rs: pack_layer_parents"]}
{"id": "C36", "title": "Ancestor queries", "statement": "layer_is_ancestor_of is the reflexive transitive closure of the parent relation; retrieve_layer_stack_names lists the chain from the base to the layer, and the _upto form the part strictly above the given ancestor, failing when it is not a proper ancestor.", "quantifier": "every store content without parent cycles, every pair of names", "why_tests_cant": "chains of any length", "anchors": ["src/storage/layer.rs: layer_is_ancestor_of, retrieve_layer_stack_names, retrieve_layer_stack_names_upto"]}
{"id": "C37", "title": "String triples and id triples agree", "statement": "value_triple_exists(t) holds exactly when value_triple_to_id(t) is defined and its id triple exists; id_triple_to_string and value_triple_to_id are inverse to each other; the partially resolved form resolves fully exactly when the id form is defined.", "quantifier": "every reachable layer, every string triple, every id triple", "why_tests_cant": "all stacks and all triples", "anchors": ["src/layer/layer.rs: value_triple_exists, value_triple_to_id, value_triple_to_partially_resolved, id_triple_to_string, PartiallyResolvedTriple"]}
{"id": "C38", "title": "Existing layers are immutable", "statement": "No operation of the store (committing, rolling up, squashing, merging, importing other layers) changes the triples, ids or strings of a layer that existed before.", "quantifier": "every history of operations on the store", "why_tests_cant": "histories", "anchors": ["src/storage/layer.rs: PersistentLayerStore", "src/storage/memory.rs: MemoryLayerStore", "src/store/mod.rs"]}
{"id": "C39", "title": "Uncommitted layers are invisible and harmless", "statement": "If a commit stops at any point before its final step, every other layer still loads unchanged and the unfinished layer is never the head of a graph; in the archive store it does not exist at all after restart.", "quantifier": "every crash point of a commit", "why_tests_cant": "crash points", "anchors": ["src/storage/archive.rs: ArchiveLayerStore::finalize, ConstructionFile", "src/storage/directory.rs: DirectoryLayerStore"]}
{"id": "C40", "title": "Listing the layers", "statement": "layers() of a store returns exactly the names of the finalized layers in it.", "quantifier": "every store content", "why_tests_cant": "all contents", "anchors": ["src/storage/directory.rs: DirectoryLayerStore::directories", "src/storage/archive.rs: DirectoryArchiveBackend::get_layer_names", "src/storage/memory.rs: directories"]}
{"id": "C41", "title": "Parent and rollup pointers", "statement": "The parent and rollup pointer files written for a layer read back as the name written, for every name, and malformed ones are rejected.", "quantifier": "all names, all byte strings", "why_tests_cant": "name space", "anchors": ["src/storage/layer.rs: write_parent_file, read_parent_file, write_rollup_file, read_rollup_file", "src/storage/archive.rs: ArchiveRollupFile"]}
{"id": "C42", "title": "Triple streams from disk equal the loaded layer", "statement": "Streaming a base or child layer's additions and removals from disk yields the same triples in the same order as loading the layer.", "quantifier": "every layer's files", "why_tests_cant": "unbounded files", "anchors": ["src/layer/internal/base.rs: BaseTripleStream, open_base_triple_stream", "src/layer/internal/child.rs: ChildTripleStream, open_child_triple_stream"]}
{"id": "C43", "title": "Concurrent cache loading", "statement": "When several tasks ask the LRU archive backend for the same layer at the same time, each of them gets the bytes of that layer or the load error, whichever task performs the load and in whatever order they run.", "quantifier": "any number of tasks, every schedule, every cancellation point", "why_tests_cant": "interleavings", "anchors": ["src/storage/archive.rs: LruArchiveBackend::get_layer_bytes"]}
{"id": "C44", "title": "Label creation is exclusive", "statement": "Of any number of concurrent create_label calls for one name at most one succeeds, and a created label starts at version 0 with no layer.", "quantifier": "any number of callers, every schedule", "why_tests_cant": "interleavings", "anchors": ["src/storage/directory.rs: create_label", "src/storage/memory.rs: create_label"]}
{"id": "C45", "title": "Labels survive reopening", "statement": "Whatever labels were created, updated, cleared and deleted, a label store that is opened again on the same directory shows exactly the labels the store showed before.", "quantifier": "every sequence of label calls of any length", "why_tests_cant": "depends on how the lengths of successive label files relate over all histories", "anchors": ["src/storage/directory.rs: CachedDirectoryLabelStore::open, set_label_option, DirectoryLabelStore"]}
{"id": "C46", "title": "A failing call harms no other call", "statement": "A call of the archive store that fails (creating a layer that is being constructed, finalizing a layer that is unknown) has no effect on later calls about other layers.", "quantifier": "every history of calls, every failing call", "why_tests_cant": "histories of calls around the failing one", "anchors": ["src/storage/archive.rs: ArchiveLayerStore::create_named_directory, ArchiveLayerStore::finalize"]}
{"id": "C47", "title": "A layer that loads is complete", "statement": "Whenever a commit, rollup, squash, merge or import stops before it has written all files of a layer, loading that layer fails; if it loads, it is the layer with all its dictionaries, id maps, additions and removals. The same holds for a load that runs while the files are being written.", "quantifier": "every layer any of these calls writes, every point at which writing stops, every order in which files written in parallel are finished, every interleaving of a load with the writing", "why_tests_cant": "crash points and schedules; optional files that are absent look like files that were never meant to be there", "anchors": ["src/storage/file.rs: BaseLayerFiles::map_all, ChildLayerFiles::map_all, IdMapFiles::map_all", "src/storage/layer.rs: get_layer_with_cache, squash, squash_upto, create_child_layer", "src/storage/delta.rs: delta_rollup, delta_rollup_upto, imprecise_delta_rollup_upto", "src/layer/builder.rs: TripleFileBuilder::finalize, build_indexes", "src/storage/pack.rs: import_layers, tar_append_layer"]}
{"id": "C48", "title": "Layer stores are interchangeable", "statement": "A program that uses a layer store as the library does (new names, each file written once before the layer is finalized, rollups of finalized layers) gets the same answers from the in-memory store, the directory store and the archive store: which layers and files exist, their contents and sizes, the parent and the rollup of a layer. An archive store that is closed and opened again answers as if exactly the finalized layers had been made.", "quantifier": "every sequence of such calls, of any length, interleaving any number of layers under construction", "why_tests_cant": "the stores keep files in quite different ways (a map, a directory, one file with a header and offsets); tests compare a few fixed layers", "anchors": ["src/storage/memory.rs: MemoryLayerStore", "src/storage/directory.rs: DirectoryLayerStore", "src/storage/archive.rs: ArchiveLayerStore", "src/storage/layer.rs: PersistentLayerStore, layer_parent, write_rollup_file, read_rollup_file"]}
{"id": "C49", "title": "A named graph is found under its name and no other", "statement": "In a directory store, a graph that was created under a name is opened, updated, listed and deleted under exactly this name; calls with other names do not affect it, and no call touches files other than the ones of the names it is about.", "quantifier": "every sequence of calls with any label names, and every directory with other files and directories in it", "why_tests_cant": "all names; tests use a few short ones", "anchors": ["src/storage/directory.rs: DirectoryLabelStore, get_label_from_file, get_label_from_exclusive_locked_file", "src/store/mod.rs: Store::create, Store::open, Store::delete, Store::labels"]}
{"id": "C50", "title": "Recording a rollup does no harm", "statement": "When a call that rolls up a layer is stopped at any byte of writing the note of the rollup, or another process loads layers meanwhile, then every layer that was stored before still loads, with the same content.", "quantifier": "every history of calls by any number of threads, every layer, every number of bytes written so far, with the directory store and the archive store", "why_tests_cant": "a stop or a concurrent read at every byte of every such write, in every history", "anchors": ["src/storage/layer.rs: write_rollup_file, read_rollup_file, register_rollup, get_layer_with_cache", "src/storage/archive.rs: ArchiveRollupFile, ArchiveRollupFileWriter, get_rollup, set_rollup"]}
{"id": "C51", "title": "Layers in memory keep their files", "statement": "In an in-memory store, what was written to a file of a layer is what everybody reads from it from then on, also when several calls ask for the file at the same time; files of different names or layers are not mixed up.", "quantifier": "every interleaving of any number of calls that create layers, ask for files, write and read them, with calls dropped at any time", "why_tests_cant": "the interleavings of concurrent calls; tests make one call after the other", "anchors": ["src/storage/memory.rs: MemoryLayerStore::get_file, file_exists, create_named_directory"]}
{"id": "C52", "title": "Labels and layers share a directory", "statement": "A store keeps labels and layers in one directory, which may hold other things too. Whatever is done to labels and layers, in any order, labels read as if there were no layers and layers as if there were no labels; every layer has its own files, and files of neither are left alone. Layers are safe from labels of any name.", "quantifier": "every sequence of label calls and layer calls, every directory it starts with, every name", "why_tests_cant": "paths are made from names; a collision needs particular names, and tests use a handful in an empty directory", "anchors": ["src/store/mod.rs: open_directory_store, open_raw_archive_store", "src/storage/directory.rs: DirectoryLayerStore, DirectoryLabelStore", "src/storage/archive.rs: path_for_layer, path_for_rollup"]}
{"id": "C53", "title": "Several processes share a directory", "statement": "Any number of processes may have one directory open as a store, each with its own cache of layers. A layer that one of them made is there for all, every process that loads it gets the same answers, before and after others roll it up and whatever its cache holds, no two calls make layers of one name, no call fails because of the other processes, and the head of a named graph is a layer every process can load. A process that ends in the middle of a call harms no other.", "quantifier": "every number of processes and threads, every interleaving of their steps, every point at which any of them ends, every content of the caches that can come about", "why_tests_cant": "the tests run in one process; caches that differ between processes, and one process that rolls up what another has cached, never occur in them", "anchors": ["src/store/mod.rs: open_directory_store, open_archive_store, open_raw_archive_store", "src/storage/cache.rs: LockingHashMapLayerCache, CachedLayerStore", "src/storage/layer.rs: PersistentLayerStore"]}
{"id": "C54", "title": "Calls on labels and named graphs return", "statement": "No caller of a label or named-graph function waits for ever: whatever locks are held and however callers take turns, as long as a call has not returned some call can go on, and if no new calls come all calls return after a bounded number of steps. Setting a head by force, which tries again when it loses a race, does not try for ever. The file operations and the waits for locks run on a pool of threads of limited size, which must not change this.", "quantifier": "every number of callers and of threads in the pool, every interleaving of their steps, every answer the label store may give", "why_tests_cant": "a deadlock or an endless retry shows only in particular interleavings; a test that ends proves nothing about the others", "anchors": ["src/storage/locking.rs: LockedFileLockFuture, ExclusiveLockedFile", "src/storage/directory.rs: DirectoryLabelStore", "src/store/mod.rs: NamedGraph::force_set_head, set_head"]}
{"id": "C55", "title": "A label call that is given up harms nobody", "statement": "A caller may give up a call on a label at any time (a timeout, a closed connection): the call has then either happened or not, nothing else is lost, other callers are not kept waiting, and giving up does not panic.", "quantifier": "every number of callers, every interleaving of their steps, every set of calls given up, and every point at which they are given up", "why_tests_cant": "the point at which a call is dropped is one of many await points in each of many interleavings; a test drops at a few", "anchors": ["src/storage/directory.rs: DirectoryLabelStore::set_label_option, create_label, get_label", "src/storage/locking.rs: Drop for LockedFile, Drop for ExclusiveLockedFile"]}
{"id": "C56", "title": "Label calls happen one at a time", "statement": "Creating, reading, updating and deleting labels in a directory store is linearizable: every call that returned appears to have happened all at once at some moment between its beginning and its return, also when labels are deleted and created again while other calls are using them.", "quantifier": "every number of callers, every sequence of calls on any names, every interleaving of their file system calls", "why_tests_cant": "whether an order exists depends on the whole interleaving; tests see a few schedules and cannot exclude the ones in which a file is deleted between two steps of another call", "anchors": ["src/storage/directory.rs: DirectoryLabelStore::create_label, get_label, set_label_option, delete_label", "src/storage/locking.rs: LockedFile, ExclusiveLockedFile"]}
{"id": "C57", "title": "Calls on named graphs happen one at a time", "statement": "Creating, opening and deleting named graphs, reading their head and setting it (set_head, force_set_head, force_set_head_version) is linearizable in a directory store: every call that returned appears to have happened all at once at some moment between its beginning and its return, although it makes several calls on the label store, and also when graphs are deleted and created again meanwhile. A permitted update is refused only if another call changed the graph during the call.", "quantifier": "every number of callers, every sequence of calls on any names, every interleaving of their calls on the label store and of the file system calls below, every growing set of layers", "why_tests_cant": "an update reads the label, looks at the ancestors of a layer and writes the label, with other callers in between each of these steps; tests see a few of the interleavings", "anchors": ["src/store/mod.rs: Store::create, open, delete; NamedGraph::head_version, head, set_head, force_set_head, force_set_head_version, delete", "src/storage/directory.rs: DirectoryLabelStore"]}
{"id": "C58", "title": "Copying changes into a shared builder", "statement": "apply_delta and apply_diff on a builder that other threads use at the same time: if the call returns Ok, all its changes have been made and are in the layer that is committed; no change is made that is not asked for; on a builder that has been committed the call returns an error, as adding and removing do.", "quantifier": "every number of threads that add, remove, copy and commit, every layer that is copied, every interleaving of the single changes", "why_tests_cant": "a commit can come between any two of the changes, and these are made by a pool of threads in an order that a test does not choose", "anchors": ["src/store/mod.rs: StoreLayerBuilder::apply_delta, apply_diff, with_builder, commit_no_load"]}
{"id": "C59", "title": "No number is cut off, whatever the size of a layer", "statement": "Committing, rolling up, squashing and merging write the ids of a layer into arrays whose bit width is chosen beforehand from counts, sort the object index in chunks, and read id maps back with a width that is not stored. No id is ever too large for its array, the width an id map is read with is the one it was written with, and the size of the chunks makes no difference: the layer is the same as with numbers of unbounded size and one sort.", "quantifier": "every layer, every sequence of builder calls, every rollup, squash and merge, every chunk size, every function for the width of a number that gives enough bits", "why_tests_cant": "the chunks hold 2^31 pairs, and a width that is too small by one shows only for layers whose counts are just below a power of two", "anchors": ["src/layer/builder.rs: TripleFileBuilder::new, add_triple, finalize, build_object_index_from_direct_files, SINGLE_SORT_LIMIT", "src/layer/id_map.rs: construct_idmaps_from_structures", "src/layer/internal/child.rs: ChildLayerFileBuilderPhase2::new", "src/storage/delta.rs: delta_rollup, delta_rollup_upto, imprecise_delta_rollup_upto"]}
{"id": "C60", "title": "An accepted update of a named graph is not lost", "statement": "A caller commits a layer and makes it the head of a named graph with set_head, which returns true. From then on, as long as the graph is updated with set_head, the graph has a head that descends from that layer: every triple the caller added is in the graph unless a newer layer takes it away, every triple they removed is not unless a newer layer puts it back, and everyone who loads the head sees this. Of two callers that are both told true, one has built on the layer of the other.", "quantifier": "every number of threads and processes, every interleaving of their commits, rollups, squashes, loads and calls on named graphs, stopping and restarting at any point, every sequence of builder calls", "why_tests_cant": "it needs the commit, the ancestor walk, the compare-and-swap on the label and all later updates to fit together in every interleaving; a test shows the ones that happened to occur", "anchors": ["src/store/mod.rs: NamedGraph::set_head, StoreLayerBuilder::commit, NamedGraph::head", "src/storage/layer.rs: layer_is_ancestor_of", "src/storage/label.rs: LabelStore::set_label"]}
{"id": "C61", "title": "A label call that fails does no harm and can be tried again", "statement": "When a file operation fails during a call on a label (disk full, an error of the operating system), the call returns an error, the other labels are untouched, and the label is as it was before the call or as it would be after it, in particular not lost: trying again later works, and opening the directory again gives the same labels.", "quantifier": "every label directory, both directory label stores, every call, every file operation that may fail and every number of bytes written before it does, every sequence of later calls", "why_tests_cant": "the tests have no failing disk; which operation fails and how much has been written then are outside a test's control, and what follows must be checked for every later sequence of calls", "anchors": ["src/storage/directory.rs: DirectoryLabelStore, CachedDirectoryLabelStore", "src/storage/locking.rs: ExclusiveLockedFile"]}
{"id": "C62", "title": "A layer that is in use is not loaded a second time", "statement": "While somebody holds a layer, directly or as an ancestor of a layer they hold, loading it by its name gives this same layer in memory: the two handles compare as equal and there is one copy. This ends only when the layer is rolled up, after which it is loaded anew.", "quantifier": "every number of threads, every interleaving of the steps of loading, of dropping and cloning handles, and of rollups; every state of the files", "why_tests_cant": "the tests load one layer after another in one thread; the cache holds weak references and looks, upgrades and removes in separate steps, so that what happens depends on when others load and drop", "anchors": ["src/storage/cache.rs: LockingHashMapLayerCache", "src/storage/layer.rs: get_layer_with_cache", "src/store/mod.rs: PartialEq for StoreLayer"]}
{"id": "C63", "title": "Ids that stand for nothing are ignored", "statement": "A builder may be called with ids instead of strings. A call with ids that stand for no triple of strings of the parent (an id of 0, an id of the wrong kind, an id that the parent does not have) changes nothing: what is committed is what the other calls ask for, and the commit does not fail.", "quantifier": "every layer that can come about as the parent, every sequence of builder calls, every order of the hash maps", "why_tests_cant": "the effect of a stray id depends on the numbers of the parent and on the other calls of the same builder, which share the numbering of new strings; there are too many combinations to try", "anchors": ["src/layer/simple_builder.rs: SimpleLayerBuilder::add_id_triple, remove_id_triple, commit", "src/layer/internal/child.rs: ChildLayerFileBuilder"]}
{"id": "C64", "title": "What a call has returned survives a loss of power", "statement": "Once a call that writes a layer or changes a label has returned, its effect is found after any later loss of power: every file of the layer has the bytes that were written, a head that was set names a layer that is there, a label that was created exists, one that was deleted does not. A layer that was safe is not put at risk by later calls.", "quantifier": "every directory that the store is used with, every layer, every order in which its files are written, all interleavings with what others do to other paths, every loss of power that a file system allows", "why_tests_cant": "a test cannot cut the power; what is missing afterwards depends on the file system and on which of the changes had reached the disk by then", "anchors": ["src/storage/directory.rs: finalize, create_label, set_label_option, delete_label", "src/storage/archive.rs: store_layer_file, set_rollup", "src/storage/layer.rs: write_rollup_file", "src/storage/locking.rs: ExclusiveLockedFile::sync_all"]}
{"id": "C65", "title": "Reading labels without locks loses no update", "statement": "In a build in which reading a label takes no lock, updating, creating and deleting labels work as in a build with locks: no update is lost, and the results are the same. A reader is given a label that was current at some time during its call.", "quantifier": "every number of callers, every interleaving of their file operations, every way in which reading and writing are cut into pieces", "why_tests_cant": "what a reader sees depends on where it is interrupted by a writer; the window is a few microseconds and the tests are run with locks", "anchors": ["src/storage/locking.rs: LockedFile::open, LockedFileLockFuture", "src/storage/directory.rs: get_label_from_file, DirectoryLabelStore::set_label_option", "Cargo.toml: noreadlock"]}
{"id": "C66", "title": "A caller that panics leaves no half-made changes", "statement": "When a caller hands code to a shared layer builder and that code panics half way, nothing of its changes is ever committed: from then on no layer is made from this builder, and every call on it panics. A layer that is committed has all the changes of all callers whose code returned, the changes of one caller together, and the code of none has panicked.", "quantifier": "every number of callers sharing a builder, every interleaving of their calls, every list of changes, every point of the panic", "why_tests_cant": "a panic can come at any point of code of the caller and between any calls of other callers; no test panics inside the builder", "anchors": ["src/store/mod.rs: StoreLayerBuilder::with_builder, committed, commit_no_load"]}
{"id": "C67", "title": "Listing labels gives each label that is there", "statement": "Listing the labels of a directory label store while others create, update and delete labels does not disturb them. Every label that is there from the beginning to the end of the listing is listed exactly once, with a value that was current at some time during the listing; if it is not updated meanwhile, with its value. A listing fails only if a label is deleted meanwhile, or if it meets one that is just being created.", "quantifier": "every number of callers and listings, every interleaving of their file operations, every order in which the directory is read, every label", "why_tests_cant": "the outcome depends on where between two entries another caller comes in; tests list labels when nobody else is there", "anchors": ["src/storage/directory.rs: DirectoryLabelStore::labels, get_label_from_file"]}
{"id": "C68", "title": "The head of a named graph can be loaded", "statement": "A head that has been set is a layer that the store has: asking for the head never fails because the layer is missing, whatever other callers set, force and commit meanwhile. The layer and the version that are returned were read together from the label of that name. set_head with a layer of this store replaces only heads that are in this store.", "quantifier": "every number of callers, every interleaving of their label calls, parent lookups, loads and commits, every layer passed, crashes in between", "why_tests_cant": "it depends on all layers any caller has ever passed to any of the update calls and on the order of reads, updates and commits; tests set a head and read it back with one caller and one store", "anchors": ["src/store/mod.rs: NamedGraph::head_version, head, set_head, force_set_head, force_set_head_version", "src/storage/layer.rs: layer_is_ancestor_of"]}
{"id": "C69", "title": "A version stands for one state of a named graph", "statement": "A caller that was told a head and a version and then calls force_set_head_version with that version and is told true has replaced exactly that head, and nobody has updated the graph in between. Of all calls with the same version at most one is told true, and all callers that are told the same version are told the same head.", "quantifier": "every number of callers, every interleaving of their steps, every sequence of set_head, force_set_head, force_set_head_version and head_version, every version", "why_tests_cant": "it relates a read and a conditional update with any number of updates by others in between; tests try one interleaving", "anchors": ["src/store/mod.rs: NamedGraph::head_version, force_set_head_version", "src/storage/label.rs: Label, with_updated_layer"]}
{"id": "C70", "title": "A call that fails makes no layer", "statement": "A commit, rollup, squash, merge or import that returns an error or panics makes no layer and changes none. Whenever no call is under way, every layer in the store was returned by a call that succeeded, or requested in an import that succeeded, provided that the process did not stop while a call was under way.", "quantifier": "all calls with all arguments, any number of threads, every interleaving", "why_tests_cant": "each call has many ways to fail, at any of its steps and next to others", "anchors": ["src/storage/layer.rs: perform_rollup, perform_rollup_upto, squash, squash_upto, merge_base_layers", "src/storage/pack.rs: import_layers", "src/store/mod.rs: StoreLayerBuilder::commit, StoreLayer::rollup, squash, squash_upto"]}
