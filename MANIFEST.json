{
 "claims": [
  {
   "property": "C01",
   "status": "proved",
   "theorems": [
    "C01_shown_total",
    "C01_commit_semantics",
    "C01_unknown_id_refuted",
    "C01_value_subject_refuted",
    "C01_base_named",
    "C01_child_named",
    "C01_base_works",
    "C01_child_works"
   ],
   "note": "For every reachable layer and every list of builder calls; calls that pass ids must pass ids of a string triple of the parent (other ids make the builder panic or write unresolvable triples, see Findings)."
  },
  {
   "property": "C02",
   "status": "proved",
   "theorems": [
    "C02_order_independent"
   ],
   "note": "The two builds give the same layer record: dictionaries and all triple files are equal."
  },
  {
   "property": "C03",
   "status": "proved",
   "theorems": [
    "C03_subjects",
    "C03_predicates",
    "C03_object_nodes",
    "C03_object_values",
    "C03_total"
   ],
   "note": "Includes that no lookup panics, for every string and every id."
  },
  {
   "property": "C04",
   "status": "proved",
   "theorems": [
    "C04_objects",
    "C04_predicates",
    "C04_kinds",
    "C04_counts"
   ],
   "note": ""
  },
  {
   "property": "C05",
   "status": "proved",
   "theorems": [
    "C05_stable"
   ],
   "note": ""
  },
  {
   "property": "C06",
   "status": "proved",
   "theorems": [
    "C06_exists_iff_enumerated"
   ],
   "note": ""
  },
  {
   "property": "C07",
   "status": "proved",
   "theorems": [
    "C07_sorted"
   ],
   "note": ""
  },
  {
   "property": "C08",
   "status": "proved",
   "theorems": [
    "C08_restricted",
    "C08_predicate_zero_refuted"
   ],
   "note": "For every id from 1 on; predicate id 0 is refuted separately (C08_predicate_zero_refuted)."
  },
  {
   "property": "C09",
   "status": "proved",
   "theorems": [
    "C09_single"
   ],
   "note": ""
  },
  {
   "property": "C10",
   "status": "proved",
   "theorems": [
    "C10_triple_count",
    "C10_layer_counts",
    "C10_sums"
   ],
   "note": ""
  },
  {
   "property": "C11",
   "status": "proved",
   "theorems": [
    "C11_net_change",
    "C11_deltas"
   ],
   "note": "The queries by object for one delta only for objects that occur in it; otherwise refuted under C12."
  },
  {
   "property": "C12",
   "status": "partial",
   "theorems": [
    "C12_files_decode",
    "C12_delta_by_object_partial",
    "C12_delta_by_object_refuted"
   ],
   "note": "For every strictly ascending list of nonzero triples. The internal by-object query of a single delta is refuted (returns another object) and proved when the object occurs."
  },
  {
   "property": "C13",
   "status": "proved",
   "theorems": [
    "C13_changes_between",
    "C13_named",
    "C13_not_ancestor",
    "C13_layer_changes_refuted"
   ],
   "note": "Also by name, in every state of a store, with the error when the layer is not an ancestor. The variant without an ancestor, layer_changes, is refuted (C13_layer_changes_refuted: it reads the files of one layer again and again)."
  },
  {
   "property": "C14",
   "status": "proved",
   "theorems": [
    "C14_rollup_same_answers",
    "C14_rolled_same_answers",
    "C14_commits_alike",
    "C14_named",
    "C14_works",
    "C14_rollup_of_rollup_refuted"
   ],
   "note": "Rollups of any kind at any depth of the stack; includes commits made on top of the rollup. By name: a layer that has been rolled up loads with its own name, parent and answers (C14_named, C38_always_loads). Rolling up a layer that is itself a rollup, whose name rollup() does not return, makes the layer load with another name (C14_rollup_of_rollup_refuted)."
  },
  {
   "property": "C15",
   "status": "partial",
   "theorems": [
    "C15_imprecise_same_answers",
    "C15_upto_same_answers_partial",
    "C15_rollup_upto_refuted",
    "C15_named",
    "C15_works_partial",
    "C15_only_ancestors",
    "C15_again_refuted",
    "C15_after_full_refuted",
    "C15_imprecise_bound_refuted"
   ],
   "note": "Proved for every partial rollup whose loaded layers have equal id maps (all that are not partial rollups themselves); refuted otherwise (C15_rollup_upto_refuted, delta.rs:192-200). By name it is proved to succeed unless the layer has a rollup already; then it may panic or fail (C15_again_refuted, C15_after_full_refuted). It returns a layer for the layer itself and its ancestors only (C15_only_ancestors). Imprecise rollups whose bound is not the ancestor asked for change the layer (C15_imprecise_bound_refuted)."
  },
  {
   "property": "C16",
   "status": "proved",
   "theorems": [
    "C16_squash",
    "C16_named",
    "C16_works"
   ],
   "note": "Every reachable layer, rolled up or not. Also: the squashed layer is the layer that a commit of the shown triples to no parent writes."
  },
  {
   "property": "C17",
   "status": "proved",
   "theorems": [
    "C17_squash_upto",
    "C17_named",
    "C17_works",
    "C17_only_ancestors"
   ],
   "note": "Made for proper ancestors only (C17_only_ancestors). Also: the squashed layer is the layer that a commit of the difference on the ancestor writes."
  },
  {
   "property": "C18",
   "status": "proved",
   "theorems": [
    "C18_merge_is_union",
    "C18_rollup_refuted",
    "C18_named",
    "C18_works"
   ],
   "note": "For base layers written as such (commit without parent, squash, merge), any number and overlap. Refuted for base layers that are rollups (C18_rollup_refuted: base_merge.rs ignores their id maps)."
  },
  {
   "property": "C19",
   "status": "proved",
   "theorems": [
    "C19_round_trip",
    "C19_injective",
    "C19_length",
    "C19_lower_case_hex",
    "C19_other_lengths_rejected",
    "C19_accepted",
    "C19_every_hex_string",
    "C19_other_characters_rejected",
    "C19_ascii_never_panics",
    "C19_panics_refuted"
   ],
   "note": "Accepted strings are characterised exactly (C19_accepted), including the plus signs that from_str_radix allows. A string of 40 bytes with a character across two words panics (C19_panics_refuted)."
  },
  {
   "property": "C20",
   "status": "partial",
   "theorems": [
    "C20_round_trip",
    "C20_new_label",
    "C20_accepted",
    "C20_unambiguous",
    "C20_injective",
    "C20_cut_off",
    "C20_panics_refuted"
   ],
   "note": "Accepted files are characterised exactly (C20_accepted); every cut off label file is rejected or complete up to the last line feed. A bad second line that is not ASCII may panic instead of giving an error (C20_panics_refuted)."
  },
  {
   "property": "C21",
   "status": "partial",
   "theorems": [
    "C21_directory_file",
    "C21_directory_name",
    "C21_cached",
    "C21_memory",
    "C21_once",
    "C21_version",
    "C21_file_is_name",
    "C21_memory_refuted",
    "C21_overflow_refuted"
   ],
   "note": "Directory store: every file system call of every caller is its own step, in any order; per file always, per name while the name is not deleted (C56 adds deletions). Cached and memory stores hold one lock per call. The memory store compares versions only, so the theorem asks that callers pass labels they were shown and that nothing is deleted; otherwise refuted (C21_memory_refuted)."
  },
  {
   "property": "C22",
   "status": "partial",
   "theorems": [
    "C22_directory_partial",
    "C22_refuted",
    "C22_cached_mixture_refuted"
   ],
   "note": "At every point the file holds the old label, the new label, or something that is rejected while a call is in progress, never a mixture (directory store). The full claim is refuted: after truncation the label is lost (C22_refuted); the cached store can leave a mixture (C22_cached_mixture_refuted)."
  },
  {
   "property": "C23",
   "status": "partial",
   "theorems": [
    "C23_directory_cached",
    "C23_memory_partial",
    "C23_delete_refuted",
    "C23_error_kind_refuted"
   ],
   "note": "Directory and cached directory store: all sequences. Memory store: sequences without deletions in which callers update labels they were shown, up to the kind of errors; refuted otherwise."
  },
  {
   "property": "C24",
   "status": "proved",
   "theorems": [
    "C24_directory_serves",
    "C24_cached_serves",
    "C24_memory_serves",
    "C24_forward",
    "C24_refused",
    "C24_chain"
   ],
   "note": "set_head, force_set_head, force_set_head_version and head_version as callers that take label store calls and parent lookups one step at a time, any number of them, in any order. C24_forward, C24_refused and C24_chain hold for every label store that keeps the promise of C21; C24_directory_serves, C24_cached_serves and C24_memory_serves show that the three stores do. The label must not be deleted meanwhile."
  },
  {
   "property": "C25",
   "status": "proved",
   "theorems": [
    "C25_version",
    "C25_version_refused",
    "C25_force",
    "C25_no_effect",
    "C25_head_version"
   ],
   "note": "Same executions as C24: success, refusal, that nothing else changes the head, and that head_version returns the current label."
  },
  {
   "property": "C26",
   "status": "proved",
   "theorems": [
    "C26_once",
    "C26_content",
    "C26_after",
    "C26_progress",
    "C26_failed_commit_refuted"
   ],
   "note": "threads share the builder in any interleaving: one commit takes it, its layer has exactly the calls that returned Ok, later calls fail. A commit that fails uses up the builder all the same (C26_failed_commit_refuted, F42)."
  },
  {
   "property": "C27",
   "status": "proved",
   "theorems": [
    "C27_apply_diff"
   ],
   "note": "the calls made by apply_diff, in any order, lead to the triples of the other layer"
  },
  {
   "property": "C28",
   "status": "proved",
   "theorems": [
    "C28_apply_delta"
   ],
   "note": "the calls made by apply_delta, in any order, remove what the layer removed and add what it added"
  },
  {
   "property": "C29",
   "status": "proved",
   "theorems": [
    "C29_files",
    "C29_no_other",
    "C29_under_construction",
    "C29_whole_archive",
    "C29_construction_file",
    "C29_read_from",
    "C29_beyond_end_refuted",
    "C29_file_names",
    "C29_name_reused_refuted"
   ],
   "note": "For every codec of the offsets that meets the contract of tdb-succinct. The layer name must be created once; C29_name_reused_refuted shows what happens otherwise (F29). Opening beyond the end panics (F19)."
  },
  {
   "property": "C30",
   "status": "proved",
   "theorems": [
    "C30_bytes",
    "C30_slice",
    "C30_progress",
    "C30_error_refuted"
   ],
   "note": "For both readers. I/O errors of the operating system are reported as end of file: C30_error_refuted (F30)."
  },
  {
   "property": "C31",
   "status": "partial",
   "theorems": [
    "C31_reads",
    "C31_queries",
    "C31_stores",
    "C31_after_store",
    "C31_cancelled_partial",
    "C31_overlap_refuted",
    "C31_pieces_refuted",
    "C31_failed_store_refuted"
   ],
   "note": "Proved for every schedule of any number of calls, failures of the origin and crashes while no call is cancelled, with the origin storing archives in one step: a layer that no running call is about reads exactly as the origin has it from then on. Refuted outside of that: a read that starts before the store (F32) and archives written in pieces, which a failed store leaves unfinished (F28). With cancellations a read may panic but never gives other bytes."
  },
  {
   "property": "C32",
   "status": "partial",
   "theorems": [
    "C32_refuted",
    "C32_store_refuted",
    "C32_single_partial",
    "C32_space_partial"
   ],
   "note": "Refuted: the counter of used bytes is never updated, so nothing is ever thrown out (F8), and storing does not look at the limit. Proved: each archive cached by reading fits, and the eviction function is right if the counter were."
  },
  {
   "property": "C33",
   "status": "partial",
   "theorems": [
    "C33_get",
    "C33_reads",
    "C33_parent",
    "C33_pred_count_refuted",
    "C33_by_object_direct",
    "C33_by_object_partial",
    "C33_by_object_refuted"
   ],
   "note": "Every state of a store with a cache, under all interleavings, rollups, dropped entries and restarts: loading, dictionaries, counts, id maps, deltas and parents as without the cache. Refuted for get_predicate_count (C33_pred_count_refuted: cache.rs:200 asks for the value count) and for the additions and removals of an object that has none (C33_by_object_refuted, F21); proved for objects that have some. Loads that race with the writing of the files of the same layer: C47."
  },
  {
   "property": "C34",
   "status": "partial",
   "theorems": [
    "C34_transport",
    "C34_loads_the_same",
    "C34_same_parent",
    "C34_exportable",
    "C34_exportable_archive",
    "C34_archive_states",
    "C34_import_is_calls",
    "C34_only_requested",
    "C34_missing_refuted",
    "C34_twice_refuted",
    "C34_exported",
    "C34_named",
    "C34_works",
    "C34_unused"
   ],
   "note": "Proved for every pair of stores (memory, directory, archive) under the contract of tar and gzip, and by name next to all other calls (C34_named). Refuted: a requested layer that is not in the pack is made, without files (C34_missing_refuted), and requesting a layer twice panics in an archive store. Rollup files are not exported."
  },
  {
   "property": "C35",
   "status": "proved",
   "theorems": [
    "C35_parents",
    "C35_foreign_refuted"
   ],
   "note": "For packs that were exported; of other packs the call may panic (C35_foreign_refuted)."
  },
  {
   "property": "C36",
   "status": "proved",
   "theorems": [
    "C36_is_ancestor",
    "C36_stack_names",
    "C36_stack_names_upto"
   ],
   "note": "Every state of a store; also that the parent files have no cycles in reachable states (an ancestry exists for every name)."
  },
  {
   "property": "C37",
   "status": "proved",
   "theorems": [
    "C37_value_exists",
    "C37_round_trip",
    "C37_shown",
    "C37_partially_resolved",
    "C37_resolves_later",
    "C37_unresolved"
   ],
   "note": ""
  },
  {
   "property": "C38",
   "status": "partial",
   "theorems": [
    "C38_written_once",
    "C38_stored_forever_any",
    "C38_loads_any",
    "C38_any_is_more",
    "C38_archive",
    "C38_import_existing_refuted",
    "C38_import_existing_archive",
    "C38_import_existing_directory",
    "C38_stored_forever",
    "C38_created_is_stored",
    "C38_always_loads",
    "C38_loads_agree",
    "C38_fresh",
    "C38_missing"
   ],
   "note": "All calls, under every interleaving and with crashes (imports: when the names are unused and parents come first); the files of one layer are taken to appear at once, which C47 justifies for loads. What is loaded: without rollups of rollups (C14_rollup_of_rollup_refuted) and rollups with a wrong bound (C15_imprecise_bound_refuted); the files of every layer are kept with those too (C38_written_once, C38_stored_forever_any). Importing: other layers are untouched (C34_only_requested); requesting an existing layer erases it in a memory store (C38_import_existing_refuted), panics in an archive store and is harmless in a directory if the files are the same."
  },
  {
   "property": "C39",
   "status": "partial",
   "theorems": [
    "C39_archive",
    "C39_archive_torn_refuted",
    "C39_loaded_is_complete",
    "C39_others_load",
    "C39_head_is_complete",
    "C39_head_ancestors"
   ],
   "note": "Directory and memory store: any point between the steps of a call; the files of one layer are taken to appear at once, and C47 shows that a layer with a part of its files does not load; the note of a rollup is taken to appear at once too, and C50 shows what happens otherwise. Archive store: a layer that was not finalized does not exist after a restart. Refuted for the archive store when it stops while it writes an archive (C39_archive_torn_refuted, F28)."
  },
  {
   "property": "C40",
   "status": "partial",
   "theorems": [
    "C40_archive_refuted",
    "C40_memory_lists_all",
    "C40_memory_refuted",
    "C40_directory_refuted"
   ],
   "note": "The claim is refuted for both stores: the directory store fails as soon as it holds a layer (C40_directory_refuted), the memory store also lists unfinished layers (C40_memory_refuted). Proved: the memory store lists every stored layer."
  },
  {
   "property": "C41",
   "status": "proved",
   "theorems": [
    "C41_archive_parent",
    "C41_archive_rollup",
    "C41_archive_parent_accepted",
    "C41_archive_rollup_accepted",
    "C41_archive_rollup_layer",
    "C41_archive_no_rollup",
    "C41_archive_rollup_size_refuted",
    "C41_text",
    "C41_made_text",
    "C41_parent_round_trip",
    "C41_parent_accepted",
    "C41_rollup_round_trip",
    "C41_rollup_accepted",
    "C41_parent_cut_off",
    "C41_rollup_cut_off",
    "C41_half_overwritten_refuted",
    "C41_panics_refuted"
   ],
   "note": "Accepted pointers are characterised exactly; a parent file that is not ASCII may be rejected by a panic (C41_panics_refuted)."
  },
  {
   "property": "C42",
   "status": "proved",
   "theorems": [
    "C42_stream_equals_loaded"
   ],
   "note": ""
  },
  {
   "property": "C43",
   "status": "partial",
   "theorems": [
    "C43_answers",
    "C43_no_deadlock",
    "C43_terminates",
    "C43_cancel_refuted",
    "C43_cancel_missing_refuted"
   ],
   "note": "Proved without cancellation: no read panics; also with cancellation: no deadlock, and all calls end in a bounded number of steps. Refuted with cancellation: a cancelled load makes every later read of the layer panic, or say that the layer does not exist (F20, F32)."
  },
  {
   "property": "C44",
   "status": "proved",
   "theorems": [
    "C44_directory",
    "C44_starts_empty",
    "C44_once"
   ],
   "note": "Directory store: under every interleaving, with deletions; the other two stores through the same sequential specification."
  },
  {
   "property": "C45",
   "status": "partial",
   "theorems": [
    "C45_cached_partial",
    "C45_clear_refuted",
    "C45_directory"
   ],
   "note": "Directory store: all sequences. Cached directory store: all sequences without clear_label; refuted with it (C45_clear_refuted: the file is not truncated)."
  },
  {
   "property": "C46",
   "status": "partial",
   "theorems": [
    "C46_archive_refuted",
    "C46_archive_partial",
    "C46_failed_import_refuted"
   ],
   "note": "Refuted for the archive store: a panic while the construction lock is held poisons it (F31), and a failed import makes the next attempt do that (C46_failed_import_refuted). Proved: without such a panic the lock is never poisoned."
  },
  {
   "property": "C47",
   "status": "partial",
   "theorems": [
    "C47_whole_or_nothing",
    "C47_finished_loads",
    "C47_racing_partial",
    "C47_racing_refuted",
    "C47_loads_exported",
    "C47_loads_all",
    "C47_shared_names",
    "C47_written_once"
   ],
   "note": "Proved for every stop of every call that writes a layer, and for racing loads of layers other than rollups. Refuted for racing loads of rollups (F34). That a file of which only a part is there is rejected is a contract of tdb-succinct."
  },
  {
   "property": "C48",
   "status": "proved",
   "theorems": [
    "C48_ideal",
    "C48_interchangeable",
    "C48_archive_reopened",
    "C48_open_parent_refuted",
    "C48_other_kind_refuted"
   ],
   "note": "For every sequence of calls that is proper in the sense of SpecBackend.proper, under the contracts of trusted. Refuted without it: the parent of a layer that is not finalized (C48_open_parent_refuted), and files of base layers asked of a child layer (C48_other_kind_refuted)."
  },
  {
   "property": "C49",
   "status": "partial",
   "theorems": [
    "C49_names",
    "C49_only_own_files",
    "C49_missing_directory",
    "C49_directories",
    "C49_impossible",
    "C49_empty_refuted",
    "C49_alias_refuted",
    "C49_other_graph_refuted",
    "C49_outside_refuted",
    "C49_long_refuted"
   ],
   "note": "Proved for names that are neither empty nor longer than 249 bytes and have no slash and no zero byte (C49_names, C49_only_own_files). Refuted for other names: F25."
  },
  {
   "property": "C50",
   "status": "partial",
   "theorems": [
    "C50_complete",
    "C50_directory_right_partial",
    "C50_archive_right_partial",
    "C50_others_load",
    "C50_no_others_load",
    "C50_refuted"
   ],
   "note": "Refuted: while fewer bytes of the note are there than its two lines have, the layer and all that lead to it do not load (C50_refuted, C50_no_others_load, F37). Proved: whatever loads is right (C50_directory_right_partial, C50_archive_right_partial), and every layer that does not lead to the note still loads (C50_others_load)."
  },
  {
   "property": "C51",
   "status": "partial",
   "theorems": [
    "C51_one_file_partial",
    "C51_reads_back_partial",
    "C51_not_shared",
    "C51_refuted"
   ],
   "note": "Refuted: two calls that ask for a file before it is there (C51_refuted, F27). Proved: a file that was given while no other call was about to make it is given to everyone from then on and reads back what was written (C51_one_file_partial, C51_reads_back_partial), and files are never mixed up (C51_not_shared)."
  },
  {
   "property": "C52",
   "status": "proved",
   "theorems": [
    "C52_apart",
    "C52_apart_any",
    "C52_layers_safe",
    "C52_only_own_files",
    "C52_archives",
    "C52_archives_safe"
   ],
   "note": "For every sequence of calls of both stores, one at a time, with plain label names; layers also with label names of any kind (C52_layers_safe, C52_archives_safe). What other names do to labels is C49. Archives: their files as the store reads and writes them; C29 is about what is in them."
  },
  {
   "property": "C53",
   "status": "proved",
   "theorems": [
    "C53_stored_forever",
    "C53_created_is_stored",
    "C53_always_loads",
    "C53_loads_agree",
    "C53_caches",
    "C53_fresh",
    "C53_base_named",
    "C53_child_named",
    "C53_rollup_named",
    "C53_squash_named",
    "C53_base_works",
    "C53_works",
    "C53_head_loads"
   ],
   "note": "Single steps as in C38: a look at the store, a new directory, the files of one layer, a parent file and a rollup file are each one step. The labels of named graphs are taken to behave as C21 says."
  },
  {
   "property": "C54",
   "status": "partial",
   "theorems": [
    "C54_labels_go_on",
    "C54_labels_end",
    "C54_labels_finish",
    "C54_pool_go_on_partial",
    "C54_pool_end",
    "C54_pool_finish_partial",
    "C54_pool_refuted",
    "C54_pool_waits",
    "C54_pool_answers",
    "C54_heads_go_on",
    "C54_heads_end",
    "C54_heads_finish",
    "C54_heads_lost",
    "C54_force_refuted"
   ],
   "note": "Refuted on a pool of threads with more callers than threads (C54_pool_refuted, F38); proved with at most as many callers as threads, and without a limit on threads. Labels: the steps of LabelConc.v, where a lock is waited for by the step not being possible; flock is taken to let one of the waiting callers in when the lock is free. Named graphs: a caller may lose a race again and again while others keep winning, so the bound counts the calls of all (no new calls). Forcing a head: every lost attempt is due to an update that succeeded (C54_heads_lost), but with new calls coming it may lose any number of times (C54_force_refuted, F54)."
  },
  {
   "property": "C55",
   "status": "partial",
   "theorems": [
    "C55_before_file_partial",
    "C55_before_name_partial",
    "C55_file_partial",
    "C55_stopped_updates",
    "C55_stopped_asked",
    "C55_lost_for_ever",
    "C55_go_on",
    "C55_finish",
    "C55_set_refuted",
    "C55_create_refuted",
    "C55_panic_refuted"
   ],
   "note": "Refuted: an update or creation given up while it writes loses the label (C55_set_refuted, C55_create_refuted), giving up during an operation panics (C55_panic_refuted), F39. Proved: calls given up before they change anything leave no trace; wherever calls are given up, a label is as before, updated or lost, other files are not affected, a lost label stays lost, and the other calls return."
  },
  {
   "property": "C56",
   "status": "proved",
   "theorems": [
    "C56_linearizable",
    "C56_answers",
    "C56_all_runs"
   ],
   "note": "Every run of the directory label store, deletions and new creations included, with one order for all names. Reading or updating a label whose creation has begun but not ended fails with InvalidData, which the specification shows as a state of its own."
  },
  {
   "property": "C57",
   "status": "proved",
   "theorems": [
    "C57_linearizable",
    "C57_directory",
    "C57_answers"
   ],
   "note": "For every label store that is linearizable, as the directory store is (C56); deletions included. A label that is being created is a state of its own, as in C56. Loading the head layer is not part of the model (C33, C39): head_version answers its name."
  },
  {
   "property": "C58",
   "status": "partial",
   "theorems": [
    "C58_builder",
    "C58_content",
    "C58_part",
    "C58_diff",
    "C58_diff_reaches",
    "C58_before_partial",
    "C58_after",
    "C58_panics",
    "C58_failed",
    "C58_goes_on",
    "C58_delta_half_refuted",
    "C58_delta_late_refuted",
    "C58_diff_refuted"
   ],
   "note": "Refuted: apply_delta returns Ok on a builder that has been committed, or committed meanwhile, without its changes (F40); apply_diff panics there (F41). Proved: apply_diff that returned Ok made all its changes; apply_delta did if it returned before a commit began; no other changes are made; the layer has the changes made; calls on a committed builder make none; neither call waits for anyone."
  },
  {
   "property": "C59",
   "status": "proved",
   "theorems": [
    "C59_commit",
    "C59_rollup",
    "C59_imprecise",
    "C59_rollup_upto",
    "C59_squash",
    "C59_squash_upto",
    "C59_merge"
   ],
   "note": "For every function that gives enough bits (the contract of calculate_width) and every chunk size. For rollup_upto with the side condition of C15. That the counts themselves fit 64 bits is not part of the statement."
  },
  {
   "property": "C60",
   "status": "proved",
   "theorems": [
    "C60_kept",
    "C60_committed",
    "C60_one_after_the_other",
    "C60_kept_processes",
    "C60_committed_processes",
    "C60_one_after_the_other_processes"
   ],
   "note": "For callers that update the graph with set_head; forced updates are meant to replace the head. The label store keeps its promise for the name (serves; proved for the three label stores in C24 as long as the label is not deleted). The label is not lost by a call that is given up (C55) or a crash in the middle of writing it (C22)."
  },
  {
   "property": "C61",
   "status": "partial",
   "theorems": [
    "C61_directory_others",
    "C61_cached_others",
    "C61_directory_reported",
    "C61_cached_reported",
    "C61_directory_partial",
    "C61_directory_never_wrong",
    "C61_cached_unseen",
    "C61_cached_retry",
    "C61_directory_set_refuted",
    "C61_directory_create_refuted",
    "C61_cached_create_refuted",
    "C61_cached_set_refuted",
    "C61_cached_delete_refuted"
   ],
   "note": "Proved: a fault that a call met is reported, and a call that does not fail has done what it does without the fault; other labels are untouched; unless writing (or locking a file just made) fails, a call has done all or nothing; in the directory store a label is never read wrong; in the cached store a failed update is not seen and can be tried again, after which the directory opens as if nothing had happened. Refuted: a failing write loses the label in the directory store (F43), and in the cached store a failed creation, update or deletion breaks the directory or changes what is read after opening it again (F44)."
  },
  {
   "property": "C62",
   "status": "partial",
   "theorems": [
    "C62_same_partial",
    "C62_together_refuted",
    "C62_removed_refuted",
    "C62_rollup_refuted"
   ],
   "note": "Proved for a layer that was first loaded while no other call was under way, and whose rollup, if any, is not itself in use; after that any number of threads may do anything but roll it up. Without these conditions it is refuted (F45): two loads at a time, a late removal of a dropped entry, a rollup that is in use."
  },
  {
   "property": "C63",
   "status": "partial",
   "theorems": [
    "C63_within_partial",
    "C63_no_new_strings_partial",
    "C63_changes_partial",
    "C63_above_refuted"
   ],
   "note": "Proved for removals by ids that are not above the numbers of the parent and, when no added string is new, for all removals; for additions when one of the ids is 0. Refuted for removals by ids above the numbers of the parent next to new strings (F46); additions by unknown ids panic or name the wrong string (F17, C01)."
  },
  {
   "property": "C64",
   "status": "partial",
   "theorems": [
    "C64_layer_partial",
    "C64_again_partial",
    "C64_layer_whole_partial",
    "C64_archive_partial",
    "C64_archive_whole_partial",
    "C64_head_partial",
    "C64_head_cached_partial",
    "C64_created_partial",
    "C64_deleted_partial",
    "C64_layer_refuted",
    "C64_rollup_refuted",
    "C64_created_refuted",
    "C64_deleted_refuted"
   ],
   "note": "Proved for file systems with a journal (changes of directories reach the disk in order, and synchronizing anything takes the earlier ones along): commits in both stores, a head set after a commit, labels created by the store with a cache, deletions followed by a commit. By POSIX alone a committed layer is there whole or not at all. Refuted by POSIX alone: a committed layer and its head, a rollup, a created label (F47, F48); refuted even with a journal: a deletion with nothing after it (F49)."
  },
  {
   "property": "C65",
   "status": "partial",
   "theorems": [
    "C65_updates",
    "C65_register",
    "C65_quiet_partial",
    "C65_piece_partial",
    "C65_absent",
    "C65_mixture_refuted",
    "C65_empty_refuted"
   ],
   "note": "Proved for everything but reading: every run is, for the other calls, a run with locks. Readers: proved while the file is not written, and for what a reader gets hold of in one piece; refuted for readers during an update (F50). The feature is off by default."
  },
  {
   "property": "C66",
   "status": "proved",
   "theorems": [
    "C66_content",
    "C66_nothing",
    "C66_dead",
    "C66_written",
    "C66_cause",
    "C66_late",
    "C66_others_refuted"
   ],
   "note": "The claim is proved; that a panic also takes the builder from callers whose code returned is refuted as a limit (F51). Closures that put another builder in the place of theirs are not modelled."
  },
  {
   "property": "C67",
   "status": "partial",
   "theorems": [
    "C67_calls",
    "C67_entries",
    "C67_complete",
    "C67_unchanged",
    "C67_fails_partial",
    "C67_begins",
    "C67_snapshot_refuted",
    "C67_deleted_refuted",
    "C67_created_refuted"
   ],
   "note": "Proved: what is listed, and that nothing that stays is left out. Refuted: snapshots, and success while others delete and create (F52). For readdir the model takes from POSIX that an entry that stays is given exactly once."
  },
  {
   "property": "C68",
   "status": "partial",
   "theorems": [
    "C68_directory_faithful",
    "C68_names_faithful",
    "C68_found",
    "C68_labels",
    "C68_returned",
    "C68_blocked",
    "C68_foreign_refuted"
   ],
   "note": "Proved for runs in which every layer passed is in the store, for label stores that give only labels that were set (shown for the directory store and for stores that keep the promise of C21 for every name). Refuted when a layer of another store is passed (F53). Loading a layer that is there is one step; that it succeeds is C14, C38, C47."
  },
  {
   "property": "C69",
   "status": "partial",
   "theorems": [
    "C69_unchanged",
    "C69_once",
    "C69_same_head",
    "C69_recreated_refuted"
   ],
   "note": "Proved for graphs that are not deleted. Refuted for graphs that are deleted and created again (F55)."
  },
  {
   "property": "C70",
   "status": "proved",
   "theorems": [
    "C70_given",
    "C70_given_since",
    "C70_failed",
    "C70_stopped_refuted",
    "C70_left_behind_refuted"
   ],
   "note": "For every run of any number of calls, also those that C38 leaves out of account, from one point where no call is under way to another; the files of one layer are taken to appear at once (C47). A process that stops between writing a layer and returning it leaves a layer that nobody was given (C70_stopped_refuted); the statement excludes that. What a failed call leaves is no layer, but can be a directory without files that the memory store lists (C70_left_behind_refuted, F56)."
  }
 ]
}