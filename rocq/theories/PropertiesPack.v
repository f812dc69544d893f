(** Properties of packs: transport (C34), the layers of a pack (C35), and what importing means for
    existing layers (C38) and for later calls (C46).  The specification is in [SpecPack]. *)
From Verif Require Import Prelude ListFacts Names NamesFacts FileNames Archive ArchiveStore SpecArchive ArchiveRun
  Pack SpecPack PackFacts PackImport PackBackends PackApi PackArchive PackRun.

(** ** C34.  Packs transport layers unchanged. *)
(** From any kind of store to any other: layers [exp] that are complete in the store [a] are
    exported, and layers [req] that the store [b] does not have are imported.  Both calls succeed.
    The layers that are in both lists are in the store [b] as they were in [a]; no layer outside
    [req] is touched; and a requested layer that is not in the pack has no files. *)
Theorem C34_transport (ka kb : backend) (tc : tar_codec) a b exp req order :
  backend_ok kb → tar_ok tc → backend_good kb b → Forall name_ok exp → Forall name_ok req → NoDup exp → NoDup req → import_order req order →
  (∀ n, n ∈ exp → complete (backend_pls ka) a n) → (∀ n, n ∈ req → p_dir (backend_pls kb) b n = Ok false) →
  ∃ pack b', export_layers (backend_pls ka) tc a exp = Ok pack ∧ import_layers (backend_pls kb) tc b pack req order = (Ok tt, b') ∧
    backend_good kb b' ∧
    (∀ n, n ∈ req → n ∈ exp → same_files (backend_pls ka) (backend_pls kb) a b' n) ∧
    (∀ n, n ∈ req → n ∉ exp → empty_layer (backend_pls kb) b' n) ∧
    (∀ n, n ∉ req → untouched (backend_pls kb) b b' n).
Proof. exact (transport ka kb tc a b exp req order). Qed.
Print Assumptions C34_transport.
(** A layer with the same files is the same layer, however it is loaded from its files, *)
Theorem C34_loads_the_same {S T A} (ss : pls S) (ts : pls T) (s : S) (t : T) n (load : bool → (bytes → option bytes) → A) :
  (∀ c g h, (∀ f, f ∈ may_have c → g f = h f) → load c g = load c h) → same_files ss ts s t n →
  load (is_child ts t n) (shows ts t n) = load (is_child ss s n) (shows ss s n).
Proof. exact (same_loads ss ts s t n load). Qed.
Print Assumptions C34_loads_the_same.
(** and has the same parent. *)
Theorem C34_same_parent {S T} (ss : pls S) (ts : pls T) (s : S) (t : T) n q :
  same_files ss ts s t n → parent_is ss s n q → parent_is ts t n q.
Proof. exact (same_parent ss ts s t n q). Qed.
Print Assumptions C34_same_parent.
(** Which layers can be exported: in memory and in directories those with all their files; *)
Theorem C34_exportable (st : pls (gmap (list N) (gmap (list nat) (list nat)))) s n m child :
  st = memory_pls ∨ (∃ over, st = directory_pls over) →
  s !! n = Some m → child = bool_decide (is_Some (m !! parent_file)) → (∀ f, f ∈ must_have child → is_Some (m !! f)) →
  (N.of_nat (sum_list (length <$> omap (m !!.) (may_have child))) ≤ u64_max)%N → complete st s n.
Proof. exact (files_complete st s n m child). Qed.
Print Assumptions C34_exportable.
(** in the archive store those whose files were written before they were finalized, whatever other
    calls were made; and an archive store where no call has panicked can be imported into. *)
Theorem C34_exportable_archive (c : codec) tr (s : astore) n tr1 tr2 child : codec_ok c →
  aexec c astore_new tr s → created_once n tr → tr = tr1 ++ IFinalize n :: tr2 → IStored n ∈ tr2 → as_poisoned s = false →
  (∀ f, f ∈ must_have child → ∃ ft b, type_of_name f = Some ft ∧ file_written tr1 n ft b) →
  (child = false → ∀ b, ¬ file_written tr1 n parent_type b) →
  is_child (archive_pls c) s n = child ∧ complete (archive_pls c) s n ∧
  ∀ f ft b, f ∈ may_have child → type_of_name f = Some ft → (shows (archive_pls c) s n f = Some b ↔ file_written tr1 n ft b).
Proof. exact (archive_complete c tr s n tr1 tr2 child). Qed.
Print Assumptions C34_exportable_archive.
Theorem C34_archive_states (c : codec) tr (s : astore) : aexec c astore_new tr s → as_poisoned s = false → archive_good s.
Proof. exact (exec_good c tr s). Qed.
Print Assumptions C34_archive_states.
(** What importing does to an archive store are calls of the store as its other properties speak of. *)
Theorem C34_import_is_calls (c : codec) (tc : tar_codec) (s : astore) pack ids order r s' :
  import_layers (archive_pls c) tc s pack ids order = (r, s') → r ≠ Panic → ∃ tr, aexec c s tr s'.
Proof. exact (import_exec c tc s pack ids order r s'). Qed.
Print Assumptions C34_import_is_calls.
(** Only the requested layers are touched, whatever is in the pack and whether or not importing
    succeeds. *)
Theorem C34_only_requested (k : backend) (tc : tar_codec) s pack ids order r s' : Forall name_ok ids → import_order ids order →
  backend_good k s → import_layers (backend_pls k) tc s pack ids order = (r, s') → r ≠ Panic →
  backend_good k s' ∧ ∀ n, n ∉ ids → untouched (backend_pls k) s s' n.
Proof. exact (only_requested k tc s pack ids order r s'). Qed.
Print Assumptions C34_only_requested.
(** A requested layer that is not in the pack is not ignored: afterwards it exists, in each kind of
    store. *)
Theorem C34_missing_refuted (k : backend) : backend_ok k → ∃ tc b pack (n : lname) b', tar_ok tc ∧ backend_good k b ∧ name_ok n ∧ tc_read tc pack = [] ∧
  p_dir (backend_pls k) b n = Ok false ∧ import_layers (backend_pls k) tc b pack [n] [n] = (Ok tt, b') ∧
  p_dir (backend_pls k) b' n = Ok true ∧ empty_layer (backend_pls k) b' n.
Proof. exact (missing_made k). Qed.
Print Assumptions C34_missing_refuted.
(** Requesting a layer twice panics in the archive store, and so do all later calls. *)
Theorem C34_twice_refuted (c : codec) (tc : tar_codec) (s : astore) pack n order : archive_good s → p_dir (archive_pls c) s n = Ok false →
  ∃ s', import_layers (archive_pls c) tc s pack [n; n] order = (Panic, s') ∧ ∀ n', p_dir (archive_pls c) s' n' = Panic.
Proof. exact (archive_twice c tc s pack n order). Qed.
Print Assumptions C34_twice_refuted.
(** A base layer and its child, exported from memory and imported into an archive store *)
Example C34_example : tar_ok plain_tar ∧ codec_ok plain_codec ∧ archive_good astore_new ∧
  (∀ n, n ∈ [name_a; name_b] → complete memory_pls two_layers n) ∧
  (∀ n, p_dir (archive_pls plain_codec) astore_new n = Ok false) ∧
  is_child memory_pls two_layers name_a = false ∧ is_child memory_pls two_layers name_b = true ∧
  import_order [name_a; name_b] [name_b; name_a] ∧ Forall name_ok [name_a; name_b].
Proof. exact transport_case. Qed.
Print Assumptions C34_example.

(** ** C35.  The layers of a pack. *)
Theorem C35_parents {S} (st : pls S) (tc : tar_codec) (s : S) ids (par : lname → option lname) : tar_ok tc → Forall name_ok ids →
  (∀ n, n ∈ ids → complete st s n ∧ parent_is st s n (par n)) →
  ∃ pack m, export_layers st tc s ids = Ok pack ∧ pack_layer_parents tc pack = Ok m ∧
    ∀ n, m !! n = if decide (n ∈ ids) then Some (par n) else None.
Proof. exact (listed_parents st tc s ids par). Qed.
Print Assumptions C35_parents.
Example C35_example : tar_ok plain_tar ∧
  ∀ n, n ∈ [name_a; name_b] → complete memory_pls two_layers n ∧
    parent_is memory_pls two_layers n (if decide (n = name_b) then Some name_a else None).
Proof. exact parents_case. Qed.
Print Assumptions C35_example.
(** Of a pack that was not exported the call may panic: a path without a name *)
Theorem C35_foreign_refuted : ∃ tc pack e, tc_read tc pack = [Ok e] ∧ pack_layer_parents tc pack = Panic.
Proof. exact foreign_pack. Qed.
Print Assumptions C35_foreign_refuted.

(** ** C38.  Importing and existing layers. *)
(** Importing other layers changes nothing about a layer: [C34_only_requested].  Requesting a layer
    that exists: a memory store erases its files, even if importing fails; *)
Theorem C38_import_existing_refuted : ∃ tc s pack (n : lname) s' k, tar_ok tc ∧ complete memory_pls s n ∧ p_dir memory_pls s n = Ok true ∧
  import_layers memory_pls tc s pack [n] [n] = (Err k, s') ∧ (∀ f, shows memory_pls s' n f = None) ∧ ∃ f b, shows memory_pls s n f = Some b.
Proof. exact memory_erases. Qed.
Print Assumptions C38_import_existing_refuted.
(** an archive store panics and is as it was; *)
Theorem C38_import_existing_archive (c : codec) (tc : tar_codec) (s : astore) pack n ids order : is_Some (as_disk s !! n) →
  import_layers (archive_pls c) tc s pack (n :: ids) order = (Panic, s).
Proof. exact (archive_again c tc s pack n ids order). Qed.
Print Assumptions C38_import_existing_archive.
(** a directory is as it was, if the pack has the files that the layers have. *)
Theorem C38_import_existing_directory (over : bytes → bytes → bytes) (tc : tar_codec) {S} (st : pls S) (a : S) s pack ids exp order :
  (∀ b, over b b = b) → tar_ok tc →
  Forall name_ok ids → Forall name_ok exp → import_order ids order → (∀ n, n ∈ exp → complete st a n) → export_layers st tc a exp = Ok pack →
  (∀ n, n ∈ ids → is_Some (s !! n)) →
  (∀ n f b, n ∈ ids → n ∈ exp → f ∈ may_have (is_child st a n) → shows st a n f = Some b → shows (directory_pls over) s n f = Some b) →
  import_layers (directory_pls over) tc s pack ids order = (Ok tt, s).
Proof. exact (directory_again over tc st a s pack ids exp order). Qed.
Print Assumptions C38_import_existing_directory.

(** ** C46.  Importing that fails. *)
(** After importing has failed, trying again panics in the archive store, whatever the pack is, and
    so do all later calls, also about other layers. *)
Theorem C46_failed_import_refuted (c : codec) : ∃ tc s pack (n : lname) k s1, tar_ok tc ∧ archive_good s ∧
  import_layers (archive_pls c) tc s pack [n] [n] = (Err k, s1) ∧
  ∀ tc' pack', ∃ s2, import_layers (archive_pls c) tc' s1 pack' [n] [n] = (Panic, s2) ∧ ∀ n', p_dir (archive_pls c) s2 n' = Panic.
Proof. exact (failed_then_panics c). Qed.
Print Assumptions C46_failed_import_refuted.
