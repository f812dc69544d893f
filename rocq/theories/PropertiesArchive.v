(** Properties of the archive store: files (C29), readers (C30), and what it adds to immutability
    (C38), crashes (C39), listing (C40), pointers (C41) and failures (C46).  The specification is in
    [SpecArchive]. *)
From Verif Require Import Prelude ListFacts Names SpecText NamesFacts FileNames Archive ArchiveFacts ArchiveStore SpecArchive ArchiveStoreFacts ArchiveApi ArchiveRun.

(** ** C29.  Archive files decode to what was written. *)
(** The calls may come from any number of tasks, in any order, with crashes in between, and writing
    the archive to disk takes any number of steps.  A layer was created once, its files were
    written, and [finalize] has returned.  Then each file that was synced before gives the bytes that
    were written to it: by a ranged read, from the whole archive, by its size and its existence, *)
Theorem C29_files (c : codec) tr s n tr1 tr2 ft b : codec_ok c →
  aexec c astore_new tr s → created_once n tr → tr = tr1 ++ IFinalize n :: tr2 → IStored n ∈ tr2 → ft < rollup_type →
  file_written tr1 n ft b →
  structure_bytes c (as_disk s !! n) ft = Ok (Some b) ∧
  obind (layer_bytes (as_disk s !! n)) (λ a, slice_for c a ft) = Ok (Some b) ∧
  layer_file_exists (as_disk s !! n) ft = Ok true ∧
  structure_size c (as_disk s !! n) ft = Ok (length b) ∧
  as_map c s n ft = Ok b ∧ as_file_exists s n ft = Ok true.
Proof. exact (archive_files_present c tr s n tr1 tr2 ft b). Qed.
Print Assumptions C29_files.
(** and there is no other file. *)
Theorem C29_no_other (c : codec) tr s n tr1 tr2 ft : codec_ok c →
  aexec c astore_new tr s → created_once n tr → tr = tr1 ++ IFinalize n :: tr2 → IStored n ∈ tr2 → ft < rollup_type →
  (∀ b, ¬ file_written tr1 n ft b) →
  structure_bytes c (as_disk s !! n) ft = Ok None ∧
  obind (layer_bytes (as_disk s !! n)) (λ a, slice_for c a ft) = Ok None ∧
  layer_file_exists (as_disk s !! n) ft = Ok false ∧
  structure_size c (as_disk s !! n) ft = Err NotFound ∧
  as_map c s n ft = Err NotFound ∧ as_file_exists s n ft = Ok false.
Proof. exact (archive_files_absent c tr s n tr1 tr2 ft). Qed.
Print Assumptions C29_no_other.
(** While the layer is being made, it exists, it has the files that were opened, and those that were synced can be
    read. *)
Theorem C29_under_construction (c : codec) n tr s ft : aexec c astore_new tr s → created_once n tr → ICrash ∉ tr → IFinalize n ∉ tr →
  ICreate n (Ok tt) ∈ tr → ft < rollup_type →
  as_directory_exists s n = true ∧
  (∃ e, as_file_exists s n ft = Ok e ∧ (e = true ↔ ∃ h, IOpen n ft h ∈ tr)) ∧
  (∀ b, as_map c s n ft = Ok b ↔ file_written tr n ft b).
Proof. exact (under_construction c n tr s ft). Qed.
Print Assumptions C29_under_construction.
(** The whole archive can be taken apart at once: where the header says that a file is, its bytes are. *)
Theorem C29_whole_archive (c : codec) tr s n tr1 tr2 : codec_ok c →
  aexec c astore_new tr s → created_once n tr → tr = tr1 ++ IFinalize n :: tr2 → IStored n ∈ tr2 →
  (∃ ft b, file_written tr1 n ft b) →
  ∃ a h d, as_disk s !! n = Some a ∧ parse_archive c a = Ok (h, d) ∧
    (∀ ft b, file_written tr1 n ft b →
       ∃ i j, range_for h ft = Ok (Some (i, j)) ∧ i ≤ j ∧ j ≤ length d ∧ take (j - i) (drop i d) = b) ∧
    (∀ ft, ft < rollup_type → (∀ b, ¬ file_written tr1 n ft b) → range_for h ft = Ok None).
Proof. exact (archive_whole c tr s n tr1 tr2). Qed.
Print Assumptions C29_whole_archive.
(** A file of a layer that is being made, written in pieces: before it is synced it does not count as
    there; afterwards it is the pieces one after the other, from any position, and it cannot be
    written again. *)
Theorem C29_construction_file (ps : list bytes) : ∃ f f', cfile_writes (UnderConstruction []) ps = Ok f ∧ cfile_sync f = Ok f' ∧
  (cfile_exists f = false ∧ cfile_size f = Err NotFound ∧ cfile_map f = Err NotFound ∧ ∀ k, cfile_read_from f k = Err NotFound) ∧
  cfile_exists f' = true ∧ cfile_size f' = Ok (length (mjoin ps)) ∧ cfile_map f' = Ok (mjoin ps) ∧
  (∀ k, k ≤ length (mjoin ps) → cfile_read_from f' k = Ok (drop k (mjoin ps))) ∧
  (∀ k, length (mjoin ps) < k → cfile_read_from f' k = Err UnexpectedEof) ∧
  (∀ b, cfile_write f' b = Err OtherError) ∧ cfile_sync f' = Err OtherError.
Proof. exact (construction_file ps). Qed.
Print Assumptions C29_construction_file.
(** A file opened at a position delivers what follows it, through any sequence of reads, *)
Theorem C29_read_from (c : codec) tr s n tr1 tr2 ft b k : codec_ok c →
  aexec c astore_new tr s → created_once n tr → tr = tr1 ++ IFinalize n :: tr2 → IStored n ∈ tr2 →
  file_written tr1 n ft b → k ≤ length b →
  ∃ r, structure_from c (as_disk s !! n) ft k = Ok r ∧
    ∀ ps r', polls (slice_step false) r ps r' → reads_exactly (drop k b) ps.
Proof. exact (archive_read_from c tr s n tr1 tr2 ft b k). Qed.
Print Assumptions C29_read_from.
(** but opening it beyond its end panics. *)
Theorem C29_beyond_end_refuted (c : codec) tr s n tr1 tr2 ft b k : codec_ok c →
  aexec c astore_new tr s → created_once n tr → tr = tr1 ++ IFinalize n :: tr2 → IStored n ∈ tr2 →
  file_written tr1 n ft b → length b < k → structure_from c (as_disk s !! n) ft k = Panic.
Proof. exact (archive_beyond c tr s n tr1 tr2 ft b k). Qed.
Print Assumptions C29_beyond_end_refuted.
(** No two files of a layer, by name, are the same file of the archive: neither for base layers nor
    for child layers, and no two names are listed twice. *)
Theorem C29_file_names :
  (∀ f g t, f ∈ shared_required_files ++ shared_optional_files ++ base_layer_required_files ++ base_layer_optional_files →
     g ∈ shared_required_files ++ shared_optional_files ++ base_layer_required_files ++ base_layer_optional_files →
     file_type f = Some t → file_type g = Some t → f = g) ∧
  (∀ f g t, f ∈ shared_required_files ++ shared_optional_files ++ child_layer_required_files ++ child_layer_optional_files →
     g ∈ shared_required_files ++ shared_optional_files ++ child_layer_required_files ++ child_layer_optional_files →
     file_type f = Some t → file_type g = Some t → f = g) ∧
  (∀ f, f ∈ shared_required_files ++ shared_optional_files ++ base_layer_required_files ++ base_layer_optional_files ++
            child_layer_required_files ++ child_layer_optional_files → ∃ t, file_type f = Some t ∧ t ≤ rollup_type) ∧
  file_type parent_name = Some parent_type ∧ file_type rollup_name = Some rollup_type.
Proof. exact file_names_distinct. Qed.
Print Assumptions C29_file_names.

(** The example: a layer with three files, one of them empty, written in two pieces to disk *)
Definition ex_n : lname := [1; 2; 3; 4; 5]%N.
Definition ex_p : lname := [6; 7; 8; 9; 10]%N.
Definition ex_aops : list aop :=
  [OCreate ex_n; OOpen ex_n 48 1; OOpen ex_n 7 0; OWrite 0 [1; 2]; OWrite 1 (parent_contents ex_p); OWrite 0 [3]; OSync 0;
   OOpen ex_n 5 2; OSync 2; OSync 1; OOpen ex_n 6 3; OWrite 3 [9]; OFinalize ex_n 0; OChunk 0 50; OChunk 0 33; OStored 0].
Definition ex_tr1 : list aitem := take 12 (aop_trace plain_codec ex_aops).
Lemma ex_run : aexec plain_codec astore_new (aop_trace plain_codec ex_aops) (aop_state plain_codec ex_aops).
Proof. apply aops_run. vm_compute. reflexivity. Qed.
Lemma ex_once : created_once ex_n (aop_trace plain_codec ex_aops).
Proof. apply count_created_once. vm_compute. lia. Qed.
Lemma ex_split : aop_trace plain_codec ex_aops = ex_tr1 ++ IFinalize ex_n :: [IStored ex_n].
Proof. vm_compute. reflexivity. Qed.
Lemma ex_written : file_written ex_tr1 ex_n 7 [1; 2; 3] ∧ file_written ex_tr1 ex_n 5 [] ∧
  file_written ex_tr1 ex_n 48 (parent_contents ex_p).
Proof.
  split; [|split].
  - exists 0. split_and!; [apply (elem_of_list_lookup_2 _ 2)|apply (elem_of_list_lookup_2 _ 6)|]; vm_compute; reflexivity.
  - exists 2. split_and!; [apply (elem_of_list_lookup_2 _ 7)|apply (elem_of_list_lookup_2 _ 8)|]; vm_compute; reflexivity.
  - exists 1. split_and!; [apply (elem_of_list_lookup_2 _ 1)|apply (elem_of_list_lookup_2 _ 9)|]; vm_compute; reflexivity.
Qed.
(** the file 6 was not synced *)
Example C29_example : codec_ok plain_codec ∧
  as_map plain_codec (aop_state plain_codec ex_aops) ex_n 7 = Ok [1; 2; 3] ∧
  as_map plain_codec (aop_state plain_codec ex_aops) ex_n 6 = Err NotFound ∧
  as_file_exists (aop_state plain_codec ex_aops) ex_n 6 = Ok false.
Proof. split; [exact plain_codec_ok|]. vm_compute. split_and!; reflexivity. Qed.
Example C29_whole_archive_example : ∃ a h d, as_disk (aop_state plain_codec ex_aops) !! ex_n = Some a ∧
  parse_archive plain_codec a = Ok (h, d) ∧ range_for h 7 = Ok (Some (0, 3)) ∧ take 3 d = [1; 2; 3] ∧ range_for h 6 = Ok None.
Proof. do 3 eexists. split; [vm_compute; reflexivity|]. split; [vm_compute; reflexivity|]. vm_compute. split_and!; reflexivity. Qed.
Example C29_under_construction_example : aexec plain_codec astore_new ex_tr1 (aop_state plain_codec (take 12 ex_aops)) ∧
  created_once ex_n ex_tr1 ∧ ICreate ex_n (Ok tt) ∈ ex_tr1 ∧
  as_map plain_codec (aop_state plain_codec (take 12 ex_aops)) ex_n 7 = Ok [1; 2; 3] ∧
  as_map plain_codec (aop_state plain_codec (take 12 ex_aops)) ex_n 6 = Err NotFound ∧
  as_file_exists (aop_state plain_codec (take 12 ex_aops)) ex_n 6 = Ok true.
Proof.
  split; [apply (aops_run plain_codec (take 12 ex_aops)); vm_compute; reflexivity|].
  split; [apply count_created_once; vm_compute; lia|]. split; [apply (elem_of_list_lookup_2 _ 0); vm_compute; reflexivity|].
  vm_compute. split_and!; reflexivity.
Qed.
(** Between [finalize] taking the layer and the archive being there, the name counts as free.  If it is
    given to a second layer then, the archive may become a mixture of both: a file that was written
    reads as what was never written to it. *)
Theorem C29_name_reused_refuted : ∃ (c : codec) tr s n ft,
  codec_ok c ∧ aexec c astore_new tr s ∧ last tr = Some (IStored n) ∧ ICrash ∉ tr ∧
  ∃ b, as_map c s n ft = Ok b ∧ b = [1; 4] ∧ ∀ h, writes_to h tr ≠ b.
Proof. exact name_reused. Qed.
Print Assumptions C29_name_reused_refuted.

(** ** C30.  Chunked reads lose nothing. *)
Theorem C30_bytes data tr s : polls bytes_step data tr s → reads_exactly data tr.
Proof. exact (bytes_polls_exact data tr s). Qed.
Print Assumptions C30_bytes.
(** the slice reader of a file in an archive, whatever follows the file in the archive *)
Theorem C30_slice data junk tr s : polls (slice_step false) (data ++ junk, length data) tr s → reads_exactly data tr.
Proof. exact (slice_polls_exact data junk tr s). Qed.
Print Assumptions C30_slice.
(** with enough room in every call, everything is delivered: each call of a reader that is not told to
    wait delivers at least one byte until all are delivered *)
Theorem C30_progress data tr room p tr' b : reads_exactly data tr → tr = tr' ++ [(room, p)] → p = PollOk b → 0 < room →
  delivered tr' = data ∨ length (delivered tr') < length (delivered tr).
Proof. exact (reads_progress data tr room p tr' b). Qed.
Print Assumptions C30_progress.
(** an error of the operating system is reported as the end of the file *)
Theorem C30_error_refuted : ∃ data tr s, polls (slice_step true) (data, length data) tr s ∧
  ∃ room, tr = [(room, PollOk [])] ∧ 0 < room ∧ delivered tr ≠ data.
Proof. exact slice_error. Qed.
Print Assumptions C30_error_refuted.
Example C30_example : ∃ s s',
  polls bytes_step [1; 2; 3] [(2, PollOk [1; 2]); (0, PollOk []); (5, PollOk [3]); (1, PollOk [])] s ∧
  polls (slice_step false) ([1; 2; 3; 9; 9], 3) [(2, PollOk [1; 2]); (4, PollPending); (4, PollOk [3]); (7, PollOk [])] s'.
Proof. exact polls_example. Qed.

(** ** C38.  A stored archive never changes, whatever is called afterwards, also with its name, *)
Theorem C38_archive (c : codec) tr s tr' s' n : aexec c astore_new tr s → aexec c s tr' s' → created_once n tr →
  (∃ tr1 tr2, tr = tr1 ++ IFinalize n :: tr2 ∧ IStored n ∈ tr2) →
  as_disk s' !! n = as_disk s !! n ∧ is_Some (as_disk s !! n) ∧
  ∀ ft, ft < rollup_type → as_map c s' n ft = as_map c s n ft ∧ as_file_exists s' n ft = as_file_exists s n ft.
Proof. exact (archive_immutable c tr s tr' s' n). Qed.
Print Assumptions C38_archive.

(** ** C39.  A layer whose [finalize] was not called does not exist after a restart, *)
Theorem C39_archive (c : codec) tr s n : aexec c astore_new tr s → created_once n tr → IFinalize n ∉ tr →
  as_disk s !! n = None ∧ as_directory_exists (restart s) n = false.
Proof. exact (archive_unfinished c tr s n). Qed.
Print Assumptions C39_archive.
Example C39_archive_example : aexec plain_codec astore_new (aop_trace plain_codec (take 12 ex_aops)) (aop_state plain_codec (take 12 ex_aops)) ∧
  as_directory_exists (aop_state plain_codec (take 12 ex_aops)) ex_n = true ∧
  as_directory_exists (restart (aop_state plain_codec (take 12 ex_aops))) ex_n = false.
Proof. split; [apply aops_run; vm_compute; reflexivity|]. split; vm_compute; reflexivity. Qed.
(** but a layer whose archive was being written exists and cannot be read. *)
Theorem C39_archive_torn_refuted : ∃ (c : codec) tr s n,
  codec_ok c ∧ aexec c astore_new tr s ∧ created_once n tr ∧ IStored n ∉ tr ∧ last tr = Some ICrash ∧
  as_directory_exists s n = true ∧ as_file_exists s n 7 = Ok true ∧ as_map c s n 7 = Err UnexpectedEof.
Proof. exact torn_archive. Qed.
Print Assumptions C39_archive_torn_refuted.

(** ** C40.  The archive store lists no layer that is finished. *)
Theorem C40_archive_refuted s : as_constr s = ∅ → as_directories s = Ok [].
Proof. exact (archive_lists_nothing s). Qed.
Print Assumptions C40_archive_refuted.
Example C40_archive_example : as_directory_exists (aop_state plain_codec ex_aops) ex_n = true ∧
  as_directories (aop_state plain_codec ex_aops) = Ok [].
Proof. split; vm_compute; reflexivity. Qed.

(** ** C41.  Pointers of archives *)
Theorem C41_archive_parent (c : codec) tr s n tr1 tr2 p : codec_ok c →
  aexec c astore_new tr s → created_once n tr → tr = tr1 ++ IFinalize n :: tr2 → IStored n ∈ tr2 → name_ok p →
  (file_written tr1 n parent_type (parent_contents p) → as_parent c s n = Ok (Some p)) ∧
  ((∀ b, ¬ file_written tr1 n parent_type b) → as_parent c s n = Ok None).
Proof. exact (archive_parent c tr s n tr1 tr2 p). Qed.
Print Assumptions C41_archive_parent.
(** writing the rollup file of a layer that exists, then reading it, both ways *)
Theorem C41_archive_rollup (layer : bytes) n : name_ok n →
  ∃ d, rollup_file_sync (Some layer) (rollup_contents n) = Ok d ∧ get_rollup (Some layer) (Some d) = Ok (Some n) ∧
    ∃ b, rollup_file_map (Some layer) (Some d) = Ok b ∧ read_rollup b = Ok n.
Proof. exact (rollup_round layer n). Qed.
Print Assumptions C41_archive_rollup.
(** what is not a pointer is not read as one, and none is written for a layer that does not exist *)
Theorem C41_archive_parent_accepted (c : codec) tr s n tr1 tr2 b q : codec_ok c →
  aexec c astore_new tr s → created_once n tr → tr = tr1 ++ IFinalize n :: tr2 → IStored n ∈ tr2 →
  file_written tr1 n parent_type b → as_parent c s n = Ok q → ∃ p t rest, q = Some p ∧ b = t ++ rest ∧ name_text t p ∧ name_ok p.
Proof. exact (parent_accepts c tr s n tr1 tr2 b q). Qed.
Print Assumptions C41_archive_parent_accepted.
Theorem C41_archive_rollup_accepted (layer d : bytes) q : get_rollup (Some layer) (Some d) = Ok q →
  ∃ n v e ns rest, q = Some n ∧ d = v ++ e ++ ns ++ rest ∧ Forall (λ b, b ≠ 10) v ∧ eol e ∧ name_text ns n ∧ name_ok n.
Proof. exact (rollup_accepts layer d q). Qed.
Print Assumptions C41_archive_rollup_accepted.
Theorem C41_archive_rollup_layer n b d : (name_ok n → rollup_file_sync None (rollup_contents n) = Err NotFound) ∧ rollup_file_sync None b ≠ Ok d.
Proof. exact (rollup_needs_layer n b d). Qed.
Print Assumptions C41_archive_rollup_layer.
(** where there is no pointer, or no layer, none is read *)
Theorem C41_archive_no_rollup (layer rollup : option bytes) : layer = None ∨ rollup = None →
  get_rollup layer rollup = Ok None ∧ rollup_file_exists layer rollup = Ok false ∧ rollup_file_size layer rollup = Err NotFound ∧
  rollup_file_map layer rollup = Err NotFound.
Proof. exact (no_rollup_file layer rollup). Qed.
Print Assumptions C41_archive_no_rollup.
(** the size of a rollup file is not its length *)
Theorem C41_archive_rollup_size_refuted (layer : bytes) n d : name_ok n →
  rollup_file_sync (Some layer) (rollup_contents n) = Ok d →
  rollup_file_size (Some layer) (Some d) = Ok 22 ∧ ∃ b, rollup_file_map (Some layer) (Some d) = Ok b ∧ length b = 42.
Proof. exact (rollup_size_wrong layer n d). Qed.
Print Assumptions C41_archive_rollup_size_refuted.
Example C41_archive_example : as_parent plain_codec (aop_state plain_codec ex_aops) ex_n = Ok (Some ex_p).
Proof. vm_compute. reflexivity. Qed.

(** ** C46.  A call that fails does not harm other calls. *)
(** In the archive store it does: creating a layer that is being constructed panics, and after that
    every creation of any layer panics until the process is restarted. *)
Theorem C46_archive_refuted : ∃ (c : codec) tr s n, codec_ok c ∧ aexec c astore_new tr s ∧
  tr = [ICreate n (Ok tt); ICreate n Panic] ∧
  ∀ tr' s', aexec c s tr' s' → ICrash ∉ tr' → ∀ m r, ICreate m r ∈ tr' → r = Panic.
Proof. exact create_twice. Qed.
Print Assumptions C46_archive_refuted.
(** without such a panic the lock is never poisoned *)
Theorem C46_archive_partial (c : codec) tr s : aexec c astore_new tr s →
  (∀ n, ICreate n Panic ∉ tr) → (∀ n, IFinalizePanic n ∉ tr) → as_poisoned s = false.
Proof. exact (never_poisoned c tr s). Qed.
Print Assumptions C46_archive_partial.
