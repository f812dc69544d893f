(** The files of one layer: the order in which they are written, and loading a layer of which not
    all files may be there. *)
From Verif Require Import Prelude Succinct TripleFiles Layer FileNames.
From Coq Require String.
Import String.StringSyntax.
Local Open Scope string_scope.
Local Notation text := String.string (only parsing).

(** ** Names *)
(** layer.rs:398-430 [base_layer_files] *)
Definition base_filenames : list text :=
  ["node_dictionary_blocks.tfc"; "node_dictionary_offsets.logarray";
   "predicate_dictionary_blocks.tfc"; "predicate_dictionary_offsets.logarray";
   "value_dictionary_types.logarray"; "value_dictionary_type_offsets.logarray";
   "value_dictionary_offsets.logarray"; "value_dictionary_blocks.tfc";
   "node_value_idmap_bits.bitarray"; "node_value_idmap_bit_index_blocks.bitarray"; "node_value_idmap_bit_index_sblocks.bitarray";
   "predicate_idmap_bits.bitarray"; "predicate_idmap_bit_index_blocks.bitarray"; "predicate_idmap_bit_index_sblocks.bitarray";
   "base_subjects.logarray"; "base_objects.logarray";
   "base_s_p_adjacency_list_bits.bitarray"; "base_s_p_adjacency_list_bit_index_blocks.logarray";
   "base_s_p_adjacency_list_bit_index_sblocks.logarray"; "base_s_p_adjacency_list_nums.logarray";
   "base_sp_o_adjacency_list_bits.bitarray"; "base_sp_o_adjacency_list_bit_index_blocks.logarray";
   "base_sp_o_adjacency_list_bit_index_sblocks.logarray"; "base_sp_o_adjacency_list_nums.logarray";
   "base_o_ps_adjacency_list_bits.bitarray"; "base_o_ps_adjacency_list_bit_index_blocks.logarray";
   "base_o_ps_adjacency_list_bit_index_sblocks.logarray"; "base_o_ps_adjacency_list_nums.logarray";
   "base_predicate_wavelet_tree_bits.bitarray"; "base_predicate_wavelet_tree_bit_index_blocks.logarray";
   "base_predicate_wavelet_tree_bit_index_sblocks.logarray"].
(** layer.rs:503-552 [child_layer_files] *)
Definition child_filenames : list text :=
  ["node_dictionary_blocks.tfc"; "node_dictionary_offsets.logarray";
   "predicate_dictionary_blocks.tfc"; "predicate_dictionary_offsets.logarray";
   "value_dictionary_types.logarray"; "value_dictionary_type_offsets.logarray";
   "value_dictionary_offsets.logarray"; "value_dictionary_blocks.tfc";
   "node_value_idmap_bits.bitarray"; "node_value_idmap_bit_index_blocks.bitarray"; "node_value_idmap_bit_index_sblocks.bitarray";
   "predicate_idmap_bits.bitarray"; "predicate_idmap_bit_index_blocks.bitarray"; "predicate_idmap_bit_index_sblocks.bitarray";
   "child_pos_subjects.logarray"; "child_pos_objects.logarray"; "child_neg_subjects.logarray"; "child_neg_objects.logarray";
   "pos_s_p_adjacency_list_bits.bitarray"; "pos_s_p_adjacency_list_bit_index_blocks.logarray";
   "pos_s_p_adjacency_list_bit_index_sblocks.logarray"; "pos_s_p_adjacency_list_nums.logarray";
   "pos_sp_o_adjacency_list_bits.bitarray"; "pos_sp_o_adjacency_list_bit_index_blocks.logarray";
   "pos_sp_o_adjacency_list_bit_index_sblocks.logarray"; "pos_sp_o_adjacency_list_nums.logarray";
   "pos_o_ps_adjacency_list_bits.bitarray"; "pos_o_ps_adjacency_list_bit_index_blocks.logarray";
   "pos_o_ps_adjacency_list_bit_index_sblocks.logarray"; "pos_o_ps_adjacency_list_nums.logarray";
   "neg_s_p_adjacency_list_bits.bitarray"; "neg_s_p_adjacency_list_bit_index_blocks.logarray";
   "neg_s_p_adjacency_list_bit_index_sblocks.logarray"; "neg_s_p_adjacency_list_nums.logarray";
   "neg_sp_o_adjacency_list_bits.bitarray"; "neg_sp_o_adjacency_list_bit_index_blocks.logarray";
   "neg_sp_o_adjacency_list_bit_index_sblocks.logarray"; "neg_sp_o_adjacency_list_nums.logarray";
   "neg_o_ps_adjacency_list_bits.bitarray"; "neg_o_ps_adjacency_list_bit_index_blocks.logarray";
   "neg_o_ps_adjacency_list_bit_index_sblocks.logarray"; "neg_o_ps_adjacency_list_nums.logarray";
   "pos_predicate_wavelet_tree_bits.bitarray"; "pos_predicate_wavelet_tree_bit_index_blocks.logarray";
   "pos_predicate_wavelet_tree_bit_index_sblocks.logarray";
   "neg_predicate_wavelet_tree_bits.bitarray"; "neg_predicate_wavelet_tree_bit_index_blocks.logarray";
   "neg_predicate_wavelet_tree_bit_index_sblocks.logarray"].
(** layer.rs:438-499 and 559-652: [files[i]], [files[i+1]], … *)
Definition range (names : list text) (i k : nat) : list text := take k (drop i names).
Definition node_files := range base_filenames 0 2.
Definition predicate_files := range base_filenames 2 2.
Definition value_files := range base_filenames 4 4.
Definition dict_files := node_files ++ predicate_files ++ value_files.
Definition nvmap_files := range base_filenames 8 3.
Definition pmap_files := range base_filenames 11 3.
(** the files of a base layer, of the additions and of the removals of a child layer *)
Inductive side := OfBase | OfPos | OfNeg.
Definition subjects_files (s : side) : list text :=
  match s with OfBase => range base_filenames 14 1 | OfPos => range child_filenames 14 1 | OfNeg => range child_filenames 16 1 end.
Definition objects_files (s : side) : list text :=
  match s with OfBase => range base_filenames 15 1 | OfPos => range child_filenames 15 1 | OfNeg => range child_filenames 17 1 end.
Definition sp_files (s : side) : list text :=
  match s with OfBase => range base_filenames 16 4 | OfPos => range child_filenames 18 4 | OfNeg => range child_filenames 30 4 end.
Definition spo_files (s : side) : list text :=
  match s with OfBase => range base_filenames 20 4 | OfPos => range child_filenames 22 4 | OfNeg => range child_filenames 34 4 end.
Definition ops_files (s : side) : list text :=
  match s with OfBase => range base_filenames 24 4 | OfPos => range child_filenames 26 4 | OfNeg => range child_filenames 38 4 end.
Definition wavelet_files (s : side) : list text :=
  match s with OfBase => range base_filenames 28 3 | OfPos => range child_filenames 42 3 | OfNeg => range child_filenames 45 3 end.

(** ** Loading *)
(** A file is not there, is being written (or was when the process stopped), or has been written.  The files of a
    layer are written once.  Contract of tdb-succinct: loading a layer with a file of which only a part is there
    fails. *)
Inductive fstate := Absent | Torn | Whole.
#[global] Instance fstate_eq_dec : EqDecision fstate.
Proof. solve_decision. Defined.
Notation dir := (String.string → fstate) (only parsing).
Definition all_whole (d : dir) (fs : list text) : bool := forallb (λ f, bool_decide (d f = Whole)) fs.
(** [map_all_if_exists], [map_if_exists]: the first file says whether they are there *)
Definition if_exists {A} (d : dir) (fs : list text) (v : option A) : option (option A) :=
  match fs with
  | f :: _ => if decide (d f = Absent) then Some None else if all_whole d fs then Some v else None
  | [] => Some None
  end.
(** What is read when the files that are there are those of the layer [l].
    file.rs:117-150 [BaseLayerFiles::map_all] *)
Definition load_base (d : dir) (l : layer) : option layer :=
  if all_whole d dict_files then
    nv ← if_exists d nvmap_files (l_nvmap l);
    pm ← if_exists d pmap_files (l_pmap l);
    sb ← if_exists d (subjects_files OfBase) (tf_subjects (l_pos l));
    ob ← if_exists d (objects_files OfBase) (tf_objects (l_pos l));
    if all_whole d (sp_files OfBase ++ spo_files OfBase ++ ops_files OfBase ++ wavelet_files OfBase) then
      Some (Layer (l_nodes l) (l_preds l) (l_vals l) nv pm
        (TF sb ob (tf_sp (l_pos l)) (tf_spo (l_pos l)) (tf_ops (l_pos l)) (tf_wt (l_pos l))) None)
    else None
  else None.
(** file.rs:206-250 [ChildLayerFiles::map_all] *)
Definition load_child (d : dir) (l : layer) : option layer :=
  if all_whole d dict_files then
    nv ← if_exists d nvmap_files (l_nvmap l);
    pm ← if_exists d pmap_files (l_pmap l);
    if all_whole d (subjects_files OfPos ++ subjects_files OfNeg ++ objects_files OfPos ++ objects_files OfNeg ++
         sp_files OfPos ++ spo_files OfPos ++ ops_files OfPos ++ sp_files OfNeg ++ spo_files OfNeg ++ ops_files OfNeg ++
         wavelet_files OfPos ++ wavelet_files OfNeg) then
      Some (Layer (l_nodes l) (l_preds l) (l_vals l) nv pm (l_pos l) (l_neg l))
    else None
  else None.
(** layer.rs:377-379 [layer_has_parent], 1433-1587 [get_layer_with_cache] *)
Definition load_layer (d : dir) (l : layer) : option layer :=
  match d parent_name with
  | Absent => load_base d l
  | Torn => None
  | Whole => load_child d l
  end.

(** ** Writing *)
(** What a call writes: one file after another, or at the same time. *)
Inductive work := WNone | WFile (f : text) | WThen (a b : work) | WBoth (a b : work).
(** all the files *)
Fixpoint work_files (w : work) : list text :=
  match w with
  | WNone => []
  | WFile f => [f]
  | WThen a b | WBoth a b => work_files a ++ work_files b
  end.
(** The files that may be written at some point. *)
Inductive stage : work → list text → Prop :=
  | stage_none : stage WNone []
  | stage_before f : stage (WFile f) []
  | stage_written f : stage (WFile f) [f]
  | stage_first a b x : stage a x → stage (WThen a b) x
  | stage_second a b y : stage b y → stage (WThen a b) (work_files a ++ y)
  | stage_both a b x y : stage a x → stage b y → stage (WBoth a b) (x ++ y).
(** What the directory of the layer may look like then: other files are not there or not complete. *)
Definition looks (w : work) (d : dir) : Prop :=
  ∃ x, stage w x ∧ (∀ f, d f = Whole ↔ f ∈ x) ∧ (∀ f, d f ≠ Absent → f ∈ work_files w).
(** when the call has returned *)
Definition finished (w : work) (d : dir) : Prop :=
  ∀ f, (f ∈ work_files w → d f = Whole) ∧ (f ∉ work_files w → d f = Absent).
(** in any order (written by tdb-succinct) *)
Definition any (fs : list text) : work := foldr (λ f w, WBoth (WFile f) w) WNone fs.
Definition in_order (fs : list text) : work := foldr (λ f w, WThen (WFile f) w) WNone fs.
(** builder.rs:179-207 [DictionarySetFileBuilder::finalize]; delta.rs:198-204 *)
Definition dict_work : work := WThen (any node_files) (WThen (any predicate_files) (any value_files)).
(** builder.rs:340-364 [TripleFileBuilder::finalize] *)
Definition triple_work (s : side) (subjects : bool) : work :=
  WThen (any (sp_files s)) (WThen (any (spo_files s)) (if subjects then any (subjects_files s) else WNone)).
(** builder.rs:533-554 [build_indexes], 367-502: the objects come before the adjacency list *)
Definition index_work (s : side) (objects : bool) : work :=
  WBoth (WThen (if objects then any (objects_files s) else WNone) (any (ops_files s))) (any (wavelet_files s)).
(** id_map.rs:163-181 *)
Definition idmap_work (l : layer) : work :=
  WBoth (if l_nvmap l then any nvmap_files else WNone) (if l_pmap l then any pmap_files else WNone).
(** base.rs:282-397: committing a base layer, and squashing (layer.rs:1942-1962) *)
Definition base_work : work := WThen dict_work (WThen (triple_work OfBase false) (index_work OfBase false)).
(** child.rs:337-376, 532-557; the parent comes first (layer.rs:730-733) *)
Definition child_files_work : work :=
  WThen dict_work (WThen (WBoth (triple_work OfPos true) (triple_work OfNeg true)) (WBoth (index_work OfPos true) (index_work OfNeg true))).
Definition child_work : work := WThen (WFile parent_name) child_files_work.
(** layer.rs:2114-2185 [squash_upto]: the parent comes last *)
Definition squash_upto_work : work := WThen child_files_work (WFile parent_name).
(** delta.rs:263-299 [delta_rollup] *)
Definition rollup_work (l : layer) : work :=
  WThen dict_work (WThen (idmap_work l) (WThen (triple_work OfBase false) (index_work OfBase false))).
(** delta.rs:301-365 [imprecise_delta_rollup_upto] and 367-434 [delta_rollup_upto] *)
Definition rollup_upto_work (l : layer) : work :=
  WThen (WFile parent_name) (WThen dict_work (WThen (idmap_work l)
    (WThen (triple_work OfPos true) (WThen (triple_work OfNeg true) (WThen (index_work OfPos true) (index_work OfNeg true)))))).
(** base_merge.rs:290 [merge_base_layers]; copy.rs:27-53: files that are not there are not copied *)
Definition merge_work : work :=
  WThen (any node_files) (WThen (any predicate_files) (WThen (any value_files)
    (WThen (any (sp_files OfBase)) (WThen (any (spo_files OfBase)) (WThen (any (ops_files OfBase)) (any (wavelet_files OfBase))))))).
(** pack.rs:185-240 [tar_append_layer], 84-125: importing writes the files in the order of the pack; [l] has no
    rollup file *)
Definition import_files (l : layer) : list text :=
  shared_required_files ++ (if l_nvmap l then nvmap_files else []) ++ (if l_pmap l then pmap_files else []) ++
  (if l_neg l then child_layer_required_files ++ child_layer_optional_files
   else base_layer_required_files ++ (if tf_subjects (l_pos l) then subjects_files OfBase else []) ++
     (if tf_objects (l_pos l) then objects_files OfBase else [])).
Definition import_work (l : layer) : work := in_order (import_files l).
(** which calls write which layers *)
Inductive writes (l : layer) : work → Prop :=
  | writes_base : l_neg l = None → l_nvmap l = None → l_pmap l = None → writes l base_work
  | writes_merge : l_neg l = None → l_nvmap l = None → l_pmap l = None → writes l merge_work
  | writes_rollup : l_neg l = None → writes l (rollup_work l)
  | writes_child : is_Some (l_neg l) → l_nvmap l = None → l_pmap l = None → writes l child_work
  | writes_squash_upto : is_Some (l_neg l) → l_nvmap l = None → l_pmap l = None → writes l squash_upto_work
  | writes_rollup_upto : is_Some (l_neg l) → writes l (rollup_upto_work l)
  | writes_import : writes l (import_work l).
(** base layers have no renumbering of subjects and objects *)
Definition dense_base (l : layer) : Prop := l_neg l = None → tf_subjects (l_pos l) = None ∧ tf_objects (l_pos l) = None.

(** ** A load at the same time *)
(** [seen f] is what the load saw when it looked for the file [f]: it looks at one file after another while the files
    are being written. *)
Definition load_order (child : bool) : list text :=
  parent_name :: dict_files ++ nvmap_files ++ pmap_files ++
  (if child then subjects_files OfPos ++ subjects_files OfNeg ++ objects_files OfPos ++ objects_files OfNeg ++
     sp_files OfPos ++ spo_files OfPos ++ ops_files OfPos ++ sp_files OfNeg ++ spo_files OfNeg ++ ops_files OfNeg ++
     wavelet_files OfPos ++ wavelet_files OfNeg
   else subjects_files OfBase ++ objects_files OfBase ++ sp_files OfBase ++ spo_files OfBase ++ ops_files OfBase ++
     wavelet_files OfBase).
(** [at_time i] is the directory when the [i]-th file of [order] is looked for *)
Definition seen_during (order : list text) (w : work) (seen : dir) : Prop :=
  ∃ at_time : nat → dir, (∀ i, looks w (at_time i)) ∧ (∀ i j f, i ≤ j → at_time i f = Whole → at_time j f = Whole) ∧
    (∀ i f, order !! i = Some f → seen f = at_time i f) ∧ (∀ f, f ∉ order → seen f = Absent).
