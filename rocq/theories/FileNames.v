(** The names of the files of a layer (src/storage/consts.rs) *)
From Verif Require Import Prelude.
From Coq Require Import String.
Open Scope string_scope.

(** consts.rs:259-506 [FILENAME_ENUM_MAP]: the number in [LayerFileEnum] (consts.rs:96-159) of each
    file name *)
Definition filename_enum_map : list (string * nat) :=
  [("node_dictionary_blocks.tfc", 0);
   ("node_dictionary_offsets.logarray", 1);
   ("predicate_dictionary_blocks.tfc", 2);
   ("predicate_dictionary_offsets.logarray", 3);
   ("value_dictionary_types.logarray", 4);
   ("value_dictionary_type_offsets.logarray", 5);
   ("value_dictionary_blocks.tfc", 6);
   ("value_dictionary_offsets.logarray", 7);
   ("node_value_idmap_bits.bitarray", 8);
   ("node_value_idmap_bit_index_blocks.bitarray", 9);
   ("node_value_idmap_bit_index_sblocks.bitarray", 10);
   ("predicate_idmap_bits.bitarray", 11);
   ("predicate_idmap_bit_index_blocks.bitarray", 12);
   ("predicate_idmap_bit_index_sblocks.bitarray", 13);
   ("base_subjects.logarray", 14);
   ("base_objects.logarray", 15);
   ("child_pos_subjects.logarray", 14);
   ("child_pos_objects.logarray", 15);
   ("child_neg_subjects.logarray", 16);
   ("child_neg_objects.logarray", 17);
   ("base_s_p_adjacency_list_nums.logarray", 18);
   ("base_s_p_adjacency_list_bits.bitarray", 19);
   ("base_s_p_adjacency_list_bit_index_blocks.logarray", 20);
   ("base_s_p_adjacency_list_bit_index_sblocks.logarray", 21);
   ("base_sp_o_adjacency_list_nums.logarray", 22);
   ("base_sp_o_adjacency_list_bits.bitarray", 23);
   ("base_sp_o_adjacency_list_bit_index_blocks.logarray", 24);
   ("base_sp_o_adjacency_list_bit_index_sblocks.logarray", 25);
   ("base_o_ps_adjacency_list_nums.logarray", 26);
   ("base_o_ps_adjacency_list_bits.bitarray", 27);
   ("base_o_ps_adjacency_list_bit_index_blocks.logarray", 28);
   ("base_o_ps_adjacency_list_bit_index_sblocks.logarray", 29);
   ("base_predicate_wavelet_tree_bits.bitarray", 30);
   ("base_predicate_wavelet_tree_bit_index_blocks.logarray", 31);
   ("base_predicate_wavelet_tree_bit_index_sblocks.logarray", 32);
   ("pos_s_p_adjacency_list_nums.logarray", 18);
   ("pos_s_p_adjacency_list_bits.bitarray", 19);
   ("pos_s_p_adjacency_list_bit_index_blocks.logarray", 20);
   ("pos_s_p_adjacency_list_bit_index_sblocks.logarray", 21);
   ("pos_sp_o_adjacency_list_nums.logarray", 22);
   ("pos_sp_o_adjacency_list_bits.bitarray", 23);
   ("pos_sp_o_adjacency_list_bit_index_blocks.logarray", 24);
   ("pos_sp_o_adjacency_list_bit_index_sblocks.logarray", 25);
   ("pos_o_ps_adjacency_list_nums.logarray", 26);
   ("pos_o_ps_adjacency_list_bits.bitarray", 27);
   ("pos_o_ps_adjacency_list_bit_index_blocks.logarray", 28);
   ("pos_o_ps_adjacency_list_bit_index_sblocks.logarray", 29);
   ("pos_predicate_wavelet_tree_bits.bitarray", 30);
   ("pos_predicate_wavelet_tree_bit_index_blocks.logarray", 31);
   ("pos_predicate_wavelet_tree_bit_index_sblocks.logarray", 32);
   ("neg_s_p_adjacency_list_nums.logarray", 33);
   ("neg_s_p_adjacency_list_bits.bitarray", 34);
   ("neg_s_p_adjacency_list_bit_index_blocks.logarray", 35);
   ("neg_s_p_adjacency_list_bit_index_sblocks.logarray", 36);
   ("neg_sp_o_adjacency_list_nums.logarray", 37);
   ("neg_sp_o_adjacency_list_bits.bitarray", 38);
   ("neg_sp_o_adjacency_list_bit_index_blocks.logarray", 39);
   ("neg_sp_o_adjacency_list_bit_index_sblocks.logarray", 40);
   ("neg_o_ps_adjacency_list_nums.logarray", 41);
   ("neg_o_ps_adjacency_list_bits.bitarray", 42);
   ("neg_o_ps_adjacency_list_bit_index_blocks.logarray", 43);
   ("neg_o_ps_adjacency_list_bit_index_sblocks.logarray", 44);
   ("neg_predicate_wavelet_tree_bits.bitarray", 45);
   ("neg_predicate_wavelet_tree_bit_index_blocks.logarray", 46);
   ("neg_predicate_wavelet_tree_bit_index_sblocks.logarray", 47);
   ("parent.hex", 48);
   ("rollup.hex", 49)].
(** consts.rs:508-517 *)
Definition shared_required_files : list string :=
  ["node_dictionary_blocks.tfc";
   "node_dictionary_offsets.logarray";
   "predicate_dictionary_blocks.tfc";
   "predicate_dictionary_offsets.logarray";
   "value_dictionary_types.logarray";
   "value_dictionary_type_offsets.logarray";
   "value_dictionary_blocks.tfc";
   "value_dictionary_offsets.logarray"].
(** consts.rs:519-527 *)
Definition shared_optional_files : list string :=
  ["node_value_idmap_bits.bitarray";
   "node_value_idmap_bit_index_blocks.bitarray";
   "node_value_idmap_bit_index_sblocks.bitarray";
   "predicate_idmap_bits.bitarray";
   "predicate_idmap_bit_index_blocks.bitarray";
   "predicate_idmap_bit_index_sblocks.bitarray";
   "rollup.hex"].
(** consts.rs:529-545 *)
Definition base_layer_required_files : list string :=
  ["base_s_p_adjacency_list_nums.logarray";
   "base_s_p_adjacency_list_bits.bitarray";
   "base_s_p_adjacency_list_bit_index_blocks.logarray";
   "base_s_p_adjacency_list_bit_index_sblocks.logarray";
   "base_sp_o_adjacency_list_nums.logarray";
   "base_sp_o_adjacency_list_bits.bitarray";
   "base_sp_o_adjacency_list_bit_index_blocks.logarray";
   "base_sp_o_adjacency_list_bit_index_sblocks.logarray";
   "base_o_ps_adjacency_list_nums.logarray";
   "base_o_ps_adjacency_list_bits.bitarray";
   "base_o_ps_adjacency_list_bit_index_blocks.logarray";
   "base_o_ps_adjacency_list_bit_index_sblocks.logarray";
   "base_predicate_wavelet_tree_bits.bitarray";
   "base_predicate_wavelet_tree_bit_index_blocks.logarray";
   "base_predicate_wavelet_tree_bit_index_sblocks.logarray"].
(** consts.rs:547-548 *)
Definition base_layer_optional_files : list string :=
  ["base_subjects.logarray";
   "base_objects.logarray"].
(** consts.rs:550-582 *)
Definition child_layer_required_files : list string :=
  ["parent.hex";
   "pos_s_p_adjacency_list_nums.logarray";
   "pos_s_p_adjacency_list_bits.bitarray";
   "pos_s_p_adjacency_list_bit_index_blocks.logarray";
   "pos_s_p_adjacency_list_bit_index_sblocks.logarray";
   "pos_sp_o_adjacency_list_nums.logarray";
   "pos_sp_o_adjacency_list_bits.bitarray";
   "pos_sp_o_adjacency_list_bit_index_blocks.logarray";
   "pos_sp_o_adjacency_list_bit_index_sblocks.logarray";
   "pos_o_ps_adjacency_list_nums.logarray";
   "pos_o_ps_adjacency_list_bits.bitarray";
   "pos_o_ps_adjacency_list_bit_index_blocks.logarray";
   "pos_o_ps_adjacency_list_bit_index_sblocks.logarray";
   "pos_predicate_wavelet_tree_bits.bitarray";
   "pos_predicate_wavelet_tree_bit_index_blocks.logarray";
   "pos_predicate_wavelet_tree_bit_index_sblocks.logarray";
   "neg_s_p_adjacency_list_nums.logarray";
   "neg_s_p_adjacency_list_bits.bitarray";
   "neg_s_p_adjacency_list_bit_index_blocks.logarray";
   "neg_s_p_adjacency_list_bit_index_sblocks.logarray";
   "neg_sp_o_adjacency_list_nums.logarray";
   "neg_sp_o_adjacency_list_bits.bitarray";
   "neg_sp_o_adjacency_list_bit_index_blocks.logarray";
   "neg_sp_o_adjacency_list_bit_index_sblocks.logarray";
   "neg_o_ps_adjacency_list_nums.logarray";
   "neg_o_ps_adjacency_list_bits.bitarray";
   "neg_o_ps_adjacency_list_bit_index_blocks.logarray";
   "neg_o_ps_adjacency_list_bit_index_sblocks.logarray";
   "neg_predicate_wavelet_tree_bits.bitarray";
   "neg_predicate_wavelet_tree_bit_index_blocks.logarray";
   "neg_predicate_wavelet_tree_bit_index_sblocks.logarray"].
(** consts.rs:584-589 *)
Definition child_layer_optional_files : list string :=
  ["child_pos_subjects.logarray";
   "child_pos_objects.logarray";
   "child_neg_subjects.logarray";
   "child_neg_objects.logarray"].

(** [FILENAME_ENUM_MAP[name]]: an unknown name panics *)
Fixpoint assoc (m : list (string * nat)) (f : string) : option nat :=
  match m with
  | [] => None
  | (g, i) :: m' => if String.eqb f g then Some i else assoc m' f
  end.
Definition file_type (f : string) : option nat := assoc filename_enum_map f.
(** [LayerFileEnum::Parent], [LayerFileEnum::Rollup] *)
Definition parent_type : nat := 48.
Definition rollup_type : nat := 49.
(** [FILENAMES.parent], [FILENAMES.rollup] (consts.rs:255-256) *)
Definition parent_name : string := "parent.hex".
Definition rollup_name : string := "rollup.hex".
