(** C47: a layer that loads is complete.  [made], [looks], [finished] and [seen_during] are defined in SpecWriting.v
    and LayerFiles.v. *)
From Verif Require Import Prelude Succinct TripleFiles Merge Layer Builder Rollup Squash MergeBase Spec Names FileNames
  Archive ArchiveStore Pack SpecPack LayerFiles SpecWriting LayerFilesFacts LayerFilesMade PropertiesLayer PropertiesRollup.
From Coq Require String.

(** ** C47.  Whenever the writing of a layer stops, or is looked at in between: loading the layer fails, or gives the
    layer as it was to be written. *)
Theorem C47_whole_or_nothing l w d : made l w → looks w d → load_layer d l = None ∨ load_layer d l = Some l.
Proof. exact (made_partial l w d). Qed.
Print Assumptions C47_whole_or_nothing.
(** When all files are written it loads. *)
Theorem C47_finished_loads l w d : made l w → finished w d → load_layer d l = Some l.
Proof. exact (made_finished l w d). Qed.
Print Assumptions C47_finished_loads.
(** Also when it is read file by file, in any order, while the files are being written, if the layer is not a rollup; *)
Theorem C47_racing_partial l w order seen : made l w → l_nvmap l = None → l_pmap l = None → seen_during order w seen →
  load_layer seen l = None ∨ load_layer seen l = Some l.
Proof. exact (made_seen l w order seen). Qed.
Print Assumptions C47_racing_partial.
(** but not if it is a rollup: what is loaded may have other triples than the layer. *)
Definition race_layer : layer := default (Layer [] [] [] None None (TF None None (Adj [] []) (Adj [] []) (Adj [] []) []) None) (rollup roll_st).
Theorem C47_racing_refuted : ∃ l w seen, made l w ∧ seen_during (load_order false) w seen ∧
  ∃ l', load_layer seen l = Some l' ∧ shown [l'] ≠ shown [l].
Proof.
  exists race_layer, (rollup_work race_layer), (between_seen race_layer). split; [|split].
  - apply made_rollup with roll_st. vm_compute. reflexivity.
  - apply between_during. vm_compute. reflexivity.
  - eexists. split; [vm_compute; reflexivity|]. intros E. vm_compute in E. discriminate E.
Qed.
Print Assumptions C47_racing_refuted.
(** Loading a layer looks at no other files than those that are exported. *)
Theorem C47_loads_exported child f : f ∈ file_names (load_order child) → f ∈ parent_file :: may_have child.
Proof. exact (load_order_exported child f). Qed.
Print Assumptions C47_loads_exported.
(** It looks at each of those once. *)
Theorem C47_loads_all child : NoDup (file_names (load_order child)) ∧
  ∀ f, f ∈ file_names (load_order child) ↔ f ∈ parent_file :: may_have child.
Proof. exact (load_order_all child). Qed.
Print Assumptions C47_loads_all.
(** The dictionaries and the renumberings have the same names in base layers and child layers. *)
Theorem C47_shared_names : range child_filenames 0 14 = range base_filenames 0 14.
Proof. exact shared_names. Qed.
Print Assumptions C47_shared_names.
(** No file of a layer is written twice. *)
Theorem C47_written_once l w : made l w → NoDup (file_names (work_files w)).
Proof. exact (made_once l w). Qed.
Print Assumptions C47_written_once.
(** A base layer and a child of it; when the dictionaries of the child are written it does not load. *)
Definition race_base : layer := default race_layer (head roll_base).
Definition race_child : layer := default race_layer (head roll_st).
Example C47_example : made race_base base_work ∧ made race_child child_work ∧ made race_child (import_work race_child) ∧
  looks child_work (full (WThen (WFile parent_name) dict_work)) ∧
  load_layer (full (WThen (WFile parent_name) dict_work)) race_child = None ∧
  finished child_work (full child_work) ∧
  looks child_work (full child_work) ∧ load_layer (full child_work) race_child = Some race_child.
Proof.
  assert (made race_base base_work) as H1 by (apply (made_commit id id [] roll_ops1 race_base []); vm_compute; reflexivity).
  assert (made race_child child_work) as H2 by (apply (made_commit id id roll_base roll_ops2 race_child roll_base); vm_compute; reflexivity).
  assert (finished child_work (full child_work)) as H3 by apply full_finished.
  split; [exact H1|]. split; [exact H2|]. split; [by apply (made_import _ child_work)|]. split; [apply stage_then_looks|].
  split; [vm_compute; reflexivity|]. split; [exact H3|]. split; [by apply finished_looks|]. by apply (made_finished _ child_work).
Qed.
