(** C48: layer stores are interchangeable.  What a layer store is to its users is [ideal_step] in
    [SpecBackend]; how the rest of the code uses it is [proper]. *)
From Verif Require Import Prelude Names NamesFacts FileNames Archive ArchiveStore ArchiveRun Pack SpecPack PackRun Backend SpecBackend BackendFacts.
From Coq Require String.
Import String.StringSyntax.
Local Open Scope string_scope.
Local Open Scope list_scope.

(** ** C48. *)
(** Every proper sequence of calls has the answers that the specification gives, in each store; *)
Theorem C48_ideal (k : backend) (calls : list bcall) : trusted k → properly ∅ calls →
  (brun k (backend_new k) calls).1 = (ideal_run ∅ calls).1.
Proof. exact (stores_ideal k calls). Qed.
Print Assumptions C48_ideal.
(** so that no such sequence tells two stores apart. *)
Theorem C48_interchangeable (k k' : backend) (calls : list bcall) : trusted k → trusted k' → properly ∅ calls →
  (brun k (backend_new k) calls).1 = (brun k' (backend_new k') calls).1.
Proof. exact (stores_agree k k' calls). Qed.
Print Assumptions C48_interchangeable.
(** An archive store that is opened again has the layers that were finalized, and no others. *)
Theorem C48_archive_reopened (c : codec) (calls calls' : list bcall) : codec_ok c → properly ∅ calls →
  let i := filter (λ p, sl_done p.2 = true) (ideal_run ∅ calls).2 in
  properly i calls' → (brun (BArchive c) (restart (brun (BArchive c) astore_new calls).2) calls').1 = (ideal_run i calls').1.
Proof. exact (archive_reopened c calls calls'). Qed.
Print Assumptions C48_archive_reopened.

(** Two layers are made, next to each other; the second is a child of the first and gets a rollup,
    twice.  A third one is not finished. *)
Definition bx_nodes : bytes := text_bytes "node_dictionary_blocks.tfc".
Definition bx_pos : bytes := text_bytes "child_pos_subjects.logarray".
Definition bx_base : bytes := text_bytes "base_subjects.logarray".
Definition bx_calls : list bcall :=
  [BDir name_a; BCreate name_a; BCreate name_b; BWrite name_a bx_nodes [1; 2; 3]; BExists name_b bx_pos; BMap name_b bx_pos;
   BWrite name_b parent_file (parent_contents name_a); BWrite name_b bx_pos [4]; BMap name_b bx_pos;
   BWrite name_a bx_base []; BFinalize name_a; BFinalize name_b; BRollup name_b name_a; BRollupOf name_b; BRollup name_b name_c;
   BCreate name_c; BDir name_c; BExists name_a bx_base; BMap name_a bx_nodes; BSize name_b bx_pos; BParentOf name_a; BParentOf name_b;
   BRollupOf name_b; BRollupOf name_a; BExists name_b rollup_file; BMap name_a bx_base].
Example C48_example : properly ∅ bx_calls ∧ codec_ok plain_codec ∧
  (brun (BArchive plain_codec) astore_new bx_calls).1 =
    [ABool (Ok false); ADone (Ok tt); ADone (Ok tt); ADone (Ok tt); ABool (Ok false); ABytes (Err NotFound);
     ADone (Ok tt); ADone (Ok tt); ABytes (Ok [4]);
     ADone (Ok tt); ADone (Ok tt); ADone (Ok tt); ADone (Ok tt); AName (Ok (Some name_a)); ADone (Ok tt);
     ADone (Ok tt); ABool (Ok true); ABool (Ok true); ABytes (Ok [1; 2; 3]); ASize (Ok 1); AName (Ok None); AName (Ok (Some name_a));
     AName (Ok (Some name_c)); AName (Ok None); ABool (Ok true); ABytes (Ok [])].
Proof.
  split; [apply properlyb_ok; vm_compute; reflexivity|]. split; [exact plain_codec_ok|]. vm_compute. reflexivity.
Qed.
Example C48_reopened_example :
  let again := [BDir name_a; BDir name_c; BParentOf name_b; BCreate name_c; BWrite name_c bx_nodes [7]; BFinalize name_c; BMap name_c bx_nodes] in
  properly (filter (λ p, sl_done p.2 = true) (ideal_run ∅ bx_calls).2) again ∧
  (brun (BArchive plain_codec) (restart (brun (BArchive plain_codec) astore_new bx_calls).2) again).1 =
    [ABool (Ok true); ABool (Ok false); AName (Ok (Some name_a)); ADone (Ok tt); ADone (Ok tt); ADone (Ok tt); ABytes (Ok [7])].
Proof. intros again. split; [apply properlyb_ok; vm_compute; reflexivity|]. vm_compute. reflexivity. Qed.

(** Calls that are not proper do tell the stores apart: asking for the parent of a layer that is not
    finalized, and asking a child layer for a file that only base layers have, which in an archive
    has the same number as a file of child layers. *)
Theorem C48_open_parent_refuted : ∃ (c : codec) calls, codec_ok c ∧ properly ∅ calls ∧
  (brun BMemory ∅ (calls ++ [BParentOf name_b])).1 ≠ (brun (BArchive c) astore_new (calls ++ [BParentOf name_b])).1.
Proof.
  exists plain_codec, [BCreate name_b; BWrite name_b parent_file (parent_contents name_a)].
  split; [exact plain_codec_ok|]. split; [apply properlyb_ok; vm_compute; reflexivity|].
  intros E. vm_compute in E. discriminate E.
Qed.
Print Assumptions C48_open_parent_refuted.
Theorem C48_other_kind_refuted : ∃ (c : codec) calls, codec_ok c ∧ properly ∅ calls ∧
  (brun BMemory ∅ (calls ++ [BMap name_b bx_base])).1 ≠ (brun (BArchive c) astore_new (calls ++ [BMap name_b bx_base])).1.
Proof.
  exists plain_codec, [BCreate name_b; BWrite name_b parent_file (parent_contents name_a); BWrite name_b bx_pos [4]; BFinalize name_b].
  split; [exact plain_codec_ok|]. split; [apply properlyb_ok; vm_compute; reflexivity|].
  intros E. vm_compute in E. discriminate E.
Qed.
Print Assumptions C48_other_kind_refuted.
