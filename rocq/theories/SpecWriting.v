(** Vocabulary for stating what can be read of a layer while its files are being written.  Definitions only. *)
From Verif Require Import Prelude Succinct TripleFiles Merge Layer Builder Rollup Squash MergeBase LayerFiles.

(** The layers that are written, and in what order their files are: by committing, rolling up, squashing, merging,
    and importing what was written so. *)
Inductive made : layer → work → Prop :=
  | made_commit nvord prord st cs l st' : build nvord prord st cs = Some (l :: st') →
      made l (match st with [] => base_work | _ => child_work end)
  | made_rollup st l : rollup st = Some l → made l (rollup_work l)
  | made_rollup_upto mem disk l : rollup_upto mem disk = Some l → made l (rollup_upto_work l)
  | made_imprecise mem l : imprecise_rollup_upto mem = Some l → made l (rollup_upto_work l)
  | made_squash st l : squash st = Some l → made l base_work
  | made_squash_upto disk base l : squash_upto disk base = Some l → made l squash_upto_work
  | made_merge ls l : merge_base_layers ls = Some l → made l merge_work
  | made_import l w : made l w → made l (import_work l).
