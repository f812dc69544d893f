(** C59: the arrays of a layer hold numbers of a fixed width, and the object index is sorted in chunks.
    Widths.v has the writers with both. *)
From Verif Require Import Prelude Succinct TripleFiles Merge Layer Builder Rollup Squash MergeBase Spec ReachFacts
  Widths SpecWidths WidthsFacts PropertiesLayer PropertiesRollup PropertiesSquash.

(** ** C59.  [width] is any choice of widths in which every number up to the given one fits, [limit] is any size of chunk.
    Whatever layer a writer is to write, no number is refused and the layer is the same as with unbounded numbers and one
    sort. *)
Theorem C59_commit width limit nvord prord st cs st' : enough width → reachable st → Forall (op_ok st) cs →
  hash_order nvord → hash_order prord → build nvord prord st cs = Some st' →
  build_w width limit nvord prord st cs = Some st'.
Proof. exact (commit_any_width width limit nvord prord st cs st'). Qed.
Print Assumptions C59_commit.
Theorem C59_rollup width limit st l : enough width → reachable st → rollup st = Some l → rollup_w width limit st = Some l.
Proof. exact (rollup_any_width width limit st l). Qed.
Print Assumptions C59_rollup.
(** [below] are the ancestors as they are loaded, perhaps rolled up themselves *)
Theorem C59_imprecise width limit mem st below l : enough width → reachable (mem ++ st) → same_answers below st →
  imprecise_rollup_upto mem = Some l → imprecise_rollup_upto_w width limit mem below = Some l.
Proof. exact (imprecise_any_width width limit mem st below l). Qed.
Print Assumptions C59_imprecise.
(** for loaded layers that are not partial rollups themselves, as in C15 *)
Theorem C59_rollup_upto width limit mem disk st below l : enough width → reachable (mem ++ disk ++ st) →
  Forall (λ k, l_nvmap k = l_pmap k) mem → same_answers below (disk ++ st) →
  rollup_upto mem disk = Some l → rollup_upto_w width limit mem disk below = Some l.
Proof. exact (rollup_upto_any_width width limit mem disk st below l). Qed.
Print Assumptions C59_rollup_upto.
Theorem C59_squash width limit st l : enough width → reachable st → st ≠ [] → squash st = Some l → squash_w width limit st = Some l.
Proof. exact (squash_any_width width limit st l). Qed.
Print Assumptions C59_squash.
Theorem C59_squash_upto width limit top st l : enough width → reachable (top ++ st) → st ≠ [] →
  squash_upto top st = Some l → squash_upto_w width limit top st = Some l.
Proof. exact (squash_upto_any_width width limit top st l). Qed.
Print Assumptions C59_squash_upto.
Theorem C59_merge width limit ls l : enough width → (∀ k, k ∈ ls → based k) →
  merge_base_layers ls = Some l → merge_base_layers_w width limit ls = Some l.
Proof. exact (merge_any_width width limit ls l). Qed.
Print Assumptions C59_merge.

(** [bits] are the bits a number has.  The layers of the examples before come out, in chunks of two; with a bit less, or with
    an id map that is read with another width than it was written with, they do not. *)
Definition bits (n : nat) : nat := S (Nat.log2 n).
Example C59_enough : enough bits.
Proof.
  intros n m H. unfold bits. destruct n as [|n]; [assert (2 ^ S (Nat.log2 m) ≠ 0) by (by apply Nat.pow_nonzero); lia|].
  destruct (Nat.log2_spec m) as [_ Hm]; [lia|]. lia.
Qed.
Example C59_example :
  build_w bits 2 (@rev _) id ex_child ex_ops3 = Some ex_top ∧
  rollup_w bits 2 roll_st = head roll_all ∧ imprecise_rollup_upto_w bits 2 (take 2 ex_top) (drop 2 ex_top) = imprecise_rollup_upto (take 2 ex_top) ∧
  rollup_upto_w bits 2 (take 1 ex_top) (take 1 (drop 1 ex_top)) (drop 1 ex_top) = rollup_upto (take 1 ex_top) (take 1 (drop 1 ex_top)) ∧
  squash_w bits 2 ex_top = head sq_st ∧ squash_upto_w bits 2 (take 2 ex_top) (drop 2 ex_top) = head sq_upto_st ∧
  merge_base_layers_w bits 2 (ex_base ++ sq_st ++ roll_base) = merge_base_layers (ex_base ++ sq_st ++ roll_base).
Proof. split_and!; vm_compute; reflexivity. Qed.
Example C59_refused :
  build_w (λ n, bits n - 1) 2 (@rev _) id ex_child ex_ops3 = None ∧ rollup_w (λ n, bits n - 1) 2 roll_st = None ∧
  build_tfiles_w bits 2 (2, 1, 0) true [mkt 1 2 3] = None ∧ build_tfiles_w bits 2 (2, 1, 1) true [mkt 1 1 4] = None ∧
  idmap_w bits 6 3 [0; 3; 4; 1; 5; 2] = None ∧ idmap_w bits 6 6 [0; 3; 4; 1; 5; 2] = Some [0; 3; 4; 1; 5; 2].
Proof. split_and!; vm_compute; reflexivity. Qed.
(** the pairs of five triples, gathered two by two *)
Example C59_chunks : gather bits 2 3 0 [] [] 0 [(1, 3); (2, 1); (3, 2); (3, 3); (4, 1)] =
  Some ([[(1, 2); (3, 1)]; [(2, 3); (3, 3)]], [(1, 4)], 4).
Proof. vm_compute. reflexivity. Qed.
