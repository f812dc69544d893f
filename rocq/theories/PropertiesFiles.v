(** C12 and C42: what is written into the triple files of a layer is what is read from them. *)
From Verif Require Import Prelude Succinct TripleFiles TripleBuildFacts FilesApi.

(** ** C12.  [sparse] is the numbering of child layers, otherwise subjects are numbered
    densely as in base layers. *)
Theorem C12_files_decode sparse T : SSorted T → (∀ t, t ∈ T → 1 ≤ t_s t ∧ 1 ≤ t_p t ∧ 1 ≤ t_o t) →
  ∃ tf, build_tfiles sparse T = Some tf ∧
    tf_triples tf = Some T ∧
    tf_count tf = Some (length T) ∧
    (∀ t, ∃ b, layer_triple_exists tf t = Some b ∧ (b = true ↔ t ∈ T)) ∧
    (∀ s, tf_triples_s tf s = Some (filter (λ t, t_s t = s) T)) ∧
    (∀ s p, tf_triples_sp tf s p = Some (filter (λ t, t_s t = s ∧ t_p t = p) T)) ∧
    (∀ p, 1 ≤ p → tf_triples_p tf p = Some (filter (λ t, t_p t = p) T)) ∧
    (∀ o, tf_triples_o tf o = Some (filter (λ t, t_o t = o) T)).
Proof. exact (files_decode sparse T). Qed.
Print Assumptions C12_files_decode.
Definition ex_T : list triple := [mkt 2 1 3; mkt 2 1 5; mkt 2 4 1; mkt 5 2 2; mkt 5 3 9].
Example C12_example : SSorted ex_T ∧ (∀ t, t ∈ ex_T → 1 ≤ t_s t ∧ 1 ≤ t_p t ∧ 1 ≤ t_o t) ∧
  (build_tfiles true ex_T ≫= tf_triples) = Some ex_T ∧
  (build_tfiles false ex_T ≫= λ tf, tf_triples_o tf 5) = Some [mkt 2 1 5] ∧
  build_tfiles true ex_T ≠ build_tfiles false ex_T.
Proof.
  split_and!; [|apply Forall_forall; repeat constructor|by vm_compute|by vm_compute|by vm_compute].
  by apply ascending_ok; vm_compute.
Qed.

(** ** C42.  The stream that reads the files from disk. *)
Theorem C42_stream_equals_loaded sparse T : SSorted T → (∀ t, t ∈ T → 1 ≤ t_s t ∧ 1 ≤ t_p t ∧ 1 ≤ t_o t) →
  ∃ tf, build_tfiles sparse T = Some tf ∧ tf_stream tf = Some T ∧ tf_triples tf = Some T.
Proof. exact (files_stream sparse T). Qed.
Print Assumptions C42_stream_equals_loaded.
Example C42_example : (build_tfiles true ex_T ≫= tf_stream) = Some ex_T ∧ (build_tfiles false ex_T ≫= tf_stream) = Some ex_T.
Proof. by vm_compute. Qed.

(** ** Limits of C12.  [internal_triple_additions_o] and [internal_triple_removals_o] do not
    compare the object they find with the one asked for.  They agree with the enumeration when
    the object occurs, but otherwise a child layer answers with the triples of the next larger
    object. *)
Theorem C12_delta_by_object_partial sparse T o :
  SSorted T → (∀ t, t ∈ T → 1 ≤ t_s t ∧ 1 ≤ t_p t ∧ 1 ≤ t_o t) → (∃ t, t ∈ T ∧ t_o t = o) →
  ∃ tf, build_tfiles sparse T = Some tf ∧ tf_triples_o_internal tf o = Some (filter (λ t, t_o t = o) T).
Proof. exact (λ HT Hn, files_internal_o sparse T HT Hn o). Qed.
Print Assumptions C12_delta_by_object_partial.
Theorem C12_delta_by_object_refuted : ∃ T R, SSorted T ∧ (∀ t, t ∈ T → 1 ≤ t_s t ∧ 1 ≤ t_p t ∧ 1 ≤ t_o t) ∧
  (build_tfiles true T ≫= λ tf, tf_triples_o_internal tf 4) = Some R ∧ ∃ t, t ∈ R ∧ t_o t ≠ 4.
Proof.
  exists ex_T, [mkt 2 1 5].
  split_and!; [apply C12_example|apply C12_example|by vm_compute|].
  exists (mkt 2 1 5). split; [left|done].
Qed.
Print Assumptions C12_delta_by_object_refuted.
