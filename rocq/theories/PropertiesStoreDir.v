(** C52: the labels and the layers of a store that is kept in one directory do not disturb each
    other.  What a label store is to its users is [map_call] in [SpecLabelPath], what a layer store
    is to them is [ideal_step] in [SpecBackend]. *)
From Verif Require Import Prelude Names NamesFacts FileNames LabelSeq LabelSpec LabelPath SpecLabelPath LabelPathFacts PropertiesLabelPath
  Archive ArchiveStore Pack SpecPack PackRun Backend SpecBackend BackendFacts StoreDir SpecStoreDir StoreDirFacts.
From Verif Require PropertiesBackend.

(** ** C52. *)
(** The calls of both stores, in any order, on a directory that may be full of other things: the
    label calls have the answers of a map from names to labels that knows of no layers, and the
    layer calls those of layers that know of no labels. *)
Theorem C52_apart (root : list bytes) (over : bytes → bytes → bytes) (cs : list (lcall + bcall)) (fs : fsys) : trusted (BDirectory over) →
  no_labels root fs → no_layer_dirs root fs →
  Forall plain_call (lefts cs) → Forall call_ok (lefts cs) → Forall plain_bcall (rights cs) → properly ∅ (rights cs) →
  Forall2 same_answer (lefts (store_run root over fs cs).1) (run map_call ∅ (lefts cs)).1 ∧
  rights (store_run root over fs cs).1 = (ideal_run ∅ (rights cs)).1.
Proof. exact (store_ideal root over cs fs). Qed.
Print Assumptions C52_apart.
(** Also calls that are not proper have the answers of a directory store of its own. *)
Theorem C52_apart_any (root : list bytes) (over : bytes → bytes → bytes) (cs : list (lcall + bcall)) (fs : fsys) :
  no_labels root fs → no_layer_dirs root fs →
  Forall plain_call (lefts cs) → Forall call_ok (lefts cs) → Forall plain_bcall (rights cs) →
  Forall2 same_answer (lefts (store_run root over fs cs).1) (run map_call ∅ (lefts cs)).1 ∧
  rights (store_run root over fs cs).1 = (brun (BDirectory over) ∅ (rights cs)).1.
Proof. exact (store_apart root over cs fs). Qed.
Print Assumptions C52_apart_any.
(** Layers are safe from labels of any name, also from those with slashes (C49). *)
Theorem C52_layers_safe (root : list bytes) (over : bytes → bytes → bytes) (cs : list (lcall + bcall)) (fs : fsys) : trusted (BDirectory over) →
  no_layer_dirs root fs → Forall plain_bcall (rights cs) → properly ∅ (rights cs) →
  rights (store_run root over fs cs).1 = (ideal_run ∅ (rights cs)).1.
Proof. exact (layers_safe root over cs fs). Qed.
Print Assumptions C52_layers_safe.
(** No other file is touched, and no directory goes away. *)
Theorem C52_only_own_files (root : list bytes) (over : bytes → bytes → bytes) (cs : list (lcall + bcall)) (p : list bytes) :
  (∀ n : bytes, plain_name n → p ≠ own_file root n) → (∀ n ps, name_ok n → p ≠ layer_dir root n ++ ps) →
  Forall plain_call (lefts cs) → Forall plain_bcall (rights cs) → ∀ fs,
  fs_files (store_run root over fs cs).2 !! p = fs_files fs !! p ∧ fs_dirs fs ⊆ fs_dirs (store_run root over fs cs).2.
Proof. exact (λ H1 H2, store_frame root over cs p H1 (λ '(ex_intro _ n (ex_intro _ ps (conj Hn E))), H2 n ps Hn E)). Qed.
Print Assumptions C52_only_own_files.
(** Archives and the notes of their rollups are next to each other in such a directory: every layer
    has its own two files, which no other layer and no label touches. *)
Theorem C52_archives (root : list bytes) (cs : list (lcall + afcall)) (fs : fsys) : no_labels root fs → no_archives root fs →
  Forall plain_call (lefts cs) → Forall call_ok (lefts cs) → Forall plain_afcall (rights cs) →
  Forall2 same_answer (lefts (archive_store_run root fs cs).1) (run map_call ∅ (lefts cs)).1 ∧
  rights (archive_store_run root fs cs).1 = (archive_map_run (ArchiveFiles ∅ ∅) (rights cs)).1.
Proof. exact (archive_apart root cs fs). Qed.
Print Assumptions C52_archives.
Theorem C52_archives_safe (root : list bytes) (cs : list (lcall + afcall)) (fs : fsys) : no_archives root fs → Forall plain_afcall (rights cs) →
  rights (archive_store_run root fs cs).1 = (archive_map_run (ArchiveFiles ∅ ∅) (rights cs)).1.
Proof. exact (λ H, archives_safe root cs fs _ (arch_rel_new root fs H)). Qed.
Print Assumptions C52_archives_safe.

(** The example has the directory of C49, in which there is a directory "0ab" already; the layer
    [name_a] is in another one. *)
Lemma px_no_layers : no_layer_dirs px_root px_fs.
Proof.
  intros n Hn. pose proof (prefix_len n Hn) as H3. pose proof (name_to_string_len n Hn) as H40. split.
  - unfold px_root, px_fs. cbn [fs_files app]. rewrite lookup_insert_ne; [rewrite lookup_singleton_ne; [done|discriminate]|].
    intros H. injection H as H. rewrite <- H in H3. discriminate H3.
  - intros ps. unfold layer_dir, px_root, px_fs. cbn [fs_files fs_dirs app]. split.
    + rewrite !elem_of_union, !elem_of_singleton. intros [[H|H]|H]; [discriminate H|discriminate H|]. discriminate H.
    + rewrite lookup_insert_ne; [rewrite lookup_singleton_ne; [done|]|].
      * intros H. apply (f_equal length) in H. discriminate H.
      * intros H. apply (f_equal length) in H. discriminate H.
Qed.
Definition sx_calls : list (lcall + bcall) :=
  let x := Label [120] None 0 in let f := PropertiesBackend.bx_nodes in
  [inl (CCreate [120]); inr (BDir name_a); inr (BCreate name_a); inl CLabels; inr (BWrite name_a f [1; 2]);
   inl (CSet x (Some name_a)); inr (BFinalize name_a); inl (CGet [120]); inr (BMap name_a f); inl (CDelete [120]);
   inr (BCreate name_b); inr (BWrite name_b parent_file (parent_contents name_a)); inr (BFinalize name_b);
   inr (BExists name_a f); inr (BParentOf name_b); inr (BMap name_b f); inl (CGet [120])].
Example C52_example : no_labels px_root px_fs ∧ no_layer_dirs px_root px_fs ∧
  Forall plain_call (lefts sx_calls) ∧ Forall call_ok (lefts sx_calls) ∧ Forall plain_bcall (rights sx_calls) ∧ properly ∅ (rights sx_calls) ∧
  (store_run px_root (λ _ b, b) px_fs sx_calls).1 =
    [inl (RCreate (Ok (Label [120] None 0))); inr (ABool (Ok false)); inr (ADone (Ok tt)); inl (RLabels (Ok [Label [120] None 0]));
     inr (ADone (Ok tt)); inl (RSet (Ok (Some (Label [120] (Some name_a) 1)))); inr (ADone (Ok tt)); inl (RGet (Ok (Some (Label [120] (Some name_a) 1))));
     inr (ABytes (Ok [1; 2])); inl (RDelete (Ok true)); inr (ADone (Ok tt)); inr (ADone (Ok tt)); inr (ADone (Ok tt));
     inr (ABool (Ok true)); inr (AName (Ok (Some name_a))); inr (ABytes (Err NotFound)); inl (RGet (Ok None))].
Proof.
  split; [apply px_fresh|]. split; [apply px_no_layers|].
  assert (plain_name [120]) as Hx by (split; [discriminate|split; [set_solver|split; [set_solver|cbn; lia]]]).
  assert (name_ok name_a ∧ name_ok name_b) as [Ha Hb] by (split; (split; [reflexivity|repeat constructor; vm_compute; discriminate])).
  assert (0 ≤ u64_max)%N as Hv by (vm_compute; discriminate).
  assert (plain_file PropertiesBackend.bx_nodes) as Hf.
  { split; [intros E; vm_compute in E; discriminate E|]. split; [intros E; vm_compute in E; discriminate E|].
    split; [intros E; vm_compute in E; discriminate E|]. split; [|split; [|split]].
    - apply (bool_decide_unpack (47 ∉ PropertiesBackend.bx_nodes)). vm_compute. exact I.
    - apply (bool_decide_unpack (0 ∉ PropertiesBackend.bx_nodes)). vm_compute. exact I.
    - vm_compute. lia.
    - intros E. vm_compute in E. discriminate E. }
  assert (plain_file parent_file) as Hp.
  { split; [intros E; vm_compute in E; discriminate E|]. split; [intros E; vm_compute in E; discriminate E|].
    split; [intros E; vm_compute in E; discriminate E|]. split; [|split; [|split]].
    - apply (bool_decide_unpack (47 ∉ parent_file)). vm_compute. exact I.
    - apply (bool_decide_unpack (0 ∉ parent_file)). vm_compute. exact I.
    - vm_compute. lia.
    - exact parent_no_label. }
  split; [|split; [|split; [|split]]].
  - unfold sx_calls, lefts. cbn [omap list_omap]. repeat (apply Forall_cons; split; [first [exact Hx|exact I]|]). constructor.
  - unfold sx_calls, lefts. cbn [omap list_omap]. repeat (apply Forall_cons; split; [first [exact I|exact (conj (conj Hv I) Ha)]|]). constructor.
  - unfold sx_calls, rights. cbn [omap list_omap]. repeat (apply Forall_cons; split; [first [exact Ha|exact Hb|exact (conj Ha Hf)|exact (conj Hb Hf)|exact (conj Hb Hp)]|]). constructor.
  - apply properlyb_ok. vm_compute. reflexivity.
  - vm_compute. reflexivity.
Qed.
Lemma px_no_archives : no_archives px_root px_fs.
Proof.
  intros n Hn. pose proof (prefix_len n Hn) as H3. split.
  { unfold px_root, px_fs. cbn [fs_files app]. rewrite lookup_insert_ne; [rewrite lookup_singleton_ne; [done|discriminate]|].
    intros H. injection H as H. rewrite <- H in H3. discriminate H3. }
  assert (∀ a b : bytes, [[100]; a; b] ∉ fs_dirs px_fs ∧ fs_files px_fs !! [[100]; a; b] = None) as H.
  { intros a b. unfold px_fs. cbn [fs_files fs_dirs]. split.
    - rewrite !elem_of_union, !elem_of_singleton. intros [[H|H]|H]; discriminate H.
    - rewrite lookup_insert_ne; [rewrite lookup_singleton_ne; [done|discriminate]|discriminate]. }
  split; [apply H|]. split; [apply H|]. split; apply H.
Qed.
Example C52_archives_example : no_archives px_root px_fs ∧
  (archive_store_run px_root px_fs [inr (AfNote name_a [1]); inr (AfWrite name_a 0 [1; 2]); inl (CCreate [120]); inr (AfWrite name_a 2 [3]);
     inr (AfNote name_a [7]); inr (AfWrite name_b 0 [9]); inr (AfLayer name_a); inr (AfRollup name_a); inr (AfRollup name_b); inl CLabels]).1 =
    [inr (AfDone (Err NotFound)); inr (AfDone (Ok tt)); inl (RCreate (Ok (Label [120] None 0))); inr (AfDone (Ok tt));
     inr (AfDone (Ok tt)); inr (AfDone (Ok tt)); inr (AfBytes (Ok [1; 2; 3])); inr (AfBytes (Ok [7])); inr (AfBytes (Err NotFound));
     inl (RLabels (Ok [Label [120] None 0]))].
Proof. split; [apply px_no_archives|]. vm_compute. reflexivity. Qed.
