(** C49: a named graph is found under its name and no other. *)
From Verif Require Import Prelude Names NamesFacts LabelSeq LabelSpec LabelPath SpecLabelPath LabelPathFacts.

(** ** C49. *)
(** With plain names the directory label store is a map from names to labels, *)
Theorem C49_names (root : list bytes) (fs : fsys) (cs : list lcall) : no_labels root fs → Forall plain_call cs → Forall call_ok cs →
  Forall2 same_answer (run (path_call root) fs cs).1 (run map_call ∅ cs).1.
Proof. exact (path_names root fs cs). Qed.
Print Assumptions C49_names.
(** and touches no other file than one for each name. *)
Theorem C49_only_own_files (root : list bytes) (cs : list lcall) (p : list bytes) : (∀ n : bytes, plain_name n → p ≠ own_file root n) →
  Forall plain_call cs → ∀ fs,
  fs_files (run (path_call root) fs cs).2 !! p = fs_files fs !! p ∧ fs_dirs (run (path_call root) fs cs).2 = fs_dirs fs.
Proof. exact (path_frame root cs p). Qed.
Print Assumptions C49_only_own_files.

(** A store in the directory "/d", with a directory "/d/0ab" in which it has layers, a file "/d/x" and
    a file "/y.label" outside. *)
Definition px_root : list bytes := [[100]].
Definition px_fs : fsys := FS {[ []; [[100]]; [[100]; [48; 97; 98]] ]} {[ [[100]; [120]] := [1]; [[121] ++ label_suffix] := [2] ]}.
Lemma px_fresh : no_labels px_root px_fs.
Proof.
  intros f Hf. split.
  - intros H. unfold px_root, px_fs in H. cbn [fs_dirs] in H. rewrite !elem_of_union, !elem_of_singleton in H.
    destruct H as [[H|H]|H]; [by destruct f|done|]. injection H as ->. vm_compute in Hf. discriminate Hf.
  - unfold px_root, px_fs. cbn [fs_files]. rewrite lookup_insert_ne; [rewrite lookup_singleton_ne; [done|discriminate]|].
    intros H. injection H as H. subst f. vm_compute in Hf. discriminate Hf.
Qed.
(** "x", ".", "x.label" and "a.b" *)
Definition px_calls : list lcall :=
  let x := Label [120] None 0 in let layer := repeat 7%N 5 in
  [CCreate [120]; CCreate [46]; CCreate ([120] ++ label_suffix); CCreate [97; 46; 98]; CSet x (Some layer); CGet [120]; CGet [46];
   CGet ([120] ++ label_suffix); CDelete [46]; CGet [46]; CCreate [97; 46; 98]; CGet [98]].
Example C49_example : no_labels px_root px_fs ∧ Forall plain_call px_calls ∧ Forall call_ok px_calls ∧
  (run (path_call px_root) px_fs px_calls).1 =
    [RCreate (Ok (Label [120] None 0)); RCreate (Ok (Label [46] None 0)); RCreate (Ok (Label ([120] ++ label_suffix) None 0));
     RCreate (Ok (Label [97; 46; 98] None 0)); RSet (Ok (Some (Label [120] (Some (repeat 7%N 5)) 1)));
     RGet (Ok (Some (Label [120] (Some (repeat 7%N 5)) 1))); RGet (Ok (Some (Label [46] None 0)));
     RGet (Ok (Some (Label ([120] ++ label_suffix) None 0))); RDelete (Ok true); RGet (Ok None); RCreate (Err InvalidInput); RGet (Ok None)].
Proof.
  split; [apply px_fresh|]. split; [|split; [|vm_compute; reflexivity]].
  - unfold px_calls. repeat (apply Forall_cons; split; [cbn [plain_call lb_name]; (split; [discriminate|split; [set_solver|split; [set_solver|cbn; lia]]])|]). constructor.
  - unfold px_calls. repeat (apply Forall_cons; split; [first [exact I | split; [split; [vm_compute; discriminate|exact I]|split; [reflexivity|repeat constructor; vm_compute; discriminate]]]|]). constructor.
Qed.

(** A name with slashes means directories in the directory of the store.  If one is not there, no call finds a label,
    and none makes one or changes anything *)
Theorem C49_missing_directory (fs : fsys) (root ps : list bytes) (p rest : bytes) : Forall plain_piece (ps ++ [p]) → dirs_there fs root ps →
  root ++ ps ++ [p] ∉ fs_dirs fs → fs_files fs !! (root ++ ps ++ [p]) = None → 0 ∉ rest →
  let name := slashed (ps ++ [p]) ++ rest in
  path_call root fs (CCreate name) = (RCreate (Err NotFound), fs) ∧ path_call root fs (CGet name) = (RGet (Ok None), fs) ∧
  path_call root fs (CDelete name) = (RDelete (Ok false), fs) ∧
  (∀ layer v, (v < u64_max)%N → path_call root fs (CSet (Label name None v) layer) = (RSet (Err NotFound), fs)).
Proof. exact (path_missing fs root ps p rest). Qed.
Print Assumptions C49_missing_directory.
(** and if all are, the label is in the last of them *)
Theorem C49_directories (fs : fsys) (root ps : list bytes) (n : bytes) : Forall plain_piece ps → ps ≠ [] → plain_name n → dirs_there fs root ps →
  root ++ ps ++ [n ++ label_suffix] ∉ fs_dirs fs →
  let f := root ++ ps ++ [n ++ label_suffix] in
  path_call root fs (CCreate (slashed ps ++ n)) =
    match fs_files fs !! f with
    | Some _ => (RCreate (Err InvalidInput), fs)
    | None => (RCreate (Ok (Label (slashed ps ++ n) None 0)), FS (fs_dirs fs) (<[f := label_contents (Label n None 0)]> (fs_files fs)))
    end ∧
  path_call root fs (CDelete (slashed ps ++ n)) = (RDelete (Ok (bool_decide (is_Some (fs_files fs !! f)))), FS (fs_dirs fs) (delete f (fs_files fs))).
Proof. exact (path_nested fs root ps n). Qed.
Print Assumptions C49_directories.
(** "0ab" is a directory, "0ac" is none *)
Example C49_directory_example : dirs_there px_fs px_root [[48; 97; 98]] ∧ Forall plain_piece [[48; 97; 98]; [48; 97; 99]] ∧ dirs_there px_fs px_root [] ∧
  (path_call px_root px_fs (CCreate [48; 97; 98; 47; 120])).1 = RCreate (Ok (Label [48; 97; 98; 47; 120] None 0)) ∧
  (path_call px_root px_fs (CCreate [48; 97; 99; 47; 120])).1 = RCreate (Err NotFound).
Proof.
  split; [|split; [|split; [|split; vm_compute; reflexivity]]].
  - intros i Hi. assert (i = 1) as -> by (cbn in Hi; lia). apply (bool_decide_eq_true_1 _). vm_compute. reflexivity.
  - repeat (apply Forall_cons; split; [split_and!; [discriminate|discriminate|discriminate|set_solver|set_solver|cbn; lia]|]). constructor.
  - intros i Hi. cbn in Hi. lia.
Qed.

(** a name that no file can have makes every call fail and change nothing; in particular no call says that there is no such graph *)
Theorem C49_impossible (fs : fsys) (root : list bytes) (name : bytes) (k : ekind) : bad_name fs root name k →
  path_call root fs (CCreate name) = (RCreate (Err k), fs) ∧ path_call root fs (CGet name) = (RGet (Err k), fs) ∧
  path_call root fs (CDelete name) = (RDelete (Err k), fs) ∧
  (∀ y layer v, (v < u64_max)%N → path_call root fs (CSet (Label name y v) layer) = (RSet (Err k), fs)).
Proof. exact (path_bad fs root name k). Qed.
Print Assumptions C49_impossible.
(** "x" is a file, so that "x/a" is impossible; so are 250 times "x", and 256 times "x" with "/a" *)
Example C49_impossible_example : bad_name px_fs px_root [120; 47; 97] OtherError ∧ bad_name px_fs px_root (replicate 250 120) OtherError ∧
  bad_name px_fs px_root (replicate 256 120 ++ [47; 97]) OtherError ∧ bad_name px_fs px_root [120; 0] InvalidInput.
Proof.
  assert (dirs_there px_fs px_root []) as H0 by (intros i Hi; cbn in Hi; lia).
  assert (∀ n (b : nat), b ≠ 120 → b ∉ replicate n 120) as Hr by (intros n b Hb [E _]%elem_of_replicate; done).
  split; [right|split; [right|split; [right|left]]].
  - split; [set_solver|]. split; [done|]. exists [], [120]. split; [constructor|]. split; [done|]. split; [set_solver|]. split; [done|].
    right. exists [97]. split; [done|]. right. split; [split_and!; [discriminate|discriminate|discriminate|set_solver|set_solver|cbn; lia]|].
    split; [apply (bool_decide_eq_false_1 _); vm_compute; reflexivity|eexists; vm_compute; reflexivity].
  - split; [by apply Hr|]. split; [done|]. exists [], (replicate 250 120). split; [constructor|]. split; [done|]. split; [by apply Hr|]. split; [done|].
    left. split; [done|]. rewrite replicate_length. lia.
  - split; [rewrite elem_of_app; intros [?|?]; [by apply (Hr 256 0)|set_solver]|]. split; [done|]. exists [], (replicate 256 120). split; [constructor|]. split; [done|].
    split; [by apply Hr|]. split; [done|]. right. exists [97]. split; [done|]. left. rewrite replicate_length. lia.
  - split; [|done]. right. left.
Qed.

(** Other names: the label of the empty name is read with the name ".label", so that it cannot be
    changed. *)
Theorem C49_empty_refuted : ∃ root fs layer, no_labels root fs ∧ layer_ok (Some layer) ∧
  (run (path_call root) fs [CCreate []; CGet []; CSet (Label [] None 0) (Some layer); CSet (Label label_suffix None 0) (Some layer)]).1 =
    [RCreate (Ok (Label [] None 0)); RGet (Ok (Some (Label label_suffix None 0))); RSet (Ok None); RSet (Err NotFound)].
Proof.
  exists px_root, px_fs, (repeat 7%N 5). split; [apply px_fresh|]. split; [split; [reflexivity|repeat constructor; vm_compute; discriminate]|].
  vm_compute. reflexivity.
Qed.
Print Assumptions C49_empty_refuted.
(** A name with slashes may be another name of the same graph: "./x" exists as soon as "x" does. *)
Theorem C49_alias_refuted : ∃ root fs x y, no_labels root fs ∧ x ≠ y ∧
  (run (path_call root) fs [CCreate x; CGet y; CDelete y; CGet x]).1 =
    [RCreate (Ok (Label x None 0)); RGet (Ok (Some (Label x None 0))); RDelete (Ok true); RGet (Ok None)].
Proof.
  exists px_root, px_fs, [120], [46; 47; 120]. split; [apply px_fresh|]. split; [discriminate|]. vm_compute. reflexivity.
Qed.
Print Assumptions C49_alias_refuted.
(** The graph that is opened under such a name may be another one: a layer directory makes it
    possible to create "0ab/x"; what is opened under this name is called "x". *)
Theorem C49_other_graph_refuted : ∃ root fs x y layer, no_labels root fs ∧ x ≠ y ∧ layer_ok (Some layer) ∧
  (run (path_call root) fs [CCreate x; CSet (Label x None 0) (Some layer); CCreate y; CGet y; CGet x]).1 =
    [RCreate (Ok (Label x None 0)); RSet (Ok (Some (Label x (Some layer) 1))); RCreate (Ok (Label y None 0));
     RGet (Ok (Some (Label x None 0))); RGet (Ok (Some (Label x (Some layer) 1)))].
Proof.
  exists px_root, px_fs, [120], [48; 97; 98; 47; 120], (repeat 7%N 5). split; [apply px_fresh|]. split; [discriminate|].
  split; [split; [reflexivity|repeat constructor; vm_compute; discriminate]|]. vm_compute. reflexivity.
Qed.
Print Assumptions C49_other_graph_refuted.
(** Files outside of the directory of the store can be made and removed: "../z" and "/y". *)
Theorem C49_outside_refuted : ∃ root fs z y, no_labels root fs ∧ root ≠ [] ∧
  (run (path_call root) fs [CCreate z; CDelete y]).1 = [RCreate (Ok (Label z None 0)); RDelete (Ok true)] ∧
  let fs' := (run (path_call root) fs [CCreate z; CDelete y]).2 in
  fs_files fs !! [[122] ++ label_suffix] = None ∧ fs_files fs' !! [[122] ++ label_suffix] = Some new_label_contents ∧
  fs_files fs !! [[121] ++ label_suffix] = Some [2] ∧ fs_files fs' !! [[121] ++ label_suffix] = None.
Proof.
  exists px_root, px_fs, [46; 46; 47; 122], [47; 121]. split; [apply px_fresh|]. split; [discriminate|].
  split; [vm_compute; reflexivity|]. split; [vm_compute; reflexivity|]. split; [vm_compute; reflexivity|]. split; vm_compute; reflexivity.
Qed.
Print Assumptions C49_outside_refuted.
(** Long names cannot be used. *)
Theorem C49_long_refuted : ∃ root fs n, no_labels root fs ∧ length n = 250 ∧
  (run (path_call root) fs [CCreate n]).1 = [RCreate (Err OtherError)] ∧ (run map_call ∅ [CCreate n]).1 = [RCreate (Ok (Label n None 0))].
Proof.
  exists px_root, px_fs, (replicate 250 120). split; [apply px_fresh|]. split; [vm_compute; reflexivity|]. split; vm_compute; reflexivity.
Qed.
Print Assumptions C49_long_refuted.
