(** C64: what a call has returned survives a loss of power. *)
From Verif Require Import Prelude Names LabelSeq LabelPath StoreDir LayerFiles Durable SpecDurable DurableFacts.

(** On a file system with a journal: once the call that writes a layer has returned, every file of
    the layer is read back byte for byte after any later loss of power, whatever the caller and
    others have been doing to other paths.  Missing for the full property: file systems that do
    no more than POSIX promises (refuted below). *)
Theorem C64_layer_partial : ∀ (s : disk) (tr : list (bool * fop)) (n : lname) (files : list (bytes * list bytes))
    (ops more : list fop) (v : remains),
  disk_ok s → new_layer s n files → writes_layer n files ops → own tr = ops ++ more →
  keep_off (layer_paths n files) more → leave_layer n files (others tr) →
  journal_loss (perform s tr) v → layer_found v n files.
Proof. exact layer_after_crash. Qed.
Print Assumptions C64_layer_partial.

(** The same for any number of losses of power and restarts. *)
Theorem C64_again_partial : ∀ (s : disk) (tr : list (bool * fop)) (n : lname) (files : list (bytes * list bytes))
    (ops : list fop) (s' : disk) (v : remains),
  disk_ok s → new_layer s n files → writes_layer n files ops → own tr = ops → leave_layer n files (others tr) →
  later n files (perform s tr) s' → journal_loss s' v → layer_found v n files.
Proof. exact layer_after_crashes. Qed.
Print Assumptions C64_again_partial.

(** On any file system that keeps what POSIX promises: a layer whose call has returned is there with
    all of its files byte for byte, or none of them is there. *)
Theorem C64_layer_whole_partial : ∀ (s : disk) (tr : list (bool * fop)) (n : lname) (files : list (bytes * list bytes))
    (ops more : list fop) (v : remains),
  disk_ok s → new_layer s n files → writes_layer n files ops → own tr = ops ++ more →
  keep_off (layer_paths n files) more → leave_layer n files (others tr) →
  posix_loss (perform s tr) v → layer_found v n files ∨ layer_gone v n.
Proof. exact layer_after_crash_posix. Qed.
Print Assumptions C64_layer_whole_partial.

(** The same for an archive store. *)
Theorem C64_archive_partial : ∀ (s : disk) (tr : list (bool * fop)) (n : lname) (chunks : list bytes) (more : list fop) (v : remains),
  disk_ok s → new_archive s n → own tr = writes_archive n chunks ++ more →
  keep_off [larch_path [] n] more → leave_archive n (others tr) → journal_loss (perform s tr) v →
  read_after v (larch_path [] n) = Some (mjoin chunks).
Proof. exact archive_after_crash. Qed.
Print Assumptions C64_archive_partial.

(** On any file system: the archive is there byte for byte, or the directory that it is in is lost;
    if that directory has been on the disk for good before, it is not lost. *)
Theorem C64_archive_whole_partial : ∀ (s : disk) (tr : list (bool * fop)) (n : lname) (chunks : list bytes) (more : list fop) (v : remains),
  disk_ok s → new_archive s n → own tr = writes_archive n chunks ++ more →
  keep_off [larch_path [] n] more → leave_archive n (others tr) → posix_loss (perform s tr) v →
  (read_after v (larch_path [] n) = Some (mjoin chunks) ∨ v_entry v (take 1 (larch_path [] n)) ≠ Some TDir) ∧
  (settled s (take 1 (larch_path [] n)) → now s (take 1 (larch_path [] n)) = Some TDir →
   read_after v (larch_path [] n) = Some (mjoin chunks)).
Proof. exact archive_after_crash_posix. Qed.
Print Assumptions C64_archive_whole_partial.

(** A layer is committed and then set as the head of a graph: on a file system with a journal, both
    calls having returned, the label names the layer and the layer is there. *)
Theorem C64_head_partial : ∀ (s : disk) (tr : list (bool * fop)) (n : lname) (files : list (bytes * list bytes))
    (ops : list fop) (name contents : bytes) (v : remains),
  disk_ok s → new_layer s n files → writes_layer n files ops → a_file s (label_path name) →
  own tr = ops ++ updates_label name contents →
  leave_layer n files (others tr) → keep_off [label_path name] (others tr) →
  journal_loss (perform s tr) v → layer_found v n files ∧ read_after v (label_path name) = Some contents.
Proof.
  exact (λ s tr n files ops name contents v H1 H2 H3 H4,
    head_updated s tr n files ops name contents v H1 H2 H3 H4 (prefix_not_label n name)).
Qed.
Print Assumptions C64_head_partial.

(** The same with a cache of labels, which writes over the old text. *)
Theorem C64_head_cached_partial : ∀ (s : disk) (tr : list (bool * fop)) (n : lname) (files : list (bytes * list bytes))
    (ops : list fop) (name old contents : bytes) (v : remains),
  disk_ok s → new_layer s n files → writes_layer n files ops →
  (∃ i b, now s (label_path name) = Some (TFile i) ∧ k_files s !! i = Some (old, b)) →
  own tr = ops ++ updates_label_cached name contents →
  leave_layer n files (others tr) → keep_off [label_path name] (others tr) →
  journal_loss (perform s tr) v → layer_found v n files ∧ read_after v (label_path name) = Some (write_over old contents).
Proof.
  exact (λ s tr n files ops name old contents v H1 H2 H3 H4,
    head_updated_cached s tr n files ops name old contents v H1 H2 H3 H4 (prefix_not_label n name)).
Qed.
Print Assumptions C64_head_cached_partial.

(** A new label of the store with a cache is there, on a file system with a journal. *)
Theorem C64_created_partial : ∀ (s : disk) (tr : list (bool * fop)) (name : bytes) (v : remains),
  disk_ok s → absent s (label_path name) → own tr = creates_label_cached name →
  keep_off [label_path name] (others tr) → journal_loss (perform s tr) v →
  read_after v (label_path name) = Some new_label_contents.
Proof. exact created_after_crash. Qed.
Print Assumptions C64_created_partial.

(** A deleted label does not come back once the caller has also committed a layer. *)
Theorem C64_deleted_partial : ∀ (s : disk) (tr : list (bool * fop)) (n : lname) (files : list (bytes * list bytes))
    (ops : list fop) (name : bytes) (v : remains),
  disk_ok s → new_layer s n files → writes_layer n files ops → a_file s (label_path name) →
  own tr = deletes_label name ++ ops →
  leave_layer n files (others tr) → keep_off [label_path name] (others tr) →
  journal_loss (perform s tr) v → read_after v (label_path name) = None.
Proof.
  exact (λ s tr n files ops name v H1 H2 H3 H4,
    deleted_after_crash s tr n files ops name v H1 H2 H3 H4 (prefix_not_label n name)).
Qed.
Print Assumptions C64_deleted_partial.

(** ** Examples and what does not hold *)
Definition old_name : lname := [1; 2; 3; 4; 5]%N.
Definition new_name : lname := [16777217; 7; 8; 9; 10]%N.
Definition two_files : list (bytes * list bytes) := [([97], [[1; 2]; [3]]); ([98], [])].
(** the two files are written at the same time *)
Definition commit_ops (n : lname) : list fop :=
  let a := layer_file [] n [97] in let b := layer_file [] n [98] in
  [MkDir (take 1 (layer_dir [] n)); MkDir (layer_dir [] n)] ++
  [Open a; Open b; Change a (λ old, old ++ [1; 2]); Sync b; Change a (λ old, old ++ [3]); Sync a] ++ [SyncDir (layer_dir [] n)].
Definition mine (os : list fop) : list (bool * fop) := (λ o, (true, o)) <$> os.
Definition main_label : bytes := [109; 97; 105; 110].
(** a directory with a label, all on the disk *)
Definition labelled : disk := exs disk_empty (creates_label main_label ++ [SyncDir []]).
Definition new_text : bytes := [49; 10] ++ name_to_string new_name ++ [10].

Lemma commit_ops_ok n : writes_layer n two_files (commit_ops n).
Proof.
  eexists. split; [reflexivity|]. split.
  - repeat (apply Forall_cons; split; [cbn [op_path fst two_files fmap list_fmap]; rewrite ?elem_of_cons; auto|]). constructor.
  - intros f chunks [E|[E|E]%elem_of_cons]%elem_of_cons; [| |by apply elem_of_nil in E]; injection E as -> ->.
    + rewrite !filter_cons. unfold about. cbn [op_path].
      repeat (first [rewrite (decide_True (P := layer_file [] n [97] = layer_file [] n [97])) by reflexivity
                    |rewrite (decide_False (P := layer_file [] n [98] = layer_file [] n [97])) by discriminate]). reflexivity.
    + rewrite !filter_cons. unfold about. cbn [op_path].
      repeat (first [rewrite (decide_True (P := layer_file [] n [98] = layer_file [] n [98])) by reflexivity
                    |rewrite (decide_False (P := layer_file [] n [97] = layer_file [] n [98])) by discriminate]). reflexivity.
Qed.
Lemma disk_ok_empty : disk_ok disk_empty.
Proof. intros p i H. by apply elem_of_nil in H. Qed.
Lemma labelled_ok : disk_ok labelled.
Proof. apply disk_ok_exs, disk_ok_empty. Qed.
Lemma own_mine os : own (mine os) = os.
Proof. induction os as [|o os IH]; [done|]. unfold mine. rewrite fmap_cons. change (o :: own (mine os) = o :: os). by rewrite IH. Qed.
Lemma others_mine os : others (mine os) = [].
Proof. induction os as [|o os IH]; [done|]. unfold mine. rewrite fmap_cons. exact IH. Qed.
Lemma labelled_new : new_layer labelled new_name two_files.
Proof.
  split.
  - intros p [->|[->|[->|E]%elem_of_cons]%elem_of_cons]%elem_of_cons; [| | |by apply elem_of_nil in E]; vm_compute; reflexivity.
  - intros i E. vm_compute in E. discriminate E.
Qed.
Lemma nothing_off ps : keep_off ps [].
Proof. by intros o ?%elem_of_nil. Qed.
Lemma nothing_leaves n files : leave_layer n files [].
Proof. split; [apply nothing_off|]. by intros ?%elem_of_nil. Qed.

(** The hypotheses of C64_head_partial hold here, with somebody else making another label in between, and so there
    is a loss of power to speak of. *)
Definition busy : list (bool * fop) :=
  mine (take 4 (commit_ops new_name)) ++ ((λ o, (false, o)) <$> creates_label [120]) ++
  mine (drop 4 (commit_ops new_name) ++ updates_label main_label new_text).
Example C64_head_example :
  own busy = commit_ops new_name ++ updates_label main_label new_text ∧ others busy = creates_label [120] ∧
  leave_layer new_name two_files (others busy) ∧ keep_off [label_path main_label] (others busy) ∧
  a_file labelled (label_path main_label) ∧
  journal_loss (perform labelled busy) (earlier (perform labelled busy) (length (k_log (perform labelled busy)))) ∧
  k_flushed (perform labelled busy) = 6.
Proof.
  split; [reflexivity|]. split; [reflexivity|].
  assert (H : ∀ o, o ∈ others busy → op_path o = label_path [120]).
  { intros o [->|[->|[->|E]%elem_of_cons]%elem_of_cons]%elem_of_cons; [reflexivity..|by apply elem_of_nil in E]. }
  split; [split|split; [|split; [|split]]].
  - intros o Ho Hin. rewrite (H o Ho) in Hin. by apply (label_not_layer [120]) in Hin.
  - intros Hin. apply H in Hin. vm_compute in Hin. discriminate Hin.
  - intros o Ho Hin. rewrite (H o Ho) in Hin. apply elem_of_list_singleton in Hin. vm_compute in Hin. discriminate Hin.
  - exists 0. vm_compute. reflexivity.
  - apply earlier_journal. split; [|done]. apply Nat.leb_le. vm_compute. reflexivity.
  - vm_compute. reflexivity.
Qed.

(** There is a restart after a loss of power: the label is deleted, which is not on the disk yet. *)
Example C64_again_example : ∃ v s1,
  journal_loss (perform labelled (mine (commit_ops new_name ++ deletes_label main_label))) v ∧ restarted v s1 ∧
  now s1 (label_path main_label) = Some (TFile 0) ∧ now s1 (layer_dir [] new_name) = Some TDir.
Proof.
  set (s := perform labelled (mine (commit_ops new_name ++ deletes_label main_label))).
  exists (earlier s 5).
  set (lg := take 5 (k_log s)).
  exists (Disk lg {[ take 1 (layer_dir [] new_name) := 5; layer_dir [] new_name := 5 ]} 5 (k_files s) (k_next s)).
  split; [|split; [|split]].
  - apply earlier_journal. split; apply Nat.leb_le; vm_compute; reflexivity.
  - assert (Hok : disk_ok s).
    { unfold s. rewrite perform_exs. apply disk_ok_exs, labelled_ok. }
    split.
    + intros p i Hin. cbn [k_log k_files k_next] in *.
      assert (Hsub : ∀ q, q ∈ lg → q ∈ k_log s). { intros q Hq. unfold lg in Hq. by apply elem_of_take in Hq as (j & Hj%elem_of_list_lookup_2 & _). }
      destruct (Hok p i (Hsub _ Hin)) as (H1 & H2 & H3). split; [done|]. split; [done|]. intros q Hq. by apply H3, Hsub.
    + intros p. reflexivity.
    + assert (Hall : map_Forall (λ _ (e : bytes * bool), e.2 = true) (k_files s)).
      { apply (bool_decide_unpack _). vm_compute. exact I. }
      intros i e Hi. cbn [k_files] in Hi. cbn [earlier v_bytes]. rewrite Hi. cbn [fmap option_fmap option_map default].
      pose proof (Hall i e Hi) as E. cbn in E. destruct e as [c b]. cbn in E. by subst b.
    + vm_compute. reflexivity.
    + intros p Hp. cbn [k_synced].
      assert (Hin : (p, Some TDir) ∈ lg) by (by apply entry_elem).
      assert (El : lg = [(label_path main_label, Some (TFile 0)); (take 1 (layer_dir [] new_name), Some TDir); (layer_dir [] new_name, Some TDir);
        (layer_file [] new_name [97], Some (TFile 1)); (layer_file [] new_name [98], Some (TFile 2))]) by (vm_compute; reflexivity).
      rewrite El in Hin. rewrite !elem_of_cons, elem_of_nil in Hin.
      destruct Hin as [E|[E|[E|[E|[E|[]]]]]]; try discriminate E; injection E as ->; vm_compute; reflexivity.
  - vm_compute. reflexivity.
  - vm_compute. reflexivity.
Qed.

(** On a file system that does what POSIX says and no more, a committed layer that has been made the head is lost,
    and the head names it: neither the directory in which the directory of the layer is made nor the one above is
    synchronized. *)
Theorem C64_layer_refuted : ∃ s tr n files ops name contents v,
  disk_ok s ∧ new_layer s n files ∧ writes_layer n files ops ∧ settled s (label_path name) ∧
  own tr = ops ++ updates_label name contents ∧ others tr = [] ∧ files ≠ [] ∧
  contents = [49; 10] ++ name_to_string n ++ [10] ∧
  posix_loss (perform s tr) v ∧ layer_gone v n ∧ read_after v (label_path name) = Some contents.
Proof.
  exists labelled, (mine (commit_ops new_name ++ updates_label main_label new_text)), new_name, two_files, (commit_ops new_name), main_label, new_text.
  exists (all_but (perform labelled (mine (commit_ops new_name ++ updates_label main_label new_text))) {[layer_dir [] new_name := 0]}).
  split; [apply labelled_ok|]. split; [apply labelled_new|]. split; [apply commit_ops_ok|].
  split.
  { exists 1. split; [apply Nat.leb_le; vm_compute; reflexivity|]. split; [apply Nat.leb_le; vm_compute; reflexivity|].
    intros k Hk. unfold value_at. rewrite take_ge; [reflexivity|]. exact Hk. }
  split; [apply own_mine|]. split; [apply others_mine|]. split; [discriminate|]. split; [reflexivity|].
  split; [|split].
  - apply all_but_posix.
    + apply map_Forall_singleton. split; apply Nat.leb_le; vm_compute; reflexivity.
    + apply (bool_decide_unpack _). vm_compute. exact I.
  - apply dir_gone. intros E. vm_compute in E. discriminate E.
  - vm_compute. reflexivity.
Qed.
Print Assumptions C64_layer_refuted.

(** A rollup can take a layer along that was on the disk for good: the note in the old layer's directory is found, and
    the layer it names is lost.  (Loading the old layer follows the note.) *)
Definition rollup_name : bytes := [114; 111; 108; 108; 117; 112; 46; 104; 101; 120].
Definition kept_layer : disk := exs disk_empty (commit_ops old_name ++ [SyncDir (take 1 (layer_dir [] old_name)); SyncDir []]).
Theorem C64_rollup_refuted : ∃ s tr n m files ops v,
  disk_ok s ∧ new_layer s m files ∧ writes_layer m files ops ∧
  settled s (take 1 (layer_dir [] n)) ∧ settled s (layer_dir [] n) ∧ (∀ f, f ∈ files.*1 → settled s (layer_file [] n f)) ∧
  own tr = ops ++ writes_note n rollup_name ([49; 10] ++ name_to_string m ++ [10]) ∧ others tr = [] ∧ files ≠ [] ∧
  posix_loss (perform s tr) v ∧ layer_found v n files ∧
  read_after v (layer_file [] n rollup_name) = Some ([49; 10] ++ name_to_string m ++ [10]) ∧ layer_gone v m.
Proof.
  assert (Hset : ∀ p, length (k_log kept_layer) ≤ default 0 (k_synced kept_layer !! parent_path p) → settled kept_layer p).
  { intros p Hp. exists (length (k_log kept_layer)). split; [exact Hp|]. split; [reflexivity|]. intros k Hk. unfold value_at.
    by rewrite take_ge. }
  exists kept_layer, (mine (commit_ops new_name ++ writes_note old_name rollup_name ([49; 10] ++ name_to_string new_name ++ [10]))),
    old_name, new_name, two_files, (commit_ops new_name).
  exists (all_but (perform kept_layer (mine (commit_ops new_name ++ writes_note old_name rollup_name ([49; 10] ++ name_to_string new_name ++ [10]))))
    {[layer_dir [] new_name := 0]}).
  split; [apply disk_ok_exs, disk_ok_empty|]. split.
  { split.
    - intros p [->|[->|[->|E]%elem_of_cons]%elem_of_cons]%elem_of_cons; [| | |by apply elem_of_nil in E]; vm_compute; reflexivity.
    - intros i E. vm_compute in E. discriminate E. }
  split; [apply commit_ops_ok|].
  split; [apply Hset, Nat.leb_le; vm_compute; reflexivity|].
  split; [apply Hset, Nat.leb_le; vm_compute; reflexivity|].
  split. { intros f _. apply Hset, Nat.leb_le. vm_compute. reflexivity. }
  split; [apply own_mine|]. split; [apply others_mine|]. split; [discriminate|].
  split; [|split; [|split]].
  - apply all_but_posix.
    + apply map_Forall_singleton. split; apply Nat.leb_le; vm_compute; reflexivity.
    + apply (bool_decide_unpack _). vm_compute. exact I.
  - intros f chunks [E|[E|E]%elem_of_cons]%elem_of_cons; [| |by apply elem_of_nil in E]; injection E as -> ->; vm_compute; reflexivity.
  - vm_compute. reflexivity.
  - apply dir_gone. intros E. vm_compute in E. discriminate E.
Qed.
Print Assumptions C64_rollup_refuted.

(** A label that has been created is lost on such a file system: the directory of the store is never synchronized. *)
Theorem C64_created_refuted : ∃ s tr name v,
  disk_ok s ∧ absent s (label_path name) ∧ own tr = creates_label_cached name ∧ others tr = [] ∧
  posix_loss (perform s tr) v ∧ read_after v (label_path name) = None.
Proof.
  exists disk_empty, (mine (creates_label_cached main_label)), main_label,
    (all_but (perform disk_empty (mine (creates_label_cached main_label))) {[label_path main_label := 0]}).
  split; [apply disk_ok_empty|]. split; [reflexivity|]. split; [apply own_mine|]. split; [apply others_mine|]. split.
  - apply all_but_posix.
    + apply map_Forall_singleton. split; apply Nat.leb_le; vm_compute; reflexivity.
    + apply (bool_decide_unpack _). vm_compute. exact I.
  - vm_compute. reflexivity.
Qed.
Print Assumptions C64_created_refuted.

(** A deleted label can come back, even with a journal: nothing is synchronized after the file is removed. *)
Theorem C64_deleted_refuted : ∃ s tr name v,
  disk_ok s ∧ settled s (label_path name) ∧ own tr = deletes_label name ∧ others tr = [] ∧
  journal_loss (perform s tr) v ∧ now (perform s tr) (label_path name) = None ∧
  read_after v (label_path name) = Some new_label_contents.
Proof.
  exists labelled, (mine (deletes_label main_label)), main_label, (earlier (perform labelled (mine (deletes_label main_label))) 1).
  split; [apply labelled_ok|].
  split.
  { exists 1. split; [apply Nat.leb_le; vm_compute; reflexivity|]. split; [apply Nat.leb_le; vm_compute; reflexivity|].
    intros k Hk. unfold value_at. rewrite take_ge; [reflexivity|]. exact Hk. }
  split; [apply own_mine|]. split; [apply others_mine|]. split; [|split].
  - apply earlier_journal. split; apply Nat.leb_le; vm_compute; reflexivity.
  - vm_compute. reflexivity.
  - vm_compute. reflexivity.
Qed.
Print Assumptions C64_deleted_refuted.
