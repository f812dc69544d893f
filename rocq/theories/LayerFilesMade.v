(** The layers that are made are written as LayerFiles.v says. *)
From Verif Require Import Prelude Succinct TripleFiles Merge Layer Builder Rollup Squash MergeBase FileNames Names Archive ArchiveStore Pack SpecPack LayerFiles SpecWriting LayerFilesFacts.
From Coq Require String.

Lemma add_dense b t b' : tfb_subjects b = None → tfb_add b t = Some b' → tfb_subjects b' = None.
Proof.
  intros Hb. unfold tfb_add. destruct t as [[s p] o]. rewrite Hb. case_decide; [by intros [= <-]|]. case_decide; [done|]. case_decide.
  - intros (spo & _ & E)%bind_Some. by injection E as <-.
  - intros (sp & _ & (spo & _ & E)%bind_Some)%bind_Some. by injection E as <-.
Qed.
Lemma add_all_dense b ts b' : tfb_subjects b = None → tfb_add_all b ts = Some b' → tfb_subjects b' = None.
Proof.
  revert b. induction ts as [|t ts IH]; intros b Hb; cbn [tfb_add_all]; [by intros [= <-]|].
  intros (b1 & E & E')%bind_Some. apply (IH b1); [|done]. by eapply add_dense.
Qed.
Lemma build_dense ts tf : build_tfiles false ts = Some tf → tf_subjects tf = None ∧ tf_objects tf = None.
Proof.
  unfold build_tfiles. intros (b & E & E')%bind_Some. apply add_all_dense in E; [|done]. unfold tfb_finalize in E'.
  apply bind_Some in E' as ([ops ob] & E1 & E2). injection E2 as <-. split; [done|]. cbn. unfold build_object_index in E1.
  apply bind_Some in E1 as (b' & _ & E1). by injection E1 as _ <-.
Qed.
Lemma base_made nodes prs vals ts l : base_layer nodes prs vals ts = Some l → writes l base_work ∧ writes l merge_work ∧ dense_base l.
Proof.
  unfold base_layer. intros (pos & E & E')%bind_Some. injection E' as <-. split; [by apply writes_base|]. split; [by apply writes_merge|].
  intros _. by eapply build_dense.
Qed.
Lemma child_dense l : is_Some (l_neg l) → dense_base l.
Proof. intros [x Hx] Hn. by rewrite Hx in Hn. Qed.
Lemma child_made st nodes prs vals A R l : child_layer st nodes prs vals A R = Some l → writes l child_work ∧ dense_base l.
Proof.
  unfold child_layer. do 5 (intros (? & _ & H)%bind_Some; revert H). intros (pos & _ & H)%bind_Some. apply bind_Some in H as (neg & _ & H).
  injection H as <-. split; [by apply writes_child|by apply child_dense].
Qed.
Lemma commit_made nvord prord st b l : commit nvord prord st b = Some l →
  writes l (match st with [] => base_work | _ => child_work end) ∧ dense_base l.
Proof.
  unfold commit. destruct (noops _ _ _ _) as [A R]. intros ([nvex pex] & _ & H)%bind_Some.
  do 7 (apply bind_Some in H as (? & _ & H)). destruct st.
  - apply base_made in H as (? & _ & ?). done.
  - by apply child_made in H.
Qed.
Lemma build_made nvord prord st cs l st' : build nvord prord st cs = Some (l :: st') →
  writes l (match st with [] => base_work | _ => child_work end) ∧ dense_base l.
Proof.
  unfold build. intros (b & _ & H)%bind_Some. apply bind_Some in H as (l' & H & E). injection E as <- _. by eapply commit_made.
Qed.
Lemma rollup_dicts_neg ls nvms pms pos neg l : rollup_dicts ls nvms pms pos neg = Some l → l_neg l = neg ∧ l_pos l = pos.
Proof. unfold rollup_dicts. intros (? & _ & H)%bind_Some. do 2 (apply bind_Some in H as (? & _ & H)). by injection H as <-. Qed.
Lemma rollup_made st l : rollup st = Some l → writes l (rollup_work l) ∧ dense_base l.
Proof.
  unfold rollup. intros (ts & _ & H)%bind_Some. apply bind_Some in H as (pos & E & H). apply rollup_dicts_neg in H as [H1 H2].
  split; [by apply writes_rollup|]. intros _. rewrite H2. by eapply build_dense.
Qed.
Lemma rollup_upto_made mem disk l : rollup_upto mem disk = Some l → writes l (rollup_upto_work l) ∧ dense_base l.
Proof.
  unfold rollup_upto. intros ([pos neg] & _ & H)%bind_Some. apply rollup_dicts_neg in H as [H1 H2].
  assert (is_Some (l_neg l)) by (rewrite H1; by eexists). split; [by apply writes_rollup_upto|by apply child_dense].
Qed.
Lemma imprecise_made mem l : imprecise_rollup_upto mem = Some l → writes l (rollup_upto_work l) ∧ dense_base l.
Proof.
  unfold imprecise_rollup_upto. intros ([pos neg] & _ & H)%bind_Some. apply rollup_dicts_neg in H as [H1 H2].
  assert (is_Some (l_neg l)) by (rewrite H1; by eexists). split; [by apply writes_rollup_upto|by apply child_dense].
Qed.
Lemma squash_made st l : squash st = Some l → writes l base_work ∧ dense_base l.
Proof.
  unfold squash. intros (ts & _ & H)%bind_Some. do 2 (apply bind_Some in H as (? & _ & H)). apply base_made in H as (? & _ & ?). done.
Qed.
Lemma squash_upto_made disk base l : squash_upto disk base = Some l → writes l squash_upto_work ∧ dense_base l.
Proof.
  unfold squash_upto. intros (cs & _ & H)%bind_Some. do 4 (apply bind_Some in H as (? & _ & H)). injection H as <-.
  split; [by apply writes_squash_upto|by apply child_dense].
Qed.
Lemma merge_made ls l : merge_base_layers ls = Some l → writes l merge_work ∧ dense_base l.
Proof.
  unfold merge_base_layers. intros ([nm nodes] & _ & H)%bind_Some. apply bind_Some in H as ([pm prs] & _ & H).
  apply bind_Some in H as ([vm vals] & _ & H). apply bind_Some in H as (streams & _ & H). apply base_made in H as (_ & ? & ?). done.
Qed.
Lemma made_writes l w : made l w → writes l w ∧ dense_base l.
Proof.
  induction 1 as [nvord prord st cs l st' H|st l H|mem disk l H|mem l H|st l H|disk base l H|ls l H|l w _ [_ IH]].
  - by eapply build_made.
  - by eapply rollup_made.
  - by eapply rollup_upto_made.
  - by eapply imprecise_made.
  - by eapply squash_made.
  - by eapply squash_upto_made.
  - by eapply merge_made.
  - split; [apply writes_import|done].
Qed.
Lemma made_partial l w d : made l w → looks w d → load_layer d l = None ∨ load_layer d l = Some l.
Proof. intros [H1 H2]%made_writes. by apply partial_load. Qed.
Lemma made_finished l w d : made l w → finished w d → load_layer d l = Some l.
Proof. intros [H1 H2]%made_writes. by apply finished_loads. Qed.
Lemma made_seen l w order seen : made l w → l_nvmap l = None → l_pmap l = None → seen_during order w seen →
  load_layer seen l = None ∨ load_layer seen l = Some l.
Proof. intros [H1 H2]%made_writes. by apply seen_load. Qed.
(** a load that sees the dictionaries before, and the rest after, the id maps are written *)
Definition between (l : layer) (i : nat) : String.string → fstate :=
  if decide (i < length (parent_name :: dict_files ++ nvmap_files ++ pmap_files)) then full dict_work else full (rollup_work l).
Definition between_seen (l : layer) : String.string → fstate := λ f,
  match List.find (λ x, bool_decide (x.2 = f)) (imap pair (load_order false)) with Some (i, _) => between l i f | None => Absent end.
Lemma find_order (fs : list String.string) f i k : NoDup fs → fs !! i = Some f →
  List.find (λ x, bool_decide (x.2 = f)) (imap (λ j x, (k + j, x)) fs) = Some (k + i, f).
Proof.
  revert i k. induction fs as [|g fs IH]; intros i k Hnd Hi; [done|]. apply NoDup_cons in Hnd as [Hg Hnd]. rewrite imap_cons. cbn [List.find snd].
  destruct i as [|i]; cbn in Hi.
  - injection Hi as ->. rewrite bool_decide_true by done. done.
  - rewrite bool_decide_false; [|intros ->; apply Hg; by eapply elem_of_list_lookup_2].
    rewrite (imap_ext _ (λ j x, (S k + j, x))) by (intros; cbn; f_equal; lia). rewrite (IH i (S k) Hnd Hi). do 2 f_equal. lia.
Qed.
Lemma find_none (fs : list String.string) f k : f ∉ fs →
  List.find (λ x, bool_decide (x.2 = f)) (imap (λ j x, (k + j, x)) fs) = None.
Proof.
  revert k. induction fs as [|g fs IH]; intros k Hf; [done|]. apply not_elem_of_cons in Hf as [Hn Hf]. rewrite imap_cons. cbn [List.find snd].
  rewrite bool_decide_false by done. rewrite (imap_ext _ (λ j x, (S k + j, x))) by (intros; cbn; f_equal; lia). by apply IH.
Qed.
Lemma between_during l : l_neg l = None → seen_during (load_order false) (rollup_work l) (between_seen l).
Proof.
  intros Hn. exists (between l). split; [|split; [|split]].
  - intros i. unfold between. case_decide.
    + exists (work_files dict_work). split; [apply stage_first, stage_all|]. split.
      * intros f. unfold full, has. by case_bool_decide.
      * intros f. unfold full, has. case_bool_decide; [|done]. intros _. unfold rollup_work. cbn [work_files]. rewrite elem_of_app. left. done.
    + exists (work_files (rollup_work l)). split; [apply stage_all|]. split; intros f; unfold full, has; by case_bool_decide.
  - intros i j f Hij. unfold between. repeat case_decide; try done; [|lia].
    unfold full, has. case_bool_decide as E; [|done]. rewrite bool_decide_true; [done|]. unfold rollup_work. cbn [work_files]. rewrite elem_of_app. left. done.
  - intros i f Hi. unfold between_seen. rewrite (imap_ext _ (λ j x, (0 + j, x))) by done. rewrite (find_order _ f i 0); [done| |done].
    apply (bool_decide_unpack _). by vm_compute.
  - intros f Hf. unfold between_seen. rewrite (imap_ext _ (λ j x, (0 + j, x))) by done. by rewrite (find_none _ f 0).
Qed.
Lemma stage_then_looks : looks child_work (full (WThen (WFile parent_name) dict_work)).
Proof.
  apply full_looks. cbn [work_files]. unfold child_work. apply (stage_second (WFile parent_name) child_files_work).
  unfold child_files_work. apply stage_first, stage_all.
Qed.
Lemma load_order_exported child f : f ∈ file_names (load_order child) → f ∈ parent_file :: may_have child.
Proof.
  assert (forallb (λ f, bool_decide (f ∈ parent_file :: may_have child)) (file_names (load_order child)) = true) as H by (by destruct child; vm_compute).
  intros Hf. by apply (forallb_in _ _ _ H), bool_decide_eq_true in Hf.
Qed.
Lemma load_order_all child : NoDup (file_names (load_order child)) ∧ ∀ f, f ∈ file_names (load_order child) ↔ f ∈ parent_file :: may_have child.
Proof.
  split; [apply (bool_decide_eq_true_1 (NoDup (file_names (load_order child)))); destruct child; vm_compute; reflexivity|]. intros f. split; [apply load_order_exported|].
  assert (forallb (λ g, bool_decide (g ∈ file_names (load_order child))) (parent_file :: may_have child) = true) as H by (destruct child; vm_compute; reflexivity).
  intros Hf. by apply (forallb_in _ _ _ H), bool_decide_eq_true in Hf.
Qed.
Definition once (w : work) : bool := bool_decide (NoDup (file_names (work_files w))).
Lemma made_once l w : made l w → NoDup (file_names (work_files w)).
Proof.
  assert (∀ w, once w = true → NoDup (file_names (work_files w))) as K by (intros w'; apply bool_decide_eq_true_1).
  intros H. apply K. destruct H as [nvord prord st cs l st' _|st l _|mem disk l _|mem l _|st l _|disk base l _|ls l _|l w' _].
  - destruct st; vm_compute; reflexivity.
  - unfold rollup_work, idmap_work. destruct (l_nvmap l), (l_pmap l); vm_compute; reflexivity.
  - unfold rollup_upto_work, idmap_work. destruct (l_nvmap l), (l_pmap l); vm_compute; reflexivity.
  - unfold rollup_upto_work, idmap_work. destruct (l_nvmap l), (l_pmap l); vm_compute; reflexivity.
  - vm_compute; reflexivity.
  - vm_compute; reflexivity.
  - vm_compute; reflexivity.
  - unfold import_work, import_files. destruct (l_nvmap l), (l_pmap l), (l_neg l), (tf_subjects (l_pos l)), (tf_objects (l_pos l)); vm_compute; reflexivity.
Qed.
Lemma shared_names : range child_filenames 0 14 = range base_filenames 0 14.
Proof. reflexivity. Qed.
