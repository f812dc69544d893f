(** Labels and layers in one directory. *)
From Verif Require Import Prelude Names SpecText NamesFacts FileNames LabelSeq LabelConc LabelSpec LabelSeqFacts LabelPath SpecLabelPath LabelPathFacts Archive ArchiveStore Pack Backend SpecBackend BackendFacts StoreDir SpecStoreDir.

Lemma prefix_len n : name_ok n → length (take 3 (name_to_string n)) = 3.
Proof. intros H. rewrite take_length, name_to_string_len by done. done. Qed.
Lemma string_inj n n' : name_ok n → name_ok n' → name_to_string n = name_to_string n' → n = n'.
Proof. intros H H' E. pose proof (string_to_name_round n H) as H1. rewrite E, string_to_name_round in H1 by done. by injection H1. Qed.
Lemma layer_dir_inj root n n' : name_ok n → name_ok n' → layer_dir root n = layer_dir root n' → n = n'.
Proof. intros H H' E%app_inv_head. injection E as _ E. by apply string_inj. Qed.
Lemma layer_file_inj root n f n' f' : name_ok n → name_ok n' → layer_file root n f = layer_file root n' f' → n = n' ∧ f = f'.
Proof.
  intros H H' E. unfold layer_file, layer_dir in E. rewrite <- !app_assoc in E. apply app_inv_head in E. cbn [app] in E.
  injection E as _ E E'. split; [by apply string_inj|done].
Qed.
Lemma layer_dir_len root n : length (layer_dir root n) = length root + 2.
Proof. unfold layer_dir. by rewrite app_length. Qed.
Lemma layer_file_len root n f : length (layer_file root n f) = length root + 3.
Proof. unfold layer_file. rewrite app_length, layer_dir_len. cbn [length]. lia. Qed.
Lemma len_ne {A} (l l' : list A) : length l ≠ length l' → l ≠ l'.
Proof. congruence. Qed.
Lemma suffix_len (f : bytes) : drop (length f - 6) f = label_suffix → 6 ≤ length f.
Proof. intros H. apply (f_equal length) in H. rewrite drop_length in H. change (length label_suffix) with 6 in H. lia. Qed.

(** what can be seen at the top of the directory, except for short names *)
Record top_same (root : list bytes) (fs fs' : fsys) : Prop := {
  ts_files (f : bytes) : fs_files fs' !! (root ++ [f]) = fs_files fs !! (root ++ [f]);
  ts_dirs (f : bytes) : 6 ≤ length f → root ++ [f] ∈ fs_dirs fs' ↔ root ++ [f] ∈ fs_dirs fs }.
Lemma top_same_refl root fs : top_same root fs fs.
Proof. by split. Qed.
Lemma top_same_trans root fs1 fs2 fs3 : top_same root fs1 fs2 → top_same root fs2 fs3 → top_same root fs1 fs3.
Proof. intros [A B] [C D]. split; [intros f; by rewrite C|intros f Hf; by rewrite D, B]. Qed.
Lemma path_rel_top root fs fs' m : path_rel root fs m → top_same root fs fs' → path_rel root fs' m.
Proof.
  intros HR HT. split.
  - intros n l H. destruct (pr_label _ _ _ HR n l H) as (Hn & d & Hd & Hg). split; [done|]. exists d. split; [|done].
    unfold own_file in *. by rewrite (ts_files _ _ _ HT).
  - intros f Hf. destruct (pr_file _ _ _ HR f Hf) as [H1 H2]. split.
    + rewrite (ts_dirs _ _ _ HT) by (by apply suffix_len). done.
    + intros d. rewrite (ts_files _ _ _ HT). apply H2.
Qed.
Lemma put_top root fs p d : length p ≠ length root + 1 → top_same root fs (put_file fs p d).
Proof.
  intros H. split; [|done]. intros f. cbn [put_file fs_files]. apply lookup_insert_ne. apply len_ne. rewrite app_length. cbn [length]. lia.
Qed.

(** ** the directory store *)
Record dir_rel (root : list bytes) (fs : fsys) (s : gmap (list N) (gmap (list nat) (list nat))) : Prop := {
  dr_name n : is_Some (s !! n) → name_ok n;
  dr_prefix n : name_ok n → fs_files fs !! (root ++ [take 3 (name_to_string n)]) = None;
  dr_dir n : name_ok n → layer_dir root n ∈ fs_dirs fs ↔ is_Some (s !! n);
  dr_dir_file n : name_ok n → fs_files fs !! layer_dir root n = None;
  dr_file n (f : bytes) : name_ok n → drop (length f - 6) f ≠ label_suffix → fs_files fs !! layer_file root n f = f_look s n f;
  dr_file_dir n (f : bytes) : name_ok n → layer_file root n f ∉ fs_dirs fs }.
Lemma dir_rel_new root fs : no_layer_dirs root fs → dir_rel root fs ∅.
Proof.
  intros H. split.
  - intros n [x Hx]. by rewrite lookup_empty in Hx.
  - intros n Hn. by apply H.
  - intros n Hn. destruct (H n Hn) as [_ Hx]. destruct (Hx []) as [Hd _]. rewrite app_nil_r in Hd. split; [done|]. intros [x E]. by rewrite lookup_empty in E.
  - intros n Hn. destruct (H n Hn) as [_ Hx]. destruct (Hx []) as [_ Hd]. by rewrite app_nil_r in Hd.
  - intros n f Hn _. destruct (H n Hn) as [_ Hx]. destruct (Hx [f]) as [_ Hd]. unfold f_look. rewrite lookup_empty. done.
  - intros n f Hn. destruct (H n Hn) as [_ Hx]. by destruct (Hx [f]) as [Hd _].
Qed.
(** the label store touches only files that end with ".label", whatever the names are *)
Lemma split_app (s t : bytes) : 47 ∉ t → split_last (s ++ t) = ((split_last s).1, (split_last s).2 ++ t).
Proof.
  intros Ht. induction s as [|b s IH]; [cbn [app]; by rewrite split_plain|]. cbn [app split_last]. rewrite IH.
  destruct (split_last s) as [ps l]. cbn [fst snd]. case_decide; [done|]. by destruct ps.
Qed.
Lemma label_file_suffix fs root n p : label_file fs root n = Ok p → ∃ d l, p = d ++ [l ++ label_suffix].
Proof.
  unfold label_file. case_decide; [done|]. rewrite split_app by (unfold label_suffix; set_solver).
  destruct (follow fs _ _) as [d|k|]; [|done|done]. cbn [obind]. case_decide; [done|]. intros [= <-]. by eexists _, _.
Qed.
Lemma path_any_frame root fs c : fs_dirs (path_call root fs c).2 = fs_dirs fs ∧
  ∀ d f, drop (length f - 6) f ≠ label_suffix → fs_files (path_call root fs c).2 !! (d ++ [f]) = fs_files fs !! (d ++ [f]).
Proof.
  assert (∀ n p d (f : bytes), label_file fs root n = Ok p → drop (length f - 6) f ≠ label_suffix → p ≠ d ++ [f]) as Hne.
  { intros n p d f Hl Hf ->. destruct (label_file_suffix _ _ _ _ Hl) as (d' & l & E). apply app_inj_2 in E as [_ E]; [|done].
    injection E as ->. by rewrite suffix_end in Hf. }
  destruct c as [n|n|l layer|n|]; cbn [path_call].
  - destruct (label_file fs root n) as [p|k|] eqn:E; [|done|done]. case_decide; [done|]. split; [done|]. intros d f Hf. cbn [snd put_file fs_files].
    apply lookup_insert_ne. by eapply Hne.
  - done.
  - destruct (with_updated_layer l layer); [|done]. destruct (label_file fs root (lb_name l)) as [p|k|] eqn:E; [|done|done]. cbn [obind].
    destruct (read_path fs p); [|done|done]. cbn [obind]. destruct (get_label_from_data _ _); [|done|done]. cbn [obind]. case_decide; [|done].
    split; [done|]. intros d f Hf. cbn [snd put_file fs_files]. apply lookup_insert_ne. by eapply Hne.
  - destruct (label_file fs root n) as [p|k|] eqn:E; [|by destruct k|done]. case_decide; [done|]. split; [done|]. intros d f Hf. cbn [snd fs_files].
    apply lookup_delete_ne. by eapply Hne.
  - done.
Qed.
Lemma short_no_label (f : bytes) : length f < 6 → drop (length f - 6) f ≠ label_suffix.
Proof. intros H E%suffix_len. lia. Qed.
Lemma name_no_label n : name_ok n → drop (length (name_to_string n) - 6) (name_to_string n) ≠ label_suffix.
Proof.
  intros Hn E. assert (46 ∈ name_to_string n) as Hx.
  { rewrite <- (take_drop (length (name_to_string n) - 6) (name_to_string n)), E. apply elem_of_app. right. by left. }
  pose proof (name_to_string_hex n Hn) as Hh. rewrite Forall_forall in Hh. specialize (Hh _ Hx). lia.
Qed.
Lemma dir_rel_frame root fs fs' s : dir_rel root fs s → fs_dirs fs' = fs_dirs fs →
  (∀ d f, drop (length f - 6) f ≠ label_suffix → fs_files fs' !! (d ++ [f]) = fs_files fs !! (d ++ [f])) → dir_rel root fs' s.
Proof.
  intros HR Hd Hf. split; try rewrite Hd; try apply HR.
  - intros n Hn. rewrite Hf; [by apply HR|]. apply short_no_label. rewrite prefix_len by done. lia.
  - intros n Hn. unfold layer_dir. change [take 3 (name_to_string n); name_to_string n] with ([take 3 (name_to_string n)] ++ [name_to_string n]).
    rewrite app_assoc, Hf by (by apply name_no_label). rewrite <- app_assoc. by apply HR.
  - intros n f Hn Hl. unfold layer_file. rewrite Hf by done. by apply HR.
Qed.

Lemma plain_no_label f : plain_file f → drop (length f - 6) f ≠ label_suffix.
Proof. by intros (_ & _ & _ & _ & _ & _ & H). Qed.
Lemma parent_no_label : drop (length parent_file - 6) parent_file ≠ label_suffix.
Proof. intros E. vm_compute in E. discriminate E. Qed.
Lemma rollup_no_label : drop (length rollup_file - 6) rollup_file ≠ label_suffix.
Proof. intros E. vm_compute in E. discriminate E. Qed.
Section dir.
Context (root : list bytes) (over : bytes → bytes → bytes).
Notation R := (dir_rel root).

Lemma make_ok fs s n : R fs s → name_ok n →
  make_dirs fs root [take 3 (name_to_string n); name_to_string n] =
    Ok (FS ({[layer_dir root n]} ∪ ({[root ++ [take 3 (name_to_string n)]]} ∪ fs_dirs fs)) (fs_files fs)).
Proof.
  intros HR Hn. cbn [make_dirs]. rewrite (dr_prefix _ _ _ HR n Hn). cbn [fs_files fs_dirs]. rewrite <- app_assoc. cbn [app].
  change (root ++ [take 3 (name_to_string n); name_to_string n]) with (layer_dir root n). by rewrite (dr_dir_file _ _ _ HR n Hn).
Qed.
Lemma create_sim fs s n : R fs s → name_ok n →
  (dp_create root fs n).1 = (p_create (directory_pls over) s n).1 ∧
  R (dp_create root fs n).2 (p_create (directory_pls over) s n).2 ∧ top_same root fs (dp_create root fs n).2.
Proof.
  intros HR Hn. unfold dp_create. rewrite (make_ok fs s n HR Hn). cbn [directory_pls p_create fst snd]. split; [done|].
  assert (∀ n' (f : bytes), f_look (<[n := default ∅ (s !! n)]> s) n' f = f_look s n' f) as Hl.
  { intros n' f. unfold f_look. destruct (decide (n' = n)) as [->|Hne]; [|by rewrite lookup_insert_ne].
    rewrite lookup_insert. destruct (s !! n) as [m|]; [done|]. cbn. by rewrite lookup_empty. }
  split.
  - split; cbn [fs_files fs_dirs].
    + intros n' Hs. destruct (decide (n' = n)) as [->|Hne]; [done|]. rewrite lookup_insert_ne in Hs by done. by apply HR.
    + apply HR.
    + intros n' Hn'. rewrite !elem_of_union, !elem_of_singleton, (dr_dir _ _ _ HR n' Hn').
      destruct (decide (n' = n)) as [->|Hne].
      * rewrite lookup_insert. split; [by eexists|]. intros _. by left.
      * rewrite lookup_insert_ne by done. split; [|auto]. intros [E|[E|E]]; [|exfalso|done].
        -- apply layer_dir_inj in E; done.
        -- apply (f_equal length) in E. rewrite layer_dir_len, app_length in E. cbn [length] in E. lia.
    + apply HR.
    + intros n' f Hn' Hx. rewrite Hl. by apply HR.
    + intros n' f Hn'. rewrite !elem_of_union, !elem_of_singleton. intros [E|[E|E]].
      * apply (f_equal length) in E. rewrite layer_dir_len, layer_file_len in E. lia.
      * apply (f_equal length) in E. rewrite layer_file_len, app_length in E. cbn [length] in E. lia.
      * by apply (dr_file_dir _ _ _ HR n' f Hn').
  - split; [done|]. intros f Hf. cbn [fs_dirs]. rewrite !elem_of_union, !elem_of_singleton. split; [|auto]. intros [E|[E|E]]; [exfalso|exfalso|done].
    + apply (f_equal length) in E. rewrite layer_dir_len, app_length in E. cbn [length] in E. lia.
    + apply app_inv_head in E. injection E as E. apply (f_equal length) in E. rewrite prefix_len in E by done. lia.
Qed.
Lemma dir_sim fs s n : R fs s → name_ok n → dp_dir root fs n = p_dir (directory_pls over) s n.
Proof. intros HR Hn. unfold dp_dir. cbn [directory_pls p_dir]. f_equal. apply bool_decide_ext. by apply HR. Qed.
Lemma exists_sim fs s n f : R fs s → name_ok n → drop (length f - 6) f ≠ label_suffix → dp_exists root fs n f = p_exists (directory_pls over) s n f.
Proof. intros HR Hn Hx. unfold dp_exists. cbn [directory_pls p_exists]. by rewrite (dr_file _ _ _ HR n f Hn Hx). Qed.
Lemma map_sim fs s n f : R fs s → name_ok n → drop (length f - 6) f ≠ label_suffix → dp_map root fs n f = p_map (directory_pls over) s n f.
Proof.
  intros HR Hn Hx. unfold dp_map, read_path. cbn [directory_pls p_map]. rewrite (dr_file _ _ _ HR n f Hn Hx).
  destruct (f_look s n f); [done|]. rewrite decide_False; [done|]. by apply HR.
Qed.
Lemma size_sim fs s n f : R fs s → name_ok n → drop (length f - 6) f ≠ label_suffix → dp_size root fs n f = p_size (directory_pls over) s n f.
Proof.
  intros HR Hn Hx. unfold dp_size. rewrite (map_sim fs s n f HR Hn Hx). cbn [directory_pls p_size p_map]. by destruct (f_look s n f).
Qed.
Lemma write_sim fs s n f b : R fs s → name_ok n → drop (length f - 6) f ≠ label_suffix →
  (dp_write root over fs n f b).1 = (p_write (directory_pls over) s n f b).1 ∧
  R (dp_write root over fs n f b).2 (p_write (directory_pls over) s n f b).2 ∧ top_same root fs (dp_write root over fs n f b).2.
Proof.
  intros HR Hn Hx. unfold dp_write. cbn [directory_pls p_write]. destruct (s !! n) as [m|] eqn:Em.
  - rewrite decide_True by (apply HR; [done|by eexists]). rewrite decide_False by (by apply HR). cbn [fst snd]. split; [done|].
    split; [|apply put_top; rewrite layer_file_len; lia].
    pose proof (dr_file _ _ _ HR n f Hn Hx) as Hf. unfold f_look in Hf. rewrite Em in Hf. cbn [mbind option_bind] in Hf. rewrite Hf.
    split; cbn [put_file fs_files fs_dirs].
    + intros n' Hs. destruct (decide (n' = n)) as [->|Hne]; [done|]. rewrite lookup_insert_ne in Hs by done. by apply HR.
    + intros n' Hn'. rewrite lookup_insert_ne; [by apply HR|]. apply len_ne. rewrite layer_file_len, app_length. cbn [length]. lia.
    + intros n' Hn'. rewrite (dr_dir _ _ _ HR n' Hn'). destruct (decide (n' = n)) as [->|Hne]; [|by rewrite lookup_insert_ne].
      rewrite lookup_insert, Em. split; by eexists.
    + intros n' Hn'. rewrite lookup_insert_ne; [by apply HR|]. apply len_ne. rewrite layer_file_len, layer_dir_len. lia.
    + intros n' f' Hn' Hx'. unfold f_look. destruct (decide (n' = n)) as [->|Hne].
      * rewrite lookup_insert. cbn [mbind option_bind]. destruct (decide (f' = f)) as [->|Hfe]; [by rewrite !lookup_insert|].
        rewrite !lookup_insert_ne; [|done|]. 2:{ intros E. apply layer_file_inj in E as [_ E]; done. }
        rewrite (dr_file _ _ _ HR n f' Hn Hx'). unfold f_look. by rewrite Em.
      * rewrite lookup_insert_ne. 2:{ intros E. apply layer_file_inj in E as [E _]; done. }
        rewrite lookup_insert_ne by done. by apply HR.
    + apply HR.
  - rewrite decide_False. 2:{ rewrite (dr_dir _ _ _ HR n Hn), Em. by intros []. }
    split; [done|]. split; [done|apply top_same_refl].
Qed.
Lemma finalize_sim fs s n : R fs s → name_ok n →
  (dp_finalize root fs n).1 = (p_finalize (directory_pls over) s n).1 ∧
  R (dp_finalize root fs n).2 (p_finalize (directory_pls over) s n).2 ∧ top_same root fs (dp_finalize root fs n).2.
Proof.
  intros HR Hn. unfold dp_finalize. cbn [directory_pls p_finalize]. destruct (s !! n) as [m|] eqn:Em.
  - rewrite decide_True by (apply HR; [done|by eexists]). split; [done|]. split; [done|apply top_same_refl].
  - rewrite decide_False. 2:{ rewrite (dr_dir _ _ _ HR n Hn), Em. by intros []. }
    rewrite (dr_dir_file _ _ _ HR n Hn). split; [done|]. split; [done|apply top_same_refl].
Qed.

Lemma layer_step fs s c : R fs s → plain_bcall c →
  let st := dir_pls root over in let st' := directory_pls over in
  (call_step st (default_parent st) fs c).1 = (call_step st' (default_parent st') s c).1 ∧
  R (call_step st (default_parent st) fs c).2 (call_step st' (default_parent st') s c).2 ∧
  top_same root fs (call_step st (default_parent st) fs c).2.
Proof.
  intros HR Hc st st'. destruct c as [n|n f b|n|n m|n|n f|n f|n f|n|n]; cbn [plain_bcall] in Hc; unfold call_step.
  - destruct (create_sim fs s n HR Hc) as (H1 & H2 & H3). subst st st'. cbn [dir_pls p_create] in *.
    destruct (dp_create root fs n), (p_create (directory_pls over) s n). cbn [fst snd] in *. by rewrite H1.
  - destruct Hc as [Hn Hf]. destruct (write_sim fs s n f b HR Hn (plain_no_label f Hf)) as (H1 & H2 & H3). subst st st'. cbn [dir_pls p_write] in *.
    destruct (dp_write root over fs n f b), (p_write (directory_pls over) s n f b). cbn [fst snd] in *. by rewrite H1.
  - destruct (finalize_sim fs s n HR Hc) as (H1 & H2 & H3). subst st st'. cbn [dir_pls p_finalize] in *.
    destruct (dp_finalize root fs n), (p_finalize (directory_pls over) s n). cbn [fst snd] in *. by rewrite H1.
  - destruct (write_sim fs s n rollup_file (rollup_contents m) HR Hc rollup_no_label) as (H1 & H2 & H3). subst st st'. cbn [dir_pls p_write] in *.
    destruct (dp_write root over fs n rollup_file (rollup_contents m)), (p_write (directory_pls over) s n rollup_file (rollup_contents m)).
    cbn [fst snd] in *. by rewrite H1.
  - cbn [fst snd]. split; [|split; [done|apply top_same_refl]]. f_equal. by apply dir_sim.
  - destruct Hc as [Hn Hf]. cbn [fst snd]. split; [|split; [done|apply top_same_refl]]. f_equal. by apply exists_sim; [| |apply plain_no_label].
  - destruct Hc as [Hn Hf]. cbn [fst snd]. split; [|split; [done|apply top_same_refl]]. f_equal. by apply map_sim; [| |apply plain_no_label].
  - destruct Hc as [Hn Hf]. cbn [fst snd]. split; [|split; [done|apply top_same_refl]]. f_equal. by apply size_sim; [| |apply plain_no_label].
  - cbn [fst snd]. split; [|split; [done|apply top_same_refl]]. f_equal. unfold default_parent.
    change (p_dir st fs n) with (dp_dir root fs n). rewrite (dir_sim fs s n HR Hc).
    change (p_exists st fs n parent_file) with (dp_exists root fs n parent_file). rewrite (exists_sim fs s n parent_file HR Hc parent_no_label).
    change (p_map st fs n parent_file) with (dp_map root fs n parent_file). by rewrite (map_sim fs s n parent_file HR Hc parent_no_label).
  - cbn [fst snd]. split; [|split; [done|apply top_same_refl]]. f_equal. unfold rollup_of.
    change (p_exists st fs n rollup_file) with (dp_exists root fs n rollup_file). rewrite (exists_sim fs s n rollup_file HR Hc rollup_no_label).
    change (p_map st fs n rollup_file) with (dp_map root fs n rollup_file). by rewrite (map_sim fs s n rollup_file HR Hc rollup_no_label).
Qed.
Lemma store_run_sim cs : ∀ fs m s, path_rel root fs m → R fs s →
  Forall plain_call (lefts cs) → Forall call_ok (lefts cs) → Forall plain_bcall (rights cs) →
  Forall2 same_answer (lefts (store_run root over fs cs).1) (run map_call m (lefts cs)).1 ∧
  rights (store_run root over fs cs).1 = (brun (BDirectory over) s (rights cs)).1.
Proof.
  induction cs as [|[c|c] cs IH]; intros fs m s HP HR H1 H2 H3.
  - split; [constructor|done].
  - change (lefts (inl c :: cs)) with (c :: lefts cs) in *. change (rights (inl c :: cs)) with (rights cs) in *.
    apply Forall_cons in H1 as [Hc H1]. apply Forall_cons in H2 as [Hk H2]. cbn [store_run store_call run].
    destruct (path_step root fs m c HP Hc Hk) as [Ha HP'].
    assert (R (path_call root fs c).2 s) as HR'.
    { destruct (path_any_frame root fs c) as [F1 F2]. by apply (dir_rel_frame root fs). }
    destruct (path_call root fs c) as [r fs'], (map_call m c) as [r' m']. cbn [fst snd] in *.
    destruct (IH fs' m' s HP' HR' H1 H2 H3) as [I1 I2]. destruct (store_run root over fs' cs), (run map_call m' (lefts cs)). cbn [fst snd] in *.
    split; [|exact I2]. by constructor.
  - change (lefts (inr c :: cs)) with (lefts cs) in *. change (rights (inr c :: cs)) with (c :: rights cs) in *.
    apply Forall_cons in H3 as [Hc H3]. cbn [store_run store_call brun].
    destruct (layer_step fs s c HR Hc) as (Ha & HR' & HT). unfold bstep. cbn [backend_pls backend_parent].
    pose proof (path_rel_top _ _ _ _ HP HT) as HP'.
    destruct (call_step (dir_pls root over) (default_parent (dir_pls root over)) fs c) as [r fs'].
    change (backend_state (BDirectory over)) with (gmap (list N) (gmap (list nat) (list nat))).
    destruct (call_step (directory_pls over) (default_parent (directory_pls over)) s c) as [r' s']. cbn [fst snd] in *. subst r'.
    destruct (IH fs' m s' HP' HR' H1 H2 H3) as [I1 I2]. destruct (store_run root over fs' cs).
    change (backend_state (BDirectory over)) with (gmap (list N) (gmap (list nat) (list nat))) in I2 |- *.
    destruct (brun (BDirectory over) s' (rights cs)). cbn [fst snd] in *.
    split; [exact I1|]. change (rights (inr r :: l)) with (r :: rights l). by rewrite I2.
Qed.
Lemma store_apart cs fs : no_labels root fs → no_layer_dirs root fs →
  Forall plain_call (lefts cs) → Forall call_ok (lefts cs) → Forall plain_bcall (rights cs) →
  Forall2 same_answer (lefts (store_run root over fs cs).1) (run map_call ∅ (lefts cs)).1 ∧
  rights (store_run root over fs cs).1 = (brun (BDirectory over) ∅ (rights cs)).1.
Proof. intros Hl Hd. apply store_run_sim; [by apply path_rel_new|by apply dir_rel_new]. Qed.
(** with any names of labels *)
Lemma layers_run_sim cs : ∀ fs s, R fs s → Forall plain_bcall (rights cs) →
  rights (store_run root over fs cs).1 = (brun (BDirectory over) s (rights cs)).1.
Proof.
  induction cs as [|[c|c] cs IH]; intros fs s HR H3; [done| |].
  - change (rights (inl c :: cs)) with (rights cs) in *. cbn [store_run store_call]. destruct (path_any_frame root fs c) as [F1 F2].
    assert (R (path_call root fs c).2 s) as HR' by (by apply (dir_rel_frame root fs)).
    destruct (path_call root fs c) as [r fs']. cbn [fst snd] in *. specialize (IH fs' s HR' H3). by destruct (store_run root over fs' cs).
  - change (rights (inr c :: cs)) with (c :: rights cs) in *. apply Forall_cons in H3 as [Hc H3]. cbn [store_run store_call brun].
    destruct (layer_step fs s c HR Hc) as (Ha & HR' & _). unfold bstep. cbn [backend_pls backend_parent].
    destruct (call_step (dir_pls root over) (default_parent (dir_pls root over)) fs c) as [r fs'].
    change (backend_state (BDirectory over)) with (gmap (list N) (gmap (list nat) (list nat))).
    destruct (call_step (directory_pls over) (default_parent (directory_pls over)) s c) as [r' s']. cbn [fst snd] in *. subst r'.
    specialize (IH fs' s' HR' H3). destruct (store_run root over fs' cs).
    change (backend_state (BDirectory over)) with (gmap (list N) (gmap (list nat) (list nat))) in IH |- *.
    destruct (brun (BDirectory over) s' (rights cs)). cbn [fst snd] in *.
    change (rights (inr r :: l)) with (r :: rights l). by rewrite IH.
Qed.
Lemma layers_safe cs fs : trusted (BDirectory over) → no_layer_dirs root fs → Forall plain_bcall (rights cs) → properly ∅ (rights cs) →
  rights (store_run root over fs cs).1 = (ideal_run ∅ (rights cs)).1.
Proof. intros Ht Hd H3 Hp. rewrite (layers_run_sim cs fs ∅ (dir_rel_new _ _ Hd) H3). by apply (stores_ideal (BDirectory over)). Qed.
Lemma store_ideal cs fs : trusted (BDirectory over) → no_labels root fs → no_layer_dirs root fs →
  Forall plain_call (lefts cs) → Forall call_ok (lefts cs) → Forall plain_bcall (rights cs) → properly ∅ (rights cs) →
  Forall2 same_answer (lefts (store_run root over fs cs).1) (run map_call ∅ (lefts cs)).1 ∧
  rights (store_run root over fs cs).1 = (ideal_run ∅ (rights cs)).1.
Proof.
  intros Ht Hl Hd H1 H2 H3 Hp. destruct (store_apart cs fs Hl Hd H1 H2 H3) as [I1 I2]. split; [done|]. rewrite I2.
  by apply (stores_ideal (BDirectory over)).
Qed.
End dir.

(** ** nothing else is touched *)
Definition of_layers (root p : list bytes) : Prop := ∃ n ps, name_ok n ∧ p = layer_dir root n ++ ps.
Lemma make_dirs_files ps : ∀ fs cur fs', make_dirs fs cur ps = Ok fs' → fs_files fs' = fs_files fs ∧ fs_dirs fs ⊆ fs_dirs fs'.
Proof.
  induction ps as [|p ps IH]; intros fs cur fs' H; cbn [make_dirs] in H; [injection H as <-; done|].
  destruct (fs_files fs !! (cur ++ [p])); [done|]. apply IH in H as [H1 H2]. cbn [fs_files fs_dirs] in *. split; [done|]. set_solver.
Qed.
Lemma layer_step_frame root over fs c p : plain_bcall c → ¬ of_layers root p →
  let fs' := (call_step (dir_pls root over) (default_parent (dir_pls root over)) fs c).2 in
  fs_files fs' !! p = fs_files fs !! p ∧ fs_dirs fs ⊆ fs_dirs fs'.
Proof.
  intros Hc Hp.
  assert (∀ n f b, name_ok n → fs_files (dp_write root over fs n f b).2 !! p = fs_files fs !! p ∧ fs_dirs fs ⊆ fs_dirs (dp_write root over fs n f b).2) as Hw.
  { intros n f b Hn. unfold dp_write. case_decide; [|done]. case_decide; [done|]. cbn [snd put_file fs_files fs_dirs]. split; [|done].
    apply lookup_insert_ne. intros <-. apply Hp. exists n, [f]. done. }
  destruct c as [n|n f b|n|n m|n|n f|n f|n f|n|n]; cbn [plain_bcall] in Hc; unfold call_step; cbn [snd]; try done.
  - cbn [dir_pls p_create]. unfold dp_create. destruct (make_dirs fs root _) eqn:E; [|done|done]. apply make_dirs_files in E as [E1 E2]. cbn [snd]. by rewrite E1.
  - destruct Hc as [Hn _]. cbn [dir_pls p_write]. specialize (Hw n f b Hn). by destruct (dp_write root over fs n f b).
  - cbn [dir_pls p_finalize]. unfold dp_finalize. case_decide; [done|]. by destruct (fs_files fs !! layer_dir root n).
  - cbn [dir_pls p_write]. specialize (Hw n rollup_file (rollup_contents m) Hc). by destruct (dp_write root over fs n rollup_file (rollup_contents m)).
Qed.
Lemma store_frame root over cs p : (∀ n : bytes, plain_name n → p ≠ own_file root n) → ¬ of_layers root p →
  Forall plain_call (lefts cs) → Forall plain_bcall (rights cs) → ∀ fs,
  fs_files (store_run root over fs cs).2 !! p = fs_files fs !! p ∧ fs_dirs fs ⊆ fs_dirs (store_run root over fs cs).2.
Proof.
  intros Hl Hd. induction cs as [|[c|c] cs IH]; intros H1 H2 fs; [done| |].
  - apply Forall_cons in H1 as [Hc H1]. destruct (path_step_frame root fs c p Hc Hl) as [E1 E2]. cbn [store_run store_call].
    destruct (path_call root fs c) as [r fs']. cbn [snd] in *. destruct (IH H1 H2 fs') as [I1 I2]. destruct (store_run root over fs' cs).
    cbn [snd] in *. rewrite I1, E1, <- E2. done.
  - apply Forall_cons in H2 as [Hc H2]. destruct (layer_step_frame root over fs c p Hc Hd) as [E1 E2]. cbn [store_run store_call].
    destruct (call_step (dir_pls root over) (default_parent (dir_pls root over)) fs c) as [r fs']. cbn [snd] in *.
    destruct (IH H1 H2 fs') as [I1 I2]. destruct (store_run root over fs' cs). cbn [snd] in *. rewrite I1, E1. split; [done|]. set_solver.
Qed.

(** ** archives *)
Lemma larch_inj root n n' : name_ok n → name_ok n' → larch_path root n = larch_path root n' → n = n'.
Proof. intros H H' E%app_inv_head. injection E as _ E. apply app_inv_tail in E. by apply string_inj. Qed.
Lemma rollup_inj root n n' : name_ok n → name_ok n' → rollup_path root n = rollup_path root n' → n = n'.
Proof. intros H H' E%app_inv_head. injection E as _ E. apply app_inv_tail in E. by apply string_inj. Qed.
Lemma larch_rollup root n n' : name_ok n → name_ok n' → larch_path root n ≠ rollup_path root n'.
Proof.
  intros H H' E%app_inv_head. injection E as _ E. apply (f_equal length) in E. rewrite !app_length, !name_to_string_len in E by done. cbn in E. lia.
Qed.
Lemma larch_len root n : length (larch_path root n) = length root + 2.
Proof. unfold larch_path. by rewrite app_length. Qed.
Lemma rollup_len root n : length (rollup_path root n) = length root + 2.
Proof. unfold rollup_path. by rewrite app_length. Qed.

Record arch_rel (root : list bytes) (fs : fsys) (m : archive_files) : Prop := {
  ar_prefix n : name_ok n → fs_files fs !! (root ++ [take 3 (name_to_string n)]) = None;
  ar_layer n : name_ok n → fs_files fs !! larch_path root n = af_layers m !! n;
  ar_layer_dir n : name_ok n → larch_path root n ∉ fs_dirs fs;
  ar_rollup n : name_ok n → fs_files fs !! rollup_path root n = af_rollups m !! n;
  ar_rollup_dir n : name_ok n → rollup_path root n ∉ fs_dirs fs }.
Lemma arch_rel_new root fs : no_archives root fs → arch_rel root fs (ArchiveFiles ∅ ∅).
Proof.
  intros H. split; intros n Hn; destruct (H n Hn) as (H1 & H2 & H3 & H4 & H5); cbn [af_layers af_rollups]; rewrite ?lookup_empty; done.
Qed.
Lemma suffixed_no_label (a b : bytes) : length b = 6 ∨ length b = 11 → drop (length b - 6) b ≠ label_suffix → drop (length (a ++ b) - 6) (a ++ b) ≠ label_suffix.
Proof.
  intros Hb H. rewrite app_length. replace (length a + length b - 6) with (length a + (length b - 6)) by lia.
  rewrite <- drop_drop, drop_app. done.
Qed.
Lemma arch_rel_frame root fs fs' m : arch_rel root fs m → fs_dirs fs' = fs_dirs fs →
  (∀ d f, drop (length f - 6) f ≠ label_suffix → fs_files fs' !! (d ++ [f]) = fs_files fs !! (d ++ [f])) → arch_rel root fs' m.
Proof.
  intros HR Hd Hf.
  assert (∀ p f, drop (length f - 6) f ≠ label_suffix → fs_files fs' !! (root ++ [p; f]) = fs_files fs !! (root ++ [p; f])) as Hf2.
  { intros p f Hx. change [p; f] with ([p] ++ [f]). rewrite app_assoc. by apply Hf. }
  split; try rewrite Hd; try apply HR.
  - intros n Hn. rewrite Hf; [by apply HR|]. apply short_no_label. rewrite prefix_len by done. lia.
  - intros n Hn. unfold larch_path. rewrite Hf2; [by apply HR|]. apply suffixed_no_label; [by left|]. intros E. vm_compute in E. discriminate E.
  - intros n Hn. unfold rollup_path. rewrite Hf2; [by apply HR|]. apply suffixed_no_label; [by right|]. intros E. vm_compute in E. discriminate E.
Qed.
Lemma archive_step root fs m c : arch_rel root fs m → plain_afcall c →
  (archive_file_call root fs c).1 = (archive_map_call m c).1 ∧
  arch_rel root (archive_file_call root fs c).2 (archive_map_call m c).2 ∧ top_same root fs (archive_file_call root fs c).2.
Proof.
  intros HR Hn. destruct c as [n|n|n pos b|n d]; cbn [plain_afcall] in Hn; cbn [archive_file_call archive_map_call].
  - cbn [fst snd]. split; [|split; [done|apply top_same_refl]]. unfold read_path. rewrite (ar_layer _ _ _ HR n Hn).
    rewrite decide_False by (by apply HR). by destruct (af_layers m !! n).
  - cbn [fst snd]. split; [|split; [done|apply top_same_refl]]. unfold read_path. rewrite (ar_rollup _ _ _ HR n Hn).
    rewrite decide_False by (by apply HR). by destruct (af_rollups m !! n).
  - cbn [make_dirs]. rewrite (ar_prefix _ _ _ HR n Hn). cbn [fs_dirs fs_files].
    assert (∀ p, length p = length root + 2 → p ∉ fs_dirs fs → p ∉ ({[root ++ [take 3 (name_to_string n)]]} ∪ fs_dirs fs : gset (list (list nat)))) as Hd.
    { intros p Hp Hx [E%elem_of_singleton|E]%elem_of_union; [|done]. apply (f_equal length) in E. rewrite app_length, Hp in E. cbn [length] in E. lia. }
    rewrite decide_False. 2:{ apply Hd; [apply larch_len|by apply HR]. }
    cbn [fst snd]. split; [done|]. rewrite (ar_layer _ _ _ HR n Hn). split.
    + split; cbn [put_file fs_files fs_dirs af_layers af_rollups].
      * intros k Hk. rewrite lookup_insert_ne; [by apply HR|]. apply len_ne. rewrite larch_len, app_length. cbn [length]. lia.
      * intros k Hk. destruct (decide (k = n)) as [->|Hne]; [by rewrite !lookup_insert|]. rewrite !lookup_insert_ne; [by apply HR|done|].
        intros E. apply larch_inj in E; done.
      * intros k Hk. apply Hd; [apply larch_len|by apply HR].
      * intros k Hk. rewrite lookup_insert_ne; [by apply HR|]. intros E. by apply (larch_rollup root n k).
      * intros k Hk. apply Hd; [apply rollup_len|by apply HR].
    + apply (top_same_trans _ _ (FS ({[root ++ [take 3 (name_to_string n)]]} ∪ fs_dirs fs) (fs_files fs))); [|apply put_top; rewrite larch_len; lia].
      split; [done|]. intros f Hf. cbn [fs_dirs]. rewrite elem_of_union, elem_of_singleton. split; [|auto]. intros [E|E]; [|done].
      apply app_inv_head in E. injection E as E. apply (f_equal length) in E. rewrite prefix_len in E by done. lia.
  - unfold read_path. rewrite (ar_layer _ _ _ HR n Hn). destruct (af_layers m !! n) as [x|] eqn:Em.
    + rewrite decide_False by (by apply HR). cbn [fst snd]. split; [done|]. split; [|apply put_top; rewrite rollup_len; lia].
      split; cbn [put_file fs_files fs_dirs af_layers af_rollups]; try apply HR.
      * intros k Hk. rewrite lookup_insert_ne; [by apply HR|]. apply len_ne. rewrite rollup_len, app_length. cbn [length]. lia.
      * intros k Hk. rewrite lookup_insert_ne; [by apply HR|]. intros E. by apply (larch_rollup root k n).
      * intros k Hk. destruct (decide (k = n)) as [->|Hne]; [by rewrite !lookup_insert|]. rewrite !lookup_insert_ne; [by apply HR|done|].
        intros E. apply rollup_inj in E; done.
    + rewrite decide_False by (by apply HR). cbn [fst snd]. split; [done|]. split; [done|apply top_same_refl].
Qed.
Lemma archive_run_sim root cs : ∀ fs m a, path_rel root fs m → arch_rel root fs a →
  Forall plain_call (lefts cs) → Forall call_ok (lefts cs) → Forall plain_afcall (rights cs) →
  Forall2 same_answer (lefts (archive_store_run root fs cs).1) (run map_call m (lefts cs)).1 ∧
  rights (archive_store_run root fs cs).1 = (archive_map_run a (rights cs)).1.
Proof.
  induction cs as [|[c|c] cs IH]; intros fs m s HP HR H1 H2 H3.
  - split; [constructor|done].
  - change (lefts (inl c :: cs)) with (c :: lefts cs) in *. change (rights (inl c :: cs)) with (rights cs) in *.
    apply Forall_cons in H1 as [Hc H1]. apply Forall_cons in H2 as [Hk H2]. cbn [archive_store_run archive_store_call run].
    destruct (path_step root fs m c HP Hc Hk) as [Ha HP'].
    assert (arch_rel root (path_call root fs c).2 s) as HR'.
    { destruct (path_any_frame root fs c) as [F1 F2]. by apply (arch_rel_frame root fs). }
    destruct (path_call root fs c) as [r fs'], (map_call m c) as [r' m']. cbn [fst snd] in *.
    destruct (IH fs' m' s HP' HR' H1 H2 H3) as [I1 I2]. destruct (archive_store_run root fs' cs), (run map_call m' (lefts cs)). cbn [fst snd] in *.
    split; [|exact I2]. by constructor.
  - change (lefts (inr c :: cs)) with (lefts cs) in *. change (rights (inr c :: cs)) with (c :: rights cs) in *.
    apply Forall_cons in H3 as [Hc H3]. cbn [archive_store_run archive_store_call archive_map_run].
    destruct (archive_step root fs s c HR Hc) as (Ha & HR' & HT). pose proof (path_rel_top _ _ _ _ HP HT) as HP'.
    destruct (archive_file_call root fs c) as [r fs'], (archive_map_call s c) as [r' s']. cbn [fst snd] in *. subst r'.
    destruct (IH fs' m s' HP' HR' H1 H2 H3) as [I1 I2]. destruct (archive_store_run root fs' cs), (archive_map_run s' (rights cs)). cbn [fst snd] in *.
    split; [exact I1|]. change (rights (inr r :: l)) with (r :: rights l). by rewrite I2.
Qed.
Lemma archive_apart root cs fs : no_labels root fs → no_archives root fs →
  Forall plain_call (lefts cs) → Forall call_ok (lefts cs) → Forall plain_afcall (rights cs) →
  Forall2 same_answer (lefts (archive_store_run root fs cs).1) (run map_call ∅ (lefts cs)).1 ∧
  rights (archive_store_run root fs cs).1 = (archive_map_run (ArchiveFiles ∅ ∅) (rights cs)).1.
Proof. intros Hl Ha. apply archive_run_sim; [by apply path_rel_new|by apply arch_rel_new]. Qed.
Lemma archives_safe root cs : ∀ fs a, arch_rel root fs a → Forall plain_afcall (rights cs) →
  rights (archive_store_run root fs cs).1 = (archive_map_run a (rights cs)).1.
Proof.
  induction cs as [|[c|c] cs IH]; intros fs s HR H3; [done| |].
  - change (rights (inl c :: cs)) with (rights cs) in *. cbn [archive_store_run archive_store_call]. destruct (path_any_frame root fs c) as [F1 F2].
    assert (arch_rel root (path_call root fs c).2 s) as HR' by (by apply (arch_rel_frame root fs)).
    destruct (path_call root fs c) as [r fs']. cbn [fst snd] in *. specialize (IH fs' s HR' H3). by destruct (archive_store_run root fs' cs).
  - change (rights (inr c :: cs)) with (c :: rights cs) in *. apply Forall_cons in H3 as [Hc H3]. cbn [archive_store_run archive_store_call archive_map_run].
    destruct (archive_step root fs s c HR Hc) as (Ha & HR' & _).
    destruct (archive_file_call root fs c) as [r fs'], (archive_map_call s c) as [r' s']. cbn [fst snd] in *. subst r'.
    specialize (IH fs' s' HR' H3). destruct (archive_store_run root fs' cs), (archive_map_run s' (rights cs)). cbn [fst snd] in *.
    change (rights (inr r :: l)) with (r :: rights l). by rewrite IH.
Qed.
