(** Consequences of the proofs about the archive store, in the form the properties use *)
From Coq Require String.
From Verif Require Import Prelude ListFacts Names SpecText NamesFacts FileNames Archive ArchiveFacts ArchiveStore SpecArchive ArchiveStoreFacts.

(** what the readers give for one file of a layer whose archive is [f]: the contents or that there
    is no such file *)
Definition reads_as (c : codec) (f : option bytes) (ft : nat) (o : option bytes) : Prop :=
  structure_bytes c f ft = Ok o ∧
  obind (layer_bytes f) (λ b, slice_for c b ft) = Ok o ∧
  layer_file_exists f ft = Ok (bool_decide (is_Some o)) ∧
  structure_size c f ft = match o with Some b => Ok (length b) | None => Err NotFound end.

Lemma good_present (c : codec) (n : lname) L tr1 ft b : codec_ok c → good_files n L tr1 → file_written tr1 n ft b →
  reads_as c (Some (archive_bytes c L)) ft (Some b).
Proof.
  intros Hc (Hok & Hin & Hft) Hw. apply Hin in Hw.
  assert (ft ∈ L.*1) as Hk by (apply elem_of_list_fmap; by exists (ft, b)).
  assert (ft < 64) as H64 by (destruct Hok as (_ & Hf & _); rewrite Forall_forall in Hf; by apply Hf).
  split_and!.
  - by apply structure_present.
  - cbn [layer_bytes open_file obind]. by apply slice_for_present.
  - rewrite file_exists_archive by done. f_equal. rewrite bool_decide_eq_true_2 by done. done.
  - by apply size_present.
Qed.
Lemma good_absent (c : codec) (n : lname) L tr1 ft : codec_ok c → good_files n L tr1 → ft < rollup_type →
  (∀ b, ¬ file_written tr1 n ft b) → reads_as c (Some (archive_bytes c L)) ft None.
Proof.
  intros Hc (Hok & Hin & Hft) Hr Hw.
  assert (ft ∉ L.*1) as Hk. { intros ([ft' b] & -> & Hx)%elem_of_list_fmap. by apply Hin, Hw in Hx. }
  assert (ft < 64) as H64 by (unfold rollup_type in Hr; lia).
  split_and!.
  - by apply structure_absent.
  - cbn [layer_bytes open_file obind]. by apply slice_for_absent.
  - rewrite file_exists_archive by done. f_equal. rewrite bool_decide_eq_false_2 by done. done.
  - by apply size_absent.
Qed.
Lemma good_files_unique (c : codec) (n : lname) L L' tr1 : good_files n L tr1 → good_files n L' tr1 → archive_bytes c L = archive_bytes c L'.
Proof.
  intros ((Hn & _) & Hin & _) ((Hn' & _) & Hin' & _). apply archive_perm; [|done].
  apply NoDup_Permutation; [by eapply NoDup_fmap_1|by eapply NoDup_fmap_1|]. intros [ft b]. by rewrite Hin, Hin'.
Qed.

Lemma archive_files (c : codec) tr s n tr1 tr2 ft : codec_ok c →
  aexec c astore_new tr s → created_once n tr → tr = tr1 ++ IFinalize n :: tr2 → IStored n ∈ tr2 → ft < rollup_type →
  (∀ b, file_written tr1 n ft b →
     reads_as c (as_disk s !! n) ft (Some b) ∧ as_map c s n ft = Ok b ∧ as_file_exists s n ft = Ok true) ∧
  ((∀ b, ¬ file_written tr1 n ft b) →
     reads_as c (as_disk s !! n) ft None ∧ as_map c s n ft = Err NotFound ∧ as_file_exists s n ft = Ok false).
Proof.
  intros Hc He Ho Ht Hs Hft. destruct (stored_archive _ _ _ _ _ _ He Ho Ht Hs) as (L & HL & Hcon & Hd).
  unfold as_map, as_file_exists. rewrite !decide_False by (unfold rollup_type in *; lia). rewrite Hcon, Hd. split.
  - intros b Hw. pose proof (good_present c n L tr1 ft b Hc HL Hw) as Hr. split; [done|].
    destruct Hr as (-> & _ & -> & _). cbn [obind]. split; [done|]. by rewrite bool_decide_eq_true_2.
  - intros Hw. pose proof (good_absent c n L tr1 ft Hc HL Hft Hw) as Hr. split; [done|].
    destruct Hr as (-> & _ & -> & _). cbn [obind]. split; [done|]. by rewrite bool_decide_eq_false_2 by (by intros []).
Qed.
(** the whole archive is read at once *)
Lemma archive_whole (c : codec) tr s n tr1 tr2 : codec_ok c →
  aexec c astore_new tr s → created_once n tr → tr = tr1 ++ IFinalize n :: tr2 → IStored n ∈ tr2 →
  (∃ ft b, file_written tr1 n ft b) →
  ∃ a h d, as_disk s !! n = Some a ∧ parse_archive c a = Ok (h, d) ∧
    (∀ ft b, file_written tr1 n ft b →
       ∃ i j, range_for h ft = Ok (Some (i, j)) ∧ i ≤ j ∧ j ≤ length d ∧ take (j - i) (drop i d) = b) ∧
    (∀ ft, ft < rollup_type → (∀ b, ¬ file_written tr1 n ft b) → range_for h ft = Ok None).
Proof.
  intros Hc He Ho Ht Hs (ft0 & b0 & H0). destruct (stored_archive _ _ _ _ _ _ He Ho Ht Hs) as (L & HL & Hcon & Hd).
  destruct HL as (Hok & Hin & Hft). exists (archive_bytes c L), (archive_header L), (archive_data L). split; [done|].
  split. { apply parse_archive_whole; [done|done|]. intros ->. apply Hin in H0. by apply elem_of_nil in H0. }
  split.
  - intros ft b Hw%Hin. destruct (sorted_split L ft b Hw) as (L1 & L2 & E).
    exists (total L1), (total L1 + length b). split; [by eapply range_for_archive|]. split; [lia|]. split.
    + unfold archive_data. rewrite E, total_join, total_app. cbn [total]. lia.
    + rewrite (archive_data_split L ft b L1 L2 E). rewrite drop_app_alt by (symmetry; apply total_join).
      replace (total L1 + length b - total L1) with (length b) by lia. by rewrite take_app.
  - intros ft Hr Hw. apply range_for_absent; [done|unfold rollup_type in Hr; lia|].
    intros ([ft' b] & -> & Hx)%elem_of_list_fmap. by apply Hin, Hw in Hx.
Qed.
(** a file of a layer that is being made *)
Definition cfile_writes (f : cfile) (ps : list bytes) : outcome cfile := foldl (λ r b, obind r (λ f, cfile_write f b)) (Ok f) ps.
Lemma cfile_writes_under (ps : list bytes) x : cfile_writes (UnderConstruction x) ps = Ok (UnderConstruction (x ++ mjoin ps)).
Proof.
  revert x. induction ps as [|b ps IH]; intros x; [cbn; by rewrite app_nil_r|]. unfold cfile_writes in *. cbn [foldl obind cfile_write].
  rewrite IH. cbn [mjoin list_join]. by rewrite <- app_assoc.
Qed.
Lemma construction_file (ps : list bytes) : ∃ f f', cfile_writes (UnderConstruction []) ps = Ok f ∧ cfile_sync f = Ok f' ∧
  (cfile_exists f = false ∧ cfile_size f = Err NotFound ∧ cfile_map f = Err NotFound ∧ ∀ k, cfile_read_from f k = Err NotFound) ∧
  cfile_exists f' = true ∧ cfile_size f' = Ok (length (mjoin ps)) ∧ cfile_map f' = Ok (mjoin ps) ∧
  (∀ k, k ≤ length (mjoin ps) → cfile_read_from f' k = Ok (drop k (mjoin ps))) ∧
  (∀ k, length (mjoin ps) < k → cfile_read_from f' k = Err UnexpectedEof) ∧
  (∀ b, cfile_write f' b = Err OtherError) ∧ cfile_sync f' = Err OtherError.
Proof.
  exists (UnderConstruction (mjoin ps)), (Finalized (mjoin ps)). rewrite cfile_writes_under. cbn [app]. split; [done|].
  split; [done|]. split; [done|]. split; [done|]. split; [done|]. split; [done|]. split.
  { intros k Hk. cbn [cfile_read_from]. by rewrite decide_False by lia. }
  split; [|done]. intros k Hk. cbn [cfile_read_from]. by rewrite decide_True by lia.
Qed.
Lemma archive_read_from (c : codec) tr s n tr1 tr2 ft b k : codec_ok c →
  aexec c astore_new tr s → created_once n tr → tr = tr1 ++ IFinalize n :: tr2 → IStored n ∈ tr2 →
  file_written tr1 n ft b → k ≤ length b →
  ∃ r, structure_from c (as_disk s !! n) ft k = Ok r ∧
    ∀ ps r', polls (slice_step false) r ps r' → reads_exactly (drop k b) ps.
Proof.
  intros Hc He Ho Ht Hs Hw Hk. destruct (stored_archive _ _ _ _ _ _ He Ho Ht Hs) as (L & HL & Hcon & Hd). rewrite Hd.
  destruct HL as (Hok & Hin & _). apply Hin in Hw.
  destruct (structure_from_present c Hc L ft b k Hok Hw Hk) as [junk E]. eexists. split; [exact E|].
  intros ps r' Hp. by apply slice_polls in Hp as [? _].
Qed.
Lemma archive_beyond (c : codec) tr s n tr1 tr2 ft b k : codec_ok c →
  aexec c astore_new tr s → created_once n tr → tr = tr1 ++ IFinalize n :: tr2 → IStored n ∈ tr2 →
  file_written tr1 n ft b → length b < k → structure_from c (as_disk s !! n) ft k = Panic.
Proof.
  intros Hc He Ho Ht Hs Hw Hk. destruct (stored_archive _ _ _ _ _ _ He Ho Ht Hs) as (L & HL & Hcon & Hd). rewrite Hd.
  destruct HL as (Hok & Hin & _). apply Hin in Hw. by eapply structure_from_beyond.
Qed.

Lemma aexec_trans (c : codec) s tr s1 tr' s2 : aexec c s tr s1 → aexec c s1 tr' s2 → aexec c s (tr ++ tr') s2.
Proof.
  intros H1 H2. induction H2 as [|tr' s1' s2 _ IH Hst|tr' s1' i s2 _ IH Hst].
  - by rewrite app_nil_r.
  - by eapply ae_tau.
  - rewrite app_assoc. by eapply ae_item.
Qed.
Lemma archive_immutable (c : codec) tr s tr' s' n : aexec c astore_new tr s → aexec c s tr' s' → created_once n tr →
  (∃ tr1 tr2, tr = tr1 ++ IFinalize n :: tr2 ∧ IStored n ∈ tr2) →
  as_disk s' !! n = as_disk s !! n ∧ is_Some (as_disk s !! n) ∧
  ∀ ft, ft < rollup_type → as_map c s' n ft = as_map c s n ft ∧ as_file_exists s' n ft = as_file_exists s n ft.
Proof.
  intros H1 H2 Ho (tr1 & tr2 & -> & Hs).
  destruct (stored_archive _ _ _ _ _ _ H1 Ho eq_refl Hs) as (L & HL & Hc & Hd).
  assert (at_rest n s) as Hr by (split_and!; [by rewrite Hd|done|by eapply stored_quiet]).
  destruct (rest_exec c n _ _ _ Hr H2) as [(_ & Hc' & _) He]. split; [done|]. split; [by rewrite Hd|].
  intros ft Hft. unfold as_map, as_file_exists. rewrite !decide_False by lia. by rewrite Hc, Hc', He.
Qed.

(** ** Parents and rollups *)
Lemma archive_parent (c : codec) tr s n tr1 tr2 p : codec_ok c →
  aexec c astore_new tr s → created_once n tr → tr = tr1 ++ IFinalize n :: tr2 → IStored n ∈ tr2 → name_ok p →
  (file_written tr1 n parent_type (parent_contents p) → as_parent c s n = Ok (Some p)) ∧
  ((∀ b, ¬ file_written tr1 n parent_type b) → as_parent c s n = Ok None).
Proof.
  intros Hc He Ho Ht Hs Hp.
  destruct (archive_files c tr s n tr1 tr2 parent_type Hc He Ho Ht Hs ltac:(unfold parent_type, rollup_type; lia)) as [H1 H2].
  unfold as_parent, get_parent, parse_parent. split.
  - intros Hw. destruct (H1 _ Hw) as ((-> & _) & _). cbn [obind]. unfold parent_contents.
    pose proof (name_to_string_len p Hp) as Hl. rewrite decide_False by lia. rewrite take_ge by lia.
    by rewrite (string_to_name_round p Hp).
  - intros Hw. destruct (H2 Hw) as ((-> & _) & _). done.
Qed.
Lemma plain_no_lf s : plain_text s → no_lf s.
Proof. intros Hs. eapply Forall_impl; [exact Hs|]. cbn. tauto. Qed.
Lemma get_rollup_contents (d : bytes) n : name_ok n → get_rollup (Some d) (Some (archive_rollup_contents n)) = Ok (Some n).
Proof.
  intros Hn. unfold get_rollup, archive_rollup_contents.
  change ([49; 10] ++ name_to_string n ++ [10]) with ([49] ++ 10 :: (name_to_string n ++ [10])).
  rewrite text_line by (repeat constructor; lia).
  assert (plain_text (name_to_string n)) as Hpl by (by eapply name_text_plain, name_to_string_text).
  rewrite text_line by (by apply plain_no_lf). rewrite strip_cr_id by (eapply Forall_impl; [exact Hpl|]; cbn; tauto).
  by rewrite (string_to_name_round n Hn).
Qed.
Lemma rollup_sync_contents (d : bytes) n : name_ok n → rollup_file_sync (Some d) (rollup_contents n) = Ok (archive_rollup_contents n).
Proof.
  intros Hn. unfold rollup_file_sync, rollup_contents.
  pose proof (version_text 1 ltac:(by unfold u64_max)) as Hv.
  rewrite text_line_eol; [|by apply (number_text_plain 10 _ 1)|by left].
  rewrite text_line_end; [|by eapply name_text_plain, name_to_string_text|by left; left].
  by rewrite (string_to_name_round n Hn).
Qed.
Lemma rollup_map_reads (d : bytes) n : name_ok n →
  ∃ b, rollup_file_map (Some d) (Some (archive_rollup_contents n)) = Ok b ∧ read_rollup b = Ok n ∧ length b = 42.
Proof.
  intros Hn. unfold rollup_file_map. rewrite get_rollup_contents by done. cbn [obind]. eexists. split; [done|].
  split; [|rewrite app_length, (name_to_string_len n Hn); done].
  unfold read_rollup. rewrite lossy_ascii.
  2:{ apply Forall_app. split; [repeat constructor; lia|by apply name_to_string_ascii]. }
  change ([49; 10] ++ name_to_string n) with ([49] ++ 10 :: name_to_string n).
  rewrite text_line by (repeat constructor; lia). rewrite text_last.
  - by apply string_to_name_round.
  - by eapply plain_no_lf, name_text_plain, name_to_string_text.
  - intros E. apply (f_equal length) in E. by rewrite (name_to_string_len n Hn) in E.
Qed.
Lemma archive_names_dirs es : Forall (λ e : bytes * bool, e.2 = false) es → archive_names es = Ok [].
Proof. induction 1 as [|[e b] es Hb _ IH]; [done|]. cbn [archive_names]. cbn in Hb. rewrite decide_False; [done|]. by intros [_ ?]; subst. Qed.
Lemma archive_lists_nothing s : as_constr s = ∅ → as_directories s = Ok [].
Proof.
  intros Hc. unfold as_directories. rewrite archive_names_dirs.
  - rewrite Hc, dom_empty_L, elements_empty. done.
  - unfold archive_entries. apply Forall_fmap, Forall_forall. done.
Qed.
Lemma archive_unfinished (c : codec) tr s n : aexec c astore_new tr s → created_once n tr → IFinalize n ∉ tr →
  as_disk s !! n = None ∧ as_directory_exists (restart s) n = false.
Proof.
  intros He Ho Hf. pose proof (unfinished_absent c n tr s He Ho Hf) as Hd. split; [done|].
  unfold as_directory_exists, restart. cbn [as_constr as_disk]. by rewrite lookup_empty, Hd.
Qed.
Lemma archive_poison (c : codec) s tr s' : aexec c s tr s' → as_poisoned s = true → ICrash ∉ tr →
  as_poisoned s' = true ∧ ∀ n r, ICreate n r ∈ tr → r = Panic.
Proof.
  intros He Hp Hn. induction He as [|tr s1 s2 He IH Hst|tr s1 i s2 He IH Hst].
  - split; [done|]. by intros n r ?%elem_of_nil.
  - destruct (IH Hn) as [Hp1 Hc]. split; [|done]. inversion Hst; subst; done.
  - destruct IH as [Hp1 Hc]; [set_solver|]. split.
    + inversion Hst; subst; try done. set_solver.
    + intros n r [Hi|Hi%elem_of_list_singleton]%elem_of_app; [by eapply Hc|]. subst i. inversion Hst; subst; done || congruence.
Qed.

(** ** The forms used by the properties *)
Lemma archive_files_present (c : codec) tr s n tr1 tr2 ft b : codec_ok c →
  aexec c astore_new tr s → created_once n tr → tr = tr1 ++ IFinalize n :: tr2 → IStored n ∈ tr2 → ft < rollup_type →
  file_written tr1 n ft b →
  structure_bytes c (as_disk s !! n) ft = Ok (Some b) ∧
  obind (layer_bytes (as_disk s !! n)) (λ a, slice_for c a ft) = Ok (Some b) ∧
  layer_file_exists (as_disk s !! n) ft = Ok true ∧
  structure_size c (as_disk s !! n) ft = Ok (length b) ∧
  as_map c s n ft = Ok b ∧ as_file_exists s n ft = Ok true.
Proof.
  intros Hc He Ho Ht Hs Hft Hw. destruct (archive_files c tr s n tr1 tr2 ft Hc He Ho Ht Hs Hft) as [H _].
  destruct (H b Hw) as ((H1 & H2 & H3 & H4) & H5 & H6). rewrite bool_decide_eq_true_2 in H3 by done. by split_and!.
Qed.
Lemma archive_files_absent (c : codec) tr s n tr1 tr2 ft : codec_ok c →
  aexec c astore_new tr s → created_once n tr → tr = tr1 ++ IFinalize n :: tr2 → IStored n ∈ tr2 → ft < rollup_type →
  (∀ b, ¬ file_written tr1 n ft b) →
  structure_bytes c (as_disk s !! n) ft = Ok None ∧
  obind (layer_bytes (as_disk s !! n)) (λ a, slice_for c a ft) = Ok None ∧
  layer_file_exists (as_disk s !! n) ft = Ok false ∧
  structure_size c (as_disk s !! n) ft = Err NotFound ∧
  as_map c s n ft = Err NotFound ∧ as_file_exists s n ft = Ok false.
Proof.
  intros Hc He Ho Ht Hs Hft Hw. destruct (archive_files c tr s n tr1 tr2 ft Hc He Ho Ht Hs Hft) as [_ H].
  destruct (H Hw) as ((H1 & H2 & H3 & H4) & H5 & H6). rewrite bool_decide_eq_false_2 in H3 by (by intros []). by split_and!.
Qed.
Lemma bytes_polls_exact data tr s : polls bytes_step data tr s → reads_exactly data tr.
Proof. intros H. by apply bytes_polls in H as [? _]. Qed.
Lemma slice_polls_exact data junk tr s : polls (slice_step false) (data ++ junk, length data) tr s → reads_exactly data tr.
Proof. intros H. by apply slice_polls in H as [? _]. Qed.
Lemma reads_progress data tr room p tr' b : reads_exactly data tr → tr = tr' ++ [(room, p)] → p = PollOk b → 0 < room →
  delivered tr' = data ∨ length (delivered tr') < length (delivered tr).
Proof.
  intros (_ & _ & He) -> -> Hr. rewrite delivered_snoc. cbn [snd]. destruct b as [|x b].
  - left. by apply (He tr' room []).
  - right. rewrite app_length. cbn [length]. lia.
Qed.
Lemma slice_error : ∃ data tr s, polls (slice_step true) (data, length data) tr s ∧
  ∃ room, tr = [(room, PollOk [])] ∧ 0 < room ∧ delivered tr ≠ data.
Proof.
  exists [1], [(4, PollOk [])], ([1], 1). split.
  - apply (polls_snoc _ _ [] ([1], 1)); [constructor|]. exists OsError. done.
  - exists 4. split_and!; [done|lia|done].
Qed.
Lemma polls_example : ∃ s s',
  polls bytes_step [1; 2; 3] [(2, PollOk [1; 2]); (0, PollOk []); (5, PollOk [3]); (1, PollOk [])] s ∧
  polls (slice_step false) ([1; 2; 3; 9; 9], 3) [(2, PollOk [1; 2]); (4, PollPending); (4, PollOk [3]); (7, PollOk [])] s'.
Proof.
  do 2 eexists. split.
  - eapply (polls_snoc _ _ [_; _; _]). eapply (polls_snoc _ _ [_; _]). eapply (polls_snoc _ _ [_]). eapply (polls_snoc _ _ []). constructor.
    all: eexists; split; [vm_compute; reflexivity|reflexivity].
  - eapply (polls_snoc _ _ [_; _; _]). eapply (polls_snoc _ _ [_; _]). eapply (polls_snoc _ _ [_]). eapply (polls_snoc _ _ []). constructor.
    + exists (OsBytes 2). split_and!; [cbn; lia|done|vm_compute; reflexivity].
    + exists OsPending. split_and!; [done|done|vm_compute; reflexivity].
    + exists (OsBytes 3). split_and!; [cbn; lia|done|vm_compute; reflexivity].
    + exists OsPending. split_and!; [done|done|vm_compute; reflexivity].
Qed.
(** a pointer that is malformed is not read as one *)
Lemma parent_accepts (c : codec) tr s n tr1 tr2 b q : codec_ok c →
  aexec c astore_new tr s → created_once n tr → tr = tr1 ++ IFinalize n :: tr2 → IStored n ∈ tr2 →
  file_written tr1 n parent_type b → as_parent c s n = Ok q → ∃ p t rest, q = Some p ∧ b = t ++ rest ∧ name_text t p ∧ name_ok p.
Proof.
  intros Hc He Ho Ht Hs Hw.
  destruct (archive_files c tr s n tr1 tr2 parent_type Hc He Ho Ht Hs ltac:(unfold parent_type, rollup_type; lia)) as [H1 _].
  unfold as_parent, get_parent, parse_parent. destruct (H1 _ Hw) as ((-> & _) & _). cbn [obind]. case_decide as Hl; [done|].
  destruct (string_to_name (take 40 b)) as [p| |] eqn:E; [|done..]. intros [= <-].
  apply string_to_name_spec in E as [Hn Hok]. exists p, (take 40 b), (drop 40 b). by rewrite take_drop.
Qed.
Lemma text_lines_second s v n ls : text_lines s = v :: n :: ls → ∃ e1 rest, s = v ++ e1 ++ n ++ rest ∧ eol e1 ∧ no_lf v.
Proof.
  intros H. destruct (first_line s) as [Hl|(l & r & -> & Hl)].
  { destruct s; [done|]. by rewrite text_last in H. }
  rewrite text_line in H by done. injection H as Hv H.
  assert (∃ rest, r = n ++ rest) as [rest ->].
  { destruct (first_line r) as [Hr|(l2 & r2 & -> & Hl2)].
    - destruct (decide (r = [])) as [->|Hne]; [done|]. rewrite text_last in H by done. injection H as <- _. exists []. by rewrite app_nil_r.
    - rewrite text_line in H by done. injection H as <- _. destruct (strip_cr_cases l2) as [E|E].
      + exists (10 :: r2). by rewrite <-E.
      + exists (13 :: 10 :: r2). rewrite E at 1. by rewrite <-app_assoc. }
  destruct (strip_cr_cases l) as [E|E]; rewrite Hv in E; subst l.
  - exists [10], rest. split; [done|]. split; [by left|done].
  - exists [13; 10], rest. rewrite <-app_assoc. split; [done|]. split; [by right|]. by apply Forall_app in Hl as [? _].
Qed.
Lemma rollup_accepts (layer d : bytes) q : get_rollup (Some layer) (Some d) = Ok q →
  ∃ n v e ns rest, q = Some n ∧ d = v ++ e ++ ns ++ rest ∧ Forall (λ b, b ≠ 10) v ∧ eol e ∧ name_text ns n ∧ name_ok n.
Proof.
  unfold get_rollup. destruct (text_lines d) as [|v [|ns ls]] eqn:E; [done..|].
  destruct (string_to_name ns) as [n| |] eqn:En; [|done..]. intros [= <-].
  apply string_to_name_spec in En as [Hn Hok]. destruct (text_lines_second _ _ _ _ E) as (e & rest & -> & He & Hv).
  exists n, v, e, ns, rest. done.
Qed.
(** no pointer is written for a layer that is not there *)
Lemma rollup_needs_layer n b d : (name_ok n → rollup_file_sync None (rollup_contents n) = Err NotFound) ∧ rollup_file_sync None b ≠ Ok d.
Proof.
  split.
  - intros Hn. unfold rollup_file_sync, rollup_contents.
    pose proof (version_text 1 ltac:(by unfold u64_max)) as Hv.
    rewrite text_line_eol; [|by apply (number_text_plain 10 _ 1)|by left].
    rewrite text_line_end; [|by eapply name_text_plain, name_to_string_text|by left; left].
    by rewrite (string_to_name_round n Hn).
  - unfold rollup_file_sync. destruct (text_lines b) as [|v [|ns ls]]; [done..|]. by destruct (string_to_name ns).
Qed.
Lemma rollup_round (layer : bytes) n : name_ok n →
  ∃ d, rollup_file_sync (Some layer) (rollup_contents n) = Ok d ∧ get_rollup (Some layer) (Some d) = Ok (Some n) ∧
    ∃ b, rollup_file_map (Some layer) (Some d) = Ok b ∧ read_rollup b = Ok n.
Proof.
  intros Hn. exists (archive_rollup_contents n). split_and!; [by apply rollup_sync_contents|by apply get_rollup_contents|].
  destruct (rollup_map_reads layer n Hn) as (b & H1 & H2 & _). by exists b.
Qed.
Lemma rollup_size_wrong (layer : bytes) n d : name_ok n →
  rollup_file_sync (Some layer) (rollup_contents n) = Ok d →
  rollup_file_size (Some layer) (Some d) = Ok 22 ∧ ∃ b, rollup_file_map (Some layer) (Some d) = Ok b ∧ length b = 42.
Proof.
  intros Hn H. rewrite rollup_sync_contents in H by done. injection H as <-.
  destruct (rollup_map_reads layer n Hn) as (b & H1 & _ & H2). split; [|by exists b].
  unfold rollup_file_size. by rewrite get_rollup_contents.
Qed.
Lemma no_rollup_file (layer rollup : option bytes) : layer = None ∨ rollup = None →
  get_rollup layer rollup = Ok None ∧ rollup_file_exists layer rollup = Ok false ∧ rollup_file_size layer rollup = Err NotFound ∧
  rollup_file_map layer rollup = Err NotFound.
Proof. intros [-> | ->]; [done|]. by destruct layer. Qed.
Lemma never_poisoned (c : codec) tr s : aexec c astore_new tr s →
  (∀ n, ICreate n Panic ∉ tr) → (∀ n, IFinalizePanic n ∉ tr) → as_poisoned s = false.
Proof.
  intros He. induction He as [|tr s1 s2 He IH Hst|tr s1 i s2 He IH Hst]; intros H1 H2.
  - done.
  - specialize (IH H1 H2). inversion Hst; subst; done.
  - assert (as_poisoned s1 = false) as Hp. { apply IH; intros n Hn; [apply (H1 n)|apply (H2 n)]; apply elem_of_app; by left. }
    assert (∀ n, i ≠ ICreate n Panic) as G1. { intros n ->. apply (H1 n), elem_of_app. right. by apply elem_of_list_singleton. }
    assert (∀ n, i ≠ IFinalizePanic n) as G2. { intros n ->. apply (H2 n), elem_of_app. right. by apply elem_of_list_singleton. }
    inversion Hst; subst; try done; exfalso; first [by apply (G1 _ eq_refl)|by apply (G2 _ eq_refl)].
Qed.

(** ** File names *)
Definition types_of (fs : list String.string) : list nat := omap file_type fs.
Fixpoint lookup_inj (fs : list String.string) : bool :=
  match fs with
  | [] => true
  | f :: fs => forallb (λ g, match file_type f, file_type g with
                             | Some i, Some j => negb (Nat.eqb i j)
                             | _, _ => false
                             end) fs && lookup_inj fs
  end.
Lemma lookup_inj_ok fs : lookup_inj fs = true → ∀ f g t, f ∈ fs → g ∈ fs → file_type f = Some t → file_type g = Some t → f = g.
Proof.
  induction fs as [|h fs IH]; [by intros _ f g t ?%elem_of_nil|]. cbn [lookup_inj]. intros [Hh Hr]%andb_prop.
  assert (∀ g t, g ∈ fs → file_type h = Some t → file_type g = Some t → False) as Hx.
  { intros g t Hg E1 E2. rewrite forallb_forall in Hh. specialize (Hh g (proj1 (elem_of_list_In _ _) Hg)). cbv beta in Hh.
    rewrite E1, E2, Nat.eqb_refl in Hh. done. }
  intros f g t [->|Hf]%elem_of_cons [->|Hg]%elem_of_cons E1 E2; [done| | |by eapply IH].
  - exfalso. by eapply Hx.
  - exfalso. by eapply Hx.
Qed.
Lemma file_names_distinct :
  (∀ f g t, f ∈ shared_required_files ++ shared_optional_files ++ base_layer_required_files ++ base_layer_optional_files →
     g ∈ shared_required_files ++ shared_optional_files ++ base_layer_required_files ++ base_layer_optional_files →
     file_type f = Some t → file_type g = Some t → f = g) ∧
  (∀ f g t, f ∈ shared_required_files ++ shared_optional_files ++ child_layer_required_files ++ child_layer_optional_files →
     g ∈ shared_required_files ++ shared_optional_files ++ child_layer_required_files ++ child_layer_optional_files →
     file_type f = Some t → file_type g = Some t → f = g) ∧
  (∀ f, f ∈ shared_required_files ++ shared_optional_files ++ base_layer_required_files ++ base_layer_optional_files ++
            child_layer_required_files ++ child_layer_optional_files → ∃ t, file_type f = Some t ∧ t ≤ rollup_type) ∧
  file_type parent_name = Some parent_type ∧ file_type rollup_name = Some rollup_type.
Proof.
  split; [apply lookup_inj_ok; vm_compute; reflexivity|]. split; [apply lookup_inj_ok; vm_compute; reflexivity|]. split.
  - intros f Hf. assert (forallb (λ f, match file_type f with Some t => Nat.leb t rollup_type | None => false end)
      (shared_required_files ++ shared_optional_files ++ base_layer_required_files ++ base_layer_optional_files ++
            child_layer_required_files ++ child_layer_optional_files) = true) as H by (vm_compute; reflexivity).
    rewrite forallb_forall in H. specialize (H f (proj1 (elem_of_list_In _ _) Hf)). cbv beta in H.
    destruct (file_type f) as [t|]; [|done]. exists t. split; [done|]. by apply Nat.leb_le.
  - split; vm_compute; reflexivity.
Qed.
