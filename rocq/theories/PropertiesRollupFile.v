(** Property C50: what is left when a process stops while it records a rollup, or when another process reads meanwhile.
    Elsewhere (C38, C39) the file of a rollup is written in one step. *)
From Verif Require Import Prelude Succinct TripleFiles Merge Layer Builder Rollup Squash MergeBase Names NamesFacts Archive Spec Store SpecStore
  StoreFacts StoreApi PropertiesLayer PropertiesStore RollupFile RollupFileFacts.

(** ** C50.  Recording a rollup does no harm. *)
(** with complete files, [fresh_load] is what loading a layer without cache does in Store.v *)
Theorem C50_complete cached tr g x : reached cached tr g → (∀ n, is_Some (g_store g !! n) → name_ok n) →
  run [] (g_store g) ∅ (get_layer false x) = Some (fresh_load (dir_rollups (rollup_files rollup_contents (g_store g))) (g_store g) x, g_store g, ∅) ∧
  run [] (g_store g) ∅ (get_layer false x) = Some (fresh_load (archive_rollups (rollup_files archive_rollup_contents (g_store g))) (g_store g) x, g_store g, ∅).
Proof. exact (complete_files cached tr g x). Qed.
Print Assumptions C50_complete.
(** when a call records the rollup [r] of [y] and only a part [b] of the file has been written, then a layer that loads is
    the right one: directory store.  If the file is not truncated first, the old and the new name may be mixed: no layer may
    have the mixed name *)
Theorem C50_directory_right_partial cached tr g y r b x L : reached cached tr g → records g y r → (∀ n, is_Some (g_store g !! n) → name_ok n) →
  cut_off (rollup_contents <$> s_rollup (g_store g) y) (rollup_contents r) b →
  (∀ o k n, s_rollup (g_store g) y = Some o → read_rollup (take k (rollup_contents r) ++ drop k (rollup_contents o)) = Ok n →
    n = r ∨ n = o ∨ g_store g !! n = None) →
  fresh_load (dir_rollups (with_file (rollup_files rollup_contents (g_store g)) y b)) (g_store g) x = Ok (Some L) →
  l_name L = Some x ∧ ∃ c, stored (g_store g) x c ∧ l_parent L = fst <$> c !! 1 ∧ same_answers (layers L) c.*2.
Proof. exact (directory_right cached tr g y r b x L). Qed.
Print Assumptions C50_directory_right_partial.
(** archive store *)
Theorem C50_archive_right_partial cached tr g y r k x L : reached cached tr g → records g y r → (∀ n, is_Some (g_store g !! n) → name_ok n) →
  fresh_load (archive_rollups (with_file (rollup_files archive_rollup_contents (g_store g)) y (take k (archive_rollup_contents r)))) (g_store g) x = Ok (Some L) →
  l_name L = Some x ∧ ∃ c, stored (g_store g) x c ∧ l_parent L = fst <$> c !! 1 ∧ same_answers (layers L) c.*2.
Proof. exact (archive_right cached tr g y r k x L). Qed.
Print Assumptions C50_archive_right_partial.
(** whatever the file contains, the layers that loading leads past it still load *)
Theorem C50_others_load cached tr g y b x c : reached cached tr g → (∀ n, is_Some (g_store g !! n) → name_ok n) →
  stored (g_store g) x c → ¬ rtc (leads (g_store g)) x y →
  (∃ L, fresh_load (dir_rollups (with_file (rollup_files rollup_contents (g_store g)) y b)) (g_store g) x = Ok (Some L) ∧
    l_name L = Some x ∧ l_parent L = fst <$> c !! 1 ∧ same_answers (layers L) c.*2) ∧
  (∃ L, fresh_load (archive_rollups (with_file (rollup_files archive_rollup_contents (g_store g)) y b)) (g_store g) x = Ok (Some L) ∧
    l_name L = Some x ∧ l_parent L = fst <$> c !! 1 ∧ same_answers (layers L) c.*2).
Proof. exact (others_load cached tr g y b x c). Qed.
Print Assumptions C50_others_load.
(** but no others: while fewer bytes are there than the two lines have, the layer does not load, nor do those that lead
    to it (F37) *)
Theorem C50_no_others_load cached tr g y r k x : reached cached tr g → records g y r → (∀ n, is_Some (g_store g !! n) → name_ok n) →
  is_Some (g_store g !! x) → rtc (leads (g_store g)) x y → k < 42 →
  (¬ ∃ o, fresh_load (dir_rollups (with_file (rollup_files rollup_contents (g_store g)) y (take k (rollup_contents r)))) (g_store g) x = Ok o) ∧
  (¬ ∃ o, fresh_load (archive_rollups (with_file (rollup_files archive_rollup_contents (g_store g)) y (take k (archive_rollup_contents r)))) (g_store g) x = Ok o).
Proof. exact (no_others_load cached tr g y r k x). Qed.
Print Assumptions C50_no_others_load.

(** an example: four layers, and a call that rolls up the third *)
Definition rf_calls : list (list lname * scall) := three_layers ++ [([nE], SChild id id nC ex_ops1)].
Lemma rf_ok : Forall (λ nk : list lname * scall, call_ok nk.2) rf_calls.
Proof. apply Forall_app. split; [apply three_ok|]. apply Forall_cons. split; [split; apply id_order|constructor]. Qed.
Definition rf_names (s : store) : bool := forallb (λ n, bool_decide (name_ok n)) (map_to_list s).*1.
Lemma rf_names_ok (s : store) : rf_names s = true → ∀ n, is_Some (s !! n) → name_ok n.
Proof.
  unfold rf_names. rewrite forallb_forall. intros H n [d Hd]. apply (bool_decide_unpack _). rewrite Is_true_true. apply H.
  apply elem_of_list_In, elem_of_list_fmap. exists (n, d). split; [done|]. by apply elem_of_map_to_list.
Qed.
Definition loads_to (o : outcome (option loaded)) : outcome (option (option (list vtriple))) :=
  obind o (λ r, Ok ((λ L : loaded, shown (layers L)) <$> r)).
Definition rf_dir (s : store) (k : nat) := dir_rollups (with_file (rollup_files rollup_contents s) nC (take k (rollup_contents nD))).
Definition rf_archive (s : store) (k : nat) := archive_rollups (with_file (rollup_files archive_rollup_contents s) nC (take k (archive_rollup_contents nD))).
Definition rf_view (s : store) := (rf_names s, (s_rollup s nC, s_rollup s nE), s_parent s nE,
  loads_to (fresh_load (dir_rollups (rollup_files rollup_contents s)) s nC),
  (loads_to (fresh_load (rf_dir s 2) s nC), loads_to (fresh_load (rf_dir s 20) s nE), loads_to (fresh_load (rf_dir s 42) s nC), loads_to (fresh_load (rf_dir s 2) s nB)),
  (loads_to (fresh_load (rf_archive s 2) s nC), loads_to (fresh_load (rf_archive s 2) s nE), loads_to (fresh_load (rf_archive s 43) s nC))).
Lemma rf_state : ∃ tr g T T', reached true tr g ∧ records g nC nD ∧ rf_view (g_store g) =
  (true, (None, None), Some nC, Ok (Some (Some T)), (Err InvalidData, Err OtherError, Ok (Some (Some T)), Ok (Some (Some T'))), (Panic, Panic, Ok (Some (Some T)))).
Proof.
  set (v := match script true rf_calls ∅ ∅ with
    | Some (_, s, c) => match until_rollup [nD] s c (program true (SRollup nC)) with Some (y, r, _, s', _) => Some (y, r, rf_view s') | None => None end
    | None => None end).
  set (T := match v with Some (_, _, (_, _, _, Ok (Some (Some T)), _, _)) => T | _ => [] end).
  set (T' := match v with Some (_, _, (_, _, _, _, (_, _, _, Ok (Some (Some T))), _)) => T | _ => [] end).
  assert (v = Some (nC, nD, (true, (None, None), Some nC, Ok (Some (Some T)), (Err InvalidData, Err OtherError, Ok (Some (Some T)), Ok (Some (Some T'))), (Panic, Panic, Ok (Some (Some T))))))
    as Hv by (vm_compute; reflexivity).
  clearbody T T'. unfold v in Hv. clear v.
  destruct (script true rf_calls ∅ ∅) as [[[rs s] c]|] eqn:Es; [|discriminate Hv].
  destruct (until_rollup [nD] s c (program true (SRollup nC))) as [[[[[y r] p] s'] c']|] eqn:Eu; [|discriminate Hv].
  remember (rf_view s') as w eqn:Ew. injection Hv as -> -> ->.
  destruct (script_records true rf_calls rs s c [nD] (SRollup nC) nC nD p s' c' rf_ok I Es Eu) as (g & H1 & H2 & H3).
  exists (script_trace rf_calls rs ++ [GStart 0 (SRollup nC)]), g, T, T'. split; [exact H1|]. split; [exact H2|]. rewrite H3. symmetry. exact Ew.
Qed.
Lemma rf_loads (o : outcome (option loaded)) T : loads_to o = Ok (Some (Some T)) → ∃ L, o = Ok (Some L) ∧ shown (layers L) = Some T.
Proof. destruct o as [[L|]|e|]; try discriminate 1. intros H. injection H as H. exists L. split; [reflexivity|exact H]. Qed.
Lemma rf_fails (o : outcome (option loaded)) e : loads_to o = Err e → o = Err e.
Proof. destruct o as [[L|]|e'|]; try discriminate 1. intros H. injection H as H. by rewrite H. Qed.
Lemma rf_panics (o : outcome (option loaded)) : loads_to o = Panic → o = Panic.
Proof. destruct o as [[L|]|e'|]; try discriminate 1. done. Qed.
(** a layer that loads, until a call to roll it up stops when two bytes of the rollup file have been written (or twenty:
    its child does not load either).  With the archive store the process panics *)
Theorem C50_refuted : ∃ tr g x y r L, reached true tr g ∧ records g y r ∧ (∀ n, is_Some (g_store g !! n) → name_ok n) ∧ child_of (g_store g) x y ∧
  fresh_load (dir_rollups (rollup_files rollup_contents (g_store g))) (g_store g) y = Ok (Some L) ∧
  fresh_load (dir_rollups (with_file (rollup_files rollup_contents (g_store g)) y (take 2 (rollup_contents r)))) (g_store g) y = Err InvalidData ∧
  fresh_load (dir_rollups (with_file (rollup_files rollup_contents (g_store g)) y (take 20 (rollup_contents r)))) (g_store g) x = Err OtherError ∧
  fresh_load (archive_rollups (with_file (rollup_files archive_rollup_contents (g_store g)) y (take 2 (archive_rollup_contents r)))) (g_store g) y = Panic ∧
  fresh_load (archive_rollups (with_file (rollup_files archive_rollup_contents (g_store g)) y (take 2 (archive_rollup_contents r)))) (g_store g) x = Panic.
Proof.
  destruct rf_state as (tr & g & T & T' & H1 & H2 & H3). unfold rf_view in H3. unfold rf_dir, rf_archive in H3.
  apply pair_equal_spec in H3 as [H3 Ha]. apply pair_equal_spec in H3 as [H3 Hd]. apply pair_equal_spec in H3 as [H3 HL].
  apply pair_equal_spec in H3 as [H3 Hp]. apply pair_equal_spec in H3 as [Hn Hr].
  apply pair_equal_spec in Ha as [Ha _]. apply pair_equal_spec in Ha as [Ha1 Ha2].
  apply pair_equal_spec in Hd as [Hd _]. apply pair_equal_spec in Hd as [Hd _]. apply pair_equal_spec in Hd as [Hd1 Hd2].
  apply rf_loads in HL as (L & HL & _). exists tr, g, nE, nC, nD, L. split; [exact H1|]. split; [exact H2|]. split; [apply rf_names_ok; exact Hn|].
  split; [exact Hp|]. split; [exact HL|]. split; [apply rf_fails; exact Hd1|]. split; [apply rf_fails; exact Hd2|].
  split; [apply rf_panics; exact Ha1|apply rf_panics; exact Ha2].
Qed.
Print Assumptions C50_refuted.
(** the hypotheses of the other theorems are met: a layer that leads to the file, one that does not, and a part of the
    file that is enough *)
Example C50_example : ∃ tr g L L' c, reached true tr g ∧ records g nC nD ∧ (∀ n, is_Some (g_store g !! n) → name_ok n) ∧
  rtc (leads (g_store g)) nE nC ∧ stored (g_store g) nB c ∧ ¬ rtc (leads (g_store g)) nB nC ∧
  cut_off (rollup_contents <$> s_rollup (g_store g) nC) (rollup_contents nD) (take 42 (rollup_contents nD)) ∧
  fresh_load (dir_rollups (with_file (rollup_files rollup_contents (g_store g)) nC (take 42 (rollup_contents nD)))) (g_store g) nC = Ok (Some L) ∧
  fresh_load (dir_rollups (with_file (rollup_files rollup_contents (g_store g)) nC (take 2 (rollup_contents nD)))) (g_store g) nB = Ok (Some L').
Proof.
  destruct rf_state as (tr & g & T & T' & H1 & H2 & H3). unfold rf_view in H3. unfold rf_dir, rf_archive in H3.
  apply pair_equal_spec in H3 as [H3 Ha]. apply pair_equal_spec in H3 as [H3 Hd]. apply pair_equal_spec in H3 as [H3 HL].
  apply pair_equal_spec in H3 as [H3 Hp]. apply pair_equal_spec in H3 as [Hn Hr].
  apply pair_equal_spec in Hd as [Hd Hd4]. apply pair_equal_spec in Hd as [Hd Hd3].
  apply rf_loads in Hd3 as (L & Hd3 & _). apply rf_loads in Hd4 as (L' & Hd4 & _).
  pose proof (rf_names_ok _ Hn) as Hok.
  assert (¬ rtc (leads (g_store g)) nB nC) as Hno.
  { intros Hl. assert (is_Some (g_store g !! nB)) as HB. { unfold fresh_load in Hd4. destruct (g_store g !! nB); [by eexists|discriminate Hd4]. }
    destruct (C50_no_others_load true tr g nC nD 2 nB H1 H2 Hok HB Hl ltac:(lia)) as [K _]. apply K. eexists. exact Hd4. }
  destruct (C50_directory_right_partial true tr g nC nD (take 2 (rollup_contents nD)) nB L' H1 H2 Hok) as (_ & c & Hc & _).
  - apply cut_truncated.
  - intros o k n Ho. apply pair_equal_spec in Hr as [Hr _]. rewrite Hr in Ho. discriminate Ho.
  - exact Hd4.
  - apply pair_equal_spec in Hr as [HrC HrE]. exists tr, g, L, L', c. split; [exact H1|]. split; [exact H2|]. split; [exact Hok|].
    split; [apply rtc_once; right; split; [exact HrE|exact Hp]|]. split; [exact Hc|]. split; [exact Hno|]. split; [apply cut_truncated|].
    split; [exact Hd3|exact Hd4].
Qed.
