(** Packs and the executions of the archive store: which states they start in, which layers can be
    exported, and that importing is a sequence of calls of the store. *)
From Verif Require Import Prelude ListFacts Names NamesFacts FileNames Archive ArchiveFacts ArchiveStore SpecArchive ArchiveStoreFacts ArchiveApi
  Pack SpecPack PackFacts PackImport PackBackends PackApi.

(** ** The states of the archive store *)
Definition archive_sane (s : astore) : Prop :=
  (∀ n, is_Some (as_rollups s !! n) → is_Some (as_disk s !! n)) ∧ constr_ok s ∧ files_apart s.
Lemma sane_step (c : codec) (s : astore) o s' : archive_sane s → astep c s o s' → archive_sane s'.
Proof.
  intros (Hr & Hc & Hi) Hst. split_and!; [| by eapply constr_step|].
  - inversion Hst; subst; cbn [as_rollups as_disk set_constr set_cells set_writes set_disk set_rollups poison restart]; try done.
    + intros n' Hn'. apply lookup_insert_is_Some'. right. by apply Hr.
    + intros n' [y [[<- <-]|[_ Jy]]%lookup_insert_Some]; [|apply Hr; by eexists].
      match goal with H : rollup_file_sync (as_disk s !! n) _ = Ok _ |- _ => rename H into Es end.
      destruct (as_disk s !! n) eqn:Ed; [by eexists|]. exfalso. unfold rollup_file_sync in Es.
      destruct (text_lines b) as [|? [|l ?]]; try done. by destruct (string_to_name l).
  - inversion Hst; subst; try done.
    + intros n1 m1 f1 n2 m2 f2 h. cbn [set_constr as_constr].
      intros [[<- <-]|[_ J1]]%lookup_insert_Some J2; [by rewrite lookup_empty in J2|].
      intros [[<- <-]|[_ J3]]%lookup_insert_Some J4; [by rewrite lookup_empty in J4|by eapply Hi].
    + apply apart_open; [done|done|]. intros n' m' ft' h' J1 J2 ->. destruct (Hc _ _ _ _ J1 J2) as [[y Jy] _]. congruence.
    + intros n1 m1 f1 n2 m2 f2 h. cbn [set_writes set_constr as_constr]. intros [_ J1]%lookup_delete_Some J2 [_ J3]%lookup_delete_Some. by eapply Hi.
Qed.
Lemma sane_exec (c : codec) tr (s : astore) : aexec c astore_new tr s → archive_sane s.
Proof.
  induction 1 as [|tr s1 s2 _ IH Hst|tr s1 i s2 _ IH Hst]; [|by eapply sane_step..].
  split_and!.
  - intros n [y Hy]. cbn in Hy. by rewrite lookup_empty in Hy.
  - intros n m ft h Hy. cbn in Hy. by rewrite lookup_empty in Hy.
  - intros n m ft n' m' ft' h Hy. cbn in Hy. by rewrite lookup_empty in Hy.
Qed.
Lemma exec_good (c : codec) tr (s : astore) : aexec c astore_new tr s → as_poisoned s = false → archive_good s.
Proof. intros He Hp. destruct (sane_exec c tr s He) as (Hr & Hc & Hi). by split_and!. Qed.

(** ** Layers that can be exported *)
Lemma total_sub (l l' : list (nat * bytes)) : NoDup l → (∀ x, x ∈ l → x ∈ l') → total l ≤ total l'.
Proof.
  intros Hn Hs. assert (l ⊆+ l') as (k & Hk)%submseteq_Permutation by (by apply NoDup_submseteq).
  rewrite (total_perm _ _ Hk), total_app. lia.
Qed.
Lemma archive_complete (c : codec) tr (s : astore) (n : lname) tr1 tr2 child : codec_ok c →
  aexec c astore_new tr s → created_once n tr → tr = tr1 ++ IFinalize n :: tr2 → IStored n ∈ tr2 → as_poisoned s = false →
  (∀ f, f ∈ must_have child → ∃ ft b, type_of_name f = Some ft ∧ file_written tr1 n ft b) →
  (child = false → ∀ b, ¬ file_written tr1 n parent_type b) →
  is_child (archive_pls c) s n = child ∧ complete (archive_pls c) s n ∧
  ∀ f ft b, f ∈ may_have child → type_of_name f = Some ft → (shows (archive_pls c) s n f = Some b ↔ file_written tr1 n ft b).
Proof.
  intros Hc He Ho Ht Hs Hp Hm Hb. destruct (stored_archive _ _ _ _ _ _ He Ho Ht Hs) as (L & (Hok & Hin & Hft) & Hcon & Hd).
  assert (∀ f ft, type_of_name f = Some ft → ft < rollup_type →
    (∀ b, file_written tr1 n ft b → p_exists (archive_pls c) s n f = Ok true ∧ p_map (archive_pls c) s n f = Ok b ∧ p_size (archive_pls c) s n f = Ok (length b)) ∧
    ((∀ b, ¬ file_written tr1 n ft b) → p_exists (archive_pls c) s n f = Ok false)) as Hf.
  { intros f ft Et Hr. destruct (archive_files c tr s n tr1 tr2 ft Hc He Ho Ht Hs Hr) as [H1 H2].
    cbn [archive_pls p_exists p_map p_size]. unfold ap_exists, ap_map, ap_size, typed. rewrite Et, !decide_False by lia. unfold locked. rewrite Hp.
    split.
    - intros b Hw. destruct (H1 b Hw) as (_ & H3 & H4). split_and!; [done|done|]. unfold as_size. rewrite decide_False by lia.
      rewrite Hcon, Hd. apply size_present; [done|done|by apply Hin].
    - intros Hw. by destruct (H2 Hw) as (_ & _ & H4). }
  assert (∀ ft, (∃ b, file_written tr1 n ft b) ∨ (∀ b, ¬ file_written tr1 n ft b)) as Hdec.
  { intros ft. destruct (decide (ft ∈ L.*1)) as [Hl|Hl].
    - left. apply elem_of_list_fmap in Hl as ([ft' b] & -> & Hx). exists b. by apply Hin.
    - right. intros b Hw%Hin. apply Hl, elem_of_list_fmap. by exists (ft, b). }
  assert (is_child (archive_pls c) s n = child) as Ec.
  { unfold is_child. destruct (Hf parent_file parent_type parent_typed ltac:(unfold parent_type, rollup_type; lia)) as [H1 H2]. destruct child.
    - apply bool_decide_eq_true. destruct (Hm parent_file) as (ft & b & Et & Hw).
      { unfold must_have, file_names. rewrite fmap_app. apply elem_of_app. right. left. }
      rewrite parent_typed in Et. injection Et as <-. by apply (H1 b).
    - apply bool_decide_eq_false. rewrite H2 by (by apply Hb). done. }
  assert (∀ f ft b, f ∈ may_have child → type_of_name f = Some ft → (shows (archive_pls c) s n f = Some b ↔ file_written tr1 n ft b)) as Hsh.
  { intros f ft b Hmay Et. destruct (may_have_typed _ _ Hmay) as (ft' & Et' & Hlt). rewrite Et in Et'. injection Et' as <-.
    destruct (Hf f ft Et Hlt) as [H1 H2]. unfold shows. split.
    - destruct (Hdec ft) as [[b' Hw]|Hw]; [|by rewrite H2].
      destruct (H1 b' Hw) as (-> & -> & _). by intros [= <-].
    - intros Hw. by destruct (H1 b Hw) as (-> & -> & _). }
  split; [done|]. split; [|done]. unfold complete. rewrite Ec. split_and!.
  - destruct (Hf parent_file parent_type parent_typed ltac:(unfold parent_type, rollup_type; lia)) as [H1 H2].
    destruct (Hdec parent_type) as [[b Hw]|Hw]; [exists true; by apply (H1 b)|exists false; by apply H2].
  - intros f Hmay. destruct (may_have_typed _ _ Hmay) as (ft & Et & Hlt). destruct (Hf f ft Et Hlt) as [H1 H2].
    destruct (Hdec ft) as [[b Hw]|Hw]; [right; exists b; by apply H1|left; by apply H2].
  - intros f Hf'. destruct (Hm f Hf') as (ft & b & Et & Hw). exists b. apply (Hsh f ft b); [by apply must_may|done|done].
  - destruct Hok as (Hnd & _ & Htot).
    assert (sum_list (length <$> omap (shows (archive_pls c) s n) (may_have child)) =
            total ((λ p, (default 0 (type_of_name p.1), p.2)) <$> shown_files (shows (archive_pls c) s n) (may_have child))) as ->.
    { rewrite (total_pairs (shown_files _ _) (λ p, default 0 (type_of_name p.1))). f_equal. f_equal.
      generalize (may_have child). intros l0. induction l0 as [|f l IH]; [done|]. rewrite shown_files_cons. cbn [omap list_omap].
      destruct (shows (archive_pls c) s n f); [|exact IH]. rewrite !fmap_cons. cbn [snd]. f_equal. exact IH. }
    enough (total ((λ p, (default 0 (type_of_name p.1), p.2)) <$> shown_files (shows (archive_pls c) s n) (may_have child)) ≤ total L) by lia.
    apply total_sub.
    + apply NoDup_fmap_2_strong; [|eapply NoDup_fmap_1; apply (shown_nodup _ _ (may_have_nodup child))].
      intros [f b] [g d] [Hf1 _]%elem_shown [Hg1 _]%elem_shown. cbn [fst snd]. intros [= Et ->].
      destruct (may_have_typed _ _ Hf1) as (ft & Ef & _), (may_have_typed _ _ Hg1) as (gt & Eg & _).
      rewrite Ef, Eg in Et. cbn [default id] in Et. subst gt. f_equal. apply (types_inj child); [done|done|congruence].
    + intros x ([f b] & -> & [Hf1 Hs1]%elem_shown)%elem_of_list_fmap. cbn [fst snd].
      destruct (may_have_typed _ _ Hf1) as (ft & Ef & _). rewrite Ef. cbn [default id]. apply Hin. by apply (Hsh f ft b).
Qed.

(** ** Importing is a sequence of calls *)
Lemma aexec_one (c : codec) (s : astore) i s' : astep c s (Some i) s' → aexec c s [i] s'.
Proof. intros H. apply (ae_item c s [] s i s'); [constructor|done]. Qed.
Lemma create_exec (c : codec) (s : astore) (n : lname) r s' : ap_create s n = (r, s') → aexec c s [ICreate n r] s'.
Proof.
  unfold ap_create. destruct (as_disk s !! n) eqn:Ed; [intros [= <- <-]|destruct (as_poisoned s) eqn:Ep;
    [intros [= <- <-]|destruct (as_constr s !! n) eqn:Ec; intros [= <- <-]]]; apply aexec_one.
  - apply a_create_exists. by eexists.
  - apply a_create_under; [done|by left].
  - apply a_create_under; [done|right; by eexists].
  - by apply a_create.
Qed.
Lemma cell_exec (c : codec) (s : astore) h b r s' : write_cell s h b = (r, s') → ∃ tr, aexec c s tr s'.
Proof.
  unfold write_cell. destruct (as_cells s !! h) as [x|] eqn:Ex; [|intros [= <- <-]; eexists; constructor].
  destruct (cfile_write x b) as [x1|k|] eqn:E1; cbn [obind].
  2-3: intros [= <- <-]; eexists; constructor.
  destruct (cfile_sync x1) as [x2|k|] eqn:E2.
  2-3: intros [= <- <-]; eexists; constructor.
  intros [= <- <-]. exists ([IWrite h b (Ok tt)] ++ [ISync h (Ok tt)]).
  eapply aexec_trans; [apply aexec_one; by eapply a_write|].
  apply aexec_one.
  set (s1 := set_cells s (<[h := x1]> (as_cells s))).
  replace (set_cells s (<[h:=x2]> (as_cells s))) with (set_cells s1 (<[h:=x2]> (as_cells s1)))
    by (unfold s1; cbn [set_cells as_cells]; by rewrite insert_insert).
  apply (a_sync c s1 h x1 x2); [|done]. unfold s1. cbn [set_cells as_cells]. by rewrite lookup_insert.
Qed.
Lemma write_exec (c : codec) (s : astore) (n : lname) f b r s' : ap_write s n f b = (r, s') → ∃ tr, aexec c s tr s'.
Proof.
  unfold ap_write. destruct (type_of_name f) as [ft|] eqn:Et; [|intros [= <- <-]; eexists; constructor]. apply type_bound in Et.
  case_decide as Eft.
  - destruct (rollup_file_sync (as_disk s !! n) b) as [d|k|] eqn:Es; intros [= <- <-].
    + eexists. apply aexec_one. by eapply a_rollup.
    + eexists. constructor.
    + eexists. constructor.
  - destruct (as_poisoned s) eqn:Ep; [intros [= <- <-]; eexists; constructor|].
    destruct (as_constr s !! n) as [m|] eqn:Em; [|intros [= <- <-]; eexists; constructor].
    destruct (m !! ft) as [h|] eqn:Eh; [apply cell_exec|].
    set (h := fresh _). intros Hw. destruct (cell_exec c _ _ _ _ _ Hw) as [tr Htr]. eexists. eapply aexec_trans; [|exact Htr].
    apply aexec_one. apply a_open_new; [done|done|done|lia|]. apply (not_elem_of_dom (D := gset nat)). apply is_fresh.
Qed.
Lemma finalize_exec (c : codec) (s : astore) (n : lname) s' : ap_finalize c s n = (Ok tt, s') → aexec c s [IFinalize n; IStored n] s'.
Proof.
  unfold ap_finalize. destruct (as_poisoned s) eqn:Ep; [done|]. destruct (as_constr s !! n) as [m|] eqn:Em; [|done].
  case_decide as Hs; [|done]. intros [= <-]. set (fs := finalized_files (as_cells s) m) in *.
  set (t := fresh (dom (D := gset nat) (as_writes s))).
  assert (as_writes s !! t = None) as Ht. { apply (not_elem_of_dom (D := gset nat)). apply is_fresh. }
  change [IFinalize n; IStored n] with ([IFinalize n] ++ [IStored n]).
  eapply aexec_trans.
  { eapply ae_tau; [apply aexec_one; by apply (a_finalize c s n m t)|]. fold fs.
    apply (a_chunk c _ t n 0 (archive_bytes c fs) (length (archive_bytes c fs))); [|done]. cbn [set_writes as_writes]. by rewrite lookup_insert. }
  apply aexec_one.
  set (s1 := set_writes (set_constr s (delete n (as_constr s))) (<[t:=(n, 0, archive_bytes c fs)]> (as_writes s))).
  set (s2 := set_writes (set_disk s1 _) _).
  replace (set_disk (set_constr s (delete n (as_constr s))) (<[n:=write_at (default [] (as_disk s !! n)) 0 (archive_bytes c fs)]> (as_disk s)))
    with (set_writes s2 (delete t (as_writes s2))).
  - eapply (a_stored c s2 t n). unfold s2. cbn [set_writes set_disk as_writes]. rewrite lookup_insert. by rewrite drop_all.
  - unfold s2, s1. cbn [set_writes set_disk set_constr as_writes as_disk as_constr as_rollups as_cells as_poisoned].
    rewrite firstn_all. rewrite !insert_insert, delete_insert by done. done.
Qed.
Lemma each_exec (c : codec) {A} (f : astore → A → outcome unit * astore) :
  (∀ s x r s', f s x = (r, s') → r ≠ Panic → ∃ tr, aexec c s tr s') →
  ∀ l s r s', each f s l = (r, s') → r ≠ Panic → ∃ tr, aexec c s tr s'.
Proof.
  intros Hf. induction l as [|x l IH]; intros s r s'; cbn [each]; [intros [= <- <-] _; eexists; constructor|].
  destruct (f s x) as [[u|k|] s1] eqn:E.
  - intros H Hr. destruct (Hf _ _ _ _ E ltac:(done)) as [tr1 H1]. destruct (IH _ _ _ H Hr) as [tr2 H2]. eexists. by eapply aexec_trans.
  - intros [= <- <-] Hr. by eapply Hf.
  - by intros [= <- <-].
Qed.
Lemma import_exec (c : codec) (tc : tar_codec) (s : astore) pack ids order r s' :
  import_layers (archive_pls c) tc s pack ids order = (r, s') → r ≠ Panic → ∃ tr, aexec c s tr s'.
Proof.
  unfold import_layers, import_entries. cbn [archive_pls p_create p_finalize].
  assert (∀ l s r s', each ap_create s l = (r, s') → r ≠ Panic → ∃ tr, aexec c s tr s') as H1.
  { apply each_exec. intros s0 x r0 s0' E _. eexists. by apply create_exec. }
  assert (∀ l s r s', each (ap_finalize c) s l = (r, s') → r ≠ Panic → ∃ tr, aexec c s tr s') as H2.
  { apply each_exec. intros s0 x r0 s0' E Hr. eexists. apply finalize_exec. destruct r0 as [[]|k|]; [done| |done]. exfalso.
    unfold ap_finalize in E. destruct (as_poisoned s0), (as_constr s0 !! x); try done. by case_decide. }
  assert (∀ l s r s', each (import_entry (archive_pls c) (name_to_string <$> ids)) s l = (r, s') → r ≠ Panic → ∃ tr, aexec c s tr s') as H3.
  { apply each_exec. intros s0 x r0 s0' E Hr. unfold import_entry in E. destruct x as [e|k|].
    2-3: injection E as <- <-; eexists; constructor.
    destruct (file_name (e_path e)) as [[f|]|].
    2-3: injection E as <- <-; eexists; constructor.
    case_decide; [|injection E as <- <-; eexists; constructor].
    destruct (string_to_name _).
    2-3: injection E as <- <-; eexists; constructor.
    destruct (e_file e); [by eapply write_exec|injection E as <- <-; eexists; constructor]. }
  destruct (each ap_create s ids) as [[u|k|] s1] eqn:E1.
  2-3: intros [= <- <-] Hr; by eapply H1.
  destruct (H1 _ _ _ _ E1 ltac:(done)) as [t1 G1].
  destruct (each (import_entry _ _) s1 _) as [[u2|k|] s2] eqn:E2.
  2:{ intros [= <- <-] Hr. destruct (H3 _ _ _ _ E2 Hr) as [t2 G2]. eexists. by eapply aexec_trans. }
  2:{ by intros [= <- <-]. }
  destruct (H3 _ _ _ _ E2 ltac:(done)) as [t2 G2]. intros E3 Hr. destruct (H2 _ _ _ _ E3 Hr) as [t3 G3].
  eexists. eapply aexec_trans; [exact G1|]. by eapply aexec_trans.
Qed.

(** ** Importing into an archive store what is there already *)
Lemma archive_again (c : codec) (tc : tar_codec) (s : astore) pack n ids order : is_Some (as_disk s !! n) →
  import_layers (archive_pls c) tc s pack (n :: ids) order = (Panic, s).
Proof. intros [d Hd]. unfold import_layers, import_entries. cbn [each archive_pls p_create]. unfold ap_create. by rewrite Hd. Qed.
(** or what an import that failed has left *)
Lemma archive_retry (c : codec) (tc : tar_codec) (s : astore) pack n ids order : as_disk s !! n = None → is_Some (as_constr s !! n) →
  import_layers (archive_pls c) tc s pack (n :: ids) order = (Panic, poison s).
Proof.
  intros Hd [m Hm]. unfold import_layers, import_entries. cbn [each archive_pls p_create]. unfold ap_create.
  rewrite Hd, Hm. by destruct (as_poisoned s).
Qed.
Lemma create_all_constr (ids : list lname) : ∀ (s s' : astore), each ap_create s ids = (Ok tt, s') →
  (∀ n, n ∈ ids → is_Some (as_constr s' !! n) ∧ as_disk s' !! n = None) ∧ (∀ n, is_Some (as_constr s !! n) → is_Some (as_constr s' !! n)) ∧
  as_disk s' = as_disk s.
Proof.
  induction ids as [|x ids IH]; intros s s'; cbn [each].
  - intros [= <-]. split_and!; [by intros n ?%elem_of_nil|done|done].
  - destruct (ap_create s x) as [[u|k|] s1] eqn:E; [|done|done]. intros H. destruct (IH _ _ H) as (H1 & H2 & H3).
    unfold ap_create in E. destruct (as_disk s !! x) eqn:Ed; [done|]. destruct (as_poisoned s); [done|]. destruct (as_constr s !! x); [done|].
    injection E as _ <-. cbn [set_constr as_constr as_disk] in *. split_and!; [|intros n Hn; apply H2, lookup_insert_is_Some'; by right|done].
    intros n [->|Hn]%elem_of_cons; [|by apply H1]. split; [apply H2; rewrite lookup_insert; by eexists|]. by rewrite H3.
Qed.
Lemma failed_import (c : codec) (tc tc' : tar_codec) (s : astore) pack pack' n ids order k s1 rest order' :
  tc_read tc pack = Err k :: rest → import_layers (archive_pls c) tc s pack (n :: ids) order = (Err k, s1) →
  ∃ s2, import_layers (archive_pls c) tc' s1 pack' (n :: ids) order' = (Panic, s2) ∧ as_poisoned s2 = true.
Proof.
  intros Hp. unfold import_layers at 1, import_entries. rewrite Hp. cbn [archive_pls p_create].
  destruct (each ap_create s (n :: ids)) as [[[]|j|] s0] eqn:E.
  - cbn [each import_entry]. intros [= <-]. destruct (create_all_constr _ _ _ E) as (H1 & _ & _). destruct (H1 n ltac:(left)) as [Hc Hd].
    exists (poison s0). split; [by apply archive_retry|done].
  - exfalso. clear -E. revert s E. generalize (n :: ids). intros l. induction l as [|x l IH]; intros s E; cbn [each] in E; [done|].
    destruct (ap_create s x) as [[u|j'|] s1] eqn:Ec; [by eapply IH| |done]. unfold ap_create in Ec.
    destruct (as_disk s !! x); [done|]. destruct (as_poisoned s); [done|]. by destruct (as_constr s !! x).
  - done.
Qed.
Lemma poisoned_calls (c : codec) (s : astore) n f : as_poisoned s = true → p_dir (archive_pls c) s n = Panic ∧ (p_create (archive_pls c) s n).1 = Panic ∧
  (f ∈ may_have true ++ may_have false → p_exists (archive_pls c) s n f = Panic).
Proof.
  intros Hp. cbn [archive_pls p_dir p_create p_exists]. unfold ap_dir, ap_create, ap_exists, typed, locked. rewrite Hp. split_and!; [done|by destruct (as_disk s !! n)|].
  intros Hf. assert (∃ ft, type_of_name f = Some ft ∧ ft < rollup_type) as (ft & -> & Hft).
  { apply elem_of_app in Hf as [Hf|Hf]; by apply may_have_typed in Hf. }
  by rewrite decide_False by lia.
Qed.

(** ** Layers of the other stores that can be exported *)
Definition file_like (st : pls (gmap (list N) (gmap (list nat) (list nat)))) : Prop :=
  (∀ s n f, p_exists st s n f = Ok (bool_decide (is_Some (f_look s n f)))) ∧ (∀ s n f, p_map st s n f = found (f_look s n f)) ∧
  (∀ s n f, p_size st s n f = found (length <$> f_look s n f)) ∧ (∀ s n, p_dir st s n = Ok (bool_decide (is_Some (s !! n)))).
Lemma memory_like : file_like memory_pls.
Proof. by split_and!. Qed.
Lemma directory_like over : file_like (directory_pls over).
Proof. by split_and!. Qed.
Lemma like_shows st s n f : file_like st → shows st s n f = f_look s n f.
Proof.
  intros (H1 & H2 & _). unfold shows. rewrite H1, H2. destruct (f_look s n f) as [b|].
  - rewrite bool_decide_eq_true_2 by (by eexists). done.
  - rewrite bool_decide_eq_false_2; [done|]. by intros [??].
Qed.
Lemma like_child st s n : file_like st → is_child st s n = bool_decide (is_Some (f_look s n parent_file)).
Proof.
  intros (H1 & _). unfold is_child. rewrite H1. apply bool_decide_ext. split.
  - intros [= H]. by apply bool_decide_eq_true in H.
  - intros H. by rewrite bool_decide_eq_true_2.
Qed.
Lemma like_complete (st : pls (gmap (list N) (gmap (list nat) (list nat)))) (s : gmap (list N) (gmap (list nat) (list nat))) (n : lname) (m : gmap (list nat) (list nat)) (child : bool) : file_like st → s !! n = Some m → child = bool_decide (is_Some (m !! parent_file)) →
  (∀ f, f ∈ must_have child → is_Some (m !! f)) →
  (N.of_nat (sum_list (length <$> omap (m !!.) (may_have child))) ≤ u64_max)%N → complete st s n.
Proof.
  intros Hst Hn Hch Hm Ht. pose proof Hst as (H1 & H2 & H3 & _).
  assert (∀ f, f_look s n f = m !! f) as El. { intros f. unfold f_look. by rewrite Hn. }
  assert (is_child st s n = child) as Ec. { rewrite like_child by done. by rewrite El, Hch. }
  split_and!; rewrite ?Ec.
  - eexists. apply H1.
  - intros f _. unfold readable. rewrite H1, H2, H3, El. destruct (m !! f) as [b|].
    + right. exists b. by rewrite bool_decide_eq_true_2 by (by eexists).
    + left. rewrite bool_decide_eq_false_2; [done|]. by intros [??].
  - intros f Hf. rewrite like_shows, El by done. by apply Hm.
  - rewrite (omap_ext_in _ (m !!.)); [done|]. intros f _. rewrite like_shows by done. apply El.
Qed.

(** ** Importing into a memory store what is there already: the old files are gone *)
Lemma memory_create_all (ids : list lname) (s : gmap (list N) (gmap (list nat) (list nat))) : ∃ s', each (p_create memory_pls) s ids = (Ok tt, s') ∧ ∀ n, n ∈ ids → s' !! n = Some ∅.
Proof.
  revert s. induction ids as [|x ids IH]; intros s; [exists s; split; [done|]; by intros n ?%elem_of_nil|]. cbn [each memory_pls p_create].
  destruct (IH (<[x := ∅]> s)) as (s' & E & H). exists s'. split; [done|]. intros n [->|Hn]%elem_of_cons; [|by apply H].
  destruct (decide (x ∈ ids)) as [Hx|Hx]; [by apply H|]. 
  assert (∀ l s s', each (p_create memory_pls) s l = (Ok tt, s') → x ∉ l → s' !! x = s !! x) as Hk.
  { induction l as [|y l IHl]; intros s0 s0'; [by intros [= <-]|]. cbn [each memory_pls p_create]. intros E0 Hn0.
    rewrite not_elem_of_cons in Hn0. rewrite (IHl _ _ E0) by tauto. apply lookup_insert_ne. naive_solver. }
  rewrite (Hk _ _ _ E Hx). apply lookup_insert.
Qed.
Lemma memory_again (tc : tar_codec) s pack ids order k rest : tc_read tc pack = Err k :: rest →
  ∃ s', import_layers memory_pls tc s pack ids order = (Err k, s') ∧ ∀ n f, n ∈ ids → shows memory_pls s' n f = None.
Proof.
  intros Hp. unfold import_layers, import_entries. destruct (memory_create_all ids s) as (s' & -> & H). rewrite Hp. cbn [each import_entry].
  exists s'. split; [done|]. intros n f Hn. rewrite like_shows by apply memory_like. unfold f_look. rewrite H by done. apply lookup_empty.
Qed.

(** ** Importing into a directory what is there already, with the same files: nothing changes *)
Lemma directory_again (over : bytes → bytes → bytes) (tc : tar_codec) {S} (st : pls S) (a : S) (s : gmap (list N) (gmap (list nat) (list nat))) pack (ids exp order : list lname) : (∀ b : bytes, over b b = b) → tar_ok tc →
  Forall name_ok ids → Forall name_ok exp → import_order ids order → (∀ n, n ∈ exp → complete st a n) → export_layers st tc a exp = Ok pack →
  (∀ n, n ∈ ids → is_Some (s !! n)) →
  (∀ n f b, n ∈ ids → n ∈ exp → f ∈ may_have (is_child st a n) → shows st a n f = Some b → shows (directory_pls over) s n f = Some b) →
  import_layers (directory_pls over) tc s pack ids order = (Ok tt, s).
Proof.
  intros Hov Ht Hi He [_ Ho] Hc Hp Hd Hs. destruct (export_pack st tc a exp Ht He Hc) as (pack' & E & Hr). rewrite Hp in E. injection E as <-.
  unfold import_layers, import_entries. rewrite Hr.
  assert (∀ l, (∀ n, n ∈ l → is_Some (s !! n)) → each (p_create (directory_pls over)) s l = (Ok tt, s)) as H1.
  { induction l as [|x l IH]; intros Hl; [done|]. cbn [each directory_pls p_create]. destruct (Hl x ltac:(left)) as [m Hm].
    rewrite Hm. cbn [default id]. rewrite insert_id by done. apply IH. intros; apply Hl; by right. }
  assert (∀ l, (∀ n, n ∈ l → is_Some (s !! n)) → each (p_finalize (directory_pls over)) s l = (Ok tt, s)) as H2.
  { induction l as [|x l IH]; intros Hl; [done|]. cbn [each directory_pls p_finalize]. destruct (Hl x ltac:(left)) as [m ->].
    apply IH. intros; apply Hl; by right. }
  rewrite H1 by done.
  assert (each (import_entry (directory_pls over) (name_to_string <$> ids)) s
    (Ok <$> mjoin ((λ n, layer_entries (shows st a n) (is_child st a n) n) <$> exp)) = (Ok tt, s)) as ->; [|apply H2; intros n ?%Ho; by apply Hd].
  clear H1 H2 Hr Hp. induction exp as [|x exp IH]; [done|]. apply Forall_cons in He as [Hx He].
  rewrite fmap_cons. change (mjoin (?a :: ?b)) with (a ++ mjoin b). rewrite fmap_app.
  rewrite (each_app _ s _ _ s); [apply IH; [done|intros; apply Hc; by right|intros; eapply Hs; eauto; by right]|].
  destruct (decide (name_to_string x ∈ name_to_string <$> ids)) as [Hin|Hin]; [|by apply skip_layer].
  assert (x ∈ ids) as Hxi.
  { apply elem_of_list_fmap in Hin as (y & Ey & Hy). apply name_to_string_inj in Ey as ->; [done|done|by eapply Forall_forall in Hi]. }
  destruct (Hd x Hxi) as [m Hm].
  unfold layer_entries. rewrite fmap_cons. cbn [each]. unfold import_entry at 1. cbn [dir_entry e_path file_name last head e_file].
  cbn [mbind option_bind component_text default id]. rewrite decide_True, string_to_name_round by done.
  assert (∀ fs, (∀ f b, (f, b) ∈ fs → m !! f = Some b) → each (import_entry (directory_pls over) (name_to_string <$> ids)) s (Ok <$> (data_entry x <$> fs)) = (Ok tt, s)) as Hw.
  { induction fs as [|[f b] fs IHf]; intros Hf; [done|]. rewrite !fmap_cons. cbn [each]. unfold import_entry at 1.
    cbn [data_entry e_path file_name last head fst snd e_file e_data]. cbn [mbind option_bind component_text default id].
    rewrite decide_True, string_to_name_round by done. cbn [directory_pls p_write]. rewrite Hm. rewrite (Hf f b) by left.
    rewrite Hov, (insert_id m f b) by (apply Hf; left). rewrite insert_id by done. apply IHf. intros; apply Hf; by right. }
  apply Hw. intros f b [Hf Hb]%elem_shown.
  assert (x ∈ x :: exp) as Hxx by left. pose proof (Hs x f b Hxi Hxx Hf Hb) as Hsh. rewrite like_shows in Hsh by apply directory_like.
  unfold f_look in Hsh. by rewrite Hm in Hsh.
Qed.
