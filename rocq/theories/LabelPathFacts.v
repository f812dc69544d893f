(** Label names as file names. *)
From Verif Require Import Prelude Names SpecText NamesFacts LabelSeq LabelConc LabelSpec LabelSeqFacts LabelPath SpecLabelPath.

Lemma suffix_end n : drop (length (n ++ label_suffix) - 6) (n ++ label_suffix) = label_suffix.
Proof. rewrite app_length. change (length label_suffix) with 6. rewrite Nat.add_sub. apply drop_app. Qed.
Lemma suffix_stem n : n ≠ [] → stem (n ++ label_suffix) = n.
Proof.
  intros H. unfold stem. rewrite app_length. change (length label_suffix) with 6. rewrite Nat.add_sub, take_app. by destruct n.
Qed.
Lemma split_plain s : 47 ∉ s → split_last s = ([], s).
Proof.
  induction s as [|b s IH]; [done|]. intros [H1 H2]%not_elem_of_cons. cbn [split_last]. rewrite IH by done.
  rewrite decide_False by congruence. done.
Qed.
Lemma split_name n : 47 ∉ n → split_last (n ++ label_suffix) = ([], n ++ label_suffix).
Proof. intros H. apply split_plain. rewrite elem_of_app. intros [?|Hx]; [done|]. unfold label_suffix in Hx. set_solver. Qed.
Lemma plain_file fs root n : plain_name n → label_file fs root n = Ok (own_file root n).
Proof.
  intros (H1 & H2 & H3 & H4). unfold label_file. rewrite decide_False by done. rewrite split_name by done.
  assert ((match n with 47 :: _ => [] | _ => root end) = root) as ->.
  { destruct n as [|b n]; [done|]. destruct (decide (b = 47)) as [->|]; [set_solver|].
    do 47 (destruct b as [|b]; [done|]). destruct b; done. }
  cbn [follow obind]. rewrite decide_False; [done|]. rewrite app_length. change (length label_suffix) with 6. lia.
Qed.
Lemma plain_read n : plain_name n → read_name n = n.
Proof. intros (H1 & H2 & _). unfold read_name. rewrite split_name by done. by apply suffix_stem. Qed.
Lemma own_inj root n n' : own_file root n = own_file root n' → n = n'.
Proof. unfold own_file. intros H%app_inv_head. injection H as H. by apply app_inv_tail in H. Qed.

Record path_rel (root : list bytes) (fs : fsys) (m : gmap (list nat) label) : Prop := {
  pr_label (n : bytes) l : m !! n = Some l → plain_name n ∧ ∃ d, fs_files fs !! own_file root n = Some d ∧ get_label_from_data n d = Ok l;
  pr_file (f : bytes) : drop (length f - 6) f = label_suffix → root ++ [f] ∉ fs_dirs fs ∧
    ∀ d, fs_files fs !! (root ++ [f]) = Some d → ∃ n l, f = n ++ label_suffix ∧ m !! n = Some l }.

Lemma rel_absent root fs m n : path_rel root fs m → m !! n = None → fs_files fs !! own_file root n = None.
Proof.
  intros HR Hm. destruct (fs_files fs !! own_file root n) as [d|] eqn:E; [|done].
  destruct (pr_file _ _ _ HR (n ++ label_suffix) (suffix_end n)) as [_ Hx]. destruct (Hx d E) as (n' & l & H1 & H2).
  apply app_inv_tail in H1. congruence.
Qed.
Lemma rel_no_dir root fs m n : path_rel root fs m → own_file root n ∉ fs_dirs fs.
Proof. intros HR. by destruct (pr_file _ _ _ HR (n ++ label_suffix) (suffix_end n)). Qed.
Lemma rel_put root fs m n d l : path_rel root fs m → plain_name n → get_label_from_data n d = Ok l →
  path_rel root (put_file fs (own_file root n) d) (<[n := l]> m).
Proof.
  intros HR Hn Hd. split; cbn [put_file fs_files fs_dirs].
  - intros n' l' H. destruct (decide (n' = n)) as [->|Hne].
    + rewrite lookup_insert in H. injection H as <-. split; [done|]. exists d. by rewrite lookup_insert.
    + rewrite lookup_insert_ne in H by done. rewrite lookup_insert_ne by (intros E%own_inj; done). by apply (pr_label _ _ _ HR).
  - intros f Hf. destruct (pr_file _ _ _ HR f Hf) as [H1 H2]. split; [done|]. intros d' H.
    destruct (decide (f = n ++ label_suffix)) as [->|Hne].
    + exists n, l. by rewrite lookup_insert.
    + rewrite lookup_insert_ne in H by (unfold own_file; intros E%app_inv_head; congruence). destruct (H2 d' H) as (n' & l' & -> & H3).
      exists n', l'. split; [done|]. rewrite lookup_insert_ne; [done|]. intros ->. done.
Qed.
Lemma rel_delete root fs m n : path_rel root fs m → path_rel root (FS (fs_dirs fs) (delete (own_file root n) (fs_files fs))) (delete n m).
Proof.
  intros HR. split; cbn [fs_files fs_dirs].
  - intros n' l' H. destruct (decide (n' = n)) as [->|Hne]; [by rewrite lookup_delete in H|].
    rewrite lookup_delete_ne in H by done. rewrite lookup_delete_ne by (intros E%own_inj; done). by apply (pr_label _ _ _ HR).
  - intros f Hf. destruct (pr_file _ _ _ HR f Hf) as [H1 H2]. split; [done|]. intros d' H.
    apply lookup_delete_Some in H as [Hne H]. destruct (H2 d' H) as (n' & l' & -> & H3). exists n', l'. split; [done|].
    apply lookup_delete_Some. split; [|done]. intros ->. by apply Hne.
Qed.

(** ** listing *)
Lemma omap_nodup {A B} (f : A → option B) (l : list A) :
  (∀ x y z, x ∈ l → y ∈ l → f x = Some z → f y = Some z → x = y) → NoDup l → NoDup (omap f l).
Proof.
  induction l as [|x l IH]; intros Hf Hl; [constructor|]. apply NoDup_cons in Hl as [Hx Hl]. cbn.
  assert (NoDup (omap f l)) as H by (apply IH; [|done]; intros a b c ? ?; apply Hf; by right).
  destruct (f x) as [z|] eqn:E; [|done]. apply NoDup_cons. split; [|done]. intros (y & Hy & Ey)%elem_of_list_omap.
  apply Hx. rewrite (Hf x y z); [done|by left|by right|done|done].
Qed.
Lemma label_files_in root fs m (n d : list nat) : path_rel root fs m →
  (n, d) ∈ label_files fs root ↔ ∃ l, m !! n = Some l ∧ fs_files fs !! own_file root n = Some d.
Proof.
  intros HR. unfold label_files. rewrite elem_of_list_omap. split.
  - intros ([p d'] & H1 & H2). apply elem_of_map_to_list in H1. cbn [fst snd] in H2. destruct (last p) as [f|] eqn:El; [|done].
    case_decide as Hd; [|done]. destruct Hd as [-> Hs]. injection H2 as <- <-.
    destruct (pr_file _ _ _ HR f Hs) as [_ Hx]. destruct (Hx _ H1) as (n' & l & -> & Hm). destruct (pr_label _ _ _ HR _ _ Hm) as [(Hn & _) _].
    rewrite suffix_stem by done. by exists l.
  - intros (l & Hm & Hf). destruct (pr_label _ _ _ HR _ _ Hm) as [(Hn & _) _]. exists (own_file root n, d). split; [by apply elem_of_map_to_list|].
    cbn [fst snd]. unfold own_file at 1. rewrite last_snoc. rewrite decide_True by (split; [done|apply suffix_end]). by rewrite suffix_stem.
Qed.
Lemma label_files_nodup root fs m : path_rel root fs m → NoDup (label_files fs root).
Proof.
  intros HR. apply omap_nodup; [|apply NoDup_map_to_list]. intros [p d] [p' d'] [n e] H1 H2 E1 E2.
  apply elem_of_map_to_list in H1, H2. cbn [fst snd] in *.
  destruct (last p) as [f|]; [|done]. destruct (last p') as [f'|]; [|done].
  case_decide as D1; [|done]. case_decide as D2; [|done]. destruct D1 as [-> S2], D2 as [-> S1].
  destruct (pr_file _ _ _ HR f S1) as [_ X1]. destruct (X1 _ H1) as (n1 & l1 & -> & M1).
  destruct (pr_file _ _ _ HR f' S2) as [_ X2]. destruct (X2 _ H2) as (n2 & l2 & -> & M2).
  destruct (pr_label _ _ _ HR _ _ M1) as [(N1 & _) _]. destruct (pr_label _ _ _ HR _ _ M2) as [(N2 & _) _].
  rewrite suffix_stem in E1, E2 by done. injection E1 as -> ->. injection E2 as -> ->. done.
Qed.
Lemma labels_listed root fs m : path_rel root fs m → ∃ ls, all_labels (label_files fs root) = Ok ls ∧ ls.*2 ≡ₚ (map_to_list m).*2.
Proof.
  intros HR.
  assert (∀ l : list (bytes * bytes), (∀ x : bytes * bytes, x ∈ l → x ∈ label_files fs root) → ∃ ls, all_labels l = Ok ls ∧ ls = omap (λ x, pair x.1 <$> m !! x.1) l) as Hex.
  { induction l as [|[n d] l IH]; intros Hl; [by exists []|]. destruct IH as (ls & E1 & E2); [intros x Hx; apply Hl; by right|].
    destruct (proj1 (label_files_in _ _ _ n d HR) (Hl (n, d) ltac:(by left))) as (lb & Hm & Hf).
    destruct (pr_label _ _ _ HR _ _ Hm) as [_ (d' & Hf' & Hg)]. rewrite Hf in Hf'. injection Hf' as <-.
    cbn [all_labels]. rewrite Hg. cbn [obind]. rewrite E1. cbn [obind]. eexists. split; [done|]. cbn. rewrite Hm. cbn. by rewrite E2. }
  destruct (Hex (label_files fs root)) as (ls & E1 & E2); [done|]. exists ls. split; [done|]. apply fmap_Permutation.
  apply NoDup_Permutation; [|apply NoDup_map_to_list|].
  - subst ls. apply omap_nodup; [|by eapply label_files_nodup].
    intros [n d] [n' d'] [k lb] H1 H2 G1 G2. apply (label_files_in _ _ _ _ _ HR) in H1 as (l1 & M1 & F1), H2 as (l2 & M2 & F2).
    cbn [fst] in *. rewrite M1 in G1. rewrite M2 in G2. cbn in *. injection G1 as <- <-. injection G2 as -> _. rewrite F1 in F2. by injection F2 as <-.
  - intros [n lb]. subst ls. rewrite elem_of_list_omap, elem_of_map_to_list. split.
    + intros ([n' d] & _ & Hx). cbn [fst] in Hx. destruct (m !! n') as [l'|] eqn:Em; [|done]. cbn in Hx. injection Hx as <- <-. done.
    + intros Hm. destruct (pr_label _ _ _ HR _ _ Hm) as [_ (d & Hf & _)]. exists (n, d). split; [apply (label_files_in _ _ _ _ _ HR); by exists lb|].
      cbn [fst]. by rewrite Hm.
Qed.

(** ** the calls *)
Lemma path_step root fs m c : path_rel root fs m → plain_call c → call_ok c →
  same_answer (path_call root fs c).1 (map_call m c).1 ∧ path_rel root (path_call root fs c).2 (map_call m c).2.
Proof.
  intros HR Hp Hc. destruct c as [n|n|l layer|n|]; cbn [plain_call] in Hp; cbn [path_call map_call].
  - rewrite (plain_file _ _ _ Hp). destruct (m !! n) as [l|] eqn:Em.
    + destruct (pr_label _ _ _ HR _ _ Em) as [_ (d & -> & _)]. rewrite decide_True by (right; by eexists). done.
    + rewrite (rel_absent _ _ _ _ HR Em). rewrite decide_False by (intros [?|[??]]; [by eapply rel_no_dir|done]).
      split; [done|]. cbn [snd]. apply rel_put; [done|done|apply new_label_text].
  - rewrite (plain_file _ _ _ Hp), (plain_read _ Hp). cbn [obind]. split; [|done]. cbn [fst same_answer]. f_equal. unfold read_path.
    destruct (m !! n) as [l|] eqn:Em.
    + destruct (pr_label _ _ _ HR _ _ Em) as [_ (d & -> & E)]. cbn [obind]. by rewrite E.
    + rewrite (rel_absent _ _ _ _ HR Em). rewrite decide_False by (by eapply rel_no_dir). done.
  - destruct Hc as [Hl Hlay]. destruct (with_updated_layer l layer) as [nl|] eqn:Eu.
    + destruct (updated_ok _ _ _ Hl Hlay Eu) as (Hnl & Hnn & Hv & Hy & Hlt). rewrite decide_True by done.
      assert (nl = Label (lb_name l) layer (lb_version l + 1)) as Enl by (destruct nl as [x y z]; cbn [lb_name lb_version lb_layer] in *; congruence).
      rewrite (plain_file _ _ _ Hp), (plain_read _ Hp). cbn [obind]. unfold read_path.
      destruct (m !! lb_name l) as [l'|] eqn:Em.
      * destruct (pr_label _ _ _ HR _ _ Em) as [_ (d & -> & E)]. cbn [obind]. rewrite E. cbn [obind].
        case_decide as Hd; [|done]. rewrite <-Enl. split; [done|]. cbn [snd]. apply rel_put; [done|done|]. rewrite <-Hnn. by apply label_round.
      * rewrite (rel_absent _ _ _ _ HR Em). rewrite decide_False by (by eapply rel_no_dir). done.
    + unfold with_updated_layer in Eu. destruct (N.leb_spec u64_max (lb_version l)); [|done]. rewrite decide_False by lia. done.
  - rewrite (plain_file _ _ _ Hp). rewrite decide_False by (by eapply rel_no_dir). cbn [fst snd]. split; [|by apply rel_delete].
    cbn [same_answer]. do 2 f_equal. apply bool_decide_ext. destruct (m !! n) as [l|] eqn:Em.
    + destruct (pr_label _ _ _ HR _ _ Em) as [_ (d & -> & E)]. split; by eexists.
    + rewrite (rel_absent _ _ _ _ HR Em). split; intros [? [=]].
  - split; [|done]. cbn [fst]. destruct (labels_listed _ _ _ HR) as (ls & -> & Hls). cbn [obind same_answer]. done.
Qed.
Lemma path_run root cs : ∀ fs m, path_rel root fs m → Forall plain_call cs → Forall call_ok cs →
  Forall2 same_answer (run (path_call root) fs cs).1 (run map_call m cs).1 ∧ path_rel root (run (path_call root) fs cs).2 (run map_call m cs).2.
Proof.
  induction cs as [|c cs IH]; intros fs m HR Hp Hc; cbn [run]; [by split; [constructor|]|].
  apply Forall_cons in Hp as [Hp Hps]. apply Forall_cons in Hc as [Hc Hcs]. destruct (path_step root fs m c HR Hp Hc) as [Ha HR'].
  destruct (path_call root fs c) as [r fs'], (map_call m c) as [r' m']. cbn [fst snd] in *. destruct (IH fs' m' HR' Hps Hcs) as [IH1 IH2].
  destruct (run (path_call root) fs' cs), (run map_call m' cs). cbn [fst snd] in *. by split; [constructor|].
Qed.
Lemma path_rel_new root fs : no_labels root fs → path_rel root fs ∅.
Proof.
  intros H. split; [intros n l E; by rewrite lookup_empty in E|]. intros f Hf. destruct (H f Hf) as [H1 H2]. split; [done|]. intros d E. congruence.
Qed.
Lemma path_names root fs cs : no_labels root fs → Forall plain_call cs → Forall call_ok cs →
  Forall2 same_answer (run (path_call root) fs cs).1 (run map_call ∅ cs).1.
Proof. intros H Hp Hc. by apply path_run; [apply path_rel_new| |]. Qed.

(** ** nothing else is touched *)
Lemma path_step_frame root fs c p : plain_call c → (∀ n : bytes, plain_name n → p ≠ own_file root n) →
  fs_files (path_call root fs c).2 !! p = fs_files fs !! p ∧ fs_dirs (path_call root fs c).2 = fs_dirs fs.
Proof.
  intros Hp Hne. destruct c as [n|n|l layer|n|]; cbn [plain_call] in Hp; cbn [path_call].
  - rewrite (plain_file _ _ _ Hp). case_decide; [done|]. cbn [snd put_file fs_files fs_dirs]. rewrite lookup_insert_ne; [done|]. intros E. by apply (Hne n).
  - done.
  - destruct (with_updated_layer l layer); [|done]. rewrite (plain_file _ _ _ Hp). cbn [obind]. destruct (read_path fs (own_file root (lb_name l))); [|done|done].
    cbn [obind]. destruct (get_label_from_data _ _); [|done|done]. cbn [obind]. case_decide; [|done]. cbn [snd put_file fs_files fs_dirs].
    rewrite lookup_insert_ne; [done|]. intros E. by apply (Hne (lb_name l)).
  - rewrite (plain_file _ _ _ Hp). case_decide; [done|]. cbn [snd fs_files fs_dirs]. rewrite lookup_delete_ne; [done|]. intros E. by apply (Hne n).
  - done.
Qed.
Lemma path_frame root cs p : (∀ n : bytes, plain_name n → p ≠ own_file root n) → Forall plain_call cs → ∀ fs,
  fs_files (run (path_call root) fs cs).2 !! p = fs_files fs !! p ∧ fs_dirs (run (path_call root) fs cs).2 = fs_dirs fs.
Proof.
  intros Hne. induction cs as [|c cs IH]; intros Hp fs; [done|]. apply Forall_cons in Hp as [Hp Hps]. cbn [run].
  destruct (path_step_frame root fs c p Hp Hne) as [H1 H2]. destruct (path_call root fs c) as [r fs']. cbn [snd] in *.
  destruct (IH Hps fs') as [I1 I2]. destruct (run (path_call root) fs' cs). cbn [snd] in *. by rewrite I1, I2.
Qed.

(** ** names with directories *)
Lemma split_slash (d rest : bytes) : 47 ∉ d → split_last (d ++ 47 :: rest) = (d :: (split_last rest).1, (split_last rest).2).
Proof.
  induction d as [|b d IH]; intros H; cbn [app split_last].
  - destruct (split_last rest) as [ps l]. by rewrite decide_True.
  - rewrite IH by set_solver. by rewrite decide_False by set_solver.
Qed.
Lemma split_slashed ps rest : Forall plain_piece ps → split_last (slashed ps ++ rest) = (ps ++ (split_last rest).1, (split_last rest).2).
Proof.
  induction ps as [|p ps IH]; intros H; cbn [slashed app]; [by destruct (split_last rest)|].
  apply Forall_cons in H as [(_ & _ & _ & Hp & _) H]. rewrite <-app_assoc. cbn [app]. rewrite split_slash by done. by rewrite (IH H).
Qed.
Lemma slashed_no_zero ps : Forall plain_piece ps → 0 ∉ slashed ps.
Proof.
  induction ps as [|p ps IH]; intros H; cbn [slashed]; [apply not_elem_of_nil|].
  apply Forall_cons in H as [(_ & _ & _ & _ & Hp & _) H]. specialize (IH H). rewrite elem_of_app, elem_of_cons. intros [?|[?|?]]; [done|lia|done].
Qed.
Lemma slashed_head ps rest : Forall plain_piece ps → ps ≠ [] → (match slashed ps ++ rest with 47 :: _ => ([] : list bytes) | _ => [[]] end) = [[]].
Proof.
  destruct ps as [|p ps]; [done|]. intros [(Hne & _ & _ & Hp & _) _]%Forall_cons _. cbn [slashed].
  destruct p as [|b p]; [done|]. cbn [app]. repeat case_match; try done. subst. exfalso. apply Hp. left.
Qed.
Lemma root_of ps (rest : bytes) (root : list bytes) : Forall plain_piece ps → ps ≠ [] → (match slashed ps ++ rest with 47 :: _ => [] | _ => root end) = root.
Proof.
  intros H Hne. pose proof (slashed_head ps rest H Hne) as X. repeat case_match; try done.
Qed.
Lemma follow_there fs ps : ∀ root more, Forall plain_piece ps → dirs_there fs root ps → follow fs root (ps ++ more) = follow fs (root ++ ps) more.
Proof.
  induction ps as [|p ps IH]; intros root more H Hd; [by rewrite app_nil_r|]. apply Forall_cons in H as [(H1 & H2 & H3 & _ & _ & H4) H].
  cbn [app follow]. rewrite decide_False by naive_solver. rewrite decide_False by done. rewrite decide_False by lia.
  assert (root ++ [p] ∈ fs_dirs fs) as Hp by (apply (Hd 1); cbn; lia). rewrite decide_True by done. rewrite IH; [by rewrite <-app_assoc|done|].
  intros i Hi. rewrite <-app_assoc. apply (Hd (S i)). cbn. lia.
Qed.
Lemma suffix_no_zero (n : bytes) : 0 ∉ n → 0 ∉ n ++ label_suffix.
Proof. intros H. rewrite elem_of_app. unfold label_suffix. set_solver. Qed.
Lemma nested_file fs root ps n : Forall plain_piece ps → ps ≠ [] → plain_name n → dirs_there fs root ps →
  label_file fs root (slashed ps ++ n) = Ok (root ++ ps ++ [n ++ label_suffix]).
Proof.
  intros H Hne (Hn & Hs & Hz & Hl) Hd. unfold label_file. rewrite decide_False by (rewrite elem_of_app; intros [?|?]; [by apply (slashed_no_zero ps)|done]).
  rewrite root_of by done. rewrite <-app_assoc, split_slashed by done.
  assert (split_last (n ++ label_suffix) = ([], n ++ label_suffix)) as ->.
  { assert (47 ∉ n ++ label_suffix) as Hns by (rewrite elem_of_app; unfold label_suffix; set_solver). revert Hns. generalize (n ++ label_suffix) as m.
    induction m as [|b m IH]; intros Hm; [done|]. cbn [split_last]. rewrite IH by set_solver. by rewrite decide_False by set_solver. }
  cbn [fst snd]. rewrite app_nil_r. pose proof (follow_there fs ps root [] H Hd) as F. rewrite app_nil_r in F. rewrite F. cbn [follow obind].
  rewrite decide_False; [by rewrite <-app_assoc|]. rewrite app_length. change (length label_suffix) with 6. lia.
Qed.
Lemma missing_file fs root ps p rest : Forall plain_piece (ps ++ [p]) → dirs_there fs root ps → root ++ ps ++ [p] ∉ fs_dirs fs → 0 ∉ rest →
  label_file fs root (slashed (ps ++ [p]) ++ rest) = match fs_files fs !! (root ++ ps ++ [p]) with Some _ => Err OtherError | None => Err NotFound end.
Proof.
  intros H Hd Hnd Hz. unfold label_file. rewrite decide_False by (rewrite elem_of_app; intros [?|?]; [by apply (slashed_no_zero (ps ++ [p]))|done]).
  rewrite root_of by (done || by destruct ps). rewrite <-(app_assoc (slashed _)), split_slashed by done.
  destruct (split_last (rest ++ label_suffix)) as [more l]. cbn [fst snd]. rewrite <-app_assoc.
  apply Forall_app in H as [H [(H1 & H2 & H3 & _ & _ & H4) _]%Forall_cons]. rewrite follow_there by done. cbn [app follow].
  rewrite decide_False by naive_solver. rewrite decide_False by done. rewrite decide_False by lia.
  rewrite <-app_assoc. rewrite decide_False by done. by destruct (fs_files fs !! (root ++ ps ++ [p])).
Qed.
Lemma path_nested fs root ps n : Forall plain_piece ps → ps ≠ [] → plain_name n → dirs_there fs root ps →
  root ++ ps ++ [n ++ label_suffix] ∉ fs_dirs fs →
  let f := root ++ ps ++ [n ++ label_suffix] in
  path_call root fs (CCreate (slashed ps ++ n)) =
    match fs_files fs !! f with
    | Some _ => (RCreate (Err InvalidInput), fs)
    | None => (RCreate (Ok (Label (slashed ps ++ n) None 0)), FS (fs_dirs fs) (<[f := label_contents (Label n None 0)]> (fs_files fs)))
    end ∧
  path_call root fs (CDelete (slashed ps ++ n)) = (RDelete (Ok (bool_decide (is_Some (fs_files fs !! f)))), FS (fs_dirs fs) (delete f (fs_files fs))).
Proof.
  intros H Hne Hn Hd Hnd f. cbn [path_call]. rewrite nested_file by done. fold f in Hnd |- *. split.
  - destruct (fs_files fs !! f) eqn:E; [rewrite decide_True; [done|by right; eexists]|]. rewrite decide_False; [done|]. by intros [?|[? ?]].
  - by rewrite decide_False.
Qed.
Lemma path_missing fs root ps p rest : Forall plain_piece (ps ++ [p]) → dirs_there fs root ps → root ++ ps ++ [p] ∉ fs_dirs fs →
  fs_files fs !! (root ++ ps ++ [p]) = None → 0 ∉ rest →
  let name := slashed (ps ++ [p]) ++ rest in
  path_call root fs (CCreate name) = (RCreate (Err NotFound), fs) ∧ path_call root fs (CGet name) = (RGet (Ok None), fs) ∧
  path_call root fs (CDelete name) = (RDelete (Ok false), fs) ∧
  (∀ layer v, (v < u64_max)%N → path_call root fs (CSet (Label name None v) layer) = (RSet (Err NotFound), fs)).
Proof.
  intros H Hd Hnd Hf Hz name. pose proof (missing_file fs root ps p rest H Hd Hnd Hz) as E. rewrite Hf in E. fold name in E. cbn [path_call]. rewrite E.
  split; [done|]. split; [done|]. split; [done|]. intros layer v Hv. unfold with_updated_layer. cbn [lb_version lb_name].
  assert ((u64_max <=? v)%N = false) as -> by (apply N.leb_gt; exact Hv). rewrite E. reflexivity.
Qed.
Lemma split_no_slash (m : bytes) : 47 ∉ m → split_last m = ([], m).
Proof. induction m as [|b m IH]; intros Hm; [done|]. cbn [split_last]. rewrite IH by set_solver. by rewrite decide_False by set_solver. Qed.
Lemma split_piece (p rest : bytes) : 47 ∉ p → split_last (p ++ 47 :: rest) = (p :: (split_last rest).1, (split_last rest).2).
Proof.
  induction p as [|b p IH]; intros Hp; cbn [app split_last]; [by destruct (split_last rest)|]. rewrite IH by set_solver. by rewrite decide_False by set_solver.
Qed.
Lemma root_at ps (p rest : bytes) (root : list bytes) : Forall plain_piece ps → 47 ∉ p → p ≠ [] → (match slashed ps ++ p ++ rest with 47 :: _ => [] | _ => root end) = root.
Proof.
  intros H Hp Hne. destruct ps as [|q ps]; [|by apply root_of]. cbn [slashed app]. destruct p as [|b p]; [done|]. cbn [app].
  destruct (decide (b = 47)) as [->|Hb]; [destruct Hp; left|]. repeat case_match; done.
Qed.
Lemma bad_file fs root name k : bad_name fs root name k → label_file fs root name = Err k.
Proof.
  intros [[Hz ->]|(Hz & -> & ps & p & H & Hd & Hs & Hne & Hcase)]; unfold label_file; [by rewrite decide_True|]. rewrite decide_False by done.
  destruct Hcase as [[-> Hl]|(rest & -> & Hcase)].
  - pose proof (root_at ps p [] root H Hs Hne) as E. rewrite app_nil_r in E. rewrite E. rewrite <- app_assoc, split_slashed by done.
    rewrite split_no_slash by (rewrite elem_of_app; unfold label_suffix; set_solver). cbn [fst snd]. rewrite follow_there by done. cbn [follow obind].
    rewrite decide_True; [done|]. rewrite app_length. change (length label_suffix) with 6. lia.
  - rewrite root_at by done. rewrite <- app_assoc, split_slashed, <- app_assoc by done. cbn [app]. rewrite split_piece by done. cbn [fst snd].
    rewrite follow_there by done. cbn [follow].
    assert (length p ≤ 2 → ¬ 255 < length p) as Hlen by lia.
    destruct Hcase as [Hl|((H1 & H2 & H3 & _ & _ & H4) & Hnd & Hf)].
    + rewrite decide_False by (intros [->| ->]; cbn [length] in Hl; lia). rewrite decide_False by (intros ->; cbn [length] in Hl; lia).
      by rewrite decide_True.
    + rewrite decide_False by naive_solver. rewrite decide_False by done. rewrite decide_False by lia. rewrite <- app_assoc. rewrite decide_False by done.
      destruct Hf as [d ->]. done.
Qed.
Lemma path_bad fs root name k : bad_name fs root name k →
  path_call root fs (CCreate name) = (RCreate (Err k), fs) ∧ path_call root fs (CGet name) = (RGet (Err k), fs) ∧
  path_call root fs (CDelete name) = (RDelete (Err k), fs) ∧
  (∀ y layer v, (v < u64_max)%N → path_call root fs (CSet (Label name y v) layer) = (RSet (Err k), fs)).
Proof.
  intros Hb. assert (k ≠ NotFound) as Hk by (by destruct Hb as [[_ ->]|(_ & -> & _)]). pose proof (bad_file fs root name k Hb) as E. cbn [path_call]. rewrite E.
  split; [done|]. split; [by destruct k|]. split; [by destruct k|]. intros y layer v Hv. unfold with_updated_layer. cbn [lb_version lb_name].
  assert ((u64_max <=? v)%N = false) as -> by (apply N.leb_gt; exact Hv). rewrite E. reflexivity.
Qed.
