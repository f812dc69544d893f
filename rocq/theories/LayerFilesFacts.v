(** A layer whose files are not all written does not load. *)
From Verif Require Import Prelude ListFacts Succinct TripleFiles Layer FileNames LayerFiles.
From Coq Require String.

(** ** The order of the files *)
Definition has (w : work) (f : String.string) : bool := bool_decide (f ∈ work_files w).
Fixpoint before (w : work) (f g : String.string) : bool :=
  match w with
  | WNone => true
  | WFile h => negb (bool_decide (g = h)) || bool_decide (f = h)
  | WThen a b => before a f g && (has a f || before b f g)
  | WBoth a b => before a f g && before b f g
  end.
Lemma stage_sub w x f : stage w x → f ∈ x → f ∈ work_files w.
Proof. induction 1; cbn [work_files]; rewrite ?elem_of_app; try tauto; set_solver. Qed.
Lemma stage_all w : stage w (work_files w).
Proof. induction w; cbn [work_files]; try constructor; done. Qed.
Lemma stage_before' w x f g : stage w x → before w f g = true → g ∈ x → f ∈ x.
Proof.
  induction 1 as [|h|h|a b x Ha IH|a b y Hb IH|a b x y Ha IHa Hb IHb]; cbn [before]; intros E Hg.
  - by apply elem_of_nil in Hg.
  - by apply elem_of_nil in Hg.
  - apply elem_of_list_singleton in Hg as ->. rewrite bool_decide_true in E by done. cbn in E. apply bool_decide_eq_true in E as ->.
    by apply elem_of_list_singleton.
  - apply andb_true_iff in E as [E _]. by apply IH.
  - apply andb_true_iff in E as [E1 E2]. apply elem_of_app. apply orb_true_iff in E2 as [E2|E2].
    { left. by apply bool_decide_eq_true in E2. }
    apply elem_of_app in Hg as [Hg|Hg]; [|right; by apply IH].
    left. clear -E1 Hg. revert E1 Hg. induction a as [|h|a1 IH1 a2 IH2|a1 IH1 a2 IH2]; cbn [before work_files]; intros E Hg.
    + by apply elem_of_nil in Hg.
    + apply elem_of_list_singleton in Hg as ->. rewrite bool_decide_true in E by done. cbn in E. apply bool_decide_eq_true in E as ->.
      by apply elem_of_list_singleton.
    + apply andb_true_iff in E as [E1 E2]. apply elem_of_app. apply elem_of_app in Hg as [Hg|Hg]; [left; by apply IH1|].
      apply orb_true_iff in E2 as [E2|E2]; [left; by apply bool_decide_eq_true in E2|right; by apply IH2].
    + apply andb_true_iff in E as [E1 E2]. apply elem_of_app. apply elem_of_app in Hg as [Hg|Hg]; [left; by apply IH1|right; by apply IH2].
  - apply andb_true_iff in E as [E1 E2]. apply elem_of_app. apply elem_of_app in Hg as [Hg|Hg]; [left; by apply IHa|right; by apply IHb].
Qed.

(** ** Directories *)
Lemma forallb_in {A} (p : A → bool) (l : list A) x : forallb p l = true → x ∈ l → p x = true.
Proof. intros H Hx. by apply (proj1 (forallb_forall p l) H), elem_of_list_In. Qed.
Lemma whole_elem d fs f : all_whole d fs = true → f ∈ fs → d f = Whole.
Proof. intros H Hf. eapply forallb_in in H; [|exact Hf]. by apply bool_decide_eq_true in H. Qed.
Lemma whole_intro d fs : (∀ f, f ∈ fs → d f = Whole) → all_whole d fs = true.
Proof. intros H. apply forallb_forall. intros f Hf. apply bool_decide_eq_true. by apply H, elem_of_list_In. Qed.
Lemma looks_absent w d f : looks w d → has w f = false → d f = Absent.
Proof.
  intros (x & _ & _ & H) E. destruct (decide (d f = Absent)) as [|Hn]; [done|]. apply H in Hn. by apply bool_decide_eq_false in E.
Qed.
Lemma looks_before w d f g : looks w d → before w f g = true → d g = Whole → d f = Whole.
Proof. intros (x & Hx & H & _) E Hg. apply H. apply H in Hg. by eapply stage_before'. Qed.
Lemma exists_absent {A} w d f fs (v : option A) : looks w d → has w f = false → if_exists d (f :: fs) v = Some None.
Proof. intros H E. unfold if_exists. by rewrite decide_True by (by eapply looks_absent). Qed.
Lemma exists_whole {A} w d f fs g (v : option A) : looks w d → d g = Whole → forallb (λ h, before w h g) (f :: fs) = true →
  if_exists d (f :: fs) v = Some v.
Proof.
  intros H Hg E. assert (all_whole d (f :: fs) = true) as Ew.
  { apply whole_intro. intros h Hh. eapply looks_before; [exact H| |exact Hg]. by apply (forallb_in (λ h, before w h g) _ _ E). }
  unfold if_exists. rewrite decide_False; [by rewrite Ew|]. rewrite (whole_elem d _ f Ew); [done|by left].
Qed.
Lemma exists_seen {A} d fs (v w : option A) : if_exists d fs v = Some w → w = v ∨ w = None.
Proof. unfold if_exists. destruct fs; [by intros [= <-]; right|]. case_decide; [by intros [= <-]; right|]. destruct (all_whole _ _); [|done]. intros [= <-]. by left. Qed.

Definition base_required : list String.string := sp_files OfBase ++ spo_files OfBase ++ ops_files OfBase ++ wavelet_files OfBase.
Definition child_required : list String.string :=
  subjects_files OfPos ++ subjects_files OfNeg ++ objects_files OfPos ++ objects_files OfNeg ++
  sp_files OfPos ++ spo_files OfPos ++ ops_files OfPos ++ sp_files OfNeg ++ spo_files OfNeg ++ ops_files OfNeg ++
  wavelet_files OfPos ++ wavelet_files OfNeg.
Lemma load_base_inv d l l' : load_base d l = Some l' → all_whole d dict_files = true ∧ all_whole d base_required = true ∧
  ∃ nv pm sb ob, if_exists d nvmap_files (l_nvmap l) = Some nv ∧ if_exists d pmap_files (l_pmap l) = Some pm ∧
    if_exists d (subjects_files OfBase) (tf_subjects (l_pos l)) = Some sb ∧ if_exists d (objects_files OfBase) (tf_objects (l_pos l)) = Some ob ∧
    l' = Layer (l_nodes l) (l_preds l) (l_vals l) nv pm (TF sb ob (tf_sp (l_pos l)) (tf_spo (l_pos l)) (tf_ops (l_pos l)) (tf_wt (l_pos l))) None.
Proof.
  unfold load_base. fold base_required. destruct (all_whole d dict_files); [|done].
  destruct (if_exists d nvmap_files (l_nvmap l)) as [nv|]; [|done]. cbn [mbind option_bind].
  destruct (if_exists d pmap_files (l_pmap l)) as [pm|]; [|done]. cbn [mbind option_bind].
  destruct (if_exists d (subjects_files OfBase) (tf_subjects (l_pos l))) as [sb|]; [|done]. cbn [mbind option_bind].
  destruct (if_exists d (objects_files OfBase) (tf_objects (l_pos l))) as [ob|]; [|done]. cbn [mbind option_bind].
  destruct (all_whole d base_required); [|done]. intros [= <-]. split; [done|]. split; [done|]. by exists nv, pm, sb, ob.
Qed.
Lemma load_child_inv d l l' : load_child d l = Some l' → all_whole d dict_files = true ∧ all_whole d child_required = true ∧
  ∃ nv pm, if_exists d nvmap_files (l_nvmap l) = Some nv ∧ if_exists d pmap_files (l_pmap l) = Some pm ∧
    l' = Layer (l_nodes l) (l_preds l) (l_vals l) nv pm (l_pos l) (l_neg l).
Proof.
  unfold load_child. fold child_required. destruct (all_whole d dict_files); [|done].
  destruct (if_exists d nvmap_files (l_nvmap l)) as [nv|]; [|done]. cbn [mbind option_bind].
  destruct (if_exists d pmap_files (l_pmap l)) as [pm|]; [|done]. cbn [mbind option_bind].
  destruct (all_whole d child_required); [|done]. intros [= <-]. split; [done|]. split; [done|]. by exists nv, pm.
Qed.

(** ** Works *)
(** [w] writes the optional files [fs] before the file [g], or not at all *)
Definition opt_ok {A} (w : work) (fs : list String.string) (g : String.string) (v : option A) : bool :=
  match v with
  | None => match fs with f :: _ => negb (has w f) | [] => false end
  | Some _ => forallb (λ h, before w h g) fs
  end.
Lemma opt_read {A} w d fs g (v r : option A) : looks w d → d g = Whole → opt_ok w fs g v = true → fs ≠ [] →
  if_exists d fs v = Some r → r = v.
Proof.
  intros H Hg E Hne. destruct fs as [|f fs]; [done|]. destruct v as [a|]; cbn [opt_ok] in E.
  - rewrite (exists_whole w d f fs g (Some a) H Hg E). by intros [= <-].
  - apply negb_true_iff in E. rewrite (exists_absent w d f fs None H E). by intros [= <-].
Qed.
Definition last_base : String.string := List.last (ops_files OfBase) String.EmptyString.
Definition last_child : String.string := List.last (ops_files OfPos) String.EmptyString.
Definition base_ok (w : work) (l : layer) : bool :=
  negb (has w parent_name) && opt_ok w nvmap_files last_base (l_nvmap l) && opt_ok w pmap_files last_base (l_pmap l) &&
  opt_ok w (subjects_files OfBase) last_base (tf_subjects (l_pos l)) && opt_ok w (objects_files OfBase) last_base (tf_objects (l_pos l)).
Definition child_ok (w : work) (l : layer) : bool :=
  negb (has w last_base) && opt_ok w nvmap_files last_child (l_nvmap l) && opt_ok w pmap_files last_child (l_pmap l).
Lemma base_loads w d l l' : looks w d → l_neg l = None → base_ok w l = true → load_layer d l = Some l' → l' = l.
Proof.
  intros H Hn E Hl. unfold base_ok in E. rewrite !andb_true_iff in E. destruct E as ((((E1 & E2) & E3) & E4) & E5).
  unfold load_layer in Hl. rewrite (looks_absent w d parent_name H) in Hl by (by apply negb_true_iff).
  apply load_base_inv in Hl as (_ & Hw & nv & pm & sb & ob & R1 & R2 & R3 & R4 & ->).
  assert (d last_base = Whole) as Hg by (apply (whole_elem d base_required); [done|apply (bool_decide_unpack _); by vm_compute]).
  apply (opt_read w d _ last_base) in R1; [|done|done|done|done]. apply (opt_read w d _ last_base) in R2; [|done|done|done|done].
  apply (opt_read w d _ last_base) in R3; [|done|done|done|done]. apply (opt_read w d _ last_base) in R4; [|done|done|done|done].
  subst. destruct l as [n p v m1 m2 [] ng]. cbn in *. by subst.
Qed.
Lemma child_loads w d l l' : looks w d → child_ok w l = true → load_layer d l = Some l' → l' = l.
Proof.
  intros H E Hl. unfold child_ok in E. rewrite !andb_true_iff in E. destruct E as ((E1 & E2) & E3). unfold load_layer in Hl. destruct (d parent_name).
  - apply load_base_inv in Hl as (_ & Hw & _). exfalso.
    assert (d last_base = Whole) as Hg by (apply (whole_elem d base_required); [done|apply (bool_decide_unpack _); by vm_compute]).
    rewrite (looks_absent w d last_base H) in Hg by (by apply negb_true_iff). done.
  - done.
  - apply load_child_inv in Hl as (_ & Hw & nv & pm & R1 & R2 & ->).
    assert (d last_child = Whole) as Hg by (apply (whole_elem d child_required); [done|apply (bool_decide_unpack _); by vm_compute]).
    apply (opt_read w d _ last_child) in R1; [|done|done|done|done]. apply (opt_read w d _ last_child) in R2; [|done|done|done|done].
    subst. by destruct l.
Qed.
Lemma writes_ok l w : writes l w → dense_base l → (l_neg l = None ∧ base_ok w l = true) ∨ (is_Some (l_neg l) ∧ child_ok w l = true).
Proof.
  intros H Hd. destruct l as [n p v m1 m2 [sb ob a1 a2 a3 a4] ng]. unfold dense_base in Hd. cbn in Hd.
  destruct H as [Hn H1 H2|Hn H1 H2|Hn|[x Hn] H1 H2|[x Hn] H1 H2|[x Hn]|]; cbn in *; try (destruct (Hd Hn) as [-> ->]); subst.
  - left. split; [done|]. by vm_compute.
  - left. split; [done|]. by vm_compute.
  - left. split; [done|]. destruct m1, m2; by vm_compute.
  - right. split; [by eexists|]. by vm_compute.
  - right. split; [by eexists|]. by vm_compute.
  - right. split; [by eexists|]. destruct m1, m2; by vm_compute.
  - destruct ng as [x|].
    + right. split; [by eexists|]. destruct m1, m2; by vm_compute.
    + left. split; [done|]. destruct (Hd eq_refl) as [-> ->]. destruct m1, m2; by vm_compute.
Qed.
Lemma partial_load l w d : writes l w → dense_base l → looks w d → load_layer d l = None ∨ load_layer d l = Some l.
Proof.
  intros H Hd Hl. destruct (load_layer d l) as [l'|] eqn:E; [right|by left]. f_equal.
  destruct (writes_ok l w H Hd) as [[? ?]|[_ ?]]; [by eapply base_loads|by eapply child_loads].
Qed.

(** ** Complete directories *)
Lemma all_whole_ext d d' fs : (∀ f, d f = d' f) → all_whole d fs = all_whole d' fs.
Proof. intros H. unfold all_whole. induction fs as [|f fs IH]; [done|]. cbn [forallb]. by rewrite IH, H. Qed.
Lemma if_exists_ext {A} d d' fs (v : option A) : (∀ f, d f = d' f) → if_exists d fs v = if_exists d' fs v.
Proof. intros H. unfold if_exists. destruct fs as [|f fs]; [done|]. by rewrite H, (all_whole_ext d d' (f :: fs) H). Qed.
Lemma load_ext d d' l : (∀ f, d f = d' f) → load_layer d l = load_layer d' l.
Proof.
  intros H. unfold load_layer. rewrite H. destruct (d' parent_name); [|done|].
  - unfold load_base. rewrite !(all_whole_ext d d'), !(if_exists_ext d d') by done. done.
  - unfold load_child. rewrite !(all_whole_ext d d'), !(if_exists_ext d d') by done. done.
Qed.
Definition full (w : work) : String.string → fstate := λ f, if has w f then Whole else Absent.
Lemma full_loads l w : writes l w → dense_base l → load_layer (full w) l = Some l.
Proof.
  intros H Hd. destruct l as [n p v m1 m2 [sb ob a1 a2 a3 a4] ng]. unfold dense_base in Hd. cbn in Hd.
  destruct H as [Hn H1 H2|Hn H1 H2|Hn|[x Hn] H1 H2|[x Hn] H1 H2|[x Hn]|]; cbn in *; try (destruct (Hd Hn) as [-> ->]); subst.
  - vm_compute. reflexivity.
  - vm_compute. reflexivity.
  - destruct m1, m2; vm_compute; reflexivity.
  - vm_compute. reflexivity.
  - vm_compute. reflexivity.
  - destruct m1, m2; vm_compute; reflexivity.
  - destruct ng as [x|].
    + destruct m1, m2; vm_compute; reflexivity.
    + destruct (Hd eq_refl) as [-> ->]. destruct m1, m2; vm_compute; reflexivity.
Qed.
Lemma full_finished w : finished w (full w).
Proof. intros f. unfold full, has. by case_bool_decide. Qed.
Lemma full_looks w v : stage w (work_files v) → looks w (full v).
Proof.
  intros H. exists (work_files v). split; [done|]. split; [intros f; unfold full, has; by case_bool_decide|].
  intros f. unfold full, has. case_bool_decide; [|done]. intros _. by eapply stage_sub.
Qed.
Lemma finished_full w d f : finished w d → d f = full w f.
Proof. intros H. unfold full, has. case_bool_decide as E; by apply H. Qed.
Lemma finished_loads l w d : writes l w → dense_base l → finished w d → load_layer d l = Some l.
Proof. intros H Hd Hf. rewrite (load_ext d (full w)) by (intros f; by apply finished_full). by apply full_loads. Qed.
Lemma finished_looks w d : finished w d → looks w d.
Proof.
  intros H. exists (work_files w). split; [apply stage_all|]. split.
  - intros f. split; [|apply H]. intros E. destruct (decide (f ∈ work_files w)) as [|Hn]; [done|]. apply H in Hn. by rewrite Hn in E.
  - intros f E. destruct (decide (f ∈ work_files w)) as [|Hn]; [done|]. apply H in Hn. by rewrite Hn in E.
Qed.

(** ** Loads at the same time *)
Lemma seen_work order w seen f : seen_during order w seen → seen f ≠ Absent → f ∈ work_files w.
Proof.
  intros (t & H1 & _ & H3 & H4) Hs. destruct (decide (f ∈ order)) as [Hf|Hf]; [|by rewrite H4 in Hs].
  apply elem_of_list_lookup in Hf as [i Hi]. rewrite (H3 i f Hi) in Hs. destruct (H1 i) as (_ & _ & _ & H). by apply H.
Qed.
Lemma seen_absent order w seen f : seen_during order w seen → has w f = false → seen f = Absent.
Proof.
  intros H E. destruct (decide (seen f = Absent)) as [|Hn]; [done|]. apply (seen_work _ _ _ _ H) in Hn. by apply bool_decide_eq_false in E.
Qed.
Lemma seen_load l w order seen : writes l w → dense_base l → l_nvmap l = None → l_pmap l = None → seen_during order w seen →
  load_layer seen l = None ∨ load_layer seen l = Some l.
Proof.
  intros Hw Hd N1 N2 Hs. destruct (load_layer seen l) as [l'|] eqn:E; [right; f_equal|by left].
  pose proof (λ f, seen_absent order w seen f Hs) as Ha. unfold load_layer in E.
  destruct (writes_ok l w Hw Hd) as [[Hn Hok]|[_ Hok]].
  - unfold base_ok in Hok. rewrite !andb_true_iff in Hok. destruct Hok as ((((E1 & _) & _) & _) & _).
    rewrite (Ha parent_name) in E by (by apply negb_true_iff). destruct (Hd Hn) as [D1 D2].
    apply load_base_inv in E as (_ & _ & nv & pm & sb & ob & R1 & R2 & R3 & R4 & ->).
    apply exists_seen in R1, R2, R3, R4. rewrite N1 in R1. rewrite N2 in R2. rewrite D1 in R3. rewrite D2 in R4.
    destruct l as [n p v m1 m2 [] ng]. cbn in *. subst.
    by destruct R1 as [-> | ->], R2 as [-> | ->], R3 as [-> | ->], R4 as [-> | ->].
  - unfold child_ok in Hok. rewrite !andb_true_iff in Hok. destruct Hok as ((E1 & _) & _). destruct (seen parent_name).
    + exfalso. apply load_base_inv in E as (_ & Hw' & _).
      assert (seen last_base = Whole) as Hg by (apply (whole_elem seen base_required); [done|apply (bool_decide_unpack _); by vm_compute]).
      rewrite (Ha last_base) in Hg by (by apply negb_true_iff). done.
    + done.
    + apply load_child_inv in E as (_ & _ & nv & pm & R1 & R2 & ->).
      apply exists_seen in R1, R2. rewrite N1 in R1. rewrite N2 in R2. destruct l as [n p v m1 m2 ? ng]. cbn in *. subst.
      by destruct R1 as [-> | ->], R2 as [-> | ->].
Qed.
