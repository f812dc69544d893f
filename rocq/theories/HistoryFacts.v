(** What a stack holds after a commit. *)
From Verif Require Import Prelude ListFacts Succinct SuccinctFacts TripleFiles TripleBuildFacts
  TripleReadFacts Merge MergeFacts Layer StackFacts DictFacts WfFacts Builder InternFacts SameFacts Rollup RollupSame Spec BuilderFacts CommitFacts.

Section committed.
  Context (st : stack) (A R : list vtriple) (l : layer) (Hw : wf st) (Hc : committed st A R l).
  Lemma committed_dicts : dicts_ok (l :: st).
  Proof.
    pose proof Hc as [Em Ep ? ? ? Ho Hp _ _]. split; [apply Hw|]. split; [|split].
    - split; try done; [by rewrite Em|by rewrite Ep].
    - intros x Hx%Ho. apply Hx.
    - intros p Hx%Hp. apply Hx.
  Qed.
  Lemma committed_pos : (∃ sp, tf_ok sp (l_pos l) (adds l)) ∧ SSorted (adds l) ∧
    ∀ u, u ∈ adds l ↔ ∃ vt, vt ∈ A ∧ vt ∉ R ∧ den (l :: st) vt u ∧ ¬ in_view u st.
  Proof.
    destruct (cm_pos _ _ _ _ Hc) as (T & HT & E & HTe).
    destruct (build_tfiles_ok (bool_decide (st ≠ [])) T HT) as (tf & E' & Hok).
    { intros u (vt & _ & _ & Hu & _)%HTe. eapply den_nonzero; [apply committed_dicts|done]. }
    rewrite E in E'. injection E' as <-.
    assert (adds l = T) as -> by (apply adds_eq; exact (tf_triples_ok _ _ _ Hok)). eauto.
  Qed.
  Lemma committed_neg : (∀ tf, l_neg l = Some tf → ∃ sp, tf_ok sp tf (rems l)) ∧ SSorted (rems l) ∧
    ∀ u, u ∈ rems l ↔ ∃ vt, vt ∈ R ∧ vt ∉ A ∧ den st vt u ∧ in_view u st.
  Proof.
    pose proof (cm_neg _ _ _ _ Hc) as Hn. destruct (decide (st = [])) as [E|E].
    - rewrite rems_none by done. split_and!.
      + intros tf Htf. congruence.
      + constructor.
      + intros u. split; [by intros ?%elem_of_nil|]. intros (vt & _ & _ & _ & Hu). rewrite E in Hu.
        by apply in_view_nil in Hu.
    - destruct Hn as (T & tf & HT & El & E' & HTe).
      destruct (build_tfiles_ok true T HT) as (tf' & E'' & Hok).
      { intros u (vt & _ & _ & Hu & _)%HTe. eapply den_nonzero; [apply Hw|done]. }
      rewrite E' in E''. injection E'' as <-.
      assert (rems l = T) as ->.
      { apply rems_eq. unfold l_removals. rewrite El. exact (tf_triples_ok _ _ _ Hok). }
      split; [|done]. intros tf' Htf'. assert (tf' = tf) as -> by congruence. eauto.
  Qed.
  Lemma committed_files : files_ok l.
  Proof. split; [apply committed_pos|apply committed_neg]. Qed.
  Lemma committed_wf : wf (l :: st).
  Proof.
    pose proof committed_pos as (_ & _ & HA). pose proof committed_neg as (_ & _ & HR).
    destruct Hw as [Hd Hf Hch Hi]. split.
    - apply committed_dicts.
    - constructor; [apply committed_files|done].
    - apply changes_ok_cons. split; [done|]. split.
      + intros u (vt & _ & _ & _ & Hn)%HA. split; [done|]. by intros (? & _ & _ & _ & ?)%HR.
      + intros u (vt & _ & _ & _ & ?)%HR. done.
    - split; [done|]. intros u (vt & _ & _ & Hu & _)%HA. eauto.
  Qed.
  (** the strings of additions that take effect are known afterwards *)
  Lemma committed_den vt : vt ∈ A → vt ∉ R → ∃ u, den (l :: st) vt u.
  Proof.
    intros HA HR. apply den_known; [apply committed_dicts|]. rewrite !objs_cons, preds_cons.
    rewrite !(cm_objs _ _ _ _ Hc), (cm_prs _ _ _ _ Hc). split_and!.
    - destruct (decide (inl vt.1.1 ∈ objs st)); eauto 10.
    - destruct (decide (vt.1.2 ∈ preds st)); eauto 10.
    - destruct (decide (vt.2 ∈ objs st)); eauto 10.
  Qed.
  Theorem committed_holds vt : holds (l :: st) vt ↔
    (vt ∈ A ∧ vt ∉ R) ∨ (holds st vt ∧ ¬ (vt ∈ R ∧ vt ∉ A)).
  Proof.
    pose proof committed_pos as (_ & _ & HA). pose proof committed_neg as (_ & _ & HR).
    pose proof committed_dicts as Hd. assert (dicts_ok st) as Hd' by apply Hw. split.
    - intros (u & Hu & Hv). apply in_view_cons in Hv as [Hv|[Hv Hr]].
      + apply HA in Hv as (vt' & ? & ? & Hu' & _). rewrite (den_inj _ Hd vt vt' u Hu Hu'). auto.
      + right. destruct (in_view_den st u Hw Hv) as [vt' Hvt'].
        assert (vt' = vt) as -> by (eapply (den_inj _ Hd); [by apply den_stable|done]).
        split; [by exists u|]. intros [HvR HvA]. destruct Hr. apply HR. eauto 10.
    - intros [[HvA HvR]|[(u & Hu & Hv) Hr]].
      + destruct (committed_den vt HvA HvR) as [u Hu]. exists u. split; [done|]. apply in_view_cons.
        destruct (decide (in_view u st)) as [Hv|Hv].
        * right. split; [done|]. intros (vt' & HvR' & HvA' & Hu' & _)%HR.
          apply (den_stable l st Hd) in Hu'. rewrite (den_inj _ Hd vt vt' u Hu Hu') in HvR. done.
        * left. apply HA. eauto 10.
      + exists u. split; [by apply den_stable|]. apply in_view_cons. right. split; [done|].
        intros (vt' & HvR' & HvA' & Hu' & _)%HR. rewrite (den_inj _ Hd' vt' vt u Hu' Hu) in *. auto.
  Qed.
End committed.

(** ** The layer is determined by the sets of added and removed triples *)
Lemma l_objs_det l l' : ldict_ok l → ldict_ok l' → (∀ x, x ∈ l_objs l ↔ x ∈ l_objs l') →
  l_nodes l = l_nodes l' ∧ l_vals l = l_vals l'.
Proof.
  intros H H' Ho. split; apply ssorted_ext; try apply H; try apply H'.
  - intros n. rewrite <-!l_objs_inl. apply Ho.
  - intros n. rewrite <-!l_objs_inr. apply Ho.
Qed.
Lemma den_det l l' st vt u : l_nodes l = l_nodes l' → l_vals l = l_vals l' → l_preds l = l_preds l' →
  l_nvmap l = l_nvmap l' → l_pmap l = l_pmap l' → den (l :: st) vt u ↔ den (l' :: st) vt u.
Proof.
  intros E1 E2 E3 E4 E5. unfold den. rewrite !object_id_cons. unfold l_objs. cbn [predicate_id].
  by rewrite E1, E2, E3, E4, E5.
Qed.
Theorem committed_unique st A R A' R' l l' : wf st →
  (∀ vt, vt ∈ A ↔ vt ∈ A') → (∀ vt, vt ∈ R ↔ vt ∈ R') →
  committed st A R l → committed st A' R' l' → l = l'.
Proof.
  intros Hw EA ER Hc Hc'.
  pose proof (committed_dicts _ _ _ _ Hw Hc) as (_ & Hl & _).
  pose proof (committed_dicts _ _ _ _ Hw Hc') as (_ & Hl' & _).
  destruct (l_objs_det l l' Hl Hl') as [En Ev].
  { intros x. rewrite (cm_objs _ _ _ _ Hc), (cm_objs _ _ _ _ Hc').
    by setoid_rewrite EA; setoid_rewrite ER. }
  assert (l_preds l = l_preds l') as Ep.
  { apply ssorted_ext; [apply Hl|apply Hl'|]. intros p. rewrite (cm_prs _ _ _ _ Hc), (cm_prs _ _ _ _ Hc').
    by setoid_rewrite EA; setoid_rewrite ER. }
  pose proof (cm_nvmap _ _ _ _ Hc) as N1. pose proof (cm_nvmap _ _ _ _ Hc') as N2.
  pose proof (cm_pmap _ _ _ _ Hc) as P1. pose proof (cm_pmap _ _ _ _ Hc') as P2.
  assert (Hden : ∀ vt u, den (l :: st) vt u ↔ den (l' :: st) vt u).
  { intros. apply den_det; congruence. }
  assert (l_pos l = l_pos l') as Epos.
  { destruct (cm_pos _ _ _ _ Hc) as (T & HT & E & HTe), (cm_pos _ _ _ _ Hc') as (T' & HT' & E' & HTe').
    assert (T = T') as ->; [|congruence]. apply ssorted_ext; auto. intros u. rewrite HTe, HTe'.
    by setoid_rewrite EA; setoid_rewrite ER; setoid_rewrite Hden. }
  assert (l_neg l = l_neg l') as Eneg.
  { pose proof (cm_neg _ _ _ _ Hc) as Hn. pose proof (cm_neg _ _ _ _ Hc') as Hn'.
    destruct (decide (st = [])); [congruence|].
    destruct Hn as (T & tf & HT & El & E & HTe), Hn' as (T' & tf' & HT' & El' & E' & HTe').
    assert (T = T') as ->; [|congruence]. apply ssorted_ext; auto. intros u. rewrite HTe, HTe'.
    by setoid_rewrite EA; setoid_rewrite ER. }
  destruct l, l'; cbn in *. congruence.
Qed.

(** ** Building on top of a stack *)
Theorem build_ok st cs nvord prord : wf st → Forall (op_ok st) cs →
  hash_order nvord → hash_order prord →
  ∃ l, build nvord prord st cs = Some (l :: st) ∧ committed st (added st cs) (removed st cs) l.
Proof.
  intros Hw Hcs Hn Hp. unfold build.
  destruct (do_ops_ok st (wf_dicts _ Hw) (builder_new st) [] [] cs) as (b & -> & Hb); try done; [by apply builder_new_ok|].
  cbn [mbind option_bind app] in *.
  destruct (commit_ok st Hw nvord prord Hn Hp b _ _ Hb) as (l & -> & Hc). cbn [mbind option_bind]. eauto.
Qed.

Lemma commits_to_ok st cs st' : wf st → commits_to st cs st' →
  ∃ l, st' = l :: st ∧ committed st (added st cs) (removed st cs) l.
Proof.
  intros Hw (Hcs & nvord & prord & Hn & Hp & E).
  destruct (build_ok st cs nvord prord Hw Hcs Hn Hp) as (l & E' & Hc). rewrite E in E'. injection E' as ->. eauto.
Qed.
