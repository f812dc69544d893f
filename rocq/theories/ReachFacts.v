(** Every layer that can come about is well formed. *)
From Verif Require Import Prelude ListFacts Succinct SuccinctFacts TripleFiles TripleBuildFacts
  TripleReadFacts Merge MergeFacts Layer StackFacts DictFacts WfFacts Builder InternFacts SameFacts Rollup RollupSame Squash
  MergeBase Spec BuilderFacts CommitFacts HistoryFacts SquashFacts MergeBaseFacts.

Lemma rolled_same st st' : wf st → rolled st st' → wf st' ∧ same_layer st' st.
Proof.
  intros Hw Hr. induction Hr as [st l _ E|mem st l _ _ E|mem disk st l _ _ Hm E|top st st' Hr IH].
  - destruct (rollup_same st Hw) as (l' & E' & _ & ?). rewrite E in E'. by injection E' as <-.
  - destruct (imprecise_rollup_same mem st Hw) as (l' & E' & ?). rewrite E in E'. by injection E' as <-.
  - destruct (rollup_upto_same mem disk st Hw Hm) as (l' & E' & ?). rewrite E in E'. by injection E' as <-.
  - destruct IH as [Hw' Hs]. { clear -Hw. induction top as [|l top IH]; [done|]. apply IH. by eapply wf_tail. }
    destruct (same_app top st st' Hw Hw') as [? ?]; [by apply same_sym|]. split; [done|]. by apply same_sym.
Qed.
Lemma step_wf st st' : wf st → step st st' → wf st'.
Proof.
  intros Hw Hs. destruct Hs as [st cs st' Hc|st st' Hr].
  - destruct (commits_to_ok _ _ _ Hw Hc) as (l & -> & Hl). by eapply committed_wf.
  - by apply (rolled_same st).
Qed.
Lemma wf_drop top st : wf (top ++ st) → wf st.
Proof. induction top as [|l top IH]; [done|]. intros Hw. by eapply IH, wf_tail. Qed.
Lemma shown_list st : wf st → ∃ V : list vtriple, ∀ vt, vt ∈ V ↔ holds st vt.
Proof.
  intros Hw. exists (omap (id_vt st) (view st)). intros vt. rewrite elem_of_list_omap. unfold id_vt, holds. split.
  - intros (u & Hu & E). exists u. split; [|by apply view_elem].
    apply (id_triple_to_string_iff st (wf_dicts _ Hw)).
    destruct (id_triple_to_string st u) as [[vt'|]|]; [|done|done]. by injection E as ->.
  - intros (u & Hu & Hv). exists u. split; [by apply view_elem|].
    apply (id_triple_to_string_iff st (wf_dicts _ Hw)) in Hu. by rewrite Hu.
Qed.
Lemma holds_dec st vt : wf st → holds st vt ∨ ¬ holds st vt.
Proof. intros Hw. destruct (shown_list st Hw) as [V HV]. rewrite <-HV. destruct (decide (vt ∈ V)); auto. Qed.
Lemma diff_lists st st' : wf st → wf st' → ∃ A : list vtriple, ∀ vt, vt ∈ A ↔ holds st vt ∧ ¬ holds st' vt.
Proof.
  intros Hw Hw'. destruct (shown_list st Hw) as [V HV], (shown_list st' Hw') as [V' HV'].
  exists (filter (λ vt, vt ∉ V') V). intros vt. rewrite elem_of_list_filter, HV, HV'. tauto.
Qed.
Lemma committed_nil_holds V l vt : committed [] V [] l → holds [l] vt ↔ vt ∈ V.
Proof.
  intros Hc. rewrite (committed_holds [] V [] l wf_nil Hc vt). split.
  - intros [[? _]|[(u & _ & Hu) _]]; [done|]. by apply in_view_nil in Hu.
  - intros H1. left. split; [done|]. by intros ?%elem_of_nil.
Qed.
(** in a base layer nothing can be removed *)
Lemma commits_base cs l : commits_to [] cs [l] → ∃ V, committed [] V [] l.
Proof.
  intros Hc. destruct (commits_to_ok _ _ _ wf_nil Hc) as (l' & [= <-] & Hl).
  exists (filter (λ vt, vt ∉ removed [] cs) (added [] cs)). destruct Hl as [H1 H2 H3 H4 H5 Ho Hp Hpos Hneg].
  split; try done.
  - intros x. rewrite Ho. setoid_rewrite elem_of_list_filter. set_solver.
  - intros x. rewrite Hp. setoid_rewrite elem_of_list_filter. set_solver.
  - destruct Hpos as (T & HT & E & HTe). exists T. split; [done|]. split; [done|]. intros u. rewrite HTe.
    setoid_rewrite elem_of_list_filter. split.
    + intros (vt & ? & ? & ? & ?). exists vt. split_and!; auto. by intros ?%elem_of_nil.
    + intros (vt & [? ?] & _ & ? & ?). exists vt. auto.
Qed.

Scheme reachable_mut := Minimality for reachable Sort Prop
  with based_mut := Minimality for based Sort Prop.
Combined Scheme reachable_based_ind from reachable_mut, based_mut.
Lemma reachable_based_ok : (∀ st, reachable st → wf st) ∧ (∀ l, based l → ∃ V, committed [] V [] l).
Proof.
  apply reachable_based_ind.
  - apply wf_nil.
  - intros st st' _ IH E. by eapply step_wf.
  - intros top st l _ Hw Hne E. pose proof (wf_drop _ _ Hw) as Hb.
    destruct (diff_lists _ _ Hw Hb) as [A HA], (diff_lists _ _ Hb Hw) as [R HR].
    destruct (squash_upto_committed top st A R Hw Hb Hne HA HR) as (l' & E' & Hc).
    rewrite E in E'. injection E' as <-. by eapply committed_wf.
  - intros l _ [V Hc]. eapply committed_wf; [apply wf_nil|done].
  - intros cs l Hc. by eapply commits_base.
  - intros st l _ Hw _ E. destruct (shown_list st Hw) as [V HV].
    destruct (squash_committed st V Hw HV) as (l' & E' & Hc). rewrite E in E'. injection E' as <-. eauto.
  - intros ls l _ Hb E.
    assert (Hw : ∀ k, k ∈ ls → wf [k]).
    { intros k Hk. destruct (Hb k Hk) as [V Hc]. eapply committed_wf; [apply wf_nil|done]. }
    assert (HV : ∃ V : list vtriple, ∀ vt, vt ∈ V ↔ ∃ k, k ∈ ls ∧ holds [k] vt).
    { clear E Hb. induction ls as [|k ls IH].
      - exists []. intros vt. split; [by intros ?%elem_of_nil|]. intros (k & Hk & _). by apply elem_of_nil in Hk.
      - destruct IH as [V HV]; [intros; apply Hw; by right|]. destruct (shown_list [k]) as [V' HV']; [apply Hw; left|].
        exists (V' ++ V). intros vt. rewrite elem_of_app, HV, HV'. split.
        + intros [?|(k' & ? & ?)]; [exists k; split; [left|done]|exists k'; split; [by right|done]].
        + intros (k' & [->|?]%elem_of_cons & ?); [by left|right; eauto]. }
    destruct HV as [V HV]. destruct (merge_base_committed ls V Hb Hw HV) as (l' & E' & Hc).
    rewrite E in E'. injection E' as <-. eauto.
Qed.
Theorem reachable_wf st : reachable st → wf st.
Proof. apply reachable_based_ok. Qed.
Theorem based_committed l : based l → ∃ V, committed [] V [] l.
Proof. apply reachable_based_ok. Qed.
