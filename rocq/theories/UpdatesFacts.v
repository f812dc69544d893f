(** What becomes of an update of a named graph. *)
From Verif Require Import Prelude Succinct TripleFiles Merge Layer Builder Rollup Squash MergeBase Names Spec StackFacts WfFacts ApiFacts LabelConc LabelSpec Head HeadSpec
  HeadFacts Store SpecStore StoreFacts StoreLoadFacts StoreCallFacts StoreExecFacts StoreApi StoreHead StoreHeadFacts StoreProcs StoreProcsFacts SpecUpdates.

Lemma rtc_split s x y c : rtc (child_of s) y x → stored s y c → ∃ newer older, c = newer ++ older ∧ stored s x older.
Proof.
  intros Hr. revert c. induction Hr as [x|y z x Hyz _ IH]; intros c Hc; [by exists [], c|].
  destruct (stored_ne _ _ _ Hc) as (l & c' & ->). pose proof (stored_tail _ _ _ _ _ Hc Hyz) as Hz.
  destruct (IH _ Hz) as (newer & older & -> & Hx). by exists ((y, l) :: newer), older.
Qed.
Lemma carries_on_ok s x y newer older : good s → stored s x older → stored s y (newer ++ older) →
  ∃ T T', carries_on s x y newer older T T'.
Proof.
  intros Hg Hx Hy. pose proof (g_wf _ Hg _ _ Hx) as Hw. destruct (shown_ok _ Hw) as (T & ET & _ & _).
  assert (∃ T', shown (newer ++ older).*2 = Some T' ∧ (∀ vt, vt ∈ T → vt ∈ T' ∨ taken_away newer older vt) ∧
    ∀ vt, vt ∈ T' → vt ∈ T ∨ put_in newer older vt) as (T' & ET' & H1 & H2); [|by exists T, T'].
  clear Hw. revert y Hy. induction newer as [|e newer IH]; intros y Hy; [exists T; split; [done|]; split; intros vt Hvt; by left|].
  destruct (stored_ne _ _ _ Hy) as (l & c' & E).
  assert (∃ z, stored s z (newer ++ older)) as [z Hz].
  { destruct (stored_ne _ _ _ Hx) as (l0 & c0 & ->).
    apply (stored_app_inv _ y [e]); [done|]. by destruct newer. }
  destruct (IH z Hz) as (T1 & E1 & H1 & H2).
  destruct (shown_ok _ (g_wf _ Hg _ _ Hy)) as (T2 & E2 & _ & _).
  exists T2. split; [exact E2|]. split; intros vt Hvt.
  - destruct (decide (vt ∈ T2)) as [|Hn]; [by left|]. right. destruct (H1 vt Hvt) as [Hin|(above & e' & below & U & U' & -> & HU)].
    + by exists [], e, newer, T1, T2.
    + by exists (e :: above), e', below, U, U'.
  - destruct (decide (vt ∈ T1)) as [Hin|Hn].
    + destruct (H2 vt Hin) as [|(above & e' & below & U & U' & -> & HU)]; [by left|]. right. by exists (e :: above), e', below, U, U'.
    + right. by exists [], e, newer, T1, T2.
Qed.
Lemma told_heads its h n x : hexec its h → serves n its → told n x its → x ∈ heads n its.
Proof.
  intros Hex Hsv (it & t & Hin & Hret). apply elem_of_list_split in Hin as (pre & post & E).
  destruct (success_item its h n pre it post t (SetHead n x) (RBool true) Hex Hsv E eq_refl Hret ltac:(auto)) as (l & nl & i & y & El & Hl & [= <-] & Hy & _).
  destruct (hexec_inv n _ _ Hex Hsv) as [[_ _ Hit] _].
  assert (it ∈ its) as Hin by (rewrite E; apply elem_of_app; right; left).
  specialize (Hit it Hin). unfold item_ok in Hit. rewrite El in Hit. destruct Hit as (op' & x' & Hret' & Hname & _).
  rewrite Hret in Hret'. injection Hret' as <- _.
  unfold heads. apply elem_of_list_omap. exists (EvSet t l nl i (Ok (Some nl))). split; [by eapply levs_elem|].
  cbn [head_of]. cbn in Hname. rewrite decide_True by congruence. done.
Qed.
Lemma ancestor_agrees s its h a x : hexec its h → agrees s h → x ∈ h_layers h → ancestor h a x → rtc (child_of s) x a.
Proof.
  intros Hex Ha Hx Hr. assert (hdom h) as Hd.
  { clear Ha Hx Hr. induction Hex as [|its s' it h' _ IH Hst]; [intros ??; cbn; by rewrite lookup_empty|by eapply hstep_dom]. }
  unfold ancestor in Hr. induction Hr as [|x y z Hxy _ IH]; [done|].
  eapply rtc_l; [|apply IH; by apply (Hd x y)]. unfold child_of. by rewrite <-(proj1 (Ha x Hx)).
Qed.
Lemma told_carries_on s its h n x : good s → hexec its h → agrees s h → serves n its → only_set_head n its → told n x its →
  ∃ y newer older T T', head_now n its y ∧ carries_on s x y newer older T T'.
Proof.
  intros Hg Hex Ha Hsv Ho Ht. pose proof (told_heads _ _ _ _ Hex Hsv Ht) as Hin.
  destruct (serves_history _ _ Hsv) as [c Hc]. destruct (heads_chain _ _ _ _ Hex Hsv Hc Ho) as [_ Hch].
  destruct (Hch _ Hin) as (l & y & -> & Hy & Han). pose proof (head_known _ _ _ _ _ Hex Hc Hy) as Hk.
  destruct (Ha y Hk) as [_ [cy Hcy]].
  destruct (rtc_split _ _ _ _ (ancestor_agrees _ _ _ _ _ Hex Ha Hk Han) Hcy) as (newer & older & -> & Hx).
  destruct (carries_on_ok _ _ _ _ _ Hg Hx Hcy) as (T & T' & H). exists y, newer, older, T, T'. split; [by exists l|done].
Qed.
Lemma sorted_pair {A} (R : A → A → Prop) l x y : StronglySorted R l → x ∈ l → y ∈ l → x = y ∨ R x y ∨ R y x.
Proof.
  induction 1 as [|a l _ IH Hf]; [by intros ?%elem_of_nil|]. rewrite Forall_forall in Hf.
  intros [->|Hx]%elem_of_cons [->|Hy]%elem_of_cons; [by left| | |by apply IH]; right; [left|right]; by apply Hf.
Qed.
Lemma told_two s its h n x x' : hexec its h → agrees s h → serves n its → only_set_head n its → told n x its → told n x' its →
  rtc (child_of s) x x' ∨ rtc (child_of s) x' x.
Proof.
  intros Hex Ha Hsv Ho Ht Ht'. pose proof (told_heads _ _ _ _ Hex Hsv Ht) as Hin. pose proof (told_heads _ _ _ _ Hex Hsv Ht') as Hin'.
  destruct (serves_history _ _ Hsv) as [c Hc]. destruct (heads_chain _ _ _ _ Hex Hsv Hc Ho) as [Hs _].
  assert (∀ z, z ∈ heads n its → z ∈ h_layers h) as Hk.
  { intros z Hz. destruct (hexec_layers _ _ Hex) as [_ Hl]. unfold heads in Hz. apply elem_of_list_omap in Hz as (e & He & Hz).
    destruct e as [|t l nl i [[r|]| |]| |]; try discriminate Hz. cbn [head_of] in Hz. destruct (decide (lb_name l = n)); [|discriminate Hz].
    by eapply Hl. }
  destruct (sorted_pair _ _ _ _ Hs Hin Hin') as [->|[H|H]]; [left; apply rtc_refl|right|left]; eapply ancestor_agrees; eauto.
Qed.
(** ** The executions of one process, and of several *)
Lemma kept_one cached tr its g h n x : cexec cached tr its g h → serves n its → only_set_head n its → told n x its →
  ∃ y newer older T T', head_now n its y ∧ carries_on (g_store g) x y newer older T T' ∧
    ∀ t L, GDone t (SGet y) (Ok (RLayer (Some L))) ∈ tr → shown (layers L) = Some T'.
Proof.
  intros H Hsv Ho Ht. pose proof (cexec_reached _ _ _ _ _ H) as Hr. destruct (reached_good _ _ _ Hr) as [Hg _].
  destruct (told_carries_on _ _ _ _ _ Hg (cexec_hexec _ _ _ _ _ H) (cexec_agrees _ _ _ _ _ H) Hsv Ho Ht) as (y & newer & older & T & T' & Hn & Hc).
  exists y, newer, older, T, T'. split; [done|]. split; [done|]. intros t L HL.
  destruct (loaded_is_stored _ _ _ _ _ _ Hr HL) as (_ & c & Hs & _ & Hsa). rewrite (sa_shown _ _ Hsa).
  rewrite (stored_unique _ _ _ _ Hs (co_all _ _ _ _ _ _ _ Hc)). apply Hc.
Qed.
Lemma kept_several cached tr its g h n x : qexec cached tr its g h → serves n its → only_set_head n its → told n x its →
  ∃ y newer older T T', head_now n its y ∧ carries_on (p_store g) x y newer older T T' ∧
    ∀ i t L, PDone i t (SGet y) (Ok (RLayer (Some L))) ∈ tr → shown (layers L) = Some T'.
Proof.
  intros H Hsv Ho Ht. pose proof (qexec_preached _ _ _ _ _ H) as Hr. pose proof (preached_good _ _ _ Hr) as Hg.
  destruct (told_carries_on _ _ _ _ _ Hg (qexec_hexec _ _ _ _ _ H) (qexec_agrees _ _ _ _ _ H) Hsv Ho Ht) as (y & newer & older & T & T' & Hn & Hc).
  exists y, newer, older, T, T'. split; [done|]. split; [done|]. intros i t L HL.
  destruct (ploaded_is_stored _ _ _ _ _ _ _ Hr HL) as (_ & c & Hs & _ & Hsa). rewrite (sa_shown _ _ Hsa).
  rewrite (stored_unique _ _ _ _ Hs (co_all _ _ _ _ _ _ _ Hc)). apply Hc.
Qed.
Lemma committed_kept s p x y cp cs l U U' newer older T T' :
  stored s x ((x, l) :: cp) → stored s p cp → shown cp.*2 = Some U → shown (l :: cp.*2) = Some U' →
  (∀ vt, vt ∈ U' ↔ after_change (added cp.*2 cs) (removed cp.*2 cs) U vt) → carries_on s x y newer older T T' →
  (∀ vt, vt ∈ added cp.*2 cs → vt ∉ removed cp.*2 cs → vt ∈ T' ∨ taken_away newer older vt) ∧
  (∀ vt, vt ∈ removed cp.*2 cs → vt ∉ added cp.*2 cs → vt ∉ T' ∨ put_in newer older vt).
Proof.
  intros Hx Hp HU HU' Hch Hc. assert (T = U') as ->.
  { pose proof (co_before _ _ _ _ _ _ _ Hc) as E. rewrite (stored_unique _ _ _ _ (co_older _ _ _ _ _ _ _ Hc) Hx) in E.
    change (((x, l) :: cp).*2) with (l :: cp.*2) in E. congruence. }
  split; intros vt H1 H2.
  - apply (co_kept _ _ _ _ _ _ _ Hc). apply Hch. by left.
  - destruct (decide (vt ∈ T')) as [Hin|]; [|by left]. right.
    destruct (co_new _ _ _ _ _ _ _ Hc vt Hin) as [Hu|]; [|done]. apply Hch in Hu. unfold after_change in Hu. tauto.
Qed.
Lemma committed_one cached tr its g h n x t nvord prord p cs : cexec cached tr its g h → serves n its → only_set_head n its →
  GDone t (SChild nvord prord p cs) (Ok (RName x)) ∈ tr → told n x its →
  ∃ cp y newer older T T', stored (g_store g) p cp ∧ head_now n its y ∧ carries_on (g_store g) x y newer older T T' ∧
    (∀ vt, vt ∈ added cp.*2 cs → vt ∉ removed cp.*2 cs → vt ∈ T' ∨ taken_away newer older vt) ∧
    (∀ vt, vt ∈ removed cp.*2 cs → vt ∉ added cp.*2 cs → vt ∉ T' ∨ put_in newer older vt).
Proof.
  intros H Hsv Ho Hin Ht. destruct (kept_one _ _ _ _ _ _ _ H Hsv Ho Ht) as (y & newer & older & T & T' & Hn & Hc & _).
  destruct (child_made _ _ _ _ _ _ _ _ _ (cexec_reached _ _ _ _ _ H) Hin) as (cp & l & U & U' & Hp & Hx & _ & HU & HU' & Hch).
  exists cp, y, newer, older, T, T'. split; [done|]. split; [done|]. split; [done|]. by eapply committed_kept.
Qed.
Lemma committed_several cached tr its g h n x i t nvord prord p cs : qexec cached tr its g h → serves n its → only_set_head n its →
  PDone i t (SChild nvord prord p cs) (Ok (RName x)) ∈ tr → told n x its →
  ∃ cp y newer older T T', stored (p_store g) p cp ∧ head_now n its y ∧ carries_on (p_store g) x y newer older T T' ∧
    (∀ vt, vt ∈ added cp.*2 cs → vt ∉ removed cp.*2 cs → vt ∈ T' ∨ taken_away newer older vt) ∧
    (∀ vt, vt ∈ removed cp.*2 cs → vt ∉ added cp.*2 cs → vt ∉ T' ∨ put_in newer older vt).
Proof.
  intros H Hsv Ho Hin Ht. destruct (kept_several _ _ _ _ _ _ _ H Hsv Ho Ht) as (y & newer & older & T & T' & Hn & Hc & _).
  destruct (pchild_made _ _ _ _ _ _ _ _ _ _ (qexec_preached _ _ _ _ _ H) Hin) as (cp & l & U & U' & Hp & Hx & HU & HU' & Hch).
  exists cp, y, newer, older, T, T'. split; [done|]. split; [done|]. split; [done|]. by eapply committed_kept.
Qed.
