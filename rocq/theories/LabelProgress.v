(** Calls on the directory label store do not wait for each other forever, and end. *)
From Verif Require Import Prelude Names SpecText NamesFacts LabelConc LabelSpec LabelConcFacts LabelPool SpecProgress.

(** ** who reads a file *)
Definition reads (p : pc) (i : ino) : Prop :=
  match p with PGetRead _ j | PGetDone _ j _ => j = i | _ => False end.
Definition readers (s : lstate) : Prop :=
  ∀ i nd u, s_inodes s !! i = Some nd → u ∈ i_shared nd → ∃ p, s_threads s !! u = Some p ∧ reads p i.
Lemma readers_move s s' t p q :
  readers s → s_threads s !! t = Some p → s_threads s' = <[t := q]> (s_threads s) →
  (∀ i nd u, s_inodes s' !! i = Some nd → u ∈ i_shared nd →
     (u = t ∧ reads q i) ∨ (u ≠ t ∨ ∀ j, ¬ reads p j) ∧ ∃ nd', s_inodes s !! i = Some nd' ∧ u ∈ i_shared nd') → readers s'.
Proof.
  intros Hs Ht Hs' H i nd u Hi Hu. rewrite Hs'. destruct (H i nd u Hi Hu) as [[-> Hq]|[Hne (nd' & Hi' & Hu')]].
  - exists q. by rewrite lookup_insert.
  - destruct (Hs i nd' u Hi' Hu') as (p' & Hp' & Hr). assert (u ≠ t) as Hn.
    { destruct Hne as [?|Hno]; [done|]. intros ->. rewrite Ht in Hp'. injection Hp' as <-. by destruct (Hno i). }
    exists p'. by rewrite lookup_insert_ne.
Qed.
Lemma readers_leave s s' t p :
  readers s → s_threads s !! t = Some p → s_threads s' = delete t (s_threads s) →
  (∀ i nd u, s_inodes s' !! i = Some nd → u ∈ i_shared nd →
     (u ≠ t ∨ ∀ j, ¬ reads p j) ∧ ∃ nd', s_inodes s !! i = Some nd' ∧ u ∈ i_shared nd') → readers s'.
Proof.
  intros Hs Ht Hs' H i nd u Hi Hu. rewrite Hs'. destruct (H i nd u Hi Hu) as [Hne (nd' & Hi' & Hu')].
  destruct (Hs i nd' u Hi' Hu') as (p' & Hp' & Hr). assert (u ≠ t) as Hn.
  { destruct Hne as [?|Hno]; [done|]. intros ->. rewrite Ht in Hp'. injection Hp' as <-. by destruct (Hno i). }
  exists p'. by rewrite lookup_delete_ne.
Qed.
Lemma readers_step s e s' : readers s → lstep s e s' → readers s'.
Proof.
  intros Hs Hst. inversion Hst; subst; clear Hst;
  try (match goal with
  | H : s_threads ?s !! ?t = None |- readers (goto ?s ?t ?q) =>
      intros i nd u Hi Hu; destruct (Hs i nd u Hi Hu) as (p' & Hp' & Hr);
      exists p'; split; [|done]; cbn [goto s_threads]; rewrite lookup_insert_ne; [done|]; intros ->; by rewrite H in Hp'
  end);
  match goal with H : s_threads ?s !! ?t = Some ?p |- _ =>
    first [eapply (readers_move s _ t p _ Hs H); [reflexivity|]|eapply (readers_leave s _ t p Hs H); [reflexivity|]] end;
  intros j nd' u Hj Hu; cbn [goto leave put s_inodes] in Hj;
  try (apply lookup_insert_Some in Hj as [[<- <-]|[? Hj]]);
  cbn [set_data lock_excl unlock_excl lock_shared unlock_shared i_shared] in *;
  try (solve [first [right|idtac]; split; [right; intros ? []|eauto]]).
  - apply elem_of_cons in Hu as [-> | Hu]; [by left|]. right. split; [right; intros ? []|eauto].
  - destruct (decide (u = t)) as [->|Hne].
    + left. split; [done|]. destruct (Hs j nd' t Hj Hu) as (p' & Hp' & Hr). rewrite H in Hp'. injection Hp' as <-. exact Hr.
    + right. split; [by left|eauto].
  - apply elem_of_list_filter in Hu as [Hne Hu]. split; [by left|eauto].
  - split; [|eauto]. left. intros ->. destruct (Hs j nd' t Hj Hu) as (p' & Hp' & Hr). rewrite H in Hp'. injection Hp' as <-. done.
  - by apply elem_of_nil in Hu.
Qed.
Lemma readers_exec tr s : lexec tr s → readers s.
Proof. intros He. induction He as [|tr s e s' _ IH Hst]; [done|]. by apply (readers_step s e). Qed.

(** ** some call can go on *)
Definition steps (s : lstate) (t : tid) : Prop :=
  ∃ s', goes_on s s' ∧ s_threads s' !! t ≠ s_threads s !! t ∧ ∀ u, u ≠ t → s_threads s' !! u = s_threads s !! u.
Lemma goto_goes s t p q s' e : s_threads s !! t = Some p → lstep s e s' → s_threads s' = <[t := q]> (s_threads s) → q ≠ p → steps s t.
Proof.
  intros Ht Hst Hs' Hne. assert (s_threads s' !! t ≠ s_threads s !! t) as Hd.
  { rewrite Hs', lookup_insert, Ht. intros E. by injection E. }
  exists s'. split; [|split; [done|intros u Hu; by rewrite Hs', lookup_insert_ne]]. split; [by exists e|]. split; [by intros ->|].
  intros u Hu. rewrite Hs', lookup_insert_ne; [done|]. intros ->. by rewrite Ht in Hu.
Qed.
Lemma leave_goes s t p s' e : s_threads s !! t = Some p → lstep s e s' → s_threads s' = delete t (s_threads s) → steps s t.
Proof.
  intros Ht Hst Hs'. assert (s_threads s' !! t ≠ s_threads s !! t) as Hd.
  { by rewrite Hs', lookup_delete, Ht. }
  exists s'. split; [|split; [done|intros u Hu; by rewrite Hs', lookup_delete_ne]]. split; [by exists e|]. split; [by intros ->|].
  intros u Hu. rewrite Hs'. destruct (decide (u = t)) as [->|?]; [by rewrite lookup_delete|by rewrite lookup_delete_ne].
Qed.
Lemma goes_unlocked {K} ms s t p : glinv K ms s → s_threads s !! t = Some p →
  match locking p with Some i => ∀ nd, s_inodes s !! i = Some nd → i_excl nd = None ∧ i_shared nd = [] | None => True end → steps s t.
Proof.
  intros Hl Ht Hw. pose proof (linv_thread K ms s Hl t p Ht) as Hp. unfold thread_ok, has in Hp.
  destruct p as [n|n i|n i|n i d|l nl|l nl i|l nl i|l nl i d|l nl i pos rest|n|n|n i|n i pos rest|n]; cbn [locking] in Hw.
  - destruct (s_dir s !! n) as [i|] eqn:E.
    + eapply (goto_goes s t _ _ _ _ Ht); [by eapply get_open|reflexivity|done].
    + eapply (leave_goes s t _ _ _ Ht); [by eapply get_absent|reflexivity].
  - destruct Hp as (nd & Hi & _). destruct (Hw nd Hi) as [He _].
    eapply (goto_goes s t _ _ _ _ Ht); [by eapply get_lock|reflexivity|done].
  - destruct Hp as (nd & Hi & _). eapply (goto_goes s t _ _ _ _ Ht); [by eapply get_read|reflexivity|done].
  - destruct Hp as (nd & Hi & _). eapply (leave_goes s t _ _ _ Ht); [by eapply get_done|reflexivity].
  - destruct (s_dir s !! lb_name l) as [i|] eqn:E.
    + eapply (goto_goes s t _ _ _ _ Ht); [by eapply set_open|reflexivity|done].
    + eapply (leave_goes s t _ _ _ Ht); [by eapply set_absent|reflexivity].
  - destruct Hp as (_ & nd & Hi & _). destruct (Hw nd Hi) as [He Hs].
    eapply (goto_goes s t _ _ _ _ Ht); [by eapply set_lock|reflexivity|done].
  - destruct Hp as (_ & nd & Hi & _). eapply (goto_goes s t _ _ _ _ Ht); [by eapply set_read|reflexivity|done].
  - destruct Hp as (_ & nd & Hi & _). destruct (get_label_from_data (lb_name l) d) as [l'|k|] eqn:E.
    + destruct (decide (l' = l)) as [->|Hne].
      * eapply (goto_goes s t _ _ _ _ Ht); [by eapply set_truncate|reflexivity|done].
      * eapply (leave_goes s t _ _ _ Ht); [eapply (set_bad s t l nl i d nd (Ok None)); [done|done|by rewrite E]|reflexivity].
    + eapply (leave_goes s t _ _ _ Ht); [eapply (set_bad s t l nl i d nd (Err k)); [done|done|by rewrite E]|reflexivity].
    + eapply (leave_goes s t _ _ _ Ht); [eapply (set_bad s t l nl i d nd Panic); [done|done|by rewrite E]|reflexivity].
  - destruct Hp as (_ & nd & Hi & _). destruct rest as [|b rest].
    + eapply (leave_goes s t _ _ _ Ht); [by eapply set_done|reflexivity].
    + eapply (goto_goes s t _ (PSetWrite l nl i (pos + length [b]) rest) _ _ Ht); [by eapply (set_write s t l nl i pos [b] rest nd)|reflexivity|].
      intros E. injection E as E _. cbn [length] in E. lia.
  - destruct (s_dir s !! n) as [i|] eqn:E.
    + eapply (leave_goes s t _ _ _ Ht); [by eapply create_exists|reflexivity].
    + eapply (goto_goes s t _ _ _ _ Ht); [by eapply create_stat|reflexivity|done].
  - destruct (s_dir s !! n) as [i|] eqn:E.
    + eapply (leave_goes s t _ _ _ Ht); [by eapply create_late|reflexivity].
    + eapply (goto_goes s t _ _ _ _ Ht); [eapply (create_open s t n (fresh (dom (s_inodes s)))); [done|done|]|reflexivity|done].
      apply not_elem_of_dom, is_fresh.
  - destruct Hp as (nd & Hi & _). destruct (Hw nd Hi) as [He Hs].
    eapply (goto_goes s t _ _ _ _ Ht); [by eapply create_lock|reflexivity|done].
  - destruct Hp as (nd & Hi & _). destruct rest as [|b rest].
    + eapply (leave_goes s t _ _ _ Ht); [by eapply create_done|reflexivity].
    + eapply (goto_goes s t _ (PCreWrite n i (pos + length [b]) rest) _ _ Ht); [by eapply (create_write s t n i pos [b] rest nd)|reflexivity|].
      intros E. injection E as E _. cbn [length] in E. lia.
  - destruct (s_dir s !! n) as [i|] eqn:E.
    + eapply (leave_goes s t _ _ _ Ht); [by eapply delete_file|reflexivity].
    + eapply (leave_goes s t _ _ _ Ht); [by eapply delete_absent|reflexivity].
Qed.
Lemma holds_free {K} ms s t p i : glinv K ms s → s_threads s !! t = Some p → holds p = Some i ∨ reads p i → steps s t.
Proof. intros Hl Ht Hh. apply (goes_unlocked ms s t p Hl Ht). destruct p; cbn in *; naive_solver. Qed.
(** who has locked a file for writing *)
Definition writers (s : lstate) : Prop := ∀ i nd u, s_inodes s !! i = Some nd → i_excl nd = Some u → holding s u = Some i.
Lemma can_go_on {K} ms s : glinv K ms s → writers s → readers s → s_threads s ≠ ∅ → ∃ s', goes_on s s'.
Proof.
  intros Hl Hh Hr Hne.
  assert (∃ t, steps s t) as (t & s' & H & _); [|by exists s'].
  apply map_choose in Hne as (t & p & Ht).
  destruct (locking p) as [i|] eqn:Ew; [|exists t; apply (goes_unlocked ms s t p Hl Ht); by rewrite Ew].
  destruct (s_inodes s !! i) as [nd|] eqn:Ei; [|exists t; apply (goes_unlocked ms s t p Hl Ht); rewrite Ew; intros nd; by rewrite Ei].
  destruct (i_excl nd) as [u|] eqn:Ee.
  { specialize (Hh i nd u Ei Ee). unfold holding in Hh. destruct (s_threads s !! u) as [q|] eqn:Eu; [|done].
    exists u. apply (holds_free ms s u q i Hl Eu). by left. }
  destruct (i_shared nd) as [|u us] eqn:Es.
  { exists t. apply (goes_unlocked ms s t p Hl Ht). rewrite Ew. intros nd'. rewrite Ei. by intros [= <-]. }
  destruct (Hr i nd u Ei) as (q & Hq & Hrq); [rewrite Es; by left|].
  exists u. apply (holds_free ms s u q i Hl Hq). by right.
Qed.
Lemma writers_exec tr s : lexec tr s → writers s.
Proof. intros He i nd u Hi Hu. destruct (lexec_inv tr s He) as (ms & _ & Ho & _). by apply (Ho i nd Hi). Qed.
Lemma labels_go_on tr s : lexec tr s → s_threads s ≠ ∅ → ∃ s', goes_on s s'.
Proof.
  intros He. destruct (lexec_inv tr s He) as (ms & Hl & _). exact (can_go_on ms s Hl (writers_exec tr s He) (readers_exec tr s He)).
Qed.

(** ** they end *)
Definition cost (p : pc) : nat :=
  match p with
  | PGetOpen _ => 4 | PGetLock _ _ => 3 | PGetRead _ _ => 2 | PGetDone _ _ _ => 1
  | PSetOpen _ nl => length (label_contents nl) + 5 | PSetLock _ nl _ => length (label_contents nl) + 4
  | PSetRead _ nl _ => length (label_contents nl) + 3 | PSetGot _ nl _ _ => length (label_contents nl) + 2
  | PSetWrite _ _ _ _ rest => length rest + 1
  | PCreStat _ => length new_label_contents + 4 | PCreOpen _ => length new_label_contents + 3
  | PCreLock _ _ => length new_label_contents + 2 | PCreWrite _ _ _ rest => length rest + 1
  | PDel _ => 1
  end.
Section msum.
  Context {A : Type} (f : A → nat).
  Definition msum (m : gmap nat A) : nat := sum_list (f <$> (map_to_list m).*2).
  Lemma msum_insert m t p : m !! t = None → msum (<[t := p]> m) = f p + msum m.
  Proof. intros H. unfold msum. rewrite (map_to_list_insert m t p H). reflexivity. Qed.
  Lemma msum_delete m t p : m !! t = Some p → msum m = f p + msum (delete t m).
  Proof. intros H. rewrite <- (insert_delete m t p H) at 1. apply msum_insert, lookup_delete. Qed.
  Lemma msum_over m t p q : m !! t = Some p → f p + msum (<[t := q]> m) = f q + msum m.
  Proof.
    intros H. rewrite (msum_delete m t p H), <- insert_delete_insert, msum_insert by apply lookup_delete. lia.
  Qed.
End msum.
Lemma cost_pos p : 1 ≤ cost p.
Proof. destruct p; cbn [cost]; lia. Qed.
Lemma write_nothing nd pos : set_data nd (write_at (i_data nd) pos []) = nd.
Proof. unfold set_data, write_at. cbn [app length]. rewrite Nat.add_0_r, take_drop. by destruct nd. Qed.
Lemma step_moves s e s' : lstep s e s' → s' ≠ s →
  (∃ t, s_threads s !! t = None ∧ s_threads s' !! t ≠ None) ∨
  (∃ t p, s_threads s !! t = Some p ∧ (s_threads s' = delete t (s_threads s) ∨ ∃ q, s_threads s' = <[t := q]> (s_threads s) ∧ cost q < cost p)).
Proof.
  intros Hst Hne. inversion Hst; subst; clear Hst;
  try (solve [left; exists t; split; [done|]; cbn [goto s_threads]; by rewrite lookup_insert]);
  right; exists t; eexists; (split; [eassumption|]);
  try (solve [left; reflexivity]);
  try (solve [right; eexists; split; [reflexivity|]; cbn [cost]; lia]);
  right; eexists; (split; [reflexivity|]); cbn [cost]; rewrite app_length; destruct a as [|b a]; cbn [length]; try lia;
  exfalso; apply Hne; rewrite write_nothing; destruct s as [d is ts]; cbn [goto put s_dir s_inodes s_threads] in *;
  rewrite Nat.add_0_r; unfold goto, put; cbn [s_dir s_inodes s_threads]; f_equal; apply insert_id; done.
Qed.
Lemma goes_on_cost s s' : goes_on s s' → msum cost (s_threads s') < msum cost (s_threads s).
Proof.
  intros ([e Hst] & Hne & Hno). destruct (step_moves s e s' Hst Hne) as [(t & H1 & H2)|(t & p & Ht & [-> | (q & -> & Hlt)])].
  - by destruct H2; apply Hno.
  - rewrite (msum_delete cost _ t p Ht). pose proof (cost_pos p). lia.
  - pose proof (msum_over cost _ t p q Ht). lia.
Qed.
Lemma labels_end s k s' : nsteps goes_on k s s' → k ≤ msum cost (s_threads s).
Proof.
  intros H. induction H as [s|k s1 s2 s3 H1 _ IH]; [lia|]. pose proof (goes_on_cost s1 s2 H1). lia.
Qed.
Lemma goes_on_exec tr s s' : lexec tr s → goes_on s s' → ∃ tr', lexec tr' s'.
Proof. intros He ([e Hst] & _). exists (tr ++ option_list e). by apply (lexec_step tr s). Qed.
Lemma labels_finish tr s : lexec tr s → ∃ s', rtc goes_on s s' ∧ s_threads s' = ∅.
Proof.
  remember (msum cost (s_threads s)) as m eqn:Em. revert tr s Em. induction (lt_wf m) as [m _ IH]. intros tr s -> He.
  destruct (decide (s_threads s = ∅)) as [Hz|Hnz]; [by exists s|].
  destruct (labels_go_on tr s He Hnz) as (s1 & Hs1). destruct (goes_on_exec tr s s1 He Hs1) as (tr1 & He1).
  destruct (IH _ (goes_on_cost s s1 Hs1) tr1 s1 eq_refl He1) as (s2 & Hs2 & Hz). exists s2. split; [by eapply rtc_l|done].
Qed.
