(** A panic and a commit exclude each other. *)
From Verif Require Import Prelude ListFacts Succinct TripleFiles Merge Layer Builder Spec StoreBuilder BuilderPanic SpecPanic.

Lemma do_ops_app st b cs cs' : do_ops st b (cs ++ cs') = b' ← do_ops st b cs; do_ops st b' cs'.
Proof. revert b. induction cs as [|c cs IH]; intros b; [done|]. cbn. destruct (do_op st b c); [apply IH|done]. Qed.
Lemma closure_ops_app a b : closure_ops (a ++ b) = closure_ops a ++ closure_ops b.
Proof. unfold closure_ops. rewrite omap_app. induction (omap _ a) as [|x l IH]; [done|].
  change (x ++ mjoin (l ++ omap (λ e, match e with PClosure _ cs => Some cs | _ => None end) b) =
    (x ++ mjoin l) ++ mjoin (omap (λ e, match e with PClosure _ cs => Some cs | _ => None end) b)). by rewrite IH, app_assoc. Qed.

Record pinv (st : stack) (tr : list pev) (s : pstate) : Prop := {
  pi_open : ∀ b, b_cell (p_builder s) = Some b → b_taken (p_builder s) = ∅ ∧ b_written (p_builder s) = [] ∧
    (∀ t r, PCommit t r ∉ tr) ∧ (p_poisoned s = false → do_ops st (builder_new st) (closure_ops tr) = Some b);
  pi_poisoned : p_poisoned s = true → is_Some (b_cell (p_builder s));
  pi_panicked : panicked tr ↔ p_poisoned s = true;
  pi_taken : ∀ t b, b_taken (p_builder s) !! t = Some b → do_ops st (builder_new st) (closure_ops tr) = Some b;
  pi_written : ∀ st', st' ∈ b_written (p_builder s) ∨ (∃ t, PCommit t (Committed st') ∈ tr) →
    ∃ b nvord prord l, do_ops st (builder_new st) (closure_ops tr) = Some b ∧ (∀ m, nvord m ≡ₚ m) ∧ (∀ m, prord m ≡ₚ m) ∧
      commit nvord prord st b = Some l ∧ st' = l :: st }.
Lemma panicked_snoc tr e : panicked (tr ++ [e]) ↔ panicked tr ∨ ∃ t, e = PPanics t.
Proof.
  unfold panicked. setoid_rewrite elem_of_app. setoid_rewrite elem_of_list_singleton. split.
  - intros (t & [H|H]); [left; eauto|right; eauto].
  - intros [(t & H)|(t & H)]; eauto.
Qed.
Lemma pinv_exec st tr s : pexec st tr s → pinv st tr s.
Proof.
  induction 1 as [|tr s e s' _ [I1 I2 I3 I4 I5] Hs].
  { split; cbn.
    - intros b [= <-]. split; [done|]. split; [done|]. split; [by intros t r ?%elem_of_nil|done].
    - done.
    - split; [|done]. by intros (t & ?%elem_of_nil).
    - intros t b. by rewrite lookup_empty.
    - intros st' [?%elem_of_nil|(t & ?%elem_of_nil)]; done. }
  destruct Hs as [s t cs b b' Hc Hd|s t b b' Hc|s t Hc|s t|s t b Hc Ht|s t Hc|s p t b nvord prord l Ht Hn Hp Hcm|s p t b Ht|s t];
    cbn [p_builder p_poisoned b_cell b_taken b_written] in *.
  all: try match goal with |- context [option_list (Some ?x)] => change (option_list (Some x)) with [x] end.
  all: try change (option_list None) with (@nil pev); rewrite ?app_nil_r.
  - destruct (I1 b Hc) as (H1 & H2 & H3 & H4). split; cbn.
    + intros b1 [= <-]. split; [done|]. split; [done|]. split.
      * intros u r [?|?%elem_of_list_singleton]%elem_of_app; [by apply (H3 u r)|done].
      * intros _. rewrite closure_ops_app, do_ops_app, H4 by done. cbn. unfold closure_ops. cbn. by rewrite app_nil_r.
    + done.
    + rewrite panicked_snoc, I3. split; [|done]. intros [?|(? & ?)]; done.
    + intros u b1. by rewrite H1, lookup_empty.
    + intros st' [H|(u & H)]; [by rewrite H2 in H; apply elem_of_nil in H|]. exfalso.
      apply elem_of_app in H as [?|?%elem_of_list_singleton]; [by apply (H3 u (Committed st'))|done].
  - destruct (I1 b Hc) as (H1 & H2 & H3 & H4). split; cbn.
    + intros b1 [= <-]. split; [done|]. split; [done|]. split; [|done].
      intros u r [?|?%elem_of_list_singleton]%elem_of_app; [by apply (H3 u r)|done].
    + eauto.
    + rewrite panicked_snoc. split; [done|]. intros _. right. eauto.
    + intros u b1. by rewrite H1, lookup_empty.
    + intros st' [H|(u & H)]; [by rewrite H2 in H; apply elem_of_nil in H|]. exfalso.
      apply elem_of_app in H as [?|?%elem_of_list_singleton]; [by apply (H3 u (Committed st'))|done].
  - split; cbn; [intros b; by rewrite Hc|done| | |].
    + rewrite panicked_snoc, I3. split; [|done]. intros [?|(? & ?)]; done.
    + intros u b. rewrite closure_ops_app, app_nil_r. apply I4.
    + intros st' H. rewrite closure_ops_app, app_nil_r. apply I5. destruct H as [?|(u & [?|?%elem_of_list_singleton]%elem_of_app)]; [by left|right; eauto|done].
  - split; cbn.
    + intros b Hb. destruct (I1 b Hb) as (H1 & H2 & H3 & H4). rewrite closure_ops_app, app_nil_r. split; [done|]. split; [done|]. split; [|done].
      intros u r [?|?%elem_of_list_singleton]%elem_of_app; [by apply (H3 u r)|done].
    + done.
    + rewrite panicked_snoc, I3. split; [|done]. intros [?|(? & ?)]; done.
    + intros u b. rewrite closure_ops_app, app_nil_r. apply I4.
    + intros st' H. rewrite closure_ops_app, app_nil_r. apply I5. destruct H as [?|(u & [?|?%elem_of_list_singleton]%elem_of_app)]; [by left|right; eauto|done].
  - destruct (I1 b Hc) as (H1 & H2 & H3 & H4). split; cbn; [done|done|done| |].
    + intros u b1. rewrite H1. destruct (decide (u = t)) as [->|]; [rewrite lookup_insert; intros [= <-]; by apply H4|].
      rewrite lookup_insert_ne by done. by rewrite lookup_empty.
    + exact I5.
  - split; cbn; [intros b; by rewrite Hc|done| | |].
    + rewrite panicked_snoc, I3. split; [|done]. intros [?|(? & ?)]; done.
    + intros u b. rewrite closure_ops_app, app_nil_r. apply I4.
    + intros st' H. rewrite closure_ops_app, app_nil_r. apply I5. destruct H as [?|(u & [?|?%elem_of_list_singleton]%elem_of_app)]; [by left|right; eauto|done].
  - pose proof (I4 t b Ht) as Hb. assert (Hnone : b_cell s = None).
    { destruct (b_cell s) as [b1|] eqn:E; [|done]. destruct (I1 b1 eq_refl) as (H1 & _). by rewrite H1, lookup_empty in Ht. }
    split; cbn.
    + intros b1. by rewrite Hnone.
    + exact I2.
    + rewrite panicked_snoc, I3. split; [|auto]. intros [?|(? & ?)]; done.
    + intros u b1 [_ Hu]%lookup_delete_Some. rewrite closure_ops_app, app_nil_r. by apply (I4 u).
    + intros st' H. rewrite closure_ops_app, app_nil_r.
      assert (st' = l :: st ∨ (st' ∈ b_written s ∨ ∃ u, PCommit u (Committed st') ∈ tr)) as [->|H'].
      { destruct H as [[?|?]%elem_of_cons|(u & [?|E%elem_of_list_singleton]%elem_of_app)]; [by left|right; by left|right; right; eauto|].
        left. by injection E. }
      * eauto 10.
      * by apply I5.
  - assert (Hnone : b_cell s = None).
    { destruct (b_cell s) as [b1|] eqn:E; [|done]. destruct (I1 b1 eq_refl) as (H1 & _). by rewrite H1, lookup_empty in Ht. }
    split; cbn.
    + intros b1. by rewrite Hnone.
    + exact I2.
    + rewrite panicked_snoc, I3. split; [|auto]. intros [?|(? & ?)]; done.
    + intros u b1 [_ Hu]%lookup_delete_Some. rewrite closure_ops_app, app_nil_r. by apply (I4 u).
    + intros st' H. rewrite closure_ops_app, app_nil_r. apply I5. destruct H as [?|(u & [?|?%elem_of_list_singleton]%elem_of_app)]; [by left|right; eauto|done].
  - split; cbn.
    + intros b Hb. destruct (I1 b Hb) as (H1 & H2 & H3 & H4). split; [done|]. split; [done|]. split; [|done].
      intros u r [?|?%elem_of_list_singleton]%elem_of_app; [by apply (H3 u r)|done].
    + exact I2.
    + rewrite panicked_snoc, I3. split; [|auto]. intros [?|(? & ?)]; done.
    + intros u b. rewrite closure_ops_app, app_nil_r. apply I4.
    + intros st' H. rewrite closure_ops_app, app_nil_r. apply I5. destruct H as [?|(u & [?|?%elem_of_list_singleton]%elem_of_app)]; [by left|right; eauto|done].
Qed.

(** what was committed is what the closures that returned asked for, and none has panicked *)
Lemma panic_content st tr s t st' : pexec st tr s → PCommit t (Committed st') ∈ tr → ¬ panicked tr ∧
  ∃ nvord prord, hash_order nvord ∧ hash_order prord ∧ build nvord prord st (closure_ops tr) = Some st'.
Proof.
  intros Hx Ht. destruct (pinv_exec st tr s Hx) as [I1 I2 I3 I4 I5]. split.
  - intros Hp%I3. destruct (I2 Hp) as [b Hb]. destruct (I1 b Hb) as (_ & _ & H & _). by apply H in Ht.
  - destruct (I5 st') as (b & nvord & prord & l & Hb & Hn & Hq & Hc & ->); [eauto|]. exists nvord, prord. split; [done|]. split; [done|].
    unfold build. rewrite Hb. cbn [mbind option_bind]. by rewrite Hc.
Qed.
(** it is written by the one commit that returned it *)
Lemma panic_written st tr s : pexec st tr s → ∀ st', st' ∈ b_written (p_builder s) → ∃ t, PCommit t (Committed st') ∈ tr.
Proof.
  induction 1 as [|tr s e s' _ IH Hs]; intros st' Hin; [by apply elem_of_nil in Hin|].
  assert (Hlift : (∃ t, PCommit t (Committed st') ∈ tr) → ∃ t, PCommit t (Committed st') ∈ tr ++ option_list e).
  { intros [t Ht]. exists t. apply elem_of_app. by left. }
  destruct Hs; cbn [p_builder b_written] in *; try (by apply Hlift, IH).
  apply elem_of_cons in Hin as [->|Hin]; [|by apply Hlift, IH]. eexists. apply elem_of_app. right. left.
Qed.
(** after a panic nothing is written and every call panics *)
Lemma panic_nothing st tr s : pexec st tr s → panicked tr → b_written (p_builder s) = [] ∧ b_taken (p_builder s) = ∅.
Proof.
  intros Hx Hp. destruct (pinv_exec st tr s Hx) as [I1 I2 I3 I4 I5]. apply I3 in Hp. destruct (I2 Hp) as [b Hb].
  by destruct (I1 b Hb) as (? & ? & _).
Qed.
Lemma pexec_split st tr s : pexec st tr s → ∀ pre e post, tr = pre ++ e :: post →
  ∃ s0 s1, pexec st pre s0 ∧ pstep st s0 (Some e) s1.
Proof.
  induction 1 as [|tr s o s' Hx IH Hs]; intros pre e post E; [by destruct pre|].
  destruct o as [x|]; [|change (option_list None) with (@nil pev) in E; rewrite app_nil_r in E; by apply (IH pre e post)].
  change (option_list (Some x)) with [x] in E.
  destruct post as [|y post _] using rev_ind.
  - apply app_inj_tail in E as [-> ->]. eauto.
  - rewrite app_comm_cons, app_assoc in E. apply app_inj_tail in E as [E ->]. by apply (IH pre e post).
Qed.
Lemma panic_dead st tr s pre t post : pexec st tr s → tr = pre ++ PPanics t :: post → ∀ e, e ∈ post → ∃ u, e = PPoisoned u.
Proof.
  intros Hx -> e He. apply elem_of_list_split in He as (p1 & p2 & ->).
  destruct (pexec_split st _ s Hx (pre ++ PPanics t :: p1) e p2) as (s0 & s1 & Hx0 & Hs); [by rewrite <-app_assoc|].
  assert (Hp : panicked (pre ++ PPanics t :: p1)). { exists t. apply elem_of_app. right. left. }
  destruct (pinv_exec st _ s0 Hx0) as [I1 I2 I3 I4 I5]. apply I3 in Hp. destruct (I2 Hp) as [b Hb].
  destruct (I1 b Hb) as (H1 & _). inversion Hs; subst; cbn in *; try discriminate; try (rewrite H1, lookup_empty in *; discriminate). eauto.
Qed.
Lemma poisoned_cause st tr s pre u post : pexec st tr s → tr = pre ++ PPoisoned u :: post → panicked pre.
Proof.
  intros Hx E. destruct (pexec_split st tr s Hx pre _ post E) as (s0 & s1 & Hx0 & Hs).
  apply (pi_panicked st pre s0 (pinv_exec st pre s0 Hx0)). by inversion Hs.
Qed.
Lemma panic_late st tr s : pexec st tr s → b_cell (p_builder s) = None → ¬ panicked tr ∧
  (∀ t e s', pstep st s (Some e) s' → e ≠ PPanics t ∧ e ≠ PPoisoned t).
Proof.
  intros Hx Hn. destruct (pinv_exec st tr s Hx) as [I1 I2 I3 I4 I5].
  assert (Hp : p_poisoned s = false). { destruct (p_poisoned s); [|done]. destruct (I2 eq_refl) as [b Hb]. by rewrite Hn in Hb. }
  split; [rewrite I3; by rewrite Hp|]. intros t e s' Hs. inversion Hs; subst; cbn in *; try (split; discriminate); by rewrite Hn in *.
Qed.
Lemma panic_stuck st tr s : pexec st tr s → panicked tr → ∀ e s', pstep st s e s' → ∃ v, e = Some (PPoisoned v) ∧ s' = s.
Proof.
  intros Hx Hp e s' Hs. destruct (panic_nothing st tr s Hx Hp) as [_ Ht].
  apply (pi_panicked st tr s (pinv_exec st tr s Hx)) in Hp.
  inversion Hs; subst; cbn in *; try discriminate; try (rewrite Ht, lookup_empty in *; discriminate). eauto.
Qed.
