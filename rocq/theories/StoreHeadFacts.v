(** Heads are layers that are completely stored. *)
From Verif Require Import Prelude Succinct TripleFiles Merge Layer Builder Rollup Squash MergeBase Names Spec LabelConc LabelSpec Head HeadSpec
  HeadFacts Store SpecStore StoreFacts StoreLoadFacts StoreCallFacts StoreExecFacts StoreApi StoreHead.

Definition pc_layer (p : hpc) : option lname := match p with HGet op | HWalk op _ _ _ | HSet op _ => op_layer op end.
Lemma hexec_layers its h : hexec its h →
  (∀ t p x, h_threads h !! t = Some p → pc_layer p = Some x → x ∈ h_layers h) ∧
  ∀ t l nl i r x, EvSet t l nl i (Ok (Some r)) ∈ levs its → lb_layer nl = Some x → x ∈ h_layers h.
Proof.
  induction 1 as [|its s it s' _ [IH1 IH2] Hst]; [split; [intros t p x; cbn; by rewrite lookup_empty|by intros ?????? ?%elem_of_nil]|].
  assert (∀ x, x ∈ h_layers s → x ∈ h_layers s') as Hold by (intros x Hx; by apply (hstep_old _ _ _ _ Hst Hx)).
  assert (∀ t q u p x, (∀ y, pc_layer q = Some y → y ∈ h_layers s') → <[t := q]> (h_threads s) !! u = Some p → pc_layer p = Some x → x ∈ h_layers s') as Hins.
  { intros t q u p x Hq. destruct (decide (u = t)) as [->|Hne]; [rewrite lookup_insert; intros [= <-]; apply Hq|].
    rewrite lookup_insert_ne by done. intros Hp Hx. eapply Hold, IH1; eauto. }
  assert (∀ t u p x, delete t (h_threads s) !! u = Some p → pc_layer p = Some x → x ∈ h_layers s') as Hdel.
  { intros t u p x Hp Hx. apply lookup_delete_Some in Hp as [_ Hp]. eapply Hold, IH1; eauto. }
  split.
  - destruct Hst as [s x p H1 H2|s e He|s t op Ht Hl|s t op i l Ht|s t op i Ht|s t op i k Ht
      |s t op l a Ht|s t op l a cur p Ht Hne Hp|s t op l a cur Ht Hne Hp|s t op l layer nl i r Ht Hl Hu|s t op l layer nl i k Ht Hl Hu|s t op l layer Ht Hl Hu|s];
      cbn [h_threads hgoto hleave]; intros u q y; try apply Hdel.
    + intros Hq Hy. eapply Hold, IH1; eauto.
    + apply IH1.
    + apply Hins. intros z Hz. cbn in Hz. by rewrite Hz in Hl.
    + destruct (after_get op l) as [p|] eqn:E; cbn [continue hgoto hleave h_threads]; [|apply Hdel].
      apply Hins. intros z Hz. apply Hold. apply (IH1 _ _ z Ht). destruct op; cbn in E; repeat case_match; by simplify_eq.
    + apply Hins. intros z Hz. apply Hold. by apply (IH1 _ _ z Ht).
    + apply Hins. intros z Hz. apply Hold. by apply (IH1 _ _ z Ht).
    + destruct (after_set op (bool_decide (is_Some r))) as [p|] eqn:E; cbn [continue hgoto hleave h_threads]; [|apply Hdel].
      apply Hins. intros z Hz. apply Hold. apply (IH1 _ _ z Ht). destruct op; cbn in E; repeat case_match; by simplify_eq.
    + by rewrite lookup_empty.
  - intros t l nl i r x. rewrite levs_app, levs_cons, app_nil_r. intros [Hin|Hin]%elem_of_app Hx; [by eapply Hold, IH2|].
    destruct (it_lev it) as [e|] eqn:E; [|by apply elem_of_nil in Hin]. change (option_list (Some e)) with [e] in Hin.
    apply elem_of_list_singleton in Hin as <-. inversion Hst; subst; cbn in E; simplify_eq; try done.
    + naive_solver.
    + apply Hold. eapply IH1; [done|]. cbn. rewrite H0. rewrite <-Hx. symmetry. by eapply updated_layer.
Qed.
Lemma head_known n its h l x : hexec its h → label_after n its (Some l) → lb_layer l = Some x → x ∈ h_layers h.
Proof.
  intros Hh Hl. destruct (hexec_layers _ _ Hh) as [_ Hs]. unfold label_after in Hl.
  assert (∀ e, e ∈ on_name n (levs its) → e ∈ levs its) as Hsub by (intros e [_ ?]%elem_of_list_filter; done).
  revert x. assert (∀ x, (∃ l0, (None : option label) = Some l0 ∧ lb_layer l0 = Some x) → x ∈ h_layers h) as H0 by (intros x (? & ? & _); done).
  revert H0 Hl Hsub. generalize (on_name n (levs its)) as es. generalize (None : option label) as c0. remember (Some l) as cl eqn:Ecl.
  intros c0 es H0 Hl. induction Hl as [c|c e d es c1 Hr _ IH]; intros Hsub x Hx; [apply H0; eauto|].
  subst. eapply IH; [done| |set_solver|done]. intros y (l0 & -> & Hy).
  inversion Hr as [? ? ? Hr'| | | |]; subst; [|by apply H0; eauto].
  inversion Hr'; subst; try (apply H0; by eauto); try done. eapply Hs; [apply Hsub; left|done].
Qed.
Lemma cexec_hexec cached tr its g h : cexec cached tr its g h → hexec its h.
Proof. induction 1; [constructor|done|by econstructor|]. subst. econstructor; [done|constructor]. Qed.
Lemma cexec_reached cached tr its g h : cexec cached tr its g h → reached cached tr g.
Proof. induction 1; [constructor|by eapply gexec_step|done|]. by eapply (gexec_step _ _ _ _ (Some GCrash)). Qed.
Lemma held_stored cached tr g x : reached cached tr g → held tr x → ∃ c, stored (g_store g) x c.
Proof.
  intros H [(t & k & Hin)|(t & y & L & Hin & Hn)]; [by eapply named_stored|].
  destruct (loaded_is_stored _ _ _ _ _ _ H Hin) as (Hn' & c & Hc & _). exists c. congruence.
Qed.
Lemma rtc_stored s y x : rtc (child_of s) y x → (∃ c, stored s y c) → ∃ c, stored s x c.
Proof.
  induction 1 as [|a b d Hab _ IH]; [done|]. intros [c Hc]. apply IH. destruct Hc as [? ? ? ? Hp|? ? p c ? ? Hp Hc]; unfold child_of in Hab; [congruence|].
  assert (p = b) as -> by congruence. by exists c.
Qed.
Definition agrees (s : store) (h : hstate) : Prop := ∀ x, x ∈ h_layers h → h_parents h !! x = s_parent s x ∧ ∃ c, stored s x c.
Lemma agrees_ext O s s' h : ext O s s' → agrees s h → agrees s' h.
Proof.
  intros He H x Hx. destruct (H x Hx) as [E [c Hc]]. pose proof (ext_stored _ _ _ _ _ He Hc) as Hc'. split; [|by exists c].
  by rewrite E, (stored_second _ _ _ Hc), (stored_second _ _ _ Hc').
Qed.
Lemma gexec_ext cached tr g tr' g' : reached cached tr g → gexec cached g tr' g' → ext ∅ (g_store g) (g_store g').
Proof.
  intros H H'. destruct (reached_pool _ _ _ H) as (Ow & S0 & Hp & _).
  by destruct (gexec_pool cached _ tr' g' _ _ (λ _, True) H' Hp) as (_ & _ & _ & He & _).
Qed.
Lemma cexec_agrees cached tr its g h : cexec cached tr its g h → agrees (g_store g) h.
Proof.
  induction 1 as [|tr its g h e g' H IH Hs _|tr its g h it h' H IH Hs Hnew|tr its g h g' h' H IH Hs ->].
  - intros x Hx. cbn in Hx. set_solver.
  - eapply agrees_ext; [|done]. eapply gexec_ext; [by eapply cexec_reached|by eapply gexec_one].
  - intros x Hx. destruct (decide (x ∈ h_layers h)) as [Hin|Hni].
    + destruct (IH x Hin) as [E ?]. split; [|done]. by rewrite <-E, (proj1 (hstep_old _ _ _ _ Hs Hin)).
    + destruct (Hnew x Hx Hni) as [(y & Hy & Hyx) ?]. split; [done|]. eapply rtc_stored; [exact Hyx|].
      eapply held_stored; [by eapply cexec_reached|done].
  - eapply agrees_ext; [eapply gexec_ext; [by eapply cexec_reached|by eapply gexec_one]|]. exact IH.
Qed.
Lemma head_is_stored cached tr its g h n l x : cexec cached tr its g h → label_after n its (Some l) → lb_layer l = Some x →
  ∃ c, stored (g_store g) x c.
Proof.
  intros H Hl Hx. eapply cexec_agrees; [done|]. eapply head_known; [by eapply cexec_hexec|done|done].
Qed.
Lemma ancestor_files cached tr its g h a x : cexec cached tr its g h → x ∈ h_layers h →
  ancestor h a x ↔ rtc (child_of (g_store g)) x a.
Proof.
  intros H Hx. pose proof (cexec_agrees _ _ _ _ _ H) as Ha.
  assert (∀ y z, y ∈ h_layers h → h_parents h !! y = Some z → z ∈ h_layers h) as Hc.
  { clear -H. intros y z. pose proof (cexec_hexec _ _ _ _ _ H) as Hh. clear H.
    assert (hdom h) as Hd; [|intros _ Hyz; by apply (Hd y z)].
    induction Hh as [|its s it s' _ IH Hst]; [intros ??; cbn; by rewrite lookup_empty|by eapply hstep_dom]. }
  unfold ancestor. split; intros Hr.
  - induction Hr as [|x y z Hxy _ IH]; [done|]. eapply rtc_l; [|apply IH; by eapply Hc]. unfold child_of. by rewrite <-(proj1 (Ha x Hx)).
  - induction Hr as [|x y z Hxy _ IH]; [done|]. assert (h_parents h !! x = Some y) as E by (by rewrite (proj1 (Ha x Hx))).
    eapply rtc_l; [exact E|]. apply IH. by eapply Hc.
Qed.
Lemma gexec_cexec cached tr g : reached cached tr g → GCrash ∉ tr → cexec cached tr [] g hstate_init.
Proof.
  unfold reached. remember gstate_init as g0 eqn:E0. induction 1 as [g|g tr g1 e g2 _ IH Hs]; intros Hn; subst; [constructor|].
  rewrite elem_of_app in Hn. eapply c_store; [apply IH; [done|tauto]|done|]. intros ->. apply Hn. right. left.
Qed.
