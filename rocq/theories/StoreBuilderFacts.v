(** Facts about shared builders and about copying changes. *)
From Verif Require Import Prelude ListFacts Succinct TripleFiles Merge MergeFacts Layer StackFacts DictFacts WfFacts Builder
  SameFacts StackCountFacts Squash Spec BuilderFacts CommitFacts HistoryFacts SquashFacts ReachFacts ApiFacts SquashApi StoreBuilder SpecBuilder.

(** ** Sharing *)
Lemma do_ops_snoc st b cs c : do_ops st b (cs ++ [c]) = b' ← do_ops st b cs; do_op st b' c.
Proof.
  revert b. induction cs as [|c' cs IH]; intros b; cbn [app do_ops].
  - cbn [mbind option_bind]. destruct (do_op st b c); done.
  - destruct (do_op st b c') as [b'|]; [|done]. cbn [mbind option_bind]. apply IH.
Qed.

Record binv (st : stack) (tr : list bev) (s : bstate) (b : builder) : Prop := {
  bi_ops : do_ops st (builder_new st) (ok_ops tr) = Some b;
  bi_open : b_cell s = Some b ∧ b_taken s = ∅ ∧ (∀ e, e ∈ tr → decisive e = false ∧ too_late e = false) ∨
            b_cell s = None ∧ (∃ t, b_taken s = {[t := b]}) ∧ (∀ e, e ∈ tr → decisive e = false) ∨
            b_cell s = None ∧ b_taken s = ∅ ∧ ∃ tr1 e tr2, tr = tr1 ++ e :: tr2 ∧ decisive e = true ∧
              (∀ e', e' ∈ tr1 → decisive e' = false) ∧ (∀ e', e' ∈ tr2 → too_late e' = true);
  bi_result : ∀ t st', BCommit t (Committed st') ∈ tr →
    ∃ nvord prord l, hash_order nvord ∧ hash_order prord ∧ commit nvord prord st b = Some l ∧ st' = l :: st }.

Lemma ok_ops_snoc tr e : ok_ops (tr ++ [e]) = ok_ops tr ++ option_list (ok_op e).
Proof. unfold ok_ops. rewrite omap_app. f_equal. Qed.
Lemma too_late_decisive e : too_late e = true → decisive e = false ∧ ok_op e = None.
Proof. destruct e as [? ? []|? []|? []]; done. Qed.
Lemma elem_snoc (tr : list bev) e e' : e' ∈ tr ++ [e] ↔ e' ∈ tr ∨ e' = e.
Proof. rewrite elem_of_app, elem_of_list_singleton. done. Qed.

Lemma bexec_inv st tr s : bexec st tr s → ∃ b, binv st tr s b.
Proof.
  induction 1 as [|tr s e s' Hx (b & [Ho Hc Hr]) Hs].
  { exists (builder_new st). split; [done| |].
    - left. split_and!; [done|done|]. by intros e ?%elem_of_nil.
    - by intros t st' ?%elem_of_nil. }
  destruct Hs as [s t c b0 b' E0 E1|s t c E0|s t|s t b0 E0 E1|s t E0|s t b0 nvord prord l E0 Hn Hp E1|s t b0 E0].
  - destruct Hc as [(E & Et & Hc)|[(E & _)|(E & _)]]; [|congruence..]. rewrite E in E0. injection E0 as <-.
    exists b'. change (option_list (Some (BOp t c true))) with [BOp t c true]. split.
    + rewrite ok_ops_snoc. cbn [ok_op]. change (option_list (Some c)) with [c]. rewrite do_ops_snoc, Ho. exact E1.
    + left. cbn. split_and!; [done..|]. intros e [?| ->]%elem_snoc; [by apply Hc|done].
    + intros t' st' [Hi|?]%elem_snoc; [|done]. apply Hc in Hi. by destruct Hi.
  - change (option_list (Some (BOp t c false))) with [BOp t c false]. exists b. split.
    + rewrite ok_ops_snoc. cbn [ok_op]. change (option_list (@None op)) with (@nil op). by rewrite app_nil_r.
    + destruct Hc as [(E & _)|[(E & Et & Hc)|(E & Et & tr1 & e & tr2 & -> & H1 & H2 & H3)]]; [congruence|right; left|right; right].
      * split_and!; [done..|]. intros e [?| ->]%elem_snoc; [by apply Hc|done].
      * split_and!; [done..|]. exists tr1, e, (tr2 ++ [BOp t c false]). rewrite <-app_assoc. split_and!; try done.
        intros e' [?| ->]%elem_snoc; [by apply H3|done].
    + intros t' st' [Hi|?]%elem_snoc; [|done]. by apply (Hr t' st').
  - change (option_list (Some ?x)) with [x]. exists b. split.
    + rewrite ok_ops_snoc. cbn [ok_op]. change (option_list (@None op)) with (@nil op). by rewrite app_nil_r.
    + destruct Hc as [(E & Et & Hc)|[(E & Et & Hc)|(E & Et & tr1 & e & tr2 & -> & H1 & H2 & H3)]]; [left|right; left|right; right].
      * split_and!; [done..|]. intros e [?| ->]%elem_snoc; [by apply Hc|]. rewrite bool_decide_eq_false_2 by congruence. done.
      * split_and!; [done..|]. intros e [?| ->]%elem_snoc; [by apply Hc|done].
      * split_and!; [done..|]. eexists tr1, e, (tr2 ++ [_]). rewrite <-app_assoc. split_and!; try done.
        intros e' [?| ->]%elem_snoc; [by apply H3|]. rewrite bool_decide_eq_true_2 by done. done.
    + intros t' st' [Hi|?]%elem_snoc; [|done]. by apply (Hr t' st').
  - change (option_list (@None bev)) with (@nil bev). rewrite app_nil_r. exists b. split; [done| |done].
    destruct Hc as [(E & Et & Hc)|[(E & _)|(E & _)]]; [|congruence..]. rewrite E in E0. injection E0 as <-. right; left.
    cbn [b_cell b_taken]. split; [done|]. split; [exists t; by rewrite Et|]. intros e He. by apply Hc.
  - change (option_list (Some ?x)) with [x]. exists b. split.
    + rewrite ok_ops_snoc. cbn [ok_op]. change (option_list (@None op)) with (@nil op). by rewrite app_nil_r.
    + destruct Hc as [(E & _)|[(E & Et & Hc)|(E & Et & tr1 & e & tr2 & -> & H1 & H2 & H3)]]; [congruence|right; left|right; right].
      * split_and!; [done..|]. intros e [?| ->]%elem_snoc; [by apply Hc|done].
      * split_and!; [done..|]. eexists tr1, e, (tr2 ++ [_]). rewrite <-app_assoc. split_and!; try done.
        intros e' [?| ->]%elem_snoc; [by apply H3|done].
    + intros t' st' [Hi|?]%elem_snoc; [|done]. by apply (Hr t' st').
  - change (option_list (Some ?x)) with [x].
    destruct Hc as [(_ & Et & _)|[(E & [t' Et] & Hc)|(_ & Et & _)]]; [by rewrite Et in E0| |by rewrite Et in E0].
    rewrite Et in E0. apply lookup_singleton_Some in E0 as [<- <-]. exists b. split.
    + rewrite ok_ops_snoc. cbn [ok_op]. change (option_list (@None op)) with (@nil op). by rewrite app_nil_r.
    + right; right. cbn [b_cell b_taken]. split; [done|]. split; [by rewrite Et, delete_singleton|].
      eexists tr, _, []. split; [done|]. split; [done|]. split; [done|]. by intros e' ?%elem_of_nil.
    + intros t'' st' [Hi|[= -> ->]]%elem_snoc; [by apply (Hr t'' st')|]. eauto 10.
  - change (option_list (Some ?x)) with [x].
    destruct Hc as [(_ & Et & _)|[(E & [t' Et] & Hc)|(_ & Et & _)]]; [by rewrite Et in E0| |by rewrite Et in E0].
    rewrite Et in E0. apply lookup_singleton_Some in E0 as [<- <-]. exists b. split.
    + rewrite ok_ops_snoc. cbn [ok_op]. change (option_list (@None op)) with (@nil op). by rewrite app_nil_r.
    + right; right. cbn [b_cell b_taken]. split; [done|]. split; [by rewrite Et, delete_singleton|].
      eexists tr, _, []. split; [done|]. split; [done|]. split; [done|]. by intros e' ?%elem_of_nil.
    + intros t'' st' [Hi|?]%elem_snoc; [by apply (Hr t'' st')|done].
Qed.

Lemma bexec_app st tr s : bexec st tr s → ∀ tr1 tr2, tr = tr1 ++ tr2 → ∃ s1, bexec st tr1 s1.
Proof.
  induction 1 as [|tr s e s' Hx IH Hs]; intros tr1 tr2 E.
  - destruct tr1; [|done]. eexists. constructor.
  - destruct tr2 as [|e0 tr2 _] using rev_ind.
    + rewrite app_nil_r in E. subst tr1. eexists. by eapply bexec_step.
    + destruct e as [e|].
      * change (option_list (Some e)) with [e] in E. rewrite app_assoc in E. apply app_inj_tail in E as [E _]. by eapply IH.
      * change (option_list (@None bev)) with (@nil bev) in E. rewrite app_nil_r in E. by eapply IH.
Qed.

(** What the closed builder means for later calls *)
Lemma bexec_late st tr s : bexec st tr s → ∀ tr1 e tr2, tr = tr1 ++ e :: tr2 → decisive e = true ∨ too_late e = true →
  ∀ e', e' ∈ tr2 → ok_op e' = None ∧ (too_late e' = true ∨ decisive e' = true).
Proof.
  induction 1 as [|tr s e s' Hx IH Hs]; intros tr1 d tr2 E Hd e' He'.
  { by destruct tr1. }
  destruct tr2 as [|e0 tr2 _] using rev_ind; [by apply elem_of_nil in He'|].
  destruct e as [e|].
  2:{ change (option_list (@None bev)) with (@nil bev) in E. rewrite app_nil_r in E. by apply (IH _ _ _ E). }
  change (option_list (Some e)) with [e] in E. rewrite app_comm_cons, app_assoc in E. apply app_inj_tail in E as [E <-].
  apply elem_snoc in He' as [He'| ->]; [by apply (IH _ _ _ E)|].
  assert (Hcell : b_cell s = None).
  { destruct (bexec_inv _ _ _ Hx) as (b & [_ Hc _]). destruct Hc as [(_ & _ & Hc)|[(? & _)|(? & _)]]; [|done..].
    destruct (Hc d); [rewrite E; set_solver|]. destruct Hd; congruence. }
  inversion Hs; subst; try congruence; try (by split; [|left]); try (by split; [|right]).
  rewrite (bool_decide_eq_true_2 _ Hcell). split; [done|by left].
Qed.
Lemma bexec_decided st tr s : bexec st tr s → ∀ tr1 e tr2, tr = tr1 ++ e :: tr2 → decisive e = true →
  (∀ e', e' ∈ tr1 → decisive e' = false) ∧ (∀ e', e' ∈ tr2 → too_late e' = true).
Proof.
  intros Hx tr1 e tr2 E He. destruct (bexec_inv _ _ _ Hx) as (b & [_ Hc _]).
  destruct Hc as [(_ & _ & Hc)|[(_ & _ & Hc)|(_ & _ & tr1' & d & tr2' & E' & Hd & H1 & H2)]].
  - destruct (Hc e) as [H _]; [rewrite E; set_solver|congruence].
  - assert (H : decisive e = false) by (apply Hc; rewrite E; set_solver). congruence.
  - rewrite E in E'. assert (Hsame : tr1 = tr1' ∧ e = d ∧ tr2 = tr2').
    { clear E Hx. revert tr1' E' H1. induction tr1 as [|x tr1 IH]; intros tr1' E' H1.
      - destruct tr1' as [|y tr1']; cbn in E'; [by injection E'|]. injection E' as -> _.
        rewrite (H1 y) in He; [done|left].
      - destruct tr1' as [|y tr1']; cbn in E'; injection E' as -> E'.
        + assert (Hl : too_late e = true) by (apply H2; rewrite <-E'; set_solver).
          apply too_late_decisive in Hl as [Hl _]. congruence.
        + destruct (IH tr1') as (-> & -> & ->); [done|intros; apply H1; by right|done]. }
    destruct Hsame as (-> & -> & ->). done.
Qed.
Lemma bexec_result st tr s t st' : bexec st tr s → BCommit t (Committed st') ∈ tr →
  ∃ nvord prord, hash_order nvord ∧ hash_order prord ∧ build nvord prord st (ok_ops tr) = Some st'.
Proof.
  intros Hx Hin. destruct (bexec_inv _ _ _ Hx) as (b & [Ho _ Hr]).
  destruct (Hr t st' Hin) as (nvord & prord & l & Hn & Hp & E & ->). exists nvord, prord. split_and!; [done..|].
  unfold build. rewrite Ho. cbn [mbind option_bind]. by rewrite E.
Qed.
Lemma bexec_progress st tr s : wf st → bexec st tr s → Forall (op_ok st) (ok_ops tr) →
  (∀ t, b_cell s ≠ None → b_taken s !! t = None → ∃ s', bstep st s None s' ∧ is_Some (b_taken s' !! t)) ∧
  (∀ t c, b_cell s ≠ None → op_ok st c → ∃ s', bstep st s (Some (BOp t c true)) s') ∧
  (∀ t, is_Some (b_taken s !! t) → ∃ st' s', bstep st s (Some (BCommit t (Committed st'))) s') ∧
  (b_cell s = None → (∀ t, b_taken s !! t = None) → ∃ e, e ∈ tr ∧ decisive e = true).
Proof.
  intros Hw Hx Hok. destruct (bexec_inv _ _ _ Hx) as (b & [Ho Hc Hr]). split_and!.
  - intros t Hs Hn. destruct (b_cell s) as [b'|] eqn:E; [|done]. eexists. split; [by eapply b_take|].
    cbn [b_taken]. rewrite lookup_insert. eauto.
  - intros t c Hs Hop. destruct Hc as [(E & _)|[(E & _)|(E & _)]]; [|done..].
    destruct (do_ops_ok st (wf_dicts _ Hw) (builder_new st) [] [] (ok_ops tr)) as (b' & E' & Hb); try done; [by apply builder_new_ok|].
    rewrite Ho in E'. injection E' as <-. destruct (do_op_ok st (wf_dicts _ Hw) b _ _ c Hb Hop) as (b' & E' & _).
    eexists. by eapply b_op.
  - intros t [b' Hb']. destruct Hc as [(_ & Et & _)|[(_ & [t' Et] & _)|(_ & Et & _)]]; [by rewrite Et in Hb'| |by rewrite Et in Hb'].
    rewrite Et in Hb'. apply lookup_singleton_Some in Hb' as [-> <-].
    destruct (build_ok st (ok_ops tr) id id Hw Hok) as (l & E & _); [intros m; done|intros m; done|].
    unfold build in E. rewrite Ho in E. cbn [mbind option_bind] in E. destruct (commit id id st b) as [l'|] eqn:E'; [|done].
    eexists _, _. eapply (b_commit st s t b id id l'); [|intros m; done|intros m; done|done]. rewrite Et. apply lookup_singleton.
  - intros Hs Hn. destruct Hc as [(? & _)|[(_ & [t' Et] & _)|(_ & _ & tr1 & e & tr2 & -> & He & _)]]; [congruence| |].
    + specialize (Hn t'). by rewrite Et, lookup_singleton in Hn.
    + exists e. split; [set_solver|done].
Qed.

(** ** Copying changes *)
Lemma for_triples_ok st f g ts : dicts_ok st → (∀ t, t ∈ ts → ∃ vt, den st vt t) → (∀ vt, f vt = Some (g vt)) →
  ∃ cs, for_triples st f ts = Some cs ∧ ∀ c, c ∈ cs ↔ ∃ t vt, t ∈ ts ∧ den st vt t ∧ c ∈ g vt.
Proof.
  intros Hd Hts Hf. unfold for_triples. induction ts as [|t ts IH].
  - exists []. split; [done|]. intros c. split; [by intros ?%elem_of_nil|]. by intros (t & vt & ?%elem_of_nil & _).
  - destruct (Hts t) as [vt Hvt]; [left|]. destruct IH as (cs & E & Hcs); [intros; apply Hts; by right|].
    cbn [mapM]. rewrite (proj2 (id_triple_to_string_iff st Hd t vt) Hvt). cbn [mbind option_bind]. rewrite Hf.
    cbn [mbind option_bind]. destruct (mapM _ ts) as [css|]; [|done]. cbn [mbind option_bind fmap option_fmap option_map] in *.
    injection E as <-. eexists. split; [done|]. intros c. cbn [mret option_ret mjoin list_join]. rewrite elem_of_app, Hcs. split.
    + intros [Hc|(t' & vt' & ? & ? & ?)]; [exists t, vt; split_and!; [left|done|done]|].
      exists t', vt'. split_and!; [by right|done|done].
    + intros (t' & vt' & [->|?]%elem_of_cons & Hvt' & Hc); [left|right; eauto 10].
      by rewrite <-(den_inj st Hd vt' vt t Hvt' Hvt).
Qed.
Lemma unless_exists_ok st c vt : wf st → ∃ cs, unless_exists st c vt = Some cs ∧ ∀ c', c' ∈ cs ↔ c' = c ∧ ¬ holds st vt.
Proof.
  intros Hw. unfold unless_exists. destruct (value_triple_exists_ok st vt Hw) as (b & -> & Hb). cbn [mbind option_bind].
  eexists. split; [done|]. intros c'. rewrite <-Hb. destruct b.
  - split; [by intros ?%elem_of_nil|]. by intros [_ []].
  - rewrite elem_of_list_singleton. split; [|tauto]. intros ->. split; [done|]. by intros ?.
Qed.

Lemma for_unless st st' mk : wf st → wf st' →
  ∃ cs, for_triples st (λ vt, unless_exists st' (mk vt) vt) (view st) = Some cs ∧
    ∀ c, c ∈ cs ↔ ∃ vt, c = mk vt ∧ holds st vt ∧ ¬ holds st' vt.
Proof.
  intros Hw Hw'. set (g := λ vt, default [] (unless_exists st' (mk vt) vt)).
  destruct (for_triples_ok st (λ vt, unless_exists st' (mk vt) vt) g (view st)) as (cs & E & Hcs).
  - apply Hw.
  - intros t Ht. apply in_view_den; [done|]. by apply view_elem.
  - intros vt. unfold g. destruct (unless_exists_ok st' (mk vt) vt Hw') as (? & -> & _). done.
  - exists cs. split; [done|]. intros c. rewrite Hcs. unfold g, holds. split.
    + intros (t & vt & Ht & Hvt & Hc). destruct (unless_exists_ok st' (mk vt) vt Hw') as (k & E' & Hk). rewrite E' in Hc.
      apply Hk in Hc as [-> Hn]. exists vt. split; [done|]. split; [|done]. exists t. split; [done|]. by apply view_elem.
    + intros (vt & -> & (t & Ht & Hv) & Hn). exists t, vt. split; [by apply view_elem|]. split; [done|].
      destruct (unless_exists_ok st' (mk vt) vt Hw') as (k & -> & Hk). by apply Hk.
Qed.

Lemma diff_ops_ok this other : wf this → wf other →
  ∃ cs, diff_ops this other = Some cs ∧
    ∀ c, c ∈ cs ↔ (∃ vt, c = RemoveValue vt ∧ holds this vt ∧ ¬ holds other vt) ∨
                  (∃ vt, c = AddValue vt ∧ holds other vt ∧ ¬ holds this vt).
Proof.
  intros Hw Hw'. unfold diff_ops. rewrite !triples_ok by (apply Hw || apply Hw').
  destruct (for_unless other this AddValue Hw' Hw) as (as_ & EA & HA).
  destruct (for_unless this other RemoveValue Hw Hw') as (rs & ER & HR).
  destruct this as [|l this].
  - cbn [mbind option_bind].
    destruct (for_triples_ok other (λ vt, Some [AddValue vt]) (λ vt, [AddValue vt]) (view other)) as (cs & E & Hcs); [apply Hw'| |done|].
    { intros t Ht. apply in_view_den; [done|]. by apply view_elem. }
    rewrite E. cbn [mbind option_bind app]. exists cs. split; [done|]. intros c. rewrite Hcs. unfold holds. split.
    + intros (t & vt & Ht & Hvt & ->%elem_of_list_singleton). right. exists vt. split; [done|].
      split; [exists t; split; [done|by apply view_elem]|]. intros (u & _ & Hu). by apply in_view_nil in Hu.
    + intros [(vt & _ & (u & _ & Hu) & _)|(vt & -> & (t & Ht & Hv) & _)]; [by apply in_view_nil in Hu|].
      exists t, vt. split; [by apply view_elem|]. split; [done|]. by apply elem_of_list_singleton.
  - cbn [mbind option_bind]. rewrite ER. cbn [mbind option_bind]. rewrite EA. cbn [mbind option_bind].
    eexists. split; [done|]. intros c. by rewrite elem_of_app, HA, HR.
Qed.
(** Calls with strings only *)
Lemma value_ops st cs (A R : vtriple → Prop) :
  (∀ c, c ∈ cs ↔ (∃ vt, c = RemoveValue vt ∧ R vt) ∨ (∃ vt, c = AddValue vt ∧ A vt)) →
  Forall (op_ok st) cs ∧ (∀ vt, vt ∈ added st cs ↔ A vt) ∧ (∀ vt, vt ∈ removed st cs ↔ R vt).
Proof.
  intros H. split_and!.
  - apply Forall_forall. intros c [(vt & -> & _)|(vt & -> & _)]%H; by eexists.
  - intros vt. unfold added. rewrite elem_of_list_omap. split.
    + intros (c & [(vt' & -> & _)|(vt' & -> & ?)]%H & E); cbn in E; [done|]. by injection E as ->.
    + intros Ha. exists (AddValue vt). split; [|done]. apply H. eauto.
  - intros vt. unfold removed. rewrite elem_of_list_omap. split.
    + intros (c & [(vt' & -> & ?)|(vt' & -> & ?)]%H & E); cbn in E; [|done]. by injection E as ->.
    + intros Ha. exists (RemoveValue vt). split; [|done]. apply H. eauto.
Qed.
Lemma apply_diff_ok this other L nvord prord : wf this → wf other → shown other = Some L → hash_order nvord → hash_order prord →
  ∃ cs, diff_ops this other = Some cs ∧ ∀ cs', cs' ≡ₚ cs →
    ∃ st' L', build nvord prord this cs' = Some st' ∧ shown st' = Some L' ∧ L' ≡ₚ L.
Proof.
  intros Hw Hw' HL Hn Hp. destruct (diff_ops_ok this other Hw Hw') as (cs & E & Hcs). exists cs. split; [done|].
  intros cs' Hcs'. destruct (value_ops this cs' (λ vt, holds other vt ∧ ¬ holds this vt) (λ vt, holds this vt ∧ ¬ holds other vt)) as (Hok & HA & HR).
  { intros c. by rewrite Hcs', Hcs. }
  destruct (shown_ok this Hw) as (L0 & E0 & _ & H0). destruct (shown_ok other Hw') as (L1 & E1 & N1 & H1). rewrite HL in E1. injection E1 as <-.
  destruct (commit_shown this cs' nvord prord L0 Hw Hok Hn Hp E0) as (st' & L' & Eb & E' & N' & H'). exists st', L'. split_and!; [done..|].
  apply NoDup_Permutation; [done..|]. intros vt. rewrite H'. unfold after_change. rewrite HA, HR, H0, H1.
  destruct (holds_dec this vt Hw), (holds_dec other vt Hw'); tauto.
Qed.

Lemma layer_delta l st vt : wf (l :: st) →
  ((∃ t, t ∈ adds l ∧ den (l :: st) vt t) ↔ holds (l :: st) vt ∧ ¬ holds st vt) ∧
  ((∃ t, t ∈ rems l ∧ den (l :: st) vt t) ↔ holds st vt ∧ ¬ holds (l :: st) vt).
Proof.
  intros Hw. pose proof (wf_tail _ _ Hw) as Hb. destruct (holds_diff [l] st vt Hw Hb) as [H1 H2]. cbn [app] in H1, H2.
  rewrite H1, H2. setoid_rewrite stack_diff_elem. setoid_rewrite (net_change_adds l st); [|done].
  setoid_rewrite (net_change_rems l st); [|done]. cbn [app]. split; [done|]. split.
  - intros (t & Ht & Hd). exists t. split; [done|]. destruct (in_view_den st t Hb) as [vt' Hvt']; [by apply Ht|].
    rewrite (den_inj _ (wf_dicts _ Hw) vt vt' t Hd); [done|]. apply den_stable; [apply Hw|done].
  - intros (t & Ht & Hd). exists t. split; [done|]. apply den_stable; [apply Hw|done].
Qed.
Lemma apply_delta_ok st l below other LA LP LD nvord prord : wf st → wf (l :: below) → same_answers other (l :: below) →
  shown st = Some LA → shown below = Some LP → shown (l :: below) = Some LD → hash_order nvord → hash_order prord →
  ∃ cs, delta_ops l other = Some cs ∧ ∀ cs', cs' ≡ₚ cs →
    ∃ st' L', build nvord prord st cs' = Some st' ∧ shown st' = Some L' ∧ NoDup L' ∧
      ∀ vt, vt ∈ L' ↔ (vt ∈ LA ∧ ¬ (vt ∈ LP ∧ vt ∉ LD)) ∨ (vt ∈ LD ∧ vt ∉ LP).
Proof.
  intros Hw Hwl Hsame EA EP ED Hn Hp. pose proof (wf_tail _ _ Hwl) as Hwb.
  assert (Hf : files_ok l). { pose proof (wf_files _ Hwl) as Hf. by apply Forall_cons in Hf as [? _]. }
  assert (Hft : ∀ f ts, for_triples other f ts = for_triples (l :: below) f ts).
  { intros f ts. unfold for_triples. f_equal. induction ts as [|t ts IH]; [done|]. cbn [mapM]. rewrite IH.
    unfold id_triple_to_string. by rewrite (sa_id_subject _ _ Hsame), (sa_id_predicate _ _ Hsame), (sa_id_object _ _ Hsame). }
  unfold delta_ops. rewrite l_additions_ok, l_removals_ok by done. cbn [mbind option_bind]. rewrite !Hft.
  destruct (for_triples_ok (l :: below) (λ vt, Some [AddValue vt]) (λ vt, [AddValue vt]) (adds l)) as (as_ & -> & HA); [apply Hwl| |done|].
  { intros t Ht. apply in_view_den; [done|]. by apply (net_change_adds l below t Hwl). }
  destruct (for_triples_ok (l :: below) (λ vt, Some [RemoveValue vt]) (λ vt, [RemoveValue vt]) (rems l)) as (rs & -> & HR); [apply Hwl| |done|].
  { intros t Ht. apply (net_change_rems l below t Hwl) in Ht as [Ht _]. destruct (in_view_den below t Hwb Ht) as [vt Hvt].
    exists vt. apply den_stable; [apply Hwl|done]. }
  cbn [mbind option_bind]. eexists. split; [done|]. intros cs' Hcs'.
  destruct (value_ops st cs' (λ vt, holds (l :: below) vt ∧ ¬ holds below vt) (λ vt, holds below vt ∧ ¬ holds (l :: below) vt)) as (Hok & HA' & HR').
  { intros c. rewrite Hcs', elem_of_app, HA, HR. split.
    - intros [(t & vt & Ht & Hd & ->%elem_of_list_singleton)|(t & vt & Ht & Hd & ->%elem_of_list_singleton)].
      + right. exists vt. split; [done|]. apply (layer_delta l below vt Hwl). eauto.
      + left. exists vt. split; [done|]. apply (layer_delta l below vt Hwl). eauto.
    - intros [(vt & -> & Hv)|(vt & -> & Hv)].
      + apply (layer_delta l below vt Hwl) in Hv as (t & ? & ?). right. exists t, vt. split_and!; [done..|by apply elem_of_list_singleton].
      + apply (layer_delta l below vt Hwl) in Hv as (t & ? & ?). left. exists t, vt. split_and!; [done..|by apply elem_of_list_singleton]. }
  destruct (commit_shown st cs' nvord prord LA Hw Hok Hn Hp EA) as (st' & L' & Eb & E' & N' & H').
  exists st', L'. split_and!; [done..|]. intros vt. rewrite H'. unfold after_change. rewrite HA', HR'.
  rewrite (shown_holds _ LP _ Hwb EP), (shown_holds _ LD _ Hwl ED). tauto.
Qed.
