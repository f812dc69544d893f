(** Facts about copying changes into a shared builder. *)
From Verif Require Import Prelude ListFacts Succinct TripleFiles Merge Layer Builder Spec StoreBuilder SpecBuilder StoreBuilderFacts
  DictFacts WfFacts BuilderFacts CommitFacts BuilderCopy SpecCopy.

Lemma builder_calls_app tr tr' : builder_calls (tr ++ tr') = builder_calls tr ++ builder_calls tr'.
Proof. apply omap_app. Qed.
Lemma made_app k tr tr' : made k (tr ++ tr') = made k tr ++ made k tr'.
Proof. apply omap_app. Qed.
Lemma elem_made k tr c : c ∈ made k tr ↔ CMakes k c true ∈ tr.
Proof.
  unfold made. rewrite elem_of_list_omap. split.
  - intros (x & Hx & E). destruct x as [| | |k' c' [] |]; try done. destruct (decide (k' = k)) as [->|]; [|done]. by injection E as ->.
  - intros H. exists (CMakes k c true). split; [done|]. by rewrite decide_True.
Qed.
Lemma elem_snoc_item (tr : list citem) e e' : e' ∈ tr ++ [e] ↔ e' ∈ tr ∨ e' = e.
Proof. rewrite elem_of_app, elem_of_list_singleton. done. Qed.

(** ** Taking runs apart *)
Lemma cexec_last st tr s : cexec st tr s → ∀ tr0 x, tr = tr0 ++ [x] →
  ∃ s0 s1, cexec st tr0 s0 ∧ cstep st s0 (Some x) s1.
Proof.
  induction 1 as [|tr s e s' Hx IH Hs]; intros tr0 x E; [by destruct tr0|].
  destruct e as [e|].
  - change (option_list (Some e)) with [e] in E. apply app_inj_tail in E as [-> ->]. eauto.
  - change (option_list (@None citem)) with (@nil citem) in E. rewrite app_nil_r in E. eauto.
Qed.
Lemma cexec_prefix st tr s : cexec st tr s → ∀ tr1 tr2, tr = tr1 ++ tr2 → ∃ s1, cexec st tr1 s1.
Proof.
  induction 1 as [|tr s e s' Hx IH Hs]; intros tr1 tr2 E.
  - destruct tr1; [|done]. eexists. constructor.
  - destruct tr2 as [|e0 tr2 _] using rev_ind.
    + rewrite app_nil_r in E. subst tr1. eexists. by eapply cexec_step.
    + destruct e as [e|].
      * change (option_list (Some e)) with [e] in E. rewrite app_assoc in E. apply app_inj_tail in E as [E _]. by eapply IH.
      * change (option_list (@None citem)) with (@nil citem) in E. rewrite app_nil_r in E. by eapply IH.
Qed.

(** ** The calls on the builder are those of a shared builder *)
Lemma cexec_bexec st tr s : cexec st tr s → bexec st (builder_calls tr) (c_builder s).
Proof.
  induction 1 as [|tr s e s' Hx IH Hs]; [constructor|].
  rewrite builder_calls_app. destruct Hs; cbn [c_builder] in *; change (builder_calls (option_list ?x)) with (builder_calls (option_list x));
    try (change (builder_calls (option_list _)) with (@nil bev); rewrite app_nil_r; exact IH).
  - change (builder_calls _) with (option_list (Some e)) at 2. by eapply bexec_step.
  - change (builder_calls (option_list None)) with (option_list (@None bev)). by eapply bexec_step.
  - change (builder_calls _) with (option_list (Some e)) at 2. by eapply bexec_step.
  - change (builder_calls _) with (option_list (Some (BOp k o true))) at 2. by eapply bexec_step.
  - change (builder_calls _) with (option_list (Some (BOp k o false))) at 2. by eapply bexec_step.
Qed.

(** ** The copying calls *)
Record copy_inv (st : stack) (tr : list citem) (s : bstate) (k : nat) (cp : copying) : Prop := {
  ci_start : CStarts k (c_what cp) ∈ tr;
  ci_only : ∀ c, CStarts k c ∈ tr → c = c_what cp;
  ci_parts : ∃ cs missed, copy_ops st (c_what cp) = Some cs ∧ made k tr ++ missed ++ c_left cp ≡ₚ cs ∧
    (missed ≠ [] → b_cell s = None) ∧ (∀ o, c_what cp = Diff o → c_bad cp = false → missed = []) ∧
    (c_begun cp = false → made k tr = [] ∧ missed = []) ∧
    (c_bad cp = true → missed ≠ [] ∧ ∃ o, c_what cp = Diff o);
  ci_ok : CReturns k CopyOk ∈ tr → c_left cp = [] ∧ c_bad cp = false ∧ c_over cp = true;
  ci_panic : CReturns k CopyPanic ∈ tr → c_bad cp = true ∧ c_over cp = true;
  ci_failed : CReturns k CopyFailed ∈ tr → c_begun cp = false ∧ (∃ l o, c_what cp = Delta l o) ∧ c_over cp = true }.
Record cinv (st : stack) (tr : list citem) (s : cstate) : Prop := {
  cv_known : ∀ k x, x ∈ tr → (∃ c, x = CStarts k c) ∨ (∃ c b, x = CMakes k c b) ∨ (∃ r, x = CReturns k r) → is_Some (c_copies s !! k);
  cv_copies : ∀ k cp, c_copies s !! k = Some cp → copy_inv st tr (c_builder s) k cp;
  cv_gone : b_cell (c_builder s) = None → commit_begun tr;
  cv_wants : ∀ t, t ∈ c_wants s → commit_begun tr }.

(** What does not concern a copying call *)
Definition about (k : nat) (x : citem) : Prop :=
  match x with CStarts k' _ | CMakes k' _ _ | CReturns k' _ => k' = k | _ => False end.
Lemma made_skip k tr x : ¬ about k x → made k (tr ++ option_list (Some x)) = made k tr.
Proof.
  intros H. change (option_list (Some x)) with [x]. rewrite made_app.
  assert (E : made k [x] = []); [|by rewrite E, app_nil_r].
  destruct x as [| | |k' c [] |]; try done. unfold made. cbn [omap list_omap]. cbn [about] in H. by rewrite decide_False.
Qed.
Lemma in_skip (k : nat) tr x y : ¬ about k x → about k y → y ∈ tr ++ option_list (Some x) → y ∈ tr.
Proof. intros Hx Hy. change (option_list (Some x)) with [x]. intros [?|Exy]%elem_snoc_item; [done|]. by subst. Qed.
Lemma copy_inv_skip st tr s s' k cp x : ¬ about k x → (b_cell s = None → b_cell s' = None) → copy_inv st tr s k cp →
  copy_inv st (tr ++ option_list (Some x)) s' k cp.
Proof.
  intros Hx Hs [H1 H2 (cs & m & E & Hp & Hm & Hd & Hb & Hbad) H4 H5 H6]. split.
  - apply elem_of_app. by left.
  - intros c Hc. apply H2. apply (in_skip k tr x); [done|done|done].
  - exists cs, m. rewrite made_skip by done. split_and!; [done..| |done|done|done]. intros H. apply Hs, Hm, H.
  - intros H. apply H4, (in_skip k tr x); done.
  - intros H. apply H5, (in_skip k tr x); done.
  - intros H. apply H6, (in_skip k tr x); done.
Qed.
Lemma copy_inv_mono st tr s s' k cp : (b_cell s = None → b_cell s' = None) → copy_inv st tr s k cp → copy_inv st tr s' k cp.
Proof.
  intros Hs [H1 H2 (cs & m & E & Hp & Hm & Hd & Hb & Hbad) H4 H5 H6]. split; try done.
  exists cs, m. split_and!; [done..| |done|done|done]. intros H. apply Hs, Hm, H.
Qed.
Lemma bstep_gone st s e s' : bstep st s e s' → b_cell s = None → b_cell s' = None.
Proof. intros Hs E. destruct Hs; cbn [b_cell] in *; congruence. Qed.
Lemma bstep_gone_new st s x s' : bstep st s (Some x) s' → b_cell s' = None → b_cell s = None.
Proof. intros Hs E. inversion Hs; subst; cbn [b_cell] in *; congruence. Qed.
Lemma begun_more tr x : commit_begun tr → commit_begun (tr ++ x).
Proof. intros [t H]. exists t. apply elem_of_app. by left. Qed.

Lemma cexec_inv st tr s : cexec st tr s → cinv st tr s.
Proof.
  induction 1 as [|tr s e s' Hx IH Hs].
  { split.
    - by intros k x ?%elem_of_nil.
    - intros k cp H. unfold cstate_new in H. cbn [c_copies] in H. by rewrite lookup_empty in H.
    - done.
    - intros t H. by apply elem_of_empty in H. }
  pose proof (cexec_bexec _ _ _ Hx) as Hbx.
  destruct IH as [HK HC HG HW].
  assert (HKn : ∀ k x tr', c_copies s !! k = None → x ∈ tr → about k x → tr' = tr → False).
  { intros k x tr' Hk Hxt Ha _. destruct (HK k x Hxt) as [? E]; [|congruence].
    destruct x; cbn in Ha; subst; eauto. done. done. }
  destruct Hs as [s ws cps e s' Ec Hs|s ws cps t Ht|s ws cps s' Hs Hall|s ws cps e t s' Ec Ht Hs|s ws cps k c cs Hk Ecs|s ws cps k l other cs Hk
                 |s ws cps k c cs1 o cs2 b bad s' Hk Hs|s ws cps k c cs1 o cs2 b bad s' Hk Hs|s ws cps k c b Hk|s ws cps k c cs b Hk];
    cbn [c_copies c_builder c_wants] in *.
  - split; cbn [c_copies c_builder c_wants].
    + intros k x [Hi| ->]%elem_snoc_item Hw; [by apply (HK k x)|]. destruct Hw as [[? ?]|[(? & ? & ?)|[? ?]]]; done.
    + intros k cp Hcp. apply (copy_inv_skip _ _ s); [by intros []|by apply (bstep_gone st s (Some e))|by apply HC].
    + intros E. apply begun_more, HG. by eapply bstep_gone_new.
    + intros t Ht. by eapply begun_more, HW.
  - split; cbn [c_copies c_builder c_wants].
    + intros k x [Hi| ->]%elem_snoc_item Hw; [by apply (HK k x)|]. destruct Hw as [[? ?]|[(? & ? & ?)|[? ?]]]; done.
    + intros k cp Hcp. apply (copy_inv_skip _ _ s); [by intros []|done|by apply HC].
    + intros E. apply begun_more, HG, E.
    + intros t' _. exists t. apply elem_snoc_item. by right.
  - change (option_list (@None citem)) with (@nil citem). rewrite app_nil_r. split; cbn [c_copies c_builder c_wants]; [done| |..|done].
    + intros k cp Hcp. apply (copy_inv_mono _ _ s); [by apply (bstep_gone st s None)|by apply HC].
    + intros _. inversion Hs; subst. apply (HW t), Hall. cbn [b_taken]. rewrite lookup_insert. by eexists.
  - split; cbn [c_copies c_builder c_wants].
    + intros k x [Hi| ->]%elem_snoc_item Hw; [by apply (HK k x)|]. destruct Hw as [[? ?]|[(? & ? & ?)|[? ?]]]; done.
    + intros k cp Hcp. apply (copy_inv_skip _ _ s); [by intros []|by apply (bstep_gone st s (Some e))|by apply HC].
    + intros E. apply begun_more, HG. by eapply bstep_gone_new.
    + intros t' Ht'. apply begun_more, (HW t'). set_solver.
  - split; cbn [c_copies c_builder c_wants].
    + intros k' x [Hi| ->]%elem_snoc_item Hw.
      * destruct (decide (k' = k)) as [->|]; [rewrite lookup_insert; by eexists|]. rewrite lookup_insert_ne by done. by apply (HK k' x).
      * destruct Hw as [[? [= <- _]]|[(? & ? & ?)|[? ?]]]; [|done..]. rewrite lookup_insert. by eexists.
    + intros k' cp. destruct (decide (k' = k)) as [->|Hne].
      * rewrite lookup_insert. intros [= <-].
        assert (HN : made k tr = []).
        { destruct (made k tr) as [|c0 l0] eqn:E; [done|]. exfalso.
          apply (HKn k (CMakes k c0 true) tr Hk); [|done|done]. apply elem_made. rewrite E. left. }
        assert (HR : ∀ r, CReturns k r ∈ tr ++ option_list (Some (CStarts k c)) → False).
        { intros r [Hi|?]%elem_snoc_item; [|done]. by apply (HKn k (CReturns k r) tr Hk). }
        split; cbn [c_what c_left c_begun c_bad c_over].
        -- apply elem_snoc_item. by right.
        -- intros c' [Hi|[= ->]]%elem_snoc_item; [|done]. exfalso. by apply (HKn k (CStarts k c') tr Hk).
        -- exists cs, []. rewrite made_app, HN. change (made k (option_list (Some (CStarts k c)))) with (@nil op). done.
        -- by intros ?%HR.
        -- by intros ?%HR.
        -- by intros ?%HR.
      * rewrite lookup_insert_ne by done. intros Hcp. apply (copy_inv_skip _ _ s); [cbn; congruence|done|by apply HC].
    + intros E. apply begun_more, HG, E.
    + intros t' Ht'. by eapply begun_more, HW.
  - split; cbn [c_copies c_builder c_wants].
    + intros k' x Hi Hw. destruct (decide (k' = k)) as [->|]; [rewrite lookup_insert; by eexists|]. rewrite lookup_insert_ne by done.
      apply elem_snoc_item in Hi as [Hi| ->]; [by apply (HK k' x)|]. destruct Hw as [[? ?]|[(? & ? & ?)|[? [= <- _]]]]; done.
    + intros k' cp. destruct (decide (k' = k)) as [->|Hne].
      * rewrite lookup_insert. intros [= <-]. destruct (HC k _ Hk) as [H1 H2 (cs0 & m & E & Hp & Hm & Hd & Hb & Hbad) H4 H5 H6].
        cbn [c_what c_left c_begun c_bad c_over] in *.
        split; cbn [c_what c_left c_begun c_bad c_over].
        -- apply elem_snoc_item. by left.
        -- intros c' [Hi|?]%elem_snoc_item; [by apply H2|done].
        -- exists cs0, m. rewrite made_app. change (made k (option_list (Some (CReturns k CopyFailed)))) with (@nil op). rewrite app_nil_r. done.
        -- intros [Hi|?]%elem_snoc_item; [|done]. by apply H4 in Hi as (_ & _ & ?).
        -- intros [Hi|?]%elem_snoc_item; [|done]. by apply H5 in Hi as (? & _).
        -- intros _. eauto.
      * rewrite lookup_insert_ne by done. intros Hcp. apply (copy_inv_skip _ _ s); [cbn; congruence|done|by apply HC].
    + intros E. apply begun_more, HG, E.
    + intros t' Ht'. by eapply begun_more, HW.
  - assert (Hcell : ∃ b0, b_cell s = Some b0) by (inversion Hs; subst; eauto). destruct Hcell as [b0 Hcell].
    split; cbn [c_copies c_builder c_wants].
    + intros k' x Hi Hw. destruct (decide (k' = k)) as [->|]; [rewrite lookup_insert; by eexists|]. rewrite lookup_insert_ne by done.
      apply elem_snoc_item in Hi as [Hi| ->]; [by apply (HK k' x)|]. destruct Hw as [[? ?]|[(? & ? & [= <- _ _])|[? ?]]]; done.
    + intros k' cp. destruct (decide (k' = k)) as [->|Hne].
      * rewrite lookup_insert. intros [= <-]. destruct (HC k _ Hk) as [H1 H2 (cs0 & m & E & Hp & Hm & Hd & Hb & Hbad) H4 H5 H6].
        cbn [c_what c_left c_begun c_bad c_over] in *.
        split; cbn [c_what c_left c_begun c_bad c_over].
        -- apply elem_snoc_item. by left.
        -- intros c' [Hi|?]%elem_snoc_item; [by apply H2|done].
        -- assert (m = []) as ->. { destruct m as [|m0 m]; [done|]. rewrite Hm in Hcell; done. }
           exists cs0, []. rewrite made_app. change (option_list (Some ?x)) with [x].
           assert (Em : made k [CMakes k o true] = [o]) by (unfold made; cbn [omap list_omap]; by rewrite decide_True).
           rewrite Em. split_and!; [done| |done|done|done|].
           ++ rewrite <-Hp. cbn [app]. rewrite <-app_assoc. cbn [app]. f_equiv. apply Permutation_middle.
           ++ intros Eb. by destruct (Hbad Eb) as [[] _].
        -- intros [Hi|?]%elem_snoc_item; [|done]. by apply H4 in Hi as (_ & _ & ?).
        -- intros [Hi|?]%elem_snoc_item; [|done]. by apply H5 in Hi as (_ & ?).
        -- intros [Hi|?]%elem_snoc_item; [|done]. by apply H6 in Hi as (_ & _ & ?).
      * rewrite lookup_insert_ne by done. intros Hcp. apply (copy_inv_skip _ _ s); [cbn; congruence|by apply (bstep_gone st s _ s' Hs)|by apply HC].
    + intros E. apply begun_more, HG. by eapply bstep_gone_new.
    + intros t' Ht'. by eapply begun_more, HW.
  - assert (Hcell : b_cell s = None ∧ s' = s) by (inversion Hs; subst; done). destruct Hcell as [Hcell ->].
    split; cbn [c_copies c_builder c_wants].
    + intros k' x Hi Hw. destruct (decide (k' = k)) as [->|]; [rewrite lookup_insert; by eexists|]. rewrite lookup_insert_ne by done.
      apply elem_snoc_item in Hi as [Hi| ->]; [by apply (HK k' x)|]. destruct Hw as [[? ?]|[(? & ? & [= <- _ _])|[? ?]]]; done.
    + intros k' cp. destruct (decide (k' = k)) as [->|Hne].
      * rewrite lookup_insert. intros [= <-]. destruct (HC k _ Hk) as [H1 H2 (cs0 & m & E & Hp & Hm & Hd & Hb & Hbad) H4 H5 H6].
        cbn [c_what c_left c_begun c_bad c_over] in *.
        split; cbn [c_what c_left c_begun c_bad c_over].
        -- apply elem_snoc_item. by left.
        -- intros c' [Hi|?]%elem_snoc_item; [by apply H2|done].
        -- exists cs0, (o :: m). rewrite made_app. change (made k (option_list (Some (CMakes k o false)))) with (@nil op). rewrite app_nil_r.
           split_and!; [done| |done| |done|].
           ++ rewrite <-Hp. f_equiv. cbn [app]. rewrite <-Permutation_middle. by rewrite <-Permutation_middle.
           ++ intros o0 ->. done.
           ++ destruct c as [l0 o0|o0]; [|eauto]. intros Eb. split; [done|]. by apply Hbad in Eb as [_ ?].
        -- intros [Hi|?]%elem_snoc_item; [|done]. by apply H4 in Hi as (_ & _ & ?).
        -- intros [Hi|?]%elem_snoc_item; [|done]. by apply H5 in Hi as (_ & ?).
        -- intros [Hi|?]%elem_snoc_item; [|done]. by apply H6 in Hi as (_ & _ & ?).
      * rewrite lookup_insert_ne by done. intros Hcp. apply (copy_inv_skip _ _ s); [cbn; congruence|done|by apply HC].
    + intros E. apply begun_more, HG, E.
    + intros t' Ht'. by eapply begun_more, HW.
  - split; cbn [c_copies c_builder c_wants].
    + intros k' x Hi Hw. destruct (decide (k' = k)) as [->|]; [rewrite lookup_insert; by eexists|]. rewrite lookup_insert_ne by done.
      apply elem_snoc_item in Hi as [Hi| ->]; [by apply (HK k' x)|]. destruct Hw as [[? ?]|[(? & ? & ?)|[? [= <- _]]]]; done.
    + intros k' cp. destruct (decide (k' = k)) as [->|Hne].
      * rewrite lookup_insert. intros [= <-]. destruct (HC k _ Hk) as [H1 H2 (cs0 & m & E & Hp & Hm & Hd & Hb & Hbad) H4 H5 H6].
        cbn [c_what c_left c_begun c_bad c_over] in *.
        split; cbn [c_what c_left c_begun c_bad c_over].
        -- apply elem_snoc_item. by left.
        -- intros c' [Hi|?]%elem_snoc_item; [by apply H2|done].
        -- exists cs0, m. rewrite made_app. change (made k (option_list (Some (CReturns k CopyOk)))) with (@nil op). rewrite app_nil_r. done.
        -- done.
        -- intros [Hi|?]%elem_snoc_item; [|done]. by apply H5 in Hi as (? & _).
        -- intros [Hi|?]%elem_snoc_item; [|done]. by apply H6 in Hi as (_ & _ & ?).
      * rewrite lookup_insert_ne by done. intros Hcp. apply (copy_inv_skip _ _ s); [cbn; congruence|done|by apply HC].
    + intros E. apply begun_more, HG, E.
    + intros t' Ht'. by eapply begun_more, HW.
  - split; cbn [c_copies c_builder c_wants].
    + intros k' x Hi Hw. destruct (decide (k' = k)) as [->|]; [rewrite lookup_insert; by eexists|]. rewrite lookup_insert_ne by done.
      apply elem_snoc_item in Hi as [Hi| ->]; [by apply (HK k' x)|]. destruct Hw as [[? ?]|[(? & ? & ?)|[? [= <- _]]]]; done.
    + intros k' cp. destruct (decide (k' = k)) as [->|Hne].
      * rewrite lookup_insert. intros [= <-]. destruct (HC k _ Hk) as [H1 H2 (cs0 & m & E & Hp & Hm & Hd & Hb & Hbad) H4 H5 H6].
        cbn [c_what c_left c_begun c_bad c_over] in *.
        split; cbn [c_what c_left c_begun c_bad c_over].
        -- apply elem_snoc_item. by left.
        -- intros c' [Hi|?]%elem_snoc_item; [by apply H2|done].
        -- exists cs0, m. rewrite made_app. change (made k (option_list (Some (CReturns k CopyPanic)))) with (@nil op). rewrite app_nil_r. done.
        -- intros [Hi|?]%elem_snoc_item; [|done]. by apply H4 in Hi as (_ & ? & _).
        -- done.
        -- intros [Hi|?]%elem_snoc_item; [|done]. by apply H6 in Hi as (_ & _ & ?).
      * rewrite lookup_insert_ne by done. intros Hcp. apply (copy_inv_skip _ _ s); [cbn; congruence|done|by apply HC].
    + intros E. apply begun_more, HG, E.
    + intros t' Ht'. by eapply begun_more, HW.
Qed.

(** ** What callers can rely on *)
Lemma made_prefix k tr1 tr2 cs : made k (tr1 ++ tr2) ⊆+ cs → made k tr1 ≡ₚ cs → made k (tr1 ++ tr2) ≡ₚ cs.
Proof.
  intros Hs Hp. apply submseteq_Permutation_length_eq; [|done].
  apply submseteq_length in Hs as Hl. rewrite <-Hp in Hl |- *. rewrite made_app, app_length in *. lia.
Qed.
Lemma copy_known st tr s k c : cexec st tr s → CStarts k c ∈ tr →
  ∃ cp, c_copies s !! k = Some cp ∧ c_what cp = c ∧ copy_inv st tr (c_builder s) k cp.
Proof.
  intros Hx Hi. destruct (cexec_inv _ _ _ Hx) as [HK HC _ _]. destruct (HK k _ Hi) as [cp E]; [eauto|].
  exists cp. pose proof (HC k cp E) as Hc. split_and!; [done| |done]. symmetry. by apply (ci_only _ _ _ _ _ Hc).
Qed.
Lemma copy_part st tr s k c cs : cexec st tr s → CStarts k c ∈ tr → copy_ops st c = Some cs → made k tr ⊆+ cs.
Proof.
  intros Hx Hi E. destruct (copy_known _ _ _ _ _ Hx Hi) as (cp & _ & <- & [_ _ (cs0 & m & E0 & Hp & _) _ _ _]).
  rewrite E in E0. injection E0 as <-. rewrite <-Hp. apply submseteq_inserts_r. done.
Qed.
Lemma diff_all st tr s k other cs : cexec st tr s → CStarts k (Diff other) ∈ tr → CReturns k CopyOk ∈ tr →
  diff_ops st other = Some cs → made k tr ≡ₚ cs.
Proof.
  intros Hx Hi Hr E. destruct (copy_known _ _ _ _ _ Hx Hi) as (cp & _ & Ew & [_ _ (cs0 & m & E0 & Hp & _ & Hd & _) Hok _ _]).
  rewrite Ew in E0. cbn [copy_ops] in E0. rewrite E in E0. injection E0 as <-.
  destruct (Hok Hr) as (El & Eb & _). rewrite El, (Hd other Ew Eb) in Hp. by rewrite !app_nil_r in Hp.
Qed.
Lemma returned_all st tr1 k tr2 s c cs : cexec st (tr1 ++ CReturns k CopyOk :: tr2) s → ¬ commit_begun tr1 →
  CStarts k c ∈ tr1 → copy_ops st c = Some cs → made k (tr1 ++ CReturns k CopyOk :: tr2) ≡ₚ cs.
Proof.
  intros Hx Hn Hi E.
  assert (Hsub : made k (tr1 ++ CReturns k CopyOk :: tr2) ⊆+ cs).
  { apply (copy_part st _ s k c); [done|apply elem_of_app; by left|done]. }
  change (CReturns k CopyOk :: tr2) with ([CReturns k CopyOk] ++ tr2) in *. rewrite app_assoc in *.
  apply made_prefix; [done|]. destruct (cexec_prefix _ _ _ Hx _ _ eq_refl) as [s1 H1].
  destruct (copy_known _ _ _ k c H1) as (cp & Ecp & Ew & [_ _ (cs0 & m & E0 & Hp & Hm & _) Hok _ _]); [apply elem_of_app; by left|].
  rewrite Ew, E in E0. injection E0 as <-. destruct Hok as (El & _); [apply elem_of_app; right; left|].
  assert (m = []) as ->.
  { destruct m as [|m0 m]; [done|]. destruct (cexec_inv _ _ _ H1) as [_ _ HG _]. destruct (HG (Hm ltac:(done))) as [t Ht].
    destruct Hn. exists t. apply elem_snoc_item in Ht as [Ht|?]; done. }
  rewrite El in Hp. by rewrite !app_nil_r in Hp.
Qed.
Lemma starts_fresh st tr1 k c tr2 s x : cexec st (tr1 ++ CStarts k c :: tr2) s → x ∈ tr1 → about k x → False.
Proof.
  intros Hx Hi Ha. change (CStarts k c :: tr2) with ([CStarts k c] ++ tr2) in Hx. rewrite app_assoc in Hx.
  destruct (cexec_prefix _ _ _ Hx _ _ eq_refl) as [s1 H1]. destruct (cexec_last _ _ _ H1 _ _ eq_refl) as (s0 & s2 & H0 & Hs).
  destruct (cexec_inv _ _ _ H0) as [HK _ _ _]. inversion Hs; subst. cbn [c_copies] in HK.
  destruct (HK k x Hi) as [? E]; [|congruence]. destruct x; cbn in Ha; subst; eauto; done.
Qed.
Lemma after_none st tr1 x tr2 s k c : cexec st (tr1 ++ x :: tr2) s → closes x → CStarts k c ∈ tr2 → made k (tr1 ++ x :: tr2) = [].
Proof.
  intros Hx (e & -> & He) Hi. apply elem_of_list_split in Hi as (tr3 & tr4 & ->).
  assert (H1 : ∀ o, CMakes k o true ∉ tr1 ++ CSingle e :: tr3 ++ CStarts k c :: tr4).
  { intros o Ho. apply elem_of_app in Ho as [Ho|Ho].
    - rewrite app_comm_cons, app_assoc in Hx. apply (starts_fresh _ _ _ _ _ _ (CMakes k o true) Hx); [apply elem_of_app; by left|done].
    - apply elem_of_cons in Ho as [?|Ho]; [done|]. pose proof (cexec_bexec _ _ _ Hx) as Hb.
      rewrite builder_calls_app in Hb. change (builder_calls (CSingle e :: ?l)) with (e :: builder_calls l) in Hb.
      destruct (bexec_late _ _ _ Hb _ _ _ eq_refl He (BOp k o true)) as [? _]; [|done].
      apply elem_of_list_omap. exists (CMakes k o true). done. }
  destruct (made k _) as [|o os] eqn:E; [done|]. destruct (H1 o). apply elem_made. rewrite E. left.
Qed.
Lemma returns_started st tr s k r : cexec st tr s → CReturns k r ∈ tr → ∃ c, CStarts k c ∈ tr.
Proof.
  intros Hx Hr. destruct (cexec_inv _ _ _ Hx) as [HK HC _ _]. destruct (HK k _ Hr) as [cp E]; [eauto|].
  exists (c_what cp). apply (HC k cp E).
Qed.
Lemma panic_why st tr1 k tr2 s c cs : cexec st (tr1 ++ CReturns k CopyPanic :: tr2) s → CStarts k c ∈ tr1 → copy_ops st c = Some cs →
  commit_begun tr1 ∧ (∃ other, c = Diff other) ∧ ¬ made k (tr1 ++ CReturns k CopyPanic :: tr2) ≡ₚ cs.
Proof.
  intros Hx Hi E.
  destruct (copy_known _ _ _ k c Hx) as (cp & _ & Ew & [_ _ (cs0 & m & E0 & Hp & _ & _ & _ & Hbad) _ Hpan _]); [apply elem_of_app; by left|].
  rewrite Ew, E in E0. injection E0 as <-. destruct Hpan as [Eb _]; [apply elem_of_app; right; left|]. destruct (Hbad Eb) as [Hm [o Eo]].
  rewrite Ew in Eo. split_and!; [|by exists o|].
  - change (CReturns k CopyPanic :: tr2) with ([CReturns k CopyPanic] ++ tr2) in Hx. rewrite app_assoc in Hx.
    destruct (cexec_prefix _ _ _ Hx _ _ eq_refl) as [s1 H1].
    destruct (copy_known _ _ _ k c H1) as (cp1 & _ & _ & [_ _ (cs1 & m1 & _ & _ & Hm1 & _ & _ & Hbad1) _ Hpan1 _]); [apply elem_of_app; by left|].
    destruct Hpan1 as [Eb1 _]; [apply elem_of_app; right; left|]. destruct (Hbad1 Eb1) as [Hm1' _].
    destruct (cexec_inv _ _ _ H1) as [_ _ HG _]. destruct (HG (Hm1 Hm1')) as [t Ht]. exists t. by apply elem_snoc_item in Ht as [Ht|?].
  - intros Hq. rewrite <-Hq in Hp. apply Permutation_length in Hp. rewrite !app_length in Hp.
    destruct m as [|m0 m]; [done|]. cbn [length] in Hp. lia.
Qed.
Lemma failed_none st tr s k : cexec st tr s → CReturns k CopyFailed ∈ tr → made k tr = [].
Proof.
  intros Hx Hr. destruct (returns_started _ _ _ _ _ Hx Hr) as [c Hi].
  destruct (copy_known _ _ _ k c Hx Hi) as (cp & _ & _ & [_ _ (cs1 & m1 & _ & _ & _ & _ & Hb & _) _ _ Hf]).
  destruct (Hf Hr) as [Eb _]. by apply Hb in Eb as [? _].
Qed.
Lemma copy_content st tr s t st' : cexec st tr s → CSingle (BCommit t (Committed st')) ∈ tr →
  ∃ nvord prord, hash_order nvord ∧ hash_order prord ∧ build nvord prord st (changes tr) = Some st'.
Proof.
  intros Hx Hi. apply (bexec_result st _ _ t st' (cexec_bexec _ _ _ Hx)). apply elem_of_list_omap. eauto.
Qed.

(** ** Copying calls go on *)
Lemma for_triples_all (P : op → Prop) st f ts cs : (∀ vt l, f vt = Some l → Forall P l) → for_triples st f ts = Some cs → Forall P cs.
Proof.
  intros Hf. unfold for_triples. revert cs. induction ts as [|t ts IH]; intros cs; cbn [mapM].
  - cbn [fmap option_fmap option_map mret option_ret]. intros [= <-]. by cbn.
  - destruct (id_triple_to_string st t) as [[vt|]|]; cbn [mbind option_bind]; [| |done].
    + destruct (f vt) as [l|] eqn:E; cbn [mbind option_bind]; [|done]. destruct (mapM _ ts) as [css|]; cbn [mbind option_bind]; [|done].
      cbn [fmap option_fmap option_map mret option_ret] in *. intros [= <-]. cbn [mjoin list_join]. apply Forall_app. split; [by eapply Hf|].
      by apply IH.
    + destruct (mapM _ ts) as [css|]; cbn [mbind option_bind]; [|done].
      cbn [fmap option_fmap option_map mret option_ret] in *. intros [= <-]. cbn [mjoin list_join app]. by apply IH.
Qed.
Lemma copy_ops_ok st c cs : copy_ops st c = Some cs → Forall (op_ok st) cs.
Proof.
  assert (HA : ∀ vt, op_ok st (AddValue vt)) by (intros vt; by eexists).
  assert (HR : ∀ vt, op_ok st (RemoveValue vt)) by (intros vt; by eexists).
  assert (HU : ∀ st' o vt l, op_ok st o → unless_exists st' o vt = Some l → Forall (op_ok st) l).
  { intros st' o vt l Ho (e & _ & E)%bind_Some. destruct e; injection E as <-; [constructor|]. by constructor. }
  destruct c as [l other|other]; cbn [copy_ops].
  - unfold delta_ops. intros (A & _ & (R & _ & (as_ & EA & (rs & ER & E)%bind_Some)%bind_Some)%bind_Some)%bind_Some. injection E as <-.
    apply Forall_app. split.
    + eapply for_triples_all; [|exact EA]. intros vt ? [= <-]. by apply Forall_singleton.
    + eapply for_triples_all; [|exact ER]. intros vt ? [= <-]. by apply Forall_singleton.
  - unfold diff_ops. intros (rs & ER & (ts & _ & (as_ & EA & E)%bind_Some)%bind_Some)%bind_Some. injection E as <-.
    apply Forall_app. split.
    + destruct st as [|l0 st]; [injection ER as <-; constructor|]. apply bind_Some in ER as (ts' & _ & ER).
      eapply for_triples_all; [|exact ER]. intros vt ? E. refine (HU _ _ _ _ _ E). apply HR.
    + eapply for_triples_all; [|exact EA]. intros vt ? E. destruct st as [|l0 st]; [injection E as <-; by apply Forall_singleton|].
      refine (HU _ _ _ _ _ E). apply HA.
Qed.
Lemma copy_moves st tr s k cp : wf st → cexec st tr s → Forall (op_ok st) (changes tr) → c_copies s !! k = Some cp → c_over cp = false →
  (∀ o, o ∈ c_left cp → ∃ ok s', cstep st s (Some (CMakes k o ok)) s' ∧
     ∃ cp', c_copies s' !! k = Some cp' ∧ length (c_left cp) = S (length (c_left cp'))) ∧
  (c_left cp = [] → ∃ r s', cstep st s (Some (CReturns k r)) s').
Proof.
  intros Hw Hx Hok Hk Ho. destruct s as [s ws cps], cp as [c left b bad over]. cbn [c_copies c_over c_left] in *. subst over. split.
  - intros o (cs1 & cs2 & ->)%elem_of_list_split.
    assert (Hoo : op_ok st o).
    { destruct (cexec_inv _ _ _ Hx) as [_ HC _ _]. destruct (HC k _ Hk) as [_ _ (cs & m & E & Hp & _) _ _ _]. cbn [c_what c_left] in *.
      apply copy_ops_ok in E. rewrite Forall_forall in E. apply E. rewrite <-Hp. rewrite !elem_of_app, elem_of_cons. auto. }
    assert (Hlen : ∀ c' b' bad', length (cs1 ++ o :: cs2) = S (length (c_left (Copying c' (cs1 ++ cs2) b' bad' false)))).
    { intros. cbn [c_left]. rewrite !app_length. cbn [length]. lia. }
    destruct (b_cell s) as [b0|] eqn:Eb.
    + pose proof (cexec_bexec _ _ _ Hx) as Hb. cbn [c_builder] in Hb.
      destruct (bexec_progress st _ _ Hw Hb Hok) as (_ & H & _). destruct (H k o) as [s' Hs]; [congruence|done|].
      exists true. eexists. split; [by eapply c_makes|]. cbn [c_copies]. rewrite lookup_insert. eexists. split; [done|]. apply Hlen.
    + exists false. eexists. split; [eapply c_misses; [done|by apply b_op_late]|]. cbn [c_copies]. rewrite lookup_insert. eexists.
      split; [done|]. apply Hlen.
  - intros ->. destruct bad; eexists _, _; [by eapply c_panics|by eapply c_returns].
Qed.
Lemma diff_reaches st other L tr s k t st' : wf st → wf other → shown other = Some L → cexec st tr s →
  CStarts k (Diff other) ∈ tr → CReturns k CopyOk ∈ tr → changes tr = made k tr → CSingle (BCommit t (Committed st')) ∈ tr →
  ∃ L', shown st' = Some L' ∧ L' ≡ₚ L.
Proof.
  intros Hw Hw' HL Hx Hi Hr Hc Ht. destruct (copy_content _ _ _ _ _ Hx Ht) as (nvord & prord & Hn & Hp & E).
  destruct (apply_diff_ok st other L nvord prord Hw Hw' HL Hn Hp) as (cs & Ecs & Hall).
  destruct (Hall (changes tr)) as (st'' & L' & E' & EL & HP); [rewrite Hc; by apply (diff_all st tr s k other)|].
  rewrite E in E'. injection E' as <-. eauto.
Qed.
