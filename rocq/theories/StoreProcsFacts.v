(** Executions of several processes on one directory. *)
From Verif Require Import Prelude ListFacts LabelConc LabelSpec Head HeadSpec HeadFacts Succinct TripleFiles Merge Layer StackFacts WfFacts SameFacts Builder Rollup RollupSame
  Squash MergeBase Names Spec BuilderFacts CommitFacts HistoryFacts SquashFacts MergeBaseFacts ReachFacts ApiFacts SquashApi Store SpecStore StoreFacts StoreLoadFacts
  StoreCallFacts StoreImportFacts StoreExecFacts StoreApi StoreHead StoreHeadFacts StoreProcs SpecStoreProcs.

Record ppool (g : pstate) (Ow : nat → gset lname) (S0 : nat → store) : Prop := {
  pp_good : good (p_store g);
  pp_cgood : ∀ i, cgood (p_store g) (cache_of (p_caches g) i);
  pp_safe : ∀ t i k p, p_threads g !! t = Some (i, (k, p)) → safe p (Ow t) (p_store g) (λ _ s' r, call_post k (S0 t) s' r);
  pp_ok : ∀ t i k p, p_threads g !! t = Some (i, (k, p)) → call_ok k;
  pp_disj : ∀ t t', t ≠ t' → Ow t ## Ow t';
  pp_dom : ∀ t n, n ∈ Ow t → is_Some (p_store g !! n) }.
Lemma cgood_empty s : cgood s ∅.
Proof. intros y L HL. by rewrite lookup_empty in HL. Qed.
Lemma cache_of_insert cs i c j : cache_of (<[i := c]> cs) j = if decide (j = i) then c else cache_of cs j.
Proof. unfold cache_of. case_decide; [subst; by rewrite lookup_insert|by rewrite lookup_insert_ne]. Qed.
Lemma cache_of_delete cs i j : cache_of (delete i cs) j = if decide (j = i) then ∅ else cache_of cs j.
Proof. unfold cache_of. case_decide; [subst; by rewrite lookup_delete|by rewrite lookup_delete_ne]. Qed.
Lemma ppool_init : ppool pstate_init (λ _, ∅) (λ _, ∅).
Proof. split; try done. apply good_empty. Qed.

Lemma pstep_ppool cached g e g' Ow S0 : pstep cached g e g' → ppool g Ow S0 →
  ∃ Ow' S0', ppool g' Ow' S0' ∧ ext ∅ (p_store g) (p_store g') ∧
    (∀ t, (∀ i k, e ≠ Some (PStart i t k)) → S0' t = S0 t) ∧ (∀ i t k, e = Some (PStart i t k) → S0' t = p_store g) ∧
    (∀ t, is_Some (p_threads g' !! t) → is_Some (p_threads g !! t) ∨ ∃ i k, e = Some (PStart i t k)) ∧
    (∀ i t k r, e = Some (PDone i t k r) → is_Some (p_threads g !! t) ∧ call_ok k ∧ call_post k (S0 t) (p_store g') r).
Proof.
  intros Hstep [Hg Hc Hs Hok Hd Hdom].
  destruct Hstep as [s cs th i t k Ht Hk|s cs th i t k f Ht|s cs th i t k f n Ht Hn|s cs th i t k w p Ht Hnn|s cs th i t k p Ht|s cs th i t k r Ht|s cs th i x|s cs th i]; cbn [p_store p_caches p_threads] in *.
  - exists Ow, (fset S0 t s). split; [|split_and!].
    + split; try done; cbn.
      * intros t' i' k' p'. destruct (decide (t' = t)) as [->|Hne].
        -- rewrite lookup_insert, fset_eq. intros [= <- <- <-]. by apply program_safe.
        -- rewrite lookup_insert_ne, fset_ne by done. apply Hs.
      * intros t' i' k' p' [[_ [= <- <- <-]]|[_ H]]%lookup_insert_Some; [done|by eapply Hok].
    + apply ext_refl.
    + intros t' Hne. apply fset_ne. intros ->. by eapply Hne.
    + intros i' t' k' [= <- <- <-]. by rewrite fset_eq.
    + intros t'. destruct (decide (t' = t)) as [->|]; [intros _; right; by eauto|]. rewrite lookup_insert_ne by done. by left.
    + done.
  - exists Ow, S0. split; [|split; [apply ext_refl|split_and!; try done]].
    + split; try done; cbn.
      * intros t' i' k' p'. destruct (decide (t' = t)) as [->|Hne].
        -- rewrite lookup_insert. intros [= <- <- <-]. apply (Hs t i k _ Ht); [apply ext_refl|done|done].
        -- rewrite lookup_insert_ne by done. apply Hs.
      * intros t' i' k' p' [[_ [= <- <- <-]]|[_ H]]%lookup_insert_Some; by eapply Hok.
    + intros t'. destruct (decide (t' = t)) as [->|]; [intros _; left; by eauto|]. rewrite lookup_insert_ne by done. by left.
  - exists (fset Ow t ({[n]} ∪ Ow t)), S0. pose proof (λ O, new_dir_ext O n s Hn) as He. split; [|split_and!]; try done.
    + split; cbn.
      * by apply new_dir_good.
      * intros j. by apply (cgood_ext ∅ s).
      * intros t' i' k' p'. destruct (decide (t' = t)) as [->|Hne].
        -- rewrite lookup_insert, fset_eq. intros [= <- <- <-]. apply (Hs t i k _ Ht); [apply ext_refl|done|done].
        -- rewrite lookup_insert_ne, fset_ne by done. intros Ht'. eapply safe_ext; [by eapply Hs|done].
      * intros t' i' k' p' [[_ [= <- <- <-]]|[_ H]]%lookup_insert_Some; by eapply Hok.
      * assert (∀ t', n ∉ Ow t') as Hno by (intros t' Hn'; destruct (Hdom _ _ Hn'); congruence).
        intros t1 t2 Hne. unfold fset. pose proof (Hd t1 t2 Hne) as D. pose proof (Hno t1). pose proof (Hno t2).
        destruct (decide (t1 = t)) as [->|], (decide (t2 = t)) as [->|]; try done; set_solver.
      * intros t' m. unfold fset. destruct (decide (t' = t)) as [->|].
        -- rewrite elem_of_union, elem_of_singleton. intros [->|Hm]; [unfold new_dir; rewrite lookup_insert; by eauto|].
           apply (ext_dom _ _ _ (He ∅)). by eapply Hdom.
        -- intros Hm. apply (ext_dom _ _ _ (He ∅)). by eapply Hdom.
    + intros t'. destruct (decide (t' = t)) as [->|]; [intros _; left; by eauto|]. rewrite lookup_insert_ne by done. by left.
  - destruct (Hs t i k _ Ht s) as [Hwo Hp]; [apply ext_refl|done|done|]. exists Ow, S0.
    assert (ext ∅ s (write_store w s)) as He by (eapply write_ext; [done|set_solver]). split; [|split_and!]; try done.
    + split; cbn.
      * by eapply write_good.
      * intros j. rewrite cache_of_insert. case_decide; [by eapply write_cgood|by apply (cgood_ext ∅ s)].
      * intros t' i' k' p'. destruct (decide (t' = t)) as [->|Hne].
        -- rewrite lookup_insert. intros [= <- <- <-]. done.
        -- rewrite lookup_insert_ne by done. intros Ht'. eapply safe_ext; [by eapply Hs|]. eapply write_ext; [done|].
           intros m Hm Hm'. pose proof (Hd t' t Hne) as D.
           assert (m ∈ Ow t); [|set_solver]. destruct w; cbn in Hm; try (by apply elem_of_nil in Hm);
             apply elem_of_list_singleton in Hm as ->; apply Hwo.
      * intros t' i' k' p' [[_ [= <- <- <-]]|[_ H]]%lookup_insert_Some; by eapply Hok.
      * done.
      * intros t' m Hm. apply (ext_dom _ _ _ He). by eapply Hdom.
    + intros t'. destruct (decide (t' = t)) as [->|]; [intros _; left; by eauto|]. rewrite lookup_insert_ne by done. by left.
  - exists Ow, S0. split; [|split; [apply ext_refl|split_and!; try done]].
    + split; try done; cbn.
      * intros t' i' k' p'. destruct (decide (t' = t)) as [->|Hne].
        -- rewrite lookup_insert. intros [= <- <- <-]. by apply (Hs t i k _ Ht).
        -- rewrite lookup_insert_ne by done. apply Hs.
      * intros t' i' k' p' [[_ [= <- <- <-]]|[_ H]]%lookup_insert_Some; by eapply Hok.
    + intros t'. destruct (decide (t' = t)) as [->|]; [intros _; left; by eauto|]. rewrite lookup_insert_ne by done. by left.
  - exists Ow, S0. split; [|split; [apply ext_refl|split_and!; try done]].
    + split; try done; cbn; intros t' i' k' p' [_ Ht']%lookup_delete_Some; [by eapply Hs|by eapply Hok].
    + intros t' [? [_ ?]%lookup_delete_Some]. left. by eauto.
    + intros i' t' k' r' [= <- <- <- <-]. split; [by eauto|]. split; [by eapply Hok|]. apply (Hs t i k _ Ht); [apply ext_refl|done].
  - exists Ow, S0. split; [|split; [apply ext_refl|split_and!; try done; by left]]. split; try done. cbn.
    intros j. rewrite cache_of_insert. case_decide; [|done]. intros y L [_ ?]%lookup_delete_Some. by eapply Hc.
  - exists Ow, S0. split; [|split; [apply ext_refl|split_and!; try done]].
    + split; try done; cbn.
      * intros j. rewrite cache_of_delete. case_decide; [apply cgood_empty|done].
      * intros t' i' k' p' [H _]%map_filter_lookup_Some. by eapply Hs.
      * intros t' i' k' p' [H _]%map_filter_lookup_Some. by eapply Hok.
    + intros t' [? [H _]%map_filter_lookup_Some]. left. by eauto.
Qed.
Lemma pexec_ppool (cached : nat → bool) (g : pstate) (tr : list pev) (g' : pstate) (Ow : nat → gset lname) (S0 : nat → store) (P : store → Prop) : pexec cached g tr g' → ppool g Ow S0 →
  (∀ s s', ext ∅ s s' → P s → P s') → P (p_store g) →
  ∃ Ow' S0', ppool g' Ow' S0' ∧ ext ∅ (p_store g) (p_store g') ∧
    (∀ i t k r, PDone i t k r ∈ tr → ∃ s0, call_ok k ∧ call_post k s0 (p_store g') r ∧ (p_threads g !! t = None → P s0)) ∧
    (∀ t, p_threads g !! t = None → is_Some (p_threads g' !! t) → P (S0' t)).
Proof.
  intros Hex Hp HP HPg. induction Hex as [g|g tr g1 e g2 Hex IH Hstep].
  - exists Ow, S0. split; [done|]. split; [apply ext_refl|]. split; [by intros ? ? ? ? ?%elem_of_nil|]. intros t E [? H]. congruence.
  - destruct (IH Hp HPg) as (Ow1 & S1 & Hp1 & He1 & Hd1 & Hl1). clear IH.
    destruct (pstep_ppool _ _ _ _ _ _ Hstep Hp1) as (Ow2 & S2 & Hp2 & He2 & HS & HS' & Hth & Hdone).
    exists Ow2, S2. split; [done|]. split; [by eapply ext_trans|]. split.
    + intros i t k r [Hin|Hin]%elem_of_app.
      * destruct (Hd1 i t k r Hin) as (s0 & H0 & H1 & H2). exists s0. split; [done|]. split; [by eapply call_post_ext|done].
      * assert (e = Some (PDone i t k r)) as ->.
        { destruct e as [e|]; [|by apply elem_of_nil in Hin]. change (option_list (Some e)) with [e] in Hin.
          by apply elem_of_list_singleton in Hin as ->. }
        destruct (Hdone i t k r eq_refl) as (Ht & Hok & Hpost). exists (S1 t). split; [done|]. split; [done|]. intros Hn. by apply Hl1.
    + intros t Hn Ht. destruct (Hth t Ht) as [Ht1|(i & k & ->)].
      * destruct e as [[i t' k| |]|].
        -- destruct (decide (t' = t)) as [->|Hne]; [|rewrite HS by congruence; by apply Hl1].
           rewrite (HS' i t k eq_refl). eapply HP; [exact He1|done].
        -- rewrite HS by congruence. by apply Hl1.
        -- rewrite HS by congruence. by apply Hl1.
        -- rewrite HS by congruence. by apply Hl1.
      * rewrite (HS' i t k eq_refl). eapply HP; [exact He1|done].
Qed.
Lemma preached_ppool cached tr g : preached cached tr g → ∃ Ow S0, ppool g Ow S0 ∧
  ∀ i t k r, PDone i t k r ∈ tr → ∃ s0, call_ok k ∧ call_post k s0 (p_store g) r.
Proof.
  intros H. destruct (pexec_ppool cached _ tr g _ _ (λ _, True) H ppool_init) as (Ow & S0 & Hp & _ & Hd & _); [done|done|].
  exists Ow, S0. split; [done|]. intros i t k r Hin. destruct (Hd i t k r Hin) as (s0 & ? & ? & _). by exists s0.
Qed.

(** ** Any time *)
Lemma preached_good cached tr g : preached cached tr g → good (p_store g).
Proof. intros H. destruct (preached_ppool _ _ _ H) as (? & ? & Hp & _). apply Hp. Qed.
Lemma preached_caches cached tr g i : preached cached tr g → cgood (p_store g) (cache_of (p_caches g) i).
Proof. intros H. destruct (preached_ppool _ _ _ H) as (? & ? & Hp & _). apply Hp. Qed.
Lemma pdone cached tr g i t k r : preached cached tr g → PDone i t k r ∈ tr → ∃ s0, call_ok k ∧ call_post k s0 (p_store g) r.
Proof. intros H Hin. destruct (preached_ppool _ _ _ H) as (? & ? & _ & Hd). eauto. Qed.
(** a call that starts after [g] *)
Lemma plater cached tr g tr' g' i t k r (P : store → Prop) : preached cached tr g → pexec cached g tr' g' →
  p_threads g !! t = None → PDone i t k r ∈ tr' → (∀ s s', ext ∅ s s' → P s → P s') → P (p_store g) →
  ∃ s0, P s0 ∧ call_post k s0 (p_store g') r.
Proof.
  intros H H' Ht Hin HP HPg. destruct (preached_ppool _ _ _ H) as (Ow & S0 & Hp & _).
  destruct (pexec_ppool cached g tr' g' Ow S0 P H' Hp HP HPg) as (_ & _ & _ & _ & Hd & _).
  destruct (Hd i t k r Hin) as (s0 & _ & H1 & H2). exists s0. split; [by apply H2|done].
Qed.
Lemma pexec_trans cached g tr g' tr' g'' : pexec cached g tr g' → pexec cached g' tr' g'' → pexec cached g (tr ++ tr') g''.
Proof.
  intros H H'. induction H' as [g0|g0 tr' g1 e g2 H' IH Hs]; [by rewrite app_nil_r|]. rewrite app_assoc. eapply pexec_step; [by apply IH|done].
Qed.
Lemma pexec_stored cached tr g tr' g' x c : preached cached tr g → pexec cached g tr' g' → stored (p_store g) x c → stored (p_store g') x c.
Proof.
  intros H H' Hst. destruct (preached_ppool _ _ _ H) as (Ow & S0 & Hp & _).
  destruct (pexec_ppool cached _ tr' g' _ _ (λ _, True) H' Hp) as (_ & _ & _ & He & _); [done|done|]. by eapply ext_stored.
Qed.
Lemma ploaded_is_stored cached tr g i t x L : preached cached tr g → PDone i t (SGet x) (Ok (RLayer (Some L))) ∈ tr →
  l_name L = Some x ∧ ∃ c, stored (p_store g) x c ∧ l_parent L = fst <$> c !! 1 ∧ same_answers (layers L) c.*2.
Proof.
  intros H Hin. destruct (pdone _ _ _ _ _ _ _ H Hin) as (s0 & _ & Hn & HL). split; [done|].
  destruct (valid_answers _ _ _ (preached_good _ _ _ H) HL Hn) as (c & ? & ? & ? & _). by exists c.
Qed.
Lemma ploads_agree cached tr g i t i' t' x L L' : preached cached tr g →
  PDone i t (SGet x) (Ok (RLayer (Some L))) ∈ tr → PDone i' t' (SGet x) (Ok (RLayer (Some L'))) ∈ tr →
  l_name L = Some x ∧ l_name L' = Some x ∧ l_parent L = l_parent L' ∧ same_answers (layers L) (layers L').
Proof.
  intros H H1 H2. destruct (ploaded_is_stored _ _ _ _ _ _ _ H H1) as (N1 & c & Hc & P1 & A1), (ploaded_is_stored _ _ _ _ _ _ _ H H2) as (N2 & c' & Hc' & P2 & A2).
  pose proof (stored_unique _ _ _ _ Hc Hc') as <-. split_and!; [done..|congruence|]. eapply same_answers_trans; [done|by apply same_answers_sym].
Qed.
Lemma palways_loads cached tr g tr' g' x c i t r : preached cached tr g → stored (p_store g) x c → pexec cached g tr' g' →
  p_threads g !! t = None → PDone i t (SGet x) r ∈ tr' →
  ∃ L, r = Ok (RLayer (Some L)) ∧ l_name L = Some x ∧ l_parent L = fst <$> c !! 1 ∧ same_answers (layers L) c.*2.
Proof.
  intros H Hc H' Ht Hin.
  destruct (plater _ _ _ _ _ _ _ _ _ (live x) H H' Ht Hin) as (s0 & Hli & Hpost); [intros ? ?; apply live_ext|by exists c|].
  cbn in Hpost. destruct r as [[[L|]| |]|k|]; cbn in Hpost; try done. destruct Hpost as [Hn HL]. exists L. split; [done|]. split; [done|].
  destruct (valid_answers _ _ _ (preached_good _ _ _ (pexec_trans _ _ _ _ _ _ H H')) HL Hn) as (c' & Hc' & ? & ? & _).
  by rewrite (stored_unique _ _ _ _ (pexec_stored _ _ _ _ _ _ _ H H' Hc) Hc').
Qed.
Lemma pnew_is_new cached tr g tr' g' i t k n : preached cached tr g → pexec cached g tr' g' → p_threads g !! t = None →
  PDone i t k (Ok (RName n)) ∈ tr' → makes_new k → p_store g !! n = None.
Proof.
  intros H H' Ht Hin Hk. destruct (p_store g !! n) eqn:E; [|done].
  destruct (plater _ _ _ _ _ _ _ _ _ (λ s, is_Some (s !! n)) H H' Ht Hin) as (s0 & [d' Hd] & Hpost).
  { intros s s' He. apply (ext_dom _ _ _ He). }
  { by eexists. }
  destruct k; try done; cbn in Hpost; destruct Hpost as [Hno _]; congruence.
Qed.
Lemma pnamed_stored cached tr g i t k n : preached cached tr g → PDone i t k (Ok (RName n)) ∈ tr → ∃ c, stored (p_store g) n c.
Proof.
  intros H Hin. destruct (pdone _ _ _ _ _ _ _ H Hin) as (s0 & _ & Hpost).
  destruct k; cbn in Hpost; try done.
  - destruct Hpost as (_ & l & ? & _). by eexists.
  - destruct Hpost as (_ & l & cx & _ & ? & _). by eexists.
  - destruct Hpost as (_ & l & ?). by eexists.
  - destruct Hpost as [(cx & cr & _ & ? & _) _]. by eexists.
  - destruct Hpost as [(cx & cr & _ & ? & _) _]. by eexists.
  - destruct Hpost as (_ & cx & l & _ & ? & _). by eexists.
  - destruct Hpost as (_ & top & cu & l & _ & _ & _ & ? & _). by eexists.
  - destruct Hpost as (_ & ls & l & _ & _ & _ & ?). by eexists.
Qed.

(** ** What the calls make *)
Lemma pbase_made cached tr g i t nvord prord cs n : preached cached tr g → PDone i t (SBase nvord prord cs) (Ok (RName n)) ∈ tr →
  ∃ l T, stored (p_store g) n [(n, l)] ∧ shown [l] = Some T ∧ ∀ vt, vt ∈ T ↔ after_change (added [] cs) (removed [] cs) [] vt.
Proof.
  intros H Hin. destruct (pdone _ _ _ _ _ _ _ H Hin) as (s0 & [Hn Hp] & _ & l & Hst & Hok & Hb).
  destruct (shown_ok [] wf_nil) as (T0 & E0 & _ & HT0).
  destruct (commit_shown [] cs nvord prord T0 wf_nil Hok Hn Hp E0) as (st' & T & E & HT & _ & Hin'). rewrite Hb in E. injection E as <-.
  exists l, T. split; [done|]. split; [done|].
  assert (T0 = []) as -> by (vm_compute in E0; by injection E0). done.
Qed.
Lemma pchild_made cached tr g i t nvord prord x cs n : preached cached tr g → PDone i t (SChild nvord prord x cs) (Ok (RName n)) ∈ tr →
  ∃ cx l T T', stored (p_store g) x cx ∧ stored (p_store g) n ((n, l) :: cx) ∧
    shown cx.*2 = Some T ∧ shown (l :: cx.*2) = Some T' ∧ ∀ vt, vt ∈ T' ↔ after_change (added cx.*2 cs) (removed cx.*2 cs) T vt.
Proof.
  intros H Hin. destruct (pdone _ _ _ _ _ _ _ H Hin) as (s0 & [Hn Hp] & _ & l & cx & Hx & Hst & Hok & Hb).
  pose proof (g_wf _ (preached_good _ _ _ H) _ _ Hx) as Hw.
  destruct (wf_shown _ Hw) as [T ET].
  destruct (commit_shown cx.*2 cs nvord prord T Hw Hok Hn Hp ET) as (st' & T' & E & HT & _ & Hin'). rewrite Hb in E. injection E as <-.
  by exists cx, l, T, T'.
Qed.
Lemma prollup_made cached tr g i t x r : preached cached tr g → PDone i t (SRollup x) (Ok (RName r)) ∈ tr →
  ∃ cx l, stored (p_store g) x cx ∧ stored (p_store g) r [(r, l)] ∧ same_answers [l] cx.*2.
Proof.
  intros H Hin. destruct (pdone _ _ _ _ _ _ _ H Hin) as (s0 & _ & Hs & l & Hr).
  destruct (stands_answers _ _ _ (preached_good _ _ _ H) Hs) as (cx & cr & Hx & Hr' & Ha).
  rewrite (stored_unique _ _ _ _ Hr' Hr) in Ha. by exists cx, l.
Qed.
Lemma psquash_made cached tr g i t x n : preached cached tr g → PDone i t (SSquash x) (Ok (RName n)) ∈ tr →
  ∃ cx l T T', stored (p_store g) x cx ∧ stored (p_store g) n [(n, l)] ∧ shown cx.*2 = Some T ∧ shown [l] = Some T' ∧ T' ≡ₚ T ∧ exact_strings l T.
Proof.
  intros H Hin. destruct (pdone _ _ _ _ _ _ _ H Hin) as (s0 & _ & _ & cx & l & Hx & Hn & E).
  pose proof (g_wf _ (preached_good _ _ _ H) _ _ Hx) as Hw. destruct (wf_shown _ Hw) as [T ET].
  destruct (squash_answers cx.*2 T id id Hw ET) as (l' & E' & (T' & ET' & HT) & Hex & _); [by intros m|by intros m|].
  rewrite E in E'. injection E' as <-. by exists cx, l, T, T'.
Qed.
(** the calls that work on a layer do not fail once it is there *)
Lemma pworks cached tr g tr' g' x c k i t r : preached cached tr g → stored (p_store g) x c → pexec cached g tr' g' →
  p_threads g !! t = None → PDone i t k r ∈ tr' → (k = SRollup x ∨ k = SSquash x ∨ ∃ nvord prord cs, k = SChild nvord prord x cs) →
  ∃ n, r = Ok (RName n).
Proof.
  intros H Hc H' Ht Hin Hk.
  destruct (plater _ _ _ _ _ _ _ _ _ (live x) H H' Ht Hin) as (s0 & Hli & Hpost); [intros ? ?; apply live_ext|by exists c|].
  destruct Hk as [-> | [-> | (nvord & prord & cs & ->)]]; destruct r as [[|n|]|e|]; cbn in Hpost; try done; by exists n.
Qed.
Lemma pbase_works cached tr g i t nvord prord cs r : preached cached tr g → PDone i t (SBase nvord prord cs) r ∈ tr → ∃ n, r = Ok (RName n).
Proof.
  intros H Hin. destruct (pdone _ _ _ _ _ _ _ H Hin) as (s0 & _ & Hpost).
  destruct r as [[|n|]|k|]; cbn in Hpost; try done. by exists n.
Qed.
(** a cache, however old, gives what reading the disk would *)
Lemma pcaches_alike cached tr g i x : preached cached tr g → ∃ r r' c' c'', run [] (p_store g) (cache_of (p_caches g) i) (get_layer true x) = Some (r, p_store g, c') ∧
  run [] (p_store g) ∅ (get_layer false x) = Some (r', p_store g, c'') ∧ alike r r'.
Proof. intros H. apply cached_alike; [by eapply preached_good|by eapply preached_caches]. Qed.

(** ** One call after another *)
Lemma pexec_one cached g e g' : pstep cached g e g' → pexec cached g (option_list e) g'.
Proof. intros H. rewrite <-(app_nil_l (option_list e)). eapply pexec_step; [constructor|done]. Qed.
Lemma run_pexec cached i ns s c k p r s' c' cs th : run ns s c p = Some (r, s', c') → cache_of cs i = c → th !! 0 = Some (i, (k, p)) →
  ∃ cs', pexec cached (PState s cs th) [PDone i 0 k r] (PState s' cs' (delete 0 th)) ∧ cache_of cs' i = c' ∧ ∀ j, j ≠ i → cache_of cs' j = cache_of cs j.
Proof.
  revert ns s c cs th. induction p as [q|f IH|f IH|w p IH|b p IH]; cbn [run]; intros ns s c cs th Hr Hc Ht.
  - injection Hr as <- <- <-. exists cs. split; [|done]. eapply (pexec_one _ _ (Some _)). by constructor.
  - destruct (IH s c ns s c cs (<[0 := (i, (k, f s (cache_of cs i)))]> th) Hr Hc) as (cs' & Hex & H1 & H2); [rewrite Hc; apply lookup_insert|].
    exists cs'. split; [|done]. rewrite delete_insert_delete in Hex.
    eapply (pexec_trans _ _ []); [eapply (pexec_one _ _ None); by apply (p_look _ s cs th i 0 k f)|exact Hex].
  - destruct ns as [|n ns]; [done|]. destruct (s !! n) eqn:En; [done|].
    destruct (IH n ns (new_dir n s) c cs (<[0 := (i, (k, f n))]> th) Hr Hc) as (cs' & Hex & H1 & H2); [apply lookup_insert|].
    exists cs'. split; [|done]. rewrite delete_insert_delete in Hex.
    eapply (pexec_trans _ _ []); [eapply (pexec_one _ _ None); by apply (p_alloc _ s cs th i 0 k f n)|exact Hex].
  - destruct (decide (no_nesting s w)) as [Hnn|]; [|done].
    destruct (IH ns (write_store w s) (write_cache w c) (<[i := write_cache w (cache_of cs i)]> cs) (<[0 := (i, (k, p))]> th) Hr) as (cs' & Hex & H1 & H2);
      [rewrite cache_of_insert, decide_True by done; by rewrite Hc|apply lookup_insert|].
    exists cs'. split; [|split; [done|]].
    + rewrite delete_insert_delete in Hex.
      eapply (pexec_trans _ _ []); [eapply (pexec_one _ _ None); by apply (p_put _ s cs th i 0 k w p)|exact Hex].
    + intros j Hj. rewrite H2 by done. rewrite cache_of_insert. by rewrite decide_False.
  - destruct b; [|done].
    destruct (IH ns s c cs (<[0 := (i, (k, p))]> th) Hr Hc) as (cs' & Hex & H1 & H2); [apply lookup_insert|].
    exists cs'. split; [|done]. rewrite delete_insert_delete in Hex.
    eapply (pexec_trans _ _ []); [eapply (pexec_one _ _ None); by apply (p_assume _ s cs th i 0 k p)|exact Hex].
Qed.
Fixpoint procs_trace (ks : list (nat * (list lname * scall))) (rs : list (outcome sres)) : list pev :=
  match ks, rs with
  | (i, (_, k)) :: ks', r :: rs' => PStart i 0 k :: PDone i 0 k r :: procs_trace ks' rs'
  | _, _ => []
  end.
Lemma procs_pexec cached ks s cs cs0 rs s' cs' : Forall (λ ik, call_ok ik.2.2) ks → procs_run cached ks s cs = Some (rs, s', cs') →
  (∀ j, cache_of cs0 j = cache_of cs j) →
  ∃ cs1, pexec cached (PState s cs0 ∅) (procs_trace ks rs) (PState s' cs1 ∅) ∧ ∀ j, cache_of cs1 j = cache_of cs' j.
Proof.
  intros Hok. revert s cs cs0 rs. induction Hok as [|[i [ns k]] ks Hk Hok IH]; cbn [procs_run]; intros s cs cs0 rs E Hc.
  - injection E as <- <- <-. exists cs0. split; [constructor|done].
  - destruct (run ns s (cache_of cs i) (program (cached i) k)) as [[[r s1] c1]|] eqn:Er; [|done]. cbn [mbind option_bind] in E.
    destruct (procs_run cached ks s1 (<[i:=c1]> cs)) as [[[rs1 s2] cs2]|] eqn:Es; [|done]. cbn [mbind option_bind] in E. injection E as <- <- <-.
    destruct (run_pexec cached i ns s _ k _ r s1 c1 cs0 (<[0 := (i, (k, program (cached i) k))]> ∅) Er (Hc i) (lookup_insert _ _ _)) as (cs3 & Hex & H1 & H2).
    rewrite delete_insert in Hex by apply lookup_empty.
    destruct (IH s1 _ cs3 rs1 Es) as (cs4 & Hex' & H4).
    { intros j. rewrite cache_of_insert. case_decide as Hj; [by subst|]. by rewrite H2. }
    exists cs4. split; [|done]. cbn [procs_trace]. change (?a :: ?b :: ?l) with ([a] ++ [b] ++ l).
    eapply pexec_trans; [eapply (pexec_one _ _ (Some _)); by apply (p_start _ s cs0 ∅ i 0 k)|]. eapply pexec_trans; [exact Hex|exact Hex'].
Qed.
Lemma procs_reached cached ks rs s cs : Forall (λ ik, call_ok ik.2.2) ks → procs_run cached ks ∅ ∅ = Some (rs, s, cs) →
  ∃ cs1, preached cached (procs_trace ks rs) (PState s cs1 ∅) ∧ ∀ j, cache_of cs1 j = cache_of cs j.
Proof. intros Hok E. by eapply procs_pexec. Qed.

(** ** Named graphs *)
Lemma pexec_ext cached tr g tr' g' : preached cached tr g → pexec cached g tr' g' → ext ∅ (p_store g) (p_store g').
Proof.
  intros H H'. destruct (preached_ppool _ _ _ H) as (Ow & S0 & Hp & _).
  by destruct (pexec_ppool cached _ tr' g' _ _ (λ _, True) H' Hp) as (_ & _ & _ & He & _).
Qed.
Lemma qexec_hexec cached tr its g h : qexec cached tr its g h → hexec its h.
Proof. induction 1; [constructor|done|by econstructor]. Qed.
Lemma qexec_preached cached tr its g h : qexec cached tr its g h → preached cached tr g.
Proof. induction 1; [constructor|by eapply pexec_step|done]. Qed.
Lemma pheld_stored cached tr g x : preached cached tr g → pheld tr x → ∃ c, stored (p_store g) x c.
Proof.
  intros H [(i & t & k & Hin)|(i & t & y & L & Hin & Hn)]; [by eapply pnamed_stored|].
  destruct (ploaded_is_stored _ _ _ _ _ _ _ H Hin) as (Hn' & c & Hc & _). exists c. congruence.
Qed.
Lemma qexec_agrees cached tr its g h : qexec cached tr its g h → agrees (p_store g) h.
Proof.
  induction 1 as [|tr its g h e g' H IH Hs|tr its g h it h' H IH Hs Hnew].
  - intros x Hx. cbn in Hx. set_solver.
  - eapply agrees_ext; [|done]. eapply pexec_ext; [by eapply qexec_preached|by eapply pexec_one].
  - intros x Hx. destruct (decide (x ∈ h_layers h)) as [Hin|Hni].
    + destruct (IH x Hin) as [E ?]. split; [|done]. by rewrite <-E, (proj1 (hstep_old _ _ _ _ Hs Hin)).
    + destruct (Hnew x Hx Hni) as [(y & Hy & Hyx) ?]. split; [done|]. eapply rtc_stored; [exact Hyx|].
      eapply pheld_stored; [by eapply qexec_preached|done].
Qed.
Lemma phead_stored cached tr its g h n l x : qexec cached tr its g h → label_after n its (Some l) → lb_layer l = Some x →
  ∃ c, stored (p_store g) x c.
Proof.
  intros H Hl Hx. eapply qexec_agrees; [done|]. eapply head_known; [by eapply qexec_hexec|done|done].
Qed.
Lemma phead_loads cached tr its g h n l x tr' g' i t r : qexec cached tr its g h → label_after n its (Some l) → lb_layer l = Some x →
  pexec cached g tr' g' → p_threads g !! t = None → PDone i t (SGet x) r ∈ tr' →
  ∃ c L, stored (p_store g) x c ∧ r = Ok (RLayer (Some L)) ∧ l_name L = Some x ∧ l_parent L = fst <$> c !! 1 ∧ same_answers (layers L) c.*2.
Proof.
  intros H Hl Hx H' Ht Hin. destruct (phead_stored _ _ _ _ _ _ _ _ H Hl Hx) as [c Hc].
  destruct (palways_loads _ _ _ _ _ _ _ _ _ _ (qexec_preached _ _ _ _ _ H) Hc H' Ht Hin) as (L & ?). by exists c, L.
Qed.
Lemma pexec_qexec cached tr g : preached cached tr g → qexec cached tr [] g hstate_init.
Proof.
  unfold preached. remember pstate_init as g0 eqn:E0. induction 1 as [g|g tr g1 e g2 _ IH Hs]; subst; [constructor|].
  eapply q_store; [by apply IH|done].
Qed.
