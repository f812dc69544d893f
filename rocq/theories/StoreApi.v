(** What the facts about executions say about calls by name. *)
From Verif Require Import Prelude ListFacts Succinct TripleFiles Merge Layer StackFacts StackCountFacts WfFacts SameFacts Builder Rollup RollupSame
  Squash MergeBase Names Spec BuilderFacts CommitFacts HistoryFacts SquashFacts MergeBaseFacts ReachFacts ApiFacts SquashApi Store SpecStore StoreFacts StoreLoadFacts
  StoreCallFacts StoreImportFacts StoreExecFacts.

(** ** Any time *)
Lemma reached_good cached tr g : reached cached tr g → good (g_store g) ∧ cgood (g_store g) (g_cache g).
Proof. intros H. destruct (reached_pool _ _ _ H) as (? & ? & Hp & _). split; apply Hp. Qed.
Lemma reached_done cached tr g t k r : reached cached tr g → GDone t k r ∈ tr → ∃ s0, call_post k s0 (g_store g) r.
Proof. intros H Hin. destruct (reached_pool _ _ _ H) as (? & ? & _ & Hd). eauto. Qed.
(** a call that starts after [g] *)
Lemma later_done cached tr g tr' g' t k r (P : store → Prop) : reached cached tr g → gexec cached g tr' g' →
  g_threads g !! t = None → GDone t k r ∈ tr' → (∀ s s', ext ∅ s s' → P s → P s') → P (g_store g) →
  ∃ s0, P s0 ∧ call_post k s0 (g_store g') r.
Proof.
  intros H H' Ht Hin HP HPg. destruct (reached_pool _ _ _ H) as (Ow & S0 & Hp & _).
  destruct (gexec_pool cached g tr' g' Ow S0 P H' Hp HP HPg) as (_ & _ & _ & _ & Hd & _).
  destruct (Hd t k r Hin) as (s0 & H1 & H2). exists s0. split; [by apply H2|done].
Qed.
Lemma reached_later cached tr g tr' g' : reached cached tr g → gexec cached g tr' g' → reached cached (tr ++ tr') g'.
Proof.
  intros H H'. induction H' as [g|g tr' g1 e g2 H' IH Hs]; [by rewrite app_nil_r|]. rewrite app_assoc. eapply gexec_step; [by apply IH|done].
Qed.

Lemma valid_answers s L x : good s → valid s L → l_name L = Some x →
  ∃ c, stored s x c ∧ l_parent L = fst <$> c !! 1 ∧ same_answers (layers L) c.*2 ∧ wf (layers L) ∧ same_layer (layers L) c.*2.
Proof.
  intros Hg HL Hn. destruct (valid_top _ _ _ HL Hn) as (c & Hc & Hw & Hs & Hp & Hne). exists c. split; [done|]. split; [done|].
  split; [|done]. apply same_layer_answers; [done|by eapply g_wf|by apply fmap_ne|by eapply stored_ne'|done].
Qed.
Lemma loaded_is_stored cached tr g t x L : reached cached tr g → GDone t (SGet x) (Ok (RLayer (Some L))) ∈ tr →
  l_name L = Some x ∧ ∃ c, stored (g_store g) x c ∧ l_parent L = fst <$> c !! 1 ∧ same_answers (layers L) c.*2.
Proof.
  intros H Hin. destruct (reached_done _ _ _ _ _ _ H Hin) as (s0 & Hn & HL). split; [done|].
  destruct (valid_answers _ _ _ (proj1 (reached_good _ _ _ H)) HL Hn) as (c & ? & ? & ? & _). by exists c.
Qed.
Lemma same_answers_sym st st' : same_answers st st' → same_answers st' st.
Proof. intros []. split; intros; by symmetry; auto. Qed.
Lemma same_answers_trans st1 st2 st3 : same_answers st1 st2 → same_answers st2 st3 → same_answers st1 st3.
Proof.
  intros [] []. split; intros;
    match goal with
    | |- _ ↔ _ => etrans; [eauto|eauto]
    | |- _ => etrans; [match goal with H : _ |- _ => apply H; done end|match goal with H : _ |- _ => apply H; done end]
    end.
Qed.
Lemma loads_agree cached tr g t t' x L L' : reached cached tr g →
  GDone t (SGet x) (Ok (RLayer (Some L))) ∈ tr → GDone t' (SGet x) (Ok (RLayer (Some L'))) ∈ tr →
  l_name L = Some x ∧ l_name L' = Some x ∧ l_parent L = l_parent L' ∧ same_answers (layers L) (layers L').
Proof.
  intros H H1 H2. destruct (loaded_is_stored _ _ _ _ _ _ H H1) as (N1 & c & Hc & P1 & A1), (loaded_is_stored _ _ _ _ _ _ H H2) as (N2 & c' & Hc' & P2 & A2).
  pose proof (stored_unique _ _ _ _ Hc Hc') as <-. split_and!; [done..|congruence|]. eapply same_answers_trans; [done|by apply same_answers_sym].
Qed.
Lemma live_ext x s s' : ext ∅ s s' → live x s → live x s'.
Proof. intros He [c Hc]. exists c. by eapply ext_stored. Qed.
Lemma always_loads cached tr g tr' g' x c t r : reached cached tr g → stored (g_store g) x c → gexec cached g tr' g' →
  g_threads g !! t = None → GDone t (SGet x) r ∈ tr' →
  ∃ L, r = Ok (RLayer (Some L)) ∧ l_name L = Some x ∧ l_parent L = fst <$> c !! 1 ∧ same_answers (layers L) c.*2.
Proof.
  intros H Hc H' Ht Hin.
  destruct (later_done _ _ _ _ _ _ _ _ (live x) H H' Ht Hin) as (s0 & Hli & Hpost); [intros ? ?; apply live_ext|by exists c|].
  cbn in Hpost. destruct r as [[[L|]| |]|k|]; cbn in Hpost; try done. destruct Hpost as [Hn HL]. exists L. split; [done|]. split; [done|].
  destruct (valid_answers _ _ _ (proj1 (reached_good _ _ _ (reached_later _ _ _ _ _ H H'))) HL Hn) as (c' & Hc' & ? & ? & _).
  by rewrite (stored_unique _ _ _ _ (gexec_stored _ _ _ _ _ _ _ H H' Hc) Hc').
Qed.

(** ** New layers *)
Lemma new_is_new cached tr g tr' g' t k n : reached cached tr g → gexec cached g tr' g' → g_threads g !! t = None →
  GDone t k (Ok (RName n)) ∈ tr' → makes_new k → g_store g !! n = None.
Proof.
  intros H H' Ht Hin Hk. destruct (g_store g !! n) eqn:E; [|done].
  destruct (later_done _ _ _ _ _ _ _ _ (λ s, is_Some (s !! n)) H H' Ht Hin) as (s0 & [d' Hd] & Hpost).
  { intros s s' He. apply (ext_dom _ _ _ He). }
  { by eexists. }
  destruct k; try done; cbn in Hpost; destruct Hpost as [Hno _]; congruence.
Qed.
Lemma named_stored cached tr g t k n : reached cached tr g → GDone t k (Ok (RName n)) ∈ tr → ∃ c, stored (g_store g) n c.
Proof.
  intros H Hin. destruct (reached_done _ _ _ _ _ _ H Hin) as (s0 & Hpost).
  destruct k; cbn in Hpost; try done.
  - destruct Hpost as (_ & l & ? & _). by eexists.
  - destruct Hpost as (_ & l & cx & _ & ? & _). by eexists.
  - destruct Hpost as (_ & l & ?). by eexists.
  - destruct Hpost as [(cx & cr & _ & ? & _) _]. by eexists.
  - destruct Hpost as [(cx & cr & _ & ? & _) _]. by eexists.
  - destruct Hpost as (_ & cx & l & _ & ? & _). by eexists.
  - destruct Hpost as (_ & top & cu & l & _ & _ & _ & ? & _). by eexists.
  - destruct Hpost as (_ & ls & l & _ & _ & _ & ?). by eexists.
Qed.
Lemma wf_shown st : wf st → ∃ L, shown st = Some L.
Proof. intros Hw. destruct (shown_ok st Hw) as (L & ? & _). by exists L. Qed.
Lemma call_ok_gexec cached g tr g' t k : gexec cached g tr g' → GStart t k ∈ tr → call_ok k.
Proof.
  induction 1 as [|g tr g1 e g2 _ IH Hs]; [by intros ?%elem_of_nil|]. intros [Hin|Hin]%elem_of_app; [by apply IH|].
  destruct e as [e|]; [|by apply elem_of_nil in Hin]. change (option_list (Some e)) with [e] in Hin.
  apply elem_of_list_singleton in Hin as <-. by inversion Hs; subst.
Qed.
(** every call that finishes was started *)
Definition started (tr : list gev) (g : gstate) : Prop := ∀ t k p, g_threads g !! t = Some (k, p) → GStart t k ∈ tr.
Lemma reached_started cached tr g : reached cached tr g → started tr g ∧ ∀ t k r, GDone t k r ∈ tr → GStart t k ∈ tr.
Proof.
  unfold reached. remember gstate_init as g0 eqn:E0. induction 1 as [g|g tr g1 e g2 _ IH Hs]; subst.
  { split; [intros t k p Hp; cbn in Hp; by rewrite lookup_empty in Hp|by intros ? ? ? ?%elem_of_nil]. }
  destruct (IH eq_refl) as [IH1 IH2]. clear IH.
  assert (∀ (t : nat) (k : scall) (p : prog sres) (th : gmap nat (scall * prog sres)), th !! t = Some (k, p) → (∀ t k p, th !! t = Some (k, p) → GStart t k ∈ tr) → ∀ t' k' p' q,
    <[t := (k, q)]> th !! t' = Some (k', p') → GStart t' k' ∈ tr) as Hupd.
  { intros t k p th Et Hth t' k' p' q. destruct (decide (t' = t)) as [->|Hne]; [rewrite lookup_insert; intros [= <- <-]; by eapply Hth|].
    rewrite lookup_insert_ne by done. apply Hth. }
  split.
  - intros t k p Et. apply elem_of_app. inversion Hs; subst; cbn in *; unfold started in IH1; cbn in IH1; try (by rewrite lookup_empty in Et);
      try (left; by eapply (Hupd _ _ _ _ ltac:(eassumption) IH1)).
    all: try (left; by eapply IH1).
    + destruct (decide (t = t0)) as [->|Hne]; [rewrite lookup_insert in Et; injection Et as <- <-; right; left|].
      rewrite lookup_insert_ne in Et by done. left. by eapply IH1.
    + apply lookup_delete_Some in Et as [_ Et]. left. by eapply IH1.
  - intros t k r [Hin|Hin]%elem_of_app; apply elem_of_app; left; [by eapply IH2|].
    destruct e as [e|]; [|by apply elem_of_nil in Hin]. change (option_list (Some e)) with [e] in Hin.
    apply elem_of_list_singleton in Hin as <-. inversion Hs; subst. by eapply IH1.
Qed.
Lemma done_call_ok cached tr g t k r : reached cached tr g → GDone t k r ∈ tr → call_ok k.
Proof. intros H Hin. eapply call_ok_gexec; [exact H|]. by eapply (proj2 (reached_started _ _ _ H)). Qed.

Lemma base_made cached tr g t nvord prord cs n : reached cached tr g → GDone t (SBase nvord prord cs) (Ok (RName n)) ∈ tr →
  ∃ l T, stored (g_store g) n [(n, l)] ∧ commits_to [] cs [l] ∧ shown [l] = Some T ∧ ∀ vt, vt ∈ T ↔ after_change (added [] cs) (removed [] cs) [] vt.
Proof.
  intros H Hin. destruct (reached_done _ _ _ _ _ _ H Hin) as (s0 & _ & l & Hst & Hok & Hb).
  pose proof (done_call_ok _ _ _ _ _ _ H Hin) as [Hn Hp].
  destruct (shown_ok [] wf_nil) as (T0 & E0 & _ & HT0).
  destruct (commit_shown [] cs nvord prord T0 wf_nil Hok Hn Hp E0) as (st' & T & E & HT & _ & Hin'). rewrite Hb in E. injection E as <-.
  exists l, T. split; [done|]. split; [split; [done|by exists nvord, prord]|]. split; [done|].
  assert (T0 = []) as -> by (vm_compute in E0; by injection E0). done.
Qed.
Lemma child_made cached tr g t nvord prord x cs n : reached cached tr g → GDone t (SChild nvord prord x cs) (Ok (RName n)) ∈ tr →
  ∃ cx l T T', stored (g_store g) x cx ∧ stored (g_store g) n ((n, l) :: cx) ∧ commits_to cx.*2 cs (l :: cx.*2) ∧
    shown cx.*2 = Some T ∧ shown (l :: cx.*2) = Some T' ∧ ∀ vt, vt ∈ T' ↔ after_change (added cx.*2 cs) (removed cx.*2 cs) T vt.
Proof.
  intros H Hin. destruct (reached_done _ _ _ _ _ _ H Hin) as (s0 & _ & l & cx & Hx & Hst & Hok & Hb).
  pose proof (done_call_ok _ _ _ _ _ _ H Hin) as [Hn Hp]. pose proof (g_wf _ (proj1 (reached_good _ _ _ H)) _ _ Hx) as Hw.
  destruct (wf_shown _ Hw) as [T ET].
  destruct (commit_shown cx.*2 cs nvord prord T Hw Hok Hn Hp ET) as (st' & T' & E & HT & _ & Hin'). rewrite Hb in E. injection E as <-.
  exists cx, l, T, T'. split_and!; try done. split; [done|by exists nvord, prord].
Qed.

(** ** Rollups, squashing, merging *)
Lemma stands_answers s x r : good s → stands_for s x r → ∃ cx cr, stored s x cx ∧ stored s r cr ∧ same_answers cr.*2 cx.*2.
Proof.
  intros Hg (cx & cr & Hx & Hr & Hs & _). exists cx, cr. split; [done|]. split; [done|].
  apply same_layer_answers; [by eapply g_wf|by eapply g_wf|by eapply stored_ne'|by eapply stored_ne'|done].
Qed.
Lemma rollup_made cached tr g t x r : reached cached tr g → GDone t (SRollup x) (Ok (RName r)) ∈ tr →
  ∃ cx l, stored (g_store g) x cx ∧ stored (g_store g) r [(r, l)] ∧ same_answers [l] cx.*2.
Proof.
  intros H Hin. destruct (reached_done _ _ _ _ _ _ H Hin) as (s0 & Hs & l & Hr).
  destruct (stands_answers _ _ _ (proj1 (reached_good _ _ _ H)) Hs) as (cx & cr & Hx & Hr' & Ha).
  rewrite (stored_unique _ _ _ _ Hr' Hr) in Ha. by exists cx, l.
Qed.
Lemma rollup_works cached tr g tr' g' x c t r : reached cached tr g → stored (g_store g) x c → gexec cached g tr' g' →
  g_threads g !! t = None → GDone t (SRollup x) r ∈ tr' → ∃ n, r = Ok (RName n).
Proof.
  intros H Hc H' Ht Hin.
  destruct (later_done _ _ _ _ _ _ _ _ (live x) H H' Ht Hin) as (s0 & Hli & Hpost); [intros ? ?; apply live_ext|by exists c|].
  destruct r as [[|n|]|k|]; cbn in Hpost; try done. by exists n.
Qed.
Lemma upto_made cached tr g t k x upto r : reached cached tr g → (k = SRollupUpto x upto ∨ k = SImprecise x upto) → GDone t k (Ok (RName r)) ∈ tr →
  ∃ cx cr, stored (g_store g) x cx ∧ stored (g_store g) r cr ∧ same_answers cr.*2 cx.*2 ∧ (r = x ∨ s_parent (g_store g) r = Some upto).
Proof.
  intros H Hk Hin. assert (upto_ok (g_store g) x upto r) as (Hs & Hp & _).
  { destruct (reached_done _ _ _ _ _ _ H Hin) as (s0 & Hpost). destruct Hk as [-> | ->]; exact Hpost. }
  destruct (stands_answers _ _ _ (proj1 (reached_good _ _ _ H)) Hs) as (cx & cr & Hx & Hr' & Ha). by exists cx, cr.
Qed.
Lemma upto_only cached tr g t k x upto r : reached cached tr g → (k = SRollupUpto x upto ∨ k = SImprecise x upto) → GDone t k (Ok (RName r)) ∈ tr →
  x = upto ∨ proper_ancestor (g_store g) x upto.
Proof.
  intros H Hk Hin. assert (upto_ok (g_store g) x upto r) as (_ & _ & Hp); [|done].
  destruct (reached_done _ _ _ _ _ _ H Hin) as (s0 & Hpost). destruct Hk as [-> | ->]; exact Hpost.
Qed.
Lemma upto_works cached tr g tr' g' x upto k t r : reached cached tr g → proper_ancestor (g_store g) x upto → gexec cached g tr' g' →
  g_threads g !! t = None → (k = SRollupUpto x upto ∨ k = SImprecise x upto) → GDone t k r ∈ tr' →
  (∃ n, r = Ok (RName n)) ∨ is_Some (s_rollup (g_store g') x).
Proof.
  intros H Hc H' Ht Hk Hin.
  destruct (later_done _ _ _ _ _ _ _ _ (λ s, proper_ancestor s x upto) H H' Ht Hin) as (s0 & Hli & Hpost);
    [intros s s' He; by apply (proper_ext _ _ _ _ _ He)|done|].
  assert (as_name (upto_post x upto s0 (g_store g')) r) as Hp by (destruct Hk as [-> | ->]; exact Hpost).
  destruct r as [[|n|]|e|]; cbn in Hp; try done; [left; by exists n|right; auto|right; auto].
Qed.
Lemma squash_made cached tr g t x n : reached cached tr g → GDone t (SSquash x) (Ok (RName n)) ∈ tr →
  ∃ cx l T T', stored (g_store g) x cx ∧ stored (g_store g) n [(n, l)] ∧ shown cx.*2 = Some T ∧ shown [l] = Some T' ∧ T' ≡ₚ T ∧ exact_strings l T.
Proof.
  intros H Hin. destruct (reached_done _ _ _ _ _ _ H Hin) as (s0 & _ & cx & l & Hx & Hn & E).
  pose proof (g_wf _ (proj1 (reached_good _ _ _ H)) _ _ Hx) as Hw. destruct (wf_shown _ Hw) as [T ET].
  destruct (squash_answers cx.*2 T id id Hw ET) as (l' & E' & (T' & ET' & HT) & Hex & _); [by intros m|by intros m|].
  rewrite E in E'. injection E' as <-. by exists cx, l, T, T'.
Qed.
Lemma squash_works cached tr g tr' g' x c t r : reached cached tr g → stored (g_store g) x c → gexec cached g tr' g' →
  g_threads g !! t = None → GDone t (SSquash x) r ∈ tr' → ∃ n, r = Ok (RName n).
Proof.
  intros H Hc H' Ht Hin.
  destruct (later_done _ _ _ _ _ _ _ _ (live x) H H' Ht Hin) as (s0 & Hli & Hpost); [intros ? ?; apply live_ext|by exists c|].
  destruct r as [[|n|]|k|]; cbn in Hpost; try done. by exists n.
Qed.
Lemma child_works cached tr g tr' g' nvord prord x cs c t r : reached cached tr g → stored (g_store g) x c → gexec cached g tr' g' →
  g_threads g !! t = None → GDone t (SChild nvord prord x cs) r ∈ tr' → ∃ n, r = Ok (RName n).
Proof.
  intros H Hc H' Ht Hin.
  destruct (later_done _ _ _ _ _ _ _ _ (live x) H H' Ht Hin) as (s0 & Hli & Hpost); [intros ? ?; apply live_ext|by exists c|].
  destruct r as [[|n|]|k|]; cbn in Hpost; try done. by exists n.
Qed.
Lemma base_works cached tr g t nvord prord cs r : reached cached tr g → GDone t (SBase nvord prord cs) r ∈ tr → ∃ n, r = Ok (RName n).
Proof.
  intros H Hin. destruct (reached_done _ _ _ _ _ _ H Hin) as (s0 & Hpost).
  destruct r as [[|n|]|k|]; cbn in Hpost; try done. by exists n.
Qed.
Lemma squash_upto_only cached tr g t x upto n : reached cached tr g → GDone t (SSquashUpto x upto) (Ok (RName n)) ∈ tr →
  proper_ancestor (g_store g) x upto.
Proof.
  intros H Hin. destruct (reached_done _ _ _ _ _ _ H Hin) as (s0 & _ & top & cu & l & Hx & Hu & Hne & _). by exists top, cu.
Qed.
Lemma squash_upto_made cached tr g t x upto n : reached cached tr g → GDone t (SSquashUpto x upto) (Ok (RName n)) ∈ tr →
  ∃ cx cu l T T', stored (g_store g) x cx ∧ stored (g_store g) upto cu ∧ stored (g_store g) n ((n, l) :: cu) ∧
    shown cx.*2 = Some T ∧ shown (l :: cu.*2) = Some T' ∧ T' ≡ₚ T.
Proof.
  intros H Hin. destruct (reached_done _ _ _ _ _ _ H Hin) as (s0 & _ & top & cu & l & Hx & Hu & Hne & Hn & E).
  pose proof (g_wf _ (proj1 (reached_good _ _ _ H)) _ _ Hx) as Hw. pose proof (g_wf _ (proj1 (reached_good _ _ _ H)) _ _ Hu) as Hwu.
  destruct (wf_shown _ Hw) as [T ET]. destruct (wf_shown _ Hwu) as [T0 ET0]. rewrite fmap_app in Hw, ET.
  destruct (squash_upto_answers top.*2 cu.*2 T T0 id id Hw) as (l' & E' & (T' & ET' & HT) & _); [by eapply stored_ne'|done|done|by intros m|by intros m|].
  rewrite E in E'. injection E' as <-. exists (top ++ cu), cu, l, T, T'. rewrite fmap_app. done.
Qed.
Lemma squash_upto_works cached tr g tr' g' x upto t r : reached cached tr g → proper_ancestor (g_store g) x upto → gexec cached g tr' g' →
  g_threads g !! t = None → GDone t (SSquashUpto x upto) r ∈ tr' → ∃ n, r = Ok (RName n).
Proof.
  intros H Hc H' Ht Hin.
  destruct (later_done _ _ _ _ _ _ _ _ (λ s, proper_ancestor s x upto) H H' Ht Hin) as (s0 & Hli & Hpost);
    [intros s s' He; by apply (proper_ext _ _ _ _ _ He)|done|].
  destruct r as [[|n|]|k|]; cbn in Hpost; try done. by exists n.
Qed.
Lemma merge_made cached tr g t xs n : reached cached tr g → GDone t (SMerge xs) (Ok (RName n)) ∈ tr →
  ∃ ls l T, Forall2 (λ x k, stored (g_store g) x [(x, k)]) xs ls ∧ stored (g_store g) n [(n, l)] ∧ shown [l] = Some T ∧ NoDup T ∧
    exact_strings l T ∧ ∀ vt, vt ∈ T ↔ ∃ k T', k ∈ ls ∧ shown [k] = Some T' ∧ vt ∈ T'.
Proof.
  intros H Hin. destruct (reached_done _ _ _ _ _ _ H Hin) as (s0 & _ & ls & l & Hf & Hb & E & Hn).
  assert (∀ k, k ∈ ls → wf [k]) as Hw.
  { intros k (i & Hk)%elem_of_list_lookup. destruct (Forall2_lookup_r _ _ _ _ _ Hf Hk) as (x & _ & Hx).
    by apply (g_wf _ (proj1 (reached_good _ _ _ H)) _ _ Hx). }
  destruct (merge_answers_of ls) as (l' & T & E' & ?); [by rewrite Forall_forall in Hb|done|].
  rewrite E in E'. injection E' as <-. exists ls, l, T. tauto.
Qed.
Lemma merge_works cached tr g tr' g' xs t r : reached cached tr g → Forall (λ x, ∃ l, stored (g_store g) x [(x, l)]) xs → gexec cached g tr' g' →
  g_threads g !! t = None → GDone t (SMerge xs) r ∈ tr' → ∃ n, r = Ok (RName n).
Proof.
  intros H Hc H' Ht Hin.
  destruct (later_done _ _ _ _ _ _ _ _ (λ s, Forall (λ x, ∃ l, stored s x [(x, l)]) xs) H H' Ht Hin) as (s0 & Hli & Hpost);
    [intros s s' He Hf; eapply Forall_impl; [exact Hf|]; intros x [l Hx]; exists l; by apply (ext_stored _ _ _ _ _ He)|done|].
  destruct r as [[|n|]|k|]; cbn in Hpost; try done. by exists n.
Qed.

Lemma import_made cached tr g t pk ns n l anc : reached cached tr g → GDone t (SImport pk ns) (Ok RDone) ∈ tr →
  ((n, l) :: anc) ∈ pk → n ∈ ns → stored (g_store g) n ((n, l) :: anc).
Proof. intros H Hin. destruct (reached_done _ _ _ _ _ _ H Hin) as (s0 & _ & _ & Hp). apply Hp. Qed.
Lemma import_works cached tr g t pk ns r : reached cached tr g → GDone t (SImport pk ns) r ∈ tr → r = Ok RDone.
Proof.
  intros H Hin. destruct (reached_done _ _ _ _ _ _ H Hin) as (s0 & Hpost).
  destruct r as [[|n|]|k|]; cbn in Hpost; [done|done|done|by destruct Hpost|by destruct Hpost].
Qed.
Lemma import_unused cached tr g tr' g' t pk ns n : reached cached tr g → gexec cached g tr' g' → g_threads g !! t = None →
  GDone t (SImport pk ns) (Ok RDone) ∈ tr' → n ∈ ns → g_store g !! n = None.
Proof.
  intros H H' Ht Hin Hn. destruct (g_store g !! n) as [d|] eqn:Ed; [|done]. exfalso.
  destruct (later_done _ _ _ _ _ _ _ _ (λ s, is_Some (s !! n)) H H' Ht Hin) as (s0 & Hli & Hpost).
  { intros s s' He Hs. by eapply ext_dom. }
  { by exists d. }
  destruct Hpost as (_ & Hnew & _). destruct (Hnew n Hn) as [E _]. rewrite E in Hli. by destruct Hli.
Qed.
Lemma packs_all cached tr g x c : reached cached tr g → stored (g_store g) x c → packable c ∧ head c.*1 = Some x.
Proof.
  intros H Hc. split; [by eapply stored_packable; [apply (reached_good _ _ _ H)|]|]. by destruct Hc.
Qed.
Lemma pack_of_stored cached tr g xs pk ns : reached cached tr g → NoDup xs → Forall2 (stored (g_store g)) xs pk → call_ok (SImport pk ns).
Proof.
  intros H Hn Hf. split.
  - apply Forall_forall. intros c (i & Hc)%elem_of_list_lookup. destruct (Forall2_lookup_r _ _ _ _ _ Hf Hc) as (x & _ & Hx).
    by apply (packs_all _ _ _ _ _ H) in Hx as [? _].
  - assert ((omap head pk).*1 = xs) as ->; [|done]. clear Hn. induction Hf as [|x c xs pk Hx Hf IH]; [done|].
    destruct (stored_ne _ _ _ Hx) as (l & c' & ->). cbn. by rewrite <-IH.
Qed.

(** ** With and without the cache *)
Fixpoint rets {A : Type} (p : prog A) (P : outcome A → Prop) : Prop :=
  match p with
  | Ret r => P r
  | Look k => ∀ s c, rets (k s c) P
  | Alloc k => ∀ n, rets (k n) P
  | Put _ p | Assume _ p => rets p P
  end.
Lemma rets_bind {A B : Type} (p : prog A) (f : A → prog B) (P : outcome B → Prop) :
  (∀ a, rets (f a) P) → (∀ k, P (Err k)) → P Panic → rets (pbind p f) P.
Proof.
  intros Hf He Hp. induction p as [r|k IH|k IH|w p IH|b p IH]; cbn; auto. destruct r; cbn; auto.
Qed.
Lemma rets_run {A : Type} (p : prog A) P ns s c r s' c' : rets p P → run ns s c p = Some (r, s', c') → P r.
Proof.
  revert ns s c. induction p as [q|k IH|k IH|w p IH|b p IH]; cbn; intros ns s c Hp Hr.
  - by injection Hr as <- <- <-.
  - by eapply IH.
  - destruct ns as [|n ns]; [done|]. destruct (s !! n); [done|]. by eapply IH.
  - case_decide; [|done]. by eapply IH.
  - destruct b; [|done]. by eapply IH.
Qed.
Lemma get_run cached s c x : good s → cgood s c → ∃ r c', run [] s c (get_layer cached x) = Some (r, s, c') ∧
  match r with
  | Ok (Some L) => l_name L = Some x ∧ valid s L
  | Ok None => s !! x = None
  | _ => is_Some (s !! x) ∧ ¬ live x s
  end.
Proof.
  intros Hg Hc. destruct (quiet_run (get_layer cached x) s c (get_layer_quiet cached x)) as (r & c' & E). exists r, c'. split; [done|].
  destruct (run_safe _ ∅ [] s c _ _ _ _ (get_layer_safe cached x ∅ s) Hg Hc E) as (O' & Hok & _). cbn in Hok.
  unfold get_layer in E. cbn [run] in E. destruct (cache_get cached c x) as [L|] eqn:EL.
  { cbn in E. injection E as <- <-. done. }
  destruct (s !! x) as [d|] eqn:Ed; [|cbn in E; by injection E as <- <-].
  assert (r ≠ Ok None) as Hr.
  { eapply (rets_run _ (λ r, r ≠ Ok None)); [|exact E]. apply rets_bind; [|done|done]. intros [[anc|] td].
    - apply rets_bind; done.
    - destruct td as [|[y rl] td]; [done|]. apply rets_bind; [|done|done]. intros anc. apply rets_bind; done. }
  destruct r as [[L|]|k|]; [done|done|split; [by eexists|done]..].
Qed.
Lemma cached_alike s c x : good s → cgood s c → ∃ r r' c' c'', run [] s c (get_layer true x) = Some (r, s, c') ∧
  run [] s ∅ (get_layer false x) = Some (r', s, c'') ∧ alike r r'.
Proof.
  intros Hg Hc. destruct (get_run true s c x Hg Hc) as (r & c' & E & H). destruct (get_run false s ∅ x Hg) as (r' & c2 & E' & H').
  { intros y L HL. by rewrite lookup_empty in HL. }
  exists r, r', c', c2. split; [done|]. split; [done|].
  assert (∀ L, l_name L = Some x → valid s L → live x s ∧ is_Some (s !! x)) as Hv.
  { intros L Hn HL. destruct (valid_top _ _ _ HL Hn) as (cx & Hx & _). split; [by exists cx|]. by eapply stored_is_dom. }
  assert (∀ (q q' : outcome (option loaded)), match q with Ok (Some L) => l_name L = Some x ∧ valid s L | Ok None => s !! x = None | _ => is_Some (s !! x) ∧ ¬ live x s end →
    match q' with Ok (Some L) => l_name L = Some x ∧ valid s L | Ok None => s !! x = None | _ => is_Some (s !! x) ∧ ¬ live x s end → alike q q') as K; [|by apply K].
  clear -Hg Hv. intros [[L|]|k|] [[L'|]|k'|] H H'; cbn; try done.
  - destruct H as [Hn HL], H' as [Hn' HL'].
    destruct (valid_answers _ _ _ Hg HL Hn) as (cx & Hx & P & A & _).
    destruct (valid_answers _ _ _ Hg HL' Hn') as (cx' & Hx' & P' & A' & _). pose proof (stored_unique _ _ _ _ Hx Hx') as <-.
    split; [congruence|]. split; [congruence|]. eapply same_answers_trans; [done|by apply same_answers_sym].
  - destruct H as [Hn HL], (Hv L Hn HL) as [_ [??]]. congruence.
  - destruct H as [Hn HL], (Hv L Hn HL) as [? _]. by destruct H'.
  - destruct H as [Hn HL], (Hv L Hn HL) as [? _]. by destruct H'.
  - destruct H' as [Hn HL], (Hv L' Hn HL) as [_ [??]]. congruence.
  - destruct H' as [[??] _]. congruence.
  - destruct H' as [[??] _]. congruence.
  - destruct H' as [Hn HL], (Hv L' Hn HL) as [? _]. by destruct H.
  - destruct H as [[??] _]. congruence.
  - destruct H' as [Hn HL], (Hv L' Hn HL) as [? _]. by destruct H.
  - destruct H as [[??] _]. congruence.
Qed.
Lemma cached_read_eq {A : Type} (f : layer → A) s c x : cgood s c → cached_read f s c x = direct_read f s x.
Proof.
  intros Hc. unfold cached_read. destruct (c !! x) as [[|e L]|] eqn:E; [done| |done]. destruct (Hc x _ E) as [Hn [(cx & _ & _ & _ & _ & Hf & _) _]].
  injection Hn as Hn. destruct (n_rollup e); [done|]. unfold direct_read. destruct (Hf eq_refl) as [Hf' _]. rewrite Hn in Hf'. by rewrite Hf'.
Qed.
(** the additions and removals of one object *)
Lemma direct_o_ok s x l c A R o : good s → stored s x ((x, l) :: c) → l_additions l = Some A → l_removals l = Some R →
  direct_additions_o s x o = Some (Some (filter (λ t, t_o t = o) A)) ∧ direct_removals_o s x o = Some (Some (filter (λ t, t_o t = o) R)).
Proof.
  intros Hg Hs HA HR. unfold direct_additions_o, direct_removals_o, direct_read, disk_additions_o, disk_removals_o.
  destruct (stored_head _ _ _ _ Hs) as [_ ->]. cbn [snd fmap option_fmap option_map].
  destruct (layer_deltas_o _ (g_wf _ Hg _ _ Hs) l) as (A' & R' & HA' & HR' & H1 & H2); [rewrite fmap_cons; left|].
  rewrite HA in HA'. rewrite HR in HR'. injection HA' as <-. injection HR' as <-. by rewrite H1, H2.
Qed.
Lemma cached_o_ok s ca x l c A R o : good s → cgood s ca → stored s x ((x, l) :: c) → l_additions l = Some A → l_removals l = Some R →
  ((∃ t, t ∈ A ∧ t_o t = o) → cached_additions_o s ca x o = Some (Some (filter (λ t, t_o t = o) A))) ∧
  ((∃ t, t ∈ R ∧ t_o t = o) → cached_removals_o s ca x o = Some (Some (filter (λ t, t_o t = o) R))).
Proof.
  intros Hg Hc Hs HA HR. destruct (direct_o_ok s x l c A R o Hg Hs HA HR) as [H1 H2].
  destruct (layer_deltas _ (g_wf _ Hg _ _ Hs) l) as (A' & R' & HA' & HR' & _ & _ & _ & _ & _ & H3 & H4); [rewrite fmap_cons; left|].
  rewrite HA in HA'. rewrite HR in HR'. injection HA' as <-. injection HR' as <-.
  unfold cached_additions_o, cached_removals_o. destruct (ca !! x) as [[|e L]|] eqn:E; [done| |done].
  destruct (n_rollup e) eqn:En; [done|]. destruct (Hc x _ E) as [Hn [(cx & _ & _ & _ & _ & Hf & _) _]]. injection Hn as Hn.
  destruct (Hf En) as [Hf' _]. rewrite Hn in Hf'. destruct (stored_head _ _ _ _ Hs) as [_ Hl]. cbn [snd] in Hl. rewrite Hl in Hf'. injection Hf' as <-.
  split; intros Ho; [by rewrite H3|by rewrite H4].
Qed.
Lemma cached_parent_eq s c x : cgood s c → cached_parent s c x = s_parent s x.
Proof.
  intros Hc. unfold cached_parent. destruct (c !! x) as [L|] eqn:E; [|done]. destruct (Hc x _ E) as [Hn HL].
  destruct (valid_top _ _ _ HL Hn) as (cx & Hx & _ & _ & -> & _). by rewrite (stored_second _ _ _ Hx).
Qed.

(** ** Ancestors *)
Lemma good_ancestry s x : good s → ∃ ns, ancestry s x ns.
Proof.
  intros Hg. destruct (s_parent s x) as [p|] eqn:E; [|exists [x]; by constructor].
  destruct (g_par _ Hg _ _ E) as [c Hc%stored_ancestry]. exists (x :: c.*1). by econstructor.
Qed.
Lemma ancestor_iff s x ns a : ancestry s x ns → ∃ b, is_ancestor (fuel_of s) s x a = Ok b ∧ (b = true ↔ rtc (child_of s) x a).
Proof.
  intros H. exists (bool_decide (a ∈ ns)). rewrite (is_ancestor_total _ _ _ ns) by (done || by eapply ancestry_length). split; [done|].
  by rewrite bool_decide_eq_true, (ancestry_rtc _ _ _ _ H).
Qed.
Lemma stack_names_ok s x ns : ancestry s x ns → stack_names s x = Some (reverse ns).
Proof. intros H. unfold stack_names. by rewrite (walk_total _ _ _ ns) by (done || by eapply ancestry_length). Qed.
Lemma stack_names_upto_ok s x ns a : ancestry s x ns →
  (tc (child_of s) x a → ∃ ns1 ns2, ns = ns1 ++ ns2 ∧ ancestry s a ns2 ∧ stack_names_upto s x a = Ok (reverse ns1)) ∧
  (¬ tc (child_of s) x a → stack_names_upto s x a = Err NotFound).
Proof.
  intros H. pose proof (ancestry_length _ _ _ H) as Hl. rewrite <-(ancestry_tc _ _ _ a H). unfold stack_names_upto. split; intros Ha.
  - destruct (ancestry_ne _ _ _ H) as [ns' ->]. cbn in Ha. apply elem_of_list_split in Ha as (n1 & n2 & ->).
    exists (x :: n1), (a :: n2). split; [done|]. split; [by eapply (ancestry_suffix s x (x :: n1))|].
    rewrite (names_upto_total _ _ _ (x :: n1) _ n2) by (done || (rewrite app_comm_cons, app_length in Hl; cbn in *; lia)). done.
  - by rewrite (names_upto_none _ _ _ ns).
Qed.
Lemma proper_tc s x a : good s → (∃ c, stored s x c) → proper_ancestor s x a ↔ tc (child_of s) x a.
Proof.
  intros Hg [c Hc]. rewrite <-(ancestry_tc _ _ _ a (stored_ancestry _ _ _ Hc)). split.
  - intros (top & ca & Hx & Ha & Hne). rewrite (stored_unique _ _ _ _ Hc Hx). destruct top as [|e top]; [done|]. cbn.
    rewrite fmap_app. apply elem_of_app. right. destruct (stored_ne _ _ _ Ha) as (? & ? & ->). left.
  - destruct c as [|e c]; [by intros ?%elem_of_nil|]. cbn. intros ([a' l] & -> & (c1 & c2 & ->)%elem_of_list_split)%elem_of_list_fmap.
    exists (e :: c1), ((a', l) :: c2). split; [done|]. split; [|done]. by eapply (stored_suffix s x (e :: c1)).
Qed.

(** ** Changes *)
Lemma layer_changes_upto_ok s x top ca a : good s → stored s x (top ++ ca) → stored s a ca →
  ∃ T T' C, triples ca.*2 = Some T ∧ triples (top ++ ca).*2 = Some T' ∧ layer_changes_upto s x a = Ok C ∧
    (∀ t, (true, t) ∈ C ↔ t ∈ T' ∧ t ∉ T) ∧ (∀ t, (false, t) ∈ C ↔ t ∈ T ∧ t ∉ T') ∧ SSorted (snd <$> C).
Proof.
  intros Hg Hx Ha. pose proof (g_wf _ Hg _ _ Hx) as Hw. rewrite fmap_app in *.
  destruct (changes_between top.*2 ca.*2 Hw) as (T & T' & C & E1 & E2 & E3 & HC). exists T, T', C. split; [done|]. split; [done|]. split; [|done].
  unfold layer_changes_upto. pose proof (stored_ancestry _ _ _ Hx) as Han. pose proof (ancestry_length _ _ _ Han) as Hl.
  destruct (stored_ne _ _ _ Ha) as (l & c' & ->). rewrite fmap_app, app_length in Hl. rewrite fmap_app in Han. cbn in Hl, Han.
  rewrite (walk_upto_total _ _ _ _ _ _ Han) by lia. cbn [obind].
  rewrite disk_layers_total by (pose proof (stored_files _ _ _ Hx) as Hf; by apply Forall_app in Hf as [??]). cbn [obind].
  rewrite (stack_changes_perm (reverse top.*2) top.*2 ((a, l) :: c').*2); [|by rewrite reverse_Permutation| |apply Hw].
  2: { pose proof (wf_files _ Hw) as Hf. by apply Forall_app in Hf as [? _]. }
  rewrite (stack_changes_ok top.*2 ((a, l) :: c').*2) in E3; [by injection E3 as <-| |apply Hw]. pose proof (wf_files _ Hw) as Hf. by apply Forall_app in Hf as [? _].
Qed.
Lemma layer_changes_upto_none s x ns a : ancestry s x ns → ¬ rtc (child_of s) x a → layer_changes_upto s x a = Err NotFound.
Proof.
  intros H Ha. unfold layer_changes_upto. rewrite (walk_upto_none _ _ _ ns); [done|done| |by eapply ancestry_length].
  by rewrite (ancestry_rtc _ _ _ _ H).
Qed.

(** ** One call after another, for examples *)
Fixpoint script (cached : bool) (ks : list (list lname * scall)) (s : store) (c : lcache) : option (list (outcome sres) * store * lcache) :=
  match ks with
  | [] => Some ([], s, c)
  | (ns, k) :: ks' =>
      '(r, s', c') ← run ns s c (program cached k);
      '(rs, s'', c'') ← script cached ks' s' c';
      Some (r :: rs, s'', c'')
  end.
Fixpoint script_trace (ks : list (list lname * scall)) (rs : list (outcome sres)) : list gev :=
  match ks, rs with
  | (_, k) :: ks', r :: rs' => GStart 0 k :: GDone 0 k r :: script_trace ks' rs'
  | _, _ => []
  end.
Lemma gexec_trans cached g tr g' tr' g'' : gexec cached g tr g' → gexec cached g' tr' g'' → gexec cached g (tr ++ tr') g''.
Proof.
  intros H H'. induction H' as [g0|g0 tr' g1 e g2 H' IH Hs]; [by rewrite app_nil_r|]. rewrite app_assoc. eapply gexec_step; [by apply IH|done].
Qed.
Lemma gexec_one cached g e g' : gstep cached g e g' → gexec cached g (option_list e) g'.
Proof. intros H. rewrite <-(app_nil_l (option_list e)). eapply gexec_step; [constructor|done]. Qed.
Lemma run_gexec cached ns s c k p r s' c' th : run ns s c p = Some (r, s', c') → th !! 0 = Some (k, p) →
  gexec cached (GState s c th) [GDone 0 k r] (GState s' c' (delete 0 th)).
Proof.
  revert ns s c th. induction p as [q|f IH|f IH|w p IH|b p IH]; cbn [run]; intros ns s c th Hr Ht.
  - injection Hr as <- <- <-. eapply (gexec_one _ _ (Some _)). by constructor.
  - eapply (gexec_trans _ _ []); [eapply (gexec_one _ _ None); by apply (g_look _ s c th 0 k f)|].
    rewrite <-(delete_insert_delete th 0 (k, f s c)). eapply IH; [done|apply lookup_insert].
  - destruct ns as [|n ns]; [done|]. destruct (s !! n) eqn:En; [done|].
    eapply (gexec_trans _ _ []); [eapply (gexec_one _ _ None); by apply (g_alloc _ s c th 0 k f n)|].
    rewrite <-(delete_insert_delete th 0 (k, f n)). eapply IH; [done|apply lookup_insert].
  - destruct (decide (no_nesting s w)) as [Hnn|]; [|done].
    eapply (gexec_trans _ _ []); [eapply (gexec_one _ _ None); by apply (g_put _ s c th 0 k w p)|].
    rewrite <-(delete_insert_delete th 0 (k, p)). eapply IH; [done|apply lookup_insert].
  - destruct b; [|done].
    eapply (gexec_trans _ _ []); [eapply (gexec_one _ _ None); by apply (g_assume _ s c th 0 k p)|].
    rewrite <-(delete_insert_delete th 0 (k, p)). eapply IH; [done|apply lookup_insert].
Qed.
Lemma script_gexec cached ks s c rs s' c' : Forall (λ nk, call_ok nk.2) ks → script cached ks s c = Some (rs, s', c') →
  gexec cached (GState s c ∅) (script_trace ks rs) (GState s' c' ∅).
Proof.
  intros Hok. revert s c rs. induction Hok as [|[ns k] ks Hk Hok IH]; cbn [script]; intros s c rs E.
  - injection E as <- <- <-. constructor.
  - destruct (run ns s c (program cached k)) as [[[r s1] c1]|] eqn:Er; [|done]. cbn [mbind option_bind] in E.
    destruct (script cached ks s1 c1) as [[[rs1 s2] c2]|] eqn:Es; [|done]. cbn [mbind option_bind] in E. injection E as <- <- <-.
    cbn [script_trace]. change (?a :: ?b :: ?l) with ([a] ++ [b] ++ l).
    eapply gexec_trans; [eapply (gexec_one _ _ (Some _)); by apply (g_start _ s c ∅ 0 k)|].
    eapply gexec_trans; [eapply run_gexec; [exact Er|apply lookup_insert]|]. rewrite delete_insert by apply lookup_empty. by apply IH.
Qed.
Lemma script_reached cached ks rs s c : Forall (λ nk, call_ok nk.2) ks → script cached ks ∅ ∅ = Some (rs, s, c) →
  reached cached (script_trace ks rs) (GState s c ∅).
Proof. apply script_gexec. Qed.

(** ** Crashes, and listing the layers *)
Lemma loads_after_crash cached tr g g1 tr' g' x c t r : reached cached tr g → stored (g_store g) x c →
  gstep cached g (Some GCrash) g1 → gexec cached g1 tr' g' → GDone t (SGet x) r ∈ tr' →
  ∃ L, r = Ok (RLayer (Some L)) ∧ l_name L = Some x ∧ l_parent L = fst <$> c !! 1 ∧ same_answers (layers L) c.*2.
Proof.
  intros H Hc Hs H' Hin. eapply (always_loads cached (tr ++ [GCrash]) g1); [|by inversion Hs; subst|done|by inversion Hs; subst|done].
  by eapply (gexec_step _ _ _ _ (Some GCrash)).
Qed.
Lemma memory_lists_all s x c : stored s x c → ∃ ns, memory_layers s = Ok ns ∧ x ∈ ns.
Proof. intros Hc. eexists. split; [done|]. apply elem_of_elements, elem_of_dom. by eapply stored_is_dom. Qed.
Lemma memory_lists_unfinished : ∃ tr g x ns, reached false tr g ∧ memory_layers (g_store g) = Ok ns ∧ x ∈ ns ∧ ¬ ∃ c, stored (g_store g) x c.
Proof.
  set (k := SBase id id []). set (x := [1%N]).
  exists [GStart 0 k]. eexists (GState (new_dir x ∅) ∅ _), x, _. split_and!.
  - change [GStart 0 k] with (([] ++ option_list (Some (GStart 0 k))) ++ option_list None).
    eapply gexec_step; [eapply gexec_step; [constructor|]|].
    + apply g_start; [done|split; by intros m].
    + eapply g_alloc; [apply lookup_insert|done].
  - done.
  - cbn [g_store]. apply elem_of_elements, elem_of_dom. unfold new_dir. rewrite lookup_insert. by eexists.
  - cbn [g_store]. intros (c & Hc). assert (s_files (new_dir x ∅) x = None) as E by (by vm_compute). inversion Hc; congruence.
Qed.
Lemma omapM_fail {A B : Type} (f : A → outcome B) l k : l ≠ [] → (∀ a, a ∈ l → f a = Err k) → omapM f l = Err k.
Proof. destruct l as [|a l]; [done|]. intros _ H. cbn. by rewrite (H a (elem_of_list_here _ _)). Qed.
Lemma directory_layers_fail s : s ≠ ∅ → directory_layers s = Err OtherError.
Proof.
  intros Hs. apply omapM_fail.
  - unfold top_entries. intros E. apply map_choose in Hs as (x & d & Hx).
    assert (take 3 (name_to_string x) ∈ elements (list_to_set (C := gset bytes) ((λ x, take 3 (name_to_string x)) <$> elements (dom (D := gset lname) s)))) as H.
    { apply elem_of_elements, elem_of_list_to_set, elem_of_list_fmap. exists x. split; [done|]. apply elem_of_elements, elem_of_dom. by eexists. }
    rewrite E in H. by apply elem_of_nil in H.
  - intros e He. unfold top_entries in He. apply elem_of_elements, elem_of_list_to_set, elem_of_list_fmap in He as (x & -> & _).
    unfold string_to_name. rewrite decide_True; [done|]. rewrite take_length. lia.
Qed.
Lemma stored_walk s x c : stored s x c → walk (fuel_of s) s x = Some c.*1 ∧ disk_layers s c.*1 = Ok c.*2.
Proof.
  intros H. assert (length c ≤ fuel_of s) as Hl.
  { pose proof (ancestry_length _ _ _ (stored_ancestry _ _ _ H)) as Hl. by rewrite fmap_length in Hl. }
  revert Hl. generalize (fuel_of s) as f. induction H as [x l Hf Hn Hp|x l p c Hf Hn Hp Hc IH]; intros [|f] Hl; cbn in Hl; try lia; cbn [walk]; rewrite Hp.
  - unfold disk_layers. cbn. by rewrite Hf.
  - destruct (IH f ltac:(lia)) as [-> E]. split; [done|]. unfold disk_layers in *. cbn. rewrite Hf. cbn.
    by destruct (mapM (s_files s) c.*1); simplify_eq/=.
Qed.
Lemma stored_read s x c ns ls : stored s x c → walk (fuel_of s) s x = Some ns → disk_layers s ns = Ok ls → c.*2 = ls ∧ c.*1 = ns.
Proof.
  intros H E1 E2. destruct (stored_walk _ _ _ H) as [E3 E4]. rewrite E3 in E1. injection E1 as <-. rewrite E4 in E2. by injection E2 as <-.
Qed.
