(** C53.  Several processes have one directory open.  [preached cached tr g] (SpecStoreProcs.v) ranges over every
    state that the directory and the processes can get into: any number of processes, each with any number of threads
    that make calls, with a cache of loaded layers of its own ([cached i] for process [i]), or without one; the steps are
    interleaved in any order, cached layers are dropped, and processes end at any time.  [tr] has what was called,
    in which process, and what was returned. *)
From Verif Require Import Prelude LabelConc LabelSpec Head HeadSpec Succinct TripleFiles Merge Layer Builder Rollup Squash MergeBase Names Spec
  Store SpecStore StoreFacts StoreExecFacts StoreApi StoreProcs SpecStoreProcs StoreProcsFacts PropertiesLayer PropertiesStore.

(** what is stored stays, whatever any of the processes do *)
Theorem C53_stored_forever cached tr g tr' g' x c : preached cached tr g → pexec cached g tr' g' →
  stored (p_store g) x c → stored (p_store g') x c.
Proof. exact (pexec_stored cached tr g tr' g' x c). Qed.
Print Assumptions C53_stored_forever.
(** a layer that one process made is there for all *)
Theorem C53_created_is_stored cached tr g i t k n : preached cached tr g → PDone i t k (Ok (RName n)) ∈ tr → ∃ c, stored (p_store g) n c.
Proof. exact (pnamed_stored cached tr g i t k n). Qed.
Print Assumptions C53_created_is_stored.
(** from then on every process can load it, and gets what is on disk *)
Theorem C53_always_loads cached tr g tr' g' x c i t r : preached cached tr g → stored (p_store g) x c → pexec cached g tr' g' →
  p_threads g !! t = None → PDone i t (SGet x) r ∈ tr' →
  ∃ L, r = Ok (RLayer (Some L)) ∧ l_name L = Some x ∧ l_parent L = fst <$> c !! 1 ∧ same_answers (layers L) c.*2.
Proof. exact (palways_loads cached tr g tr' g' x c i t r). Qed.
Print Assumptions C53_always_loads.
(** two processes that load a layer, now or later, never see different things *)
Theorem C53_loads_agree cached tr g i t i' t' x L L' : preached cached tr g →
  PDone i t (SGet x) (Ok (RLayer (Some L))) ∈ tr → PDone i' t' (SGet x) (Ok (RLayer (Some L'))) ∈ tr →
  l_name L = Some x ∧ l_name L' = Some x ∧ l_parent L = l_parent L' ∧ same_answers (layers L) (layers L').
Proof. exact (ploads_agree cached tr g i t i' t' x L L'). Qed.
Print Assumptions C53_loads_agree.
(** the cache of a process, however long ago it was filled and whatever others did since, gives what reading the disk
    would *)
Theorem C53_caches cached tr g i x : preached cached tr g → ∃ r r' c' c'',
  run [] (p_store g) (cache_of (p_caches g) i) (get_layer true x) = Some (r, p_store g, c') ∧
  run [] (p_store g) ∅ (get_layer false x) = Some (r', p_store g, c'') ∧ alike r r'.
Proof. exact (pcaches_alike cached tr g i x). Qed.
Print Assumptions C53_caches.
(** no two calls, in whatever processes, make layers of one name *)
Theorem C53_fresh cached tr g tr' g' i t k n : preached cached tr g → pexec cached g tr' g' → p_threads g !! t = None →
  PDone i t k (Ok (RName n)) ∈ tr' → makes_new k → p_store g !! n = None.
Proof. exact (pnew_is_new cached tr g tr' g' i t k n). Qed.
Print Assumptions C53_fresh.
(** what a process commits is what it asked for *)
Theorem C53_base_named cached tr g i t nvord prord cs n : preached cached tr g → PDone i t (SBase nvord prord cs) (Ok (RName n)) ∈ tr →
  ∃ l T, stored (p_store g) n [(n, l)] ∧ shown [l] = Some T ∧ ∀ vt, vt ∈ T ↔ after_change (added [] cs) (removed [] cs) [] vt.
Proof. exact (pbase_made cached tr g i t nvord prord cs n). Qed.
Print Assumptions C53_base_named.
Theorem C53_child_named cached tr g i t nvord prord x cs n : preached cached tr g → PDone i t (SChild nvord prord x cs) (Ok (RName n)) ∈ tr →
  ∃ cx l T T', stored (p_store g) x cx ∧ stored (p_store g) n ((n, l) :: cx) ∧
    shown cx.*2 = Some T ∧ shown (l :: cx.*2) = Some T' ∧ ∀ vt, vt ∈ T' ↔ after_change (added cx.*2 cs) (removed cx.*2 cs) T vt.
Proof. exact (pchild_made cached tr g i t nvord prord x cs n). Qed.
Print Assumptions C53_child_named.
(** a rollup that one process makes stands for the layer in all *)
Theorem C53_rollup_named cached tr g i t x r : preached cached tr g → PDone i t (SRollup x) (Ok (RName r)) ∈ tr →
  ∃ cx l, stored (p_store g) x cx ∧ stored (p_store g) r [(r, l)] ∧ same_answers [l] cx.*2.
Proof. exact (prollup_made cached tr g i t x r). Qed.
Print Assumptions C53_rollup_named.
Theorem C53_squash_named cached tr g i t x n : preached cached tr g → PDone i t (SSquash x) (Ok (RName n)) ∈ tr →
  ∃ cx l T T', stored (p_store g) x cx ∧ stored (p_store g) n [(n, l)] ∧ shown cx.*2 = Some T ∧ shown [l] = Some T' ∧ T' ≡ₚ T ∧ exact_strings l T.
Proof. exact (psquash_made cached tr g i t x n). Qed.
Print Assumptions C53_squash_named.
(** and none of these calls fails because of the other processes *)
Theorem C53_base_works cached tr g i t nvord prord cs r : preached cached tr g → PDone i t (SBase nvord prord cs) r ∈ tr → ∃ n, r = Ok (RName n).
Proof. exact (pbase_works cached tr g i t nvord prord cs r). Qed.
Print Assumptions C53_base_works.
Theorem C53_works cached tr g tr' g' x c k i t r : preached cached tr g → stored (p_store g) x c → pexec cached g tr' g' →
  p_threads g !! t = None → PDone i t k r ∈ tr' → (k = SRollup x ∨ k = SSquash x ∨ ∃ nvord prord cs, k = SChild nvord prord x cs) →
  ∃ n, r = Ok (RName n).
Proof. exact (pworks cached tr g tr' g' x c k i t r). Qed.
Print Assumptions C53_works.
(** the head of a named graph, whichever process set it, is a layer that every process can load *)
Theorem C53_head_loads cached tr its g h n l x tr' g' i t r : qexec cached tr its g h → label_after n its (Some l) → lb_layer l = Some x →
  pexec cached g tr' g' → p_threads g !! t = None → PDone i t (SGet x) r ∈ tr' →
  ∃ c L, stored (p_store g) x c ∧ r = Ok (RLayer (Some L)) ∧ l_name L = Some x ∧ l_parent L = fst <$> c !! 1 ∧ same_answers (layers L) c.*2.
Proof. exact (phead_loads cached tr its g h n l x tr' g' i t r). Qed.
Print Assumptions C53_head_loads.

(** ** Example: process 0 makes three layers, process 1 loads the third; then process 0 rolls it up.  Process 1 still has
    the layers from before in its cache; process 2 finds the rollup. *)
Definition proc_calls : list (nat * (list lname * scall)) :=
  ((λ k, (0, k)) <$> three_layers) ++ [(1, ([], SGet nC)); (0, ([nD], SRollup nC)); (1, ([], SGet nC)); (2, ([], SGet nC)); (1, ([nE], SSquash nC))].
Lemma proc_calls_ok : Forall (λ ik : nat * (list lname * scall), call_ok ik.2.2) proc_calls.
Proof.
  apply Forall_app. split.
  - apply Forall_fmap. eapply Forall_impl; [exact three_ok|]. by intros [ns k] H.
  - repeat constructor.
Qed.
Definition proc_outcomes (r : option (list (outcome sres) * store * gmap nat lcache)) : list (outcome sres) :=
  match r with Some (rs, _, _) => rs | None => [] end.
Example C53_example_results : seen_result <$> proc_outcomes (procs_run (λ _, true) proc_calls ∅ ∅) =
  (Some ∘ inl <$> [nA; nB; nC]) ++
  [Some (inr ([nC; nB; nA], [false; false; false], shown ex_top)); Some (inl nD);
   Some (inr ([nC; nB; nA], [false; false; false], shown ex_top)); Some (inr ([nC], [true], shown ex_top)); Some (inl nE)].
Proof. vm_compute. reflexivity. Qed.
Lemma proc_state : ∃ g, preached (λ _, true) (procs_trace proc_calls (proc_outcomes (procs_run (λ _, true) proc_calls ∅ ∅))) g ∧
  p_threads g = ∅ ∧ s_parent (p_store g) nB = Some nA ∧ s_parent (p_store g) nA = None.
Proof.
  destruct (procs_run (λ _, true) proc_calls ∅ ∅) as [[[rs s] cs]|] eqn:E.
  - destruct (procs_reached _ _ _ _ _ proc_calls_ok E) as (cs1 & H & _). exists (PState s cs1 ∅). cbn [proc_outcomes]. split; [exact H|].
    split; [reflexivity|]. cbn [p_store].
    assert ((s_parent s nB, s_parent s nA) = (Some nA, None)) as X; [|apply pair_equal_spec in X; exact X].
    change (match Some (rs, s, cs) with Some (_, s, _) => (s_parent s nB, s_parent s nA) | None => (None, None) end = (Some nA, None)).
    rewrite <-E. vm_compute. reflexivity.
  - exfalso. pose proof C53_example_results as X. rewrite E in X. discriminate X.
Qed.
Definition proc_trace : list pev := procs_trace proc_calls (proc_outcomes (procs_run (λ _, true) proc_calls ∅ ∅)).
(** what the calls returned, in process 0 *)
Lemma proc_made : PDone 0 0 (SChild id (@rev _) nA ex_ops2) (Ok (RName nB)) ∈ proc_trace ∧ PDone 0 0 (SChild (@rev _) id nB ex_ops3) (Ok (RName nC)) ∈ proc_trace.
Proof.
  unfold proc_trace. pose proof C53_example_results as X.
  destruct (proc_outcomes (procs_run (λ _, true) proc_calls ∅ ∅)) as [|r0 [|r1 [|r2 rs]]]; try discriminate X.
  assert (∀ r n, seen_result r = Some (inl n) → r = Ok (RName n)) as K.
  { intros [[[L|]|m|]| |] n Hn; try discriminate Hn. cbn [seen_result] in Hn. congruence. }
  assert (seen_result r1 = Some (inl nB) ∧ seen_result r2 = Some (inl nC)) as [->%K ->%K].
  { split; [exact (f_equal (λ l, default None (l !! 1)) X)|exact (f_equal (λ l, default None (l !! 2)) X)]. }
  unfold proc_calls, three_layers. cbn [fmap list_fmap app procs_trace]. split.
  - do 3 (apply elem_of_list_further). apply elem_of_list_here.
  - do 5 (apply elem_of_list_further). apply elem_of_list_here.
Qed.
Example C53_example : ∃ g, preached (λ _, true) proc_trace g ∧ p_threads g = ∅ ∧ ∃ c, stored (p_store g) nC c.
Proof.
  destruct proc_state as (g & H & Ht & _). exists g. split; [exact H|]. split; [exact Ht|].
  exact (C53_created_is_stored _ _ _ _ _ _ _ H (proj2 proc_made)).
Qed.
Lemma phead_example cached tr g : preached cached tr g → pheld tr nB → s_parent (p_store g) nB = Some nA → s_parent (p_store g) nA = None →
  ∃ h, qexec cached tr head_items g h ∧ label_after hn head_items (Some (Label hn (Some nB) 1)).
Proof.
  intros H Hh HB HA. eexists. split.
  - unfold head_items. pose proof (pexec_qexec _ _ _ H) as C.
    eapply q_head in C; [|eapply (h_commit _ nA None); [apply not_elem_of_empty|done]|].
    2: { cbn. intros x Hx _. assert (x = nA) as -> by set_solver. split; [|by rewrite HA]. exists nB. split; [done|]. by apply rtc_once. }
    eapply q_head in C; [|eapply (h_commit _ nB (Some nA)); cbn; [|set_solver]|].
    2: { intros [E%elem_of_singleton|E]%elem_of_union; [discriminate E|by apply not_elem_of_empty in E]. }
    2: { cbn. intros x Hx Hni. assert (x = nB) as -> by set_solver. split; [|by rewrite HB]. exists nB. split; [done|]. apply rtc_refl. }
    eapply q_head in C; [|by eapply (h_other _ (EvCreate 0 hn (Some 0) (Ok (Label hn None 0))))|intros x Hx Hni; exfalso; exact (Hni Hx)].
    eapply q_head in C; [|by eapply (h_call _ 0 (SetHead hn nB)); [|cbn; set_solver]|intros x Hx Hni; exfalso; exact (Hni Hx)].
    eapply q_head in C; [|by eapply (h_get _ 0 (SetHead hn nB) (Some 0) (Label hn None 0))|intros x Hx Hni; exfalso; exact (Hni Hx)].
    eapply q_head in C; [|by eapply (h_set _ 0 (SetHead hn nB) (Label hn None 0) nB _ (Some 0) (Some (Label hn (Some nB) 1)))|intros x Hx Hni; exfalso; exact (Hni Hx)].
    exact C.
  - unfold label_after. change (on_name hn (levs head_items)) with
      [EvCreate 0 hn (Some 0) (Ok (Label hn None 0)); EvGet 0 hn (Some 0) (Ok (Some (Label hn None 0)));
       EvSet 0 (Label hn None 0) (Label hn (Some nB) 1) (Some 0) (Ok (Some (Label hn (Some nB) 1)))].
    eapply history_cons; [apply name_file, reg_create|]. eapply history_cons; [apply name_file, (reg_get (Label hn None 0))|].
    eapply history_cons; [apply name_file, reg_set; done|]. constructor.
Qed.
(** and the second layer made the head of a named graph *)
Example C53_head_example : ∃ g h, qexec (λ _, true) proc_trace head_items g h ∧ p_threads g = ∅ ∧ label_after hn head_items (Some (Label hn (Some nB) 1)).
Proof.
  destruct proc_state as (g & H & Ht & HB & HA). exists g.
  destruct (phead_example _ _ _ H) as (h & Hq & Hl); [|exact HB|exact HA|exists h; split; [exact Hq|split; [exact Ht|exact Hl]]].
  left. exists 0, 0, (SChild id (@rev _) nA ex_ops2). exact (proj1 proc_made).
Qed.
