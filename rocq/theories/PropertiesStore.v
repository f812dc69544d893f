(** Properties of a layer store by names.  [reached cached tr g] ranges over every state that a store, with a cache of
    loaded layers or without, can get into: any number of threads make calls, their steps are interleaved in any
    order, cached layers are dropped and the process is stopped and started again at any time.  [tr] has what was
    called and what was returned.  [stored s x c] (SpecStore.v): the files of [x] and its ancestors are on disk, [c] is
    what is in them. *)
From Verif Require Import Prelude Succinct TripleFiles Merge Layer Builder Rollup Squash MergeBase Names Spec LabelConc LabelSpec Head HeadSpec
  Store SpecStore StoreFacts StoreExecFacts StoreApi StoreHead StoreHeadFacts StoreMissing PropertiesLayer.

(** ** Example: one call after another *)
Definition nA : lname := [1; 0; 0; 0; 0]%N.
Definition nB : lname := [2; 0; 0; 0; 0]%N.
Definition nC : lname := [3; 0; 0; 0; 0]%N.
Definition nD : lname := [4; 0; 0; 0; 0]%N.
Definition nE : lname := [5; 0; 0; 0; 0]%N.
Definition nF : lname := [6; 0; 0; 0; 0]%N.
Definition nG : lname := [7; 0; 0; 0; 0]%N.
Definition nH : lname := [8; 0; 0; 0; 0]%N.
Definition nI : lname := [9; 0; 0; 0; 0]%N.
Definition three_layers : list (list lname * scall) :=
  [([nA], SBase id id ex_ops1); ([nB], SChild id (@rev _) nA ex_ops2); ([nC], SChild (@rev _) id nB ex_ops3)].
Definition ex_calls : list (list lname * scall) :=
  three_layers ++ [([nE], SSquash nC); ([nF], SSquashUpto nC nA); ([nG], SMerge [nA; nE]); ([nH], SRollupUpto nC nA); ([], SGet nC);
    ([nD], SRollup nC); ([], SGet nC); ([], SGet nH)].
Definition outcomes (r : option (list (outcome sres) * store * lcache)) : list (outcome sres) :=
  match r with Some (rs, _, _) => rs | None => [] end.
Definition final (r : option (list (outcome sres) * store * lcache)) : gstate :=
  match r with Some (_, s, c) => GState s c ∅ | None => gstate_init end.
(** what a caller sees of the result of a call: the name of the new layer, or the names of the loaded layer and those
    below, which of them are rollups, and the triples *)
Definition seen_result (r : outcome sres) : option (lname + (list lname * list bool * option (list vtriple))) :=
  match r with
  | Ok (RName n) => Some (inl n)
  | Ok (RLayer (Some L)) => Some (inr (n_name <$> L, n_rollup <$> L, shown (layers L)))
  | _ => None
  end.
Example ex_results : seen_result <$> outcomes (script true ex_calls ∅ ∅) =
  (Some ∘ inl <$> [nA; nB; nC; nE; nF; nG; nH]) ++
  [Some (inr ([nC; nA], [true; false], shown ex_top)); Some (inl nD); Some (inr ([nC], [true], shown ex_top));
   Some (inr ([nH; nA], [false; false], shown ex_top))].
Proof. by vm_compute. Qed.
Lemma ex_calls_ok ks : Forall (λ nk, call_ok nk.2) three_layers → Forall (λ nk, match nk.2 with SBase _ _ _ | SChild _ _ _ _ | SImport _ _ => False | _ => True end) ks →
  Forall (λ nk, call_ok nk.2) (three_layers ++ ks).
Proof. intros H H'. apply Forall_app. split; [done|]. eapply Forall_impl; [exact H'|]. intros [? []]; done. Qed.
Lemma three_ok : Forall (λ nk : list lname * scall, call_ok nk.2) three_layers.
Proof. repeat (apply Forall_cons; split; [split; first [apply id_order|apply rev_order]|]). constructor. Qed.
Lemma script_final cached ks : Forall (λ nk, call_ok nk.2) ks → is_Some (script cached ks ∅ ∅) →
  reached cached (script_trace ks (outcomes (script cached ks ∅ ∅))) (final (script cached ks ∅ ∅)).
Proof. intros Hk [[[rs s] c] E]. rewrite E. by apply script_reached. Qed.
Definition runs {A} (r : option A) : bool := match r with Some _ => true | None => false end.
Lemma runs_some {A} (r : option A) : runs r = true → is_Some r.
Proof. destruct r; [by eexists|done]. Qed.
Lemma some_nonempty (s : store) x : runs (s !! x) = true → s ≠ ∅.
Proof. intros H ->. by rewrite lookup_empty in H. Qed.
Lemma script_facts {X} (f : list (outcome sres) → store → X) (r : option (list (outcome sres) * store * lcache)) v :
  match r with Some (rs, s, _) => Some (f rs s) | None => None end = Some v → ∃ rs s c, r = Some (rs, s, c) ∧ f rs s = v.
Proof. destruct r as [[[rs s] c]|]; [|done]. intros [= <-]. by exists rs, s, c. Qed.
Lemma seen_loaded (r : option (outcome sres)) ns bs t : seen_result <$> r = Some (Some (inr (ns, bs, t))) →
  ∃ L0, r = Some (Ok (RLayer (Some L0))) ∧ n_name <$> L0 = ns ∧ shown (layers L0) = t.
Proof. destruct r as [[[[L0|]| |]| |]|]; try discriminate 1. intros E0. injection E0 as <- _ <-. by exists L0. Qed.
Lemma first_name M n ns : n_name <$> M = n :: ns → l_name M = Some n.
Proof. destruct M as [|e M]; [done|]. intros E. injection E as <- _. done. Qed.
Definition ex_trace (cached : bool) : list gev := script_trace ex_calls (outcomes (script cached ex_calls ∅ ∅)).
Definition ex_state (cached : bool) : gstate := final (script cached ex_calls ∅ ∅).
Example ex_reached cached : reached cached (ex_trace cached) (ex_state cached).
Proof.
  apply script_final; [apply ex_calls_ok; [apply three_ok|by repeat constructor]|].
  apply runs_some. destruct cached; by vm_compute.
Qed.

(** ** C38.  Layers never change. *)
(** whatever happens, the files of a layer and its ancestors stay what they are *)
Theorem C38_stored_forever cached tr g tr' g' x c : reached cached tr g → gexec cached g tr' g' →
  stored (g_store g) x c → stored (g_store g') x c.
Proof. exact (gexec_stored cached tr g tr' g' x c). Qed.
Print Assumptions C38_stored_forever.
(** a layer whose name a call returned is stored *)
Theorem C38_created_is_stored cached tr g t k n : reached cached tr g → GDone t k (Ok (RName n)) ∈ tr → ∃ c, stored (g_store g) n c.
Proof. exact (named_stored cached tr g t k n). Qed.
Print Assumptions C38_created_is_stored.
(** from then on loading it always succeeds and shows the same: whatever other threads do, with rollups made and used,
    and across restarts *)
Theorem C38_always_loads cached tr g tr' g' x c t r : reached cached tr g → stored (g_store g) x c → gexec cached g tr' g' →
  g_threads g !! t = None → GDone t (SGet x) r ∈ tr' →
  ∃ L, r = Ok (RLayer (Some L)) ∧ l_name L = Some x ∧ l_parent L = fst <$> c !! 1 ∧ same_answers (layers L) c.*2.
Proof. exact (always_loads cached tr g tr' g' x c t r). Qed.
Print Assumptions C38_always_loads.
(** two times that a layer is loaded never differ *)
Theorem C38_loads_agree cached tr g t t' x L L' : reached cached tr g →
  GDone t (SGet x) (Ok (RLayer (Some L))) ∈ tr → GDone t' (SGet x) (Ok (RLayer (Some L'))) ∈ tr →
  l_name L = Some x ∧ l_name L' = Some x ∧ l_parent L = l_parent L' ∧ same_answers (layers L) (layers L').
Proof. exact (loads_agree cached tr g t t' x L L'). Qed.
Print Assumptions C38_loads_agree.
(** committing, squashing and merging make layers with names that nothing had before *)
Theorem C38_fresh cached tr g tr' g' t k n : reached cached tr g → gexec cached g tr' g' → g_threads g !! t = None →
  GDone t k (Ok (RName n)) ∈ tr' → makes_new k → g_store g !! n = None.
Proof. exact (new_is_new cached tr g tr' g' t k n). Qed.
Print Assumptions C38_fresh.
(** a call on a layer that is not there, and that no one makes meanwhile, says so *)
Theorem C38_missing cached tr g t k r x : reached cached tr g → g_store g !! x = None → GDone t k r ∈ tr → call_target k = Some x → not_there k r.
Proof. exact (missing_done cached tr g t k r x). Qed.
Print Assumptions C38_missing.
Example C38_missing_example : outcomes (script true [([nA], SBase id id ex_ops1); ([], SGet nB); ([], SRollup nB); ([], SSquashUpto nB nA)] ∅ ∅) =
  [Ok (RName nA); Ok (RLayer None); Err NotFound; Err NotFound].
Proof. vm_compute. reflexivity. Qed.
Example C38_example : ∃ c, stored (g_store (ex_state true)) nC c ∧ c.*2 = ex_top ∧ c.*1 = [nC; nB; nA].
Proof.
  destruct (C38_created_is_stored _ _ _ 0 (SChild (@rev _) id nB ex_ops3) nC (ex_reached true)) as [c Hc].
  { vm_compute. do 5 (apply elem_of_list_further). apply elem_of_list_here. }
  exists c. split; [exact Hc|]. apply (stored_read _ _ _ _ _ Hc); vm_compute; reflexivity.
Qed.

(** ** C01.  Commits, by name: the new layer has the parent it was made from and the changes that were asked for *)
Theorem C01_base_named cached tr g t nvord prord cs n : reached cached tr g → GDone t (SBase nvord prord cs) (Ok (RName n)) ∈ tr →
  ∃ l T, stored (g_store g) n [(n, l)] ∧ commits_to [] cs [l] ∧ shown [l] = Some T ∧
    ∀ vt, vt ∈ T ↔ after_change (added [] cs) (removed [] cs) [] vt.
Proof. exact (base_made cached tr g t nvord prord cs n). Qed.
Print Assumptions C01_base_named.
Theorem C01_child_named cached tr g t nvord prord x cs n : reached cached tr g → GDone t (SChild nvord prord x cs) (Ok (RName n)) ∈ tr →
  ∃ cx l T T', stored (g_store g) x cx ∧ stored (g_store g) n ((n, l) :: cx) ∧ commits_to cx.*2 cs (l :: cx.*2) ∧
    shown cx.*2 = Some T ∧ shown (l :: cx.*2) = Some T' ∧ ∀ vt, vt ∈ T' ↔ after_change (added cx.*2 cs) (removed cx.*2 cs) T vt.
Proof. exact (child_made cached tr g t nvord prord x cs n). Qed.
Print Assumptions C01_child_named.
(** and they do not fail *)
Theorem C01_base_works cached tr g t nvord prord cs r : reached cached tr g → GDone t (SBase nvord prord cs) r ∈ tr → ∃ n, r = Ok (RName n).
Proof. exact (base_works cached tr g t nvord prord cs r). Qed.
Print Assumptions C01_base_works.
Theorem C01_child_works cached tr g tr' g' nvord prord x cs c t r : reached cached tr g → stored (g_store g) x c → gexec cached g tr' g' →
  g_threads g !! t = None → GDone t (SChild nvord prord x cs) r ∈ tr' → ∃ n, r = Ok (RName n).
Proof. exact (child_works cached tr g tr' g' nvord prord x cs c t r). Qed.
Print Assumptions C01_child_works.

(** ** C13.  Changes up to an ancestor, by name *)
Theorem C13_named cached tr g x top ca a : reached cached tr g → stored (g_store g) x (top ++ ca) → stored (g_store g) a ca →
  ∃ T T' C, triples ca.*2 = Some T ∧ triples (top ++ ca).*2 = Some T' ∧ layer_changes_upto (g_store g) x a = Ok C ∧
    (∀ t, (true, t) ∈ C ↔ t ∈ T' ∧ t ∉ T) ∧ (∀ t, (false, t) ∈ C ↔ t ∈ T ∧ t ∉ T') ∧ SSorted (snd <$> C).
Proof. exact (λ H, layer_changes_upto_ok (g_store g) x top ca a (proj1 (reached_good _ _ _ H))). Qed.
Print Assumptions C13_named.
Theorem C13_not_ancestor cached tr g x a : reached cached tr g → ¬ rtc (child_of (g_store g)) x a →
  layer_changes_upto (g_store g) x a = Err NotFound.
Proof. exact (λ H, match good_ancestry _ x (proj1 (reached_good _ _ _ H)) with ex_intro _ ns E => layer_changes_upto_none _ x ns a E end). Qed.
Print Assumptions C13_not_ancestor.
Example C13_named_example : layer_changes_upto (g_store (ex_state true)) nC nA =
  match stack_changes (take 2 ex_top) with Some C => Ok C | None => Panic end ∧
  (length <$> stack_changes (take 2 ex_top)) = Some 2 ∧ layer_changes_upto (g_store (ex_state true)) nB nC = Err NotFound.
Proof. by vm_compute. Qed.
(** [layer_changes], without an ancestor, should give the triples of the layer; it reads the files of one layer
    again and again *)
Theorem C13_layer_changes_refuted : ∃ tr g x c T C t, reached true tr g ∧ stored (g_store g) x c ∧ triples c.*2 = Some T ∧
  layer_changes (g_store g) x = Ok C ∧ t ∈ T ∧ (true, t) ∉ C.
Proof.
  destruct C38_example as (c & Hc & E & _). exists (ex_trace true), (ex_state true), nC, c.
  exists (default [] (triples ex_top)), (match layer_changes (g_store (ex_state true)) nC with Ok C => C | _ => [] end), (mkt 1 1 2).
  split; [apply ex_reached|]. split; [done|]. split; [by rewrite E; vm_compute|]. split; [by vm_compute|]. split.
  - apply (bool_decide_eq_true_1 _). by vm_compute.
  - apply (bool_decide_eq_false_1 _). by vm_compute.
Qed.
Print Assumptions C13_layer_changes_refuted.

(** ** C14.  Rollups, by name.  [C38_always_loads] says that a layer that has a rollup is loaded with its own
    name, parent and answers. *)
Theorem C14_named cached tr g t x r : reached cached tr g → GDone t (SRollup x) (Ok (RName r)) ∈ tr →
  ∃ cx l, stored (g_store g) x cx ∧ stored (g_store g) r [(r, l)] ∧ same_answers [l] cx.*2.
Proof. exact (rollup_made cached tr g t x r). Qed.
Print Assumptions C14_named.
Theorem C14_works cached tr g tr' g' x c t r : reached cached tr g → stored (g_store g) x c → gexec cached g tr' g' →
  g_threads g !! t = None → GDone t (SRollup x) r ∈ tr' → ∃ n, r = Ok (RName n).
Proof. exact (rollup_works cached tr g tr' g' x c t r). Qed.
Print Assumptions C14_works.
(** The executions leave out rollups of layers that are rollups themselves: after such a call a layer is loaded with
    the name of its first rollup *)
Definition nested : list (list lname * scall) :=
  three_layers ++ [([nD], SRollupUpto nC nA); ([nE], SRollup nD); ([], SGet nC)].
Theorem C14_rollup_of_rollup_refuted : ∃ rs s c L, script_any true nested ∅ ∅ = Some (rs, s, c) ∧
  last rs = Some (Ok (RLayer (Some L))) ∧ l_name L = Some nD.
Proof.
  destruct (script_facts (λ rs _, match last rs with Some (Ok (RLayer (Some L))) => l_name L | _ => None end) (script_any true nested ∅ ∅)
    (Some nD)) as (rs & s & c & E & H); [vm_compute; reflexivity|].
  destruct (last rs) as [[[[L|]| |]| |]|] eqn:El; try discriminate H. exists rs, s, c, L. split; [exact E|]. split; [exact El|exact H].
Qed.
Print Assumptions C14_rollup_of_rollup_refuted.

(** ** C15.  Rollups up to an ancestor, by name.  The result stands for the layer and its parent is the ancestor (or it
    is the layer itself). *)
Theorem C15_named cached tr g t k x upto r : reached cached tr g → (k = SRollupUpto x upto ∨ k = SImprecise x upto) →
  GDone t k (Ok (RName r)) ∈ tr →
  ∃ cx cr, stored (g_store g) x cx ∧ stored (g_store g) r cr ∧ same_answers cr.*2 cx.*2 ∧ (r = x ∨ s_parent (g_store g) r = Some upto).
Proof. exact (upto_made cached tr g t k x upto r). Qed.
Print Assumptions C15_named.
(** for a proper ancestor they only fail if the layer has a rollup already *)
Theorem C15_works_partial cached tr g tr' g' x upto k t r : reached cached tr g → proper_ancestor (g_store g) x upto → gexec cached g tr' g' →
  g_threads g !! t = None → (k = SRollupUpto x upto ∨ k = SImprecise x upto) → GDone t k r ∈ tr' →
  (∃ n, r = Ok (RName n)) ∨ is_Some (s_rollup (g_store g') x).
Proof. exact (upto_works cached tr g tr' g' x upto k t r). Qed.
Print Assumptions C15_works_partial.
(** they return a layer for the layer itself and its ancestors only *)
Theorem C15_only_ancestors cached tr g t k x upto r : reached cached tr g → (k = SRollupUpto x upto ∨ k = SImprecise x upto) →
  GDone t k (Ok (RName r)) ∈ tr → x = upto ∨ proper_ancestor (g_store g) x upto.
Proof. exact (upto_only cached tr g t k x upto r). Qed.
Print Assumptions C15_only_ancestors.
(** a second rollup up to another ancestor panics, one after a full rollup returns an error *)
Definition again : list (list lname * scall) := three_layers ++ [([nD], SChild id id nC ex_ops1); ([nE], SRollupUpto nD nA); ([nF], SRollupUpto nD nB)].
Definition after_full : list (list lname * scall) := three_layers ++ [([nE], SRollup nC); ([nF], SRollupUpto nC nB); ([nG], SRollupUpto nC nA)].
Lemma again_ok : Forall (λ nk : list lname * scall, call_ok nk.2) again.
Proof.
  apply Forall_app. split; [apply three_ok|]. apply Forall_cons. split; [split; apply id_order|]. by repeat constructor.
Qed.
Theorem C15_again_refuted : ∃ ks rs s c, Forall (λ nk, call_ok nk.2) ks ∧ script true ks ∅ ∅ = Some (rs, s, c) ∧
  last (snd <$> ks) = Some (SRollupUpto nD nB) ∧ rtc (child_of s) nD nB ∧ last rs = Some Panic.
Proof.
  destruct (script_facts (λ rs s, (last rs, s_parent s nD, s_parent s nC)) (script true again ∅ ∅) (Some Panic, Some nC, Some nB)) as (rs & s & c & E & H); [vm_compute; reflexivity|].
  injection H as H1 H2 H3. exists again, rs, s, c. split; [apply again_ok|]. split; [exact E|]. split; [reflexivity|].
  split; [|exact H1]. eapply rtc_l; [exact H2|apply rtc_once; exact H3].
Qed.
Print Assumptions C15_again_refuted.
Theorem C15_after_full_refuted : ∃ ks rs s c, Forall (λ nk, call_ok nk.2) ks ∧ script true ks ∅ ∅ = Some (rs, s, c) ∧
  last (snd <$> ks) = Some (SRollupUpto nC nA) ∧ rtc (child_of s) nC nA ∧ last rs = Some (Err NotFound).
Proof.
  destruct (script_facts (λ rs s, (last rs, s_parent s nC, s_parent s nB)) (script true after_full ∅ ∅) (Some (Err NotFound), Some nB, Some nA)) as (rs & s & c & E & H); [vm_compute; reflexivity|].
  injection H as H1 H2 H3. exists after_full, rs, s, c. split; [apply ex_calls_ok; [apply three_ok|by repeat constructor]|]. split; [exact E|]. split; [reflexivity|].
  split; [|exact H1]. eapply rtc_l; [exact H2|apply rtc_once; exact H3].
Qed.
Print Assumptions C15_after_full_refuted.
(** The executions leave out imprecise rollups whose bound is not the ancestor asked for.  There the new layer takes the
    ancestor for its parent although it has the changes above the bound only: the layer loses triples, here one that the
    layer below the bound added *)
Definition wrong_bound : list (list lname * scall) := three_layers ++ [([nD], SChild id id nC ex_ops1); ([], SGet nD);
  ([nE], SRollupUpto nC nA); ([nF], SImprecise nD nB); ([], SGet nD)].
Theorem C15_imprecise_bound_refuted : ∃ rs s c L L' vt T T', script_any false wrong_bound ∅ ∅ = Some (rs, s, c) ∧
  rs !! 4 = Some (Ok (RLayer (Some L))) ∧ rs !! 7 = Some (Ok (RLayer (Some L'))) ∧
  l_name L = Some nD ∧ l_name L' = Some nD ∧
  shown (layers L) = Some T ∧ shown (layers L') = Some T' ∧ vt ∈ T ∧ vt ∉ T'.
Proof.
  set (T := [(s_cow, s_likes, inl s_duck); (s_cow, s_says, inr v_moo); (s_duck, s_likes, inl s_cow); (s_duck, s_says, inr v_quack)] : list vtriple).
  set (T' := [(s_cow, s_likes, inl s_duck); (s_cow, s_says, inr v_moo); (s_cow, s_says, inr v_moo); (s_duck, s_likes, inl s_cow)] : list vtriple).
  destruct (script_facts (λ rs _, (seen_result <$> rs !! 4, seen_result <$> rs !! 7)) (script_any false wrong_bound ∅ ∅)
    (Some (Some (inr ([nD; nC; nB; nA], [false; false; false; false], Some T))), Some (Some (inr ([nD; nB; nA], [true; false; false], Some T')))))
    as (rs & s & c & E & H); [vm_compute; reflexivity|]. injection H as H1 H2.
  destruct (seen_loaded _ _ _ _ H1) as (L & E1 & N1 & S1), (seen_loaded _ _ _ _ H2) as (L' & E2 & N2 & S2).
  exists rs, s, c, L, L', (s_duck, s_says, inr v_quack), T, T'. split; [exact E|]. split; [exact E1|]. split; [exact E2|].
  split; [exact (first_name _ _ _ N1)|]. split; [exact (first_name _ _ _ N2)|]. split; [exact S1|]. split; [exact S2|]. split.
  - apply (bool_decide_eq_true_1 _). vm_compute. reflexivity.
  - apply (bool_decide_eq_false_1 _). vm_compute. reflexivity.
Qed.
Print Assumptions C15_imprecise_bound_refuted.

(** ** C16, C17, C18.  Squashing and merging, by name *)
Theorem C16_named cached tr g t x n : reached cached tr g → GDone t (SSquash x) (Ok (RName n)) ∈ tr →
  ∃ cx l T T', stored (g_store g) x cx ∧ stored (g_store g) n [(n, l)] ∧ shown cx.*2 = Some T ∧ shown [l] = Some T' ∧ T' ≡ₚ T ∧ exact_strings l T.
Proof. exact (squash_made cached tr g t x n). Qed.
Print Assumptions C16_named.
Theorem C16_works cached tr g tr' g' x c t r : reached cached tr g → stored (g_store g) x c → gexec cached g tr' g' →
  g_threads g !! t = None → GDone t (SSquash x) r ∈ tr' → ∃ n, r = Ok (RName n).
Proof. exact (squash_works cached tr g tr' g' x c t r). Qed.
Print Assumptions C16_works.
Theorem C17_named cached tr g t x upto n : reached cached tr g → GDone t (SSquashUpto x upto) (Ok (RName n)) ∈ tr →
  ∃ cx cu l T T', stored (g_store g) x cx ∧ stored (g_store g) upto cu ∧ stored (g_store g) n ((n, l) :: cu) ∧
    shown cx.*2 = Some T ∧ shown (l :: cu.*2) = Some T' ∧ T' ≡ₚ T.
Proof. exact (squash_upto_made cached tr g t x upto n). Qed.
Print Assumptions C17_named.
Theorem C17_works cached tr g tr' g' x upto t r : reached cached tr g → proper_ancestor (g_store g) x upto → gexec cached g tr' g' →
  g_threads g !! t = None → GDone t (SSquashUpto x upto) r ∈ tr' → ∃ n, r = Ok (RName n).
Proof. exact (squash_upto_works cached tr g tr' g' x upto t r). Qed.
Print Assumptions C17_works.
(** it makes a layer for the proper ancestors only *)
Theorem C17_only_ancestors cached tr g t x upto n : reached cached tr g → GDone t (SSquashUpto x upto) (Ok (RName n)) ∈ tr →
  proper_ancestor (g_store g) x upto.
Proof. exact (squash_upto_only cached tr g t x upto n). Qed.
Print Assumptions C17_only_ancestors.
(** bounds beside the layer fail, the layer itself is no bound for a squash *)
Example only_ancestors_example : drop 4 (outcomes (script true (three_layers ++ [([nD], SChild id id nA []);
    ([nE], SRollupUpto nC nD); ([nF], SImprecise nC nD); ([nG], SSquashUpto nC nD); ([nH], SSquashUpto nC nC); ([], SRollupUpto nC nC); ([nI], SRollupUpto nC nA)]) ∅ ∅)) =
  [Err NotFound; Err NotFound; Err NotFound; Err NotFound; Ok (RName nC); Ok (RName nI)].
Proof. vm_compute. reflexivity. Qed.
Theorem C18_named cached tr g t xs n : reached cached tr g → GDone t (SMerge xs) (Ok (RName n)) ∈ tr →
  ∃ ls l T, Forall2 (λ x k, stored (g_store g) x [(x, k)]) xs ls ∧ stored (g_store g) n [(n, l)] ∧ shown [l] = Some T ∧ NoDup T ∧
    exact_strings l T ∧ ∀ vt, vt ∈ T ↔ ∃ k T', k ∈ ls ∧ shown [k] = Some T' ∧ vt ∈ T'.
Proof. exact (merge_made cached tr g t xs n). Qed.
Print Assumptions C18_named.
Theorem C18_works cached tr g tr' g' xs t r : reached cached tr g → Forall (λ x, ∃ l, stored (g_store g) x [(x, l)]) xs → gexec cached g tr' g' →
  g_threads g !! t = None → GDone t (SMerge xs) r ∈ tr' → ∃ n, r = Ok (RName n).
Proof. exact (merge_works cached tr g tr' g' xs t r). Qed.
Print Assumptions C18_works.

(** ** C34.  Layers from another store, by name.  A pack is a list of layers with their ancestors; layers of a store
    make a pack.  (What packs look like as files is in PropertiesPack.) *)
Theorem C34_exported cached tr g xs pk ns : reached cached tr g → NoDup xs → Forall2 (stored (g_store g)) xs pk → call_ok (SImport pk ns).
Proof. exact (pack_of_stored cached tr g xs pk ns). Qed.
Print Assumptions C34_exported.
(** after the call the layers that were asked for are what they were in the other store; with C38_stored_forever and
    C38_always_loads they remain so and every later load shows them *)
Theorem C34_named cached tr g t pk ns n l anc : reached cached tr g → GDone t (SImport pk ns) (Ok RDone) ∈ tr →
  ((n, l) :: anc) ∈ pk → n ∈ ns → stored (g_store g) n ((n, l) :: anc).
Proof. exact (import_made cached tr g t pk ns n l anc). Qed.
Print Assumptions C34_named.
Theorem C34_works cached tr g t pk ns r : reached cached tr g → GDone t (SImport pk ns) r ∈ tr → r = Ok RDone.
Proof. exact (import_works cached tr g t pk ns r). Qed.
Print Assumptions C34_works.
(** the names were not in use when the call was made *)
Theorem C34_unused cached tr g tr' g' t pk ns n : reached cached tr g → gexec cached g tr' g' → g_threads g !! t = None →
  GDone t (SImport pk ns) (Ok RDone) ∈ tr' → n ∈ ns → g_store g !! n = None.
Proof. exact (import_unused cached tr g tr' g' t pk ns n). Qed.
Print Assumptions C34_unused.
(** two layers, then a third one, are imported into another store, and the third is loaded and built upon *)
Definition ex_pack : list (list (lname * layer)) := (λ i, drop i (zip [nC; nB; nA] ex_top)) <$> [2; 1; 0].
Definition import_calls : list (list lname * scall) :=
  [([nA; nB], SImport ex_pack [nA; nB]); ([nC], SImport ex_pack [nC]); ([], SGet nC); ([nD], SChild id id nC ex_ops1)].
Lemma import_calls_ok : Forall (λ nk, call_ok nk.2) import_calls.
Proof.
  destruct C38_example as (c & Hc & E2 & E1).
  assert (c = zip [nC; nB; nA] ex_top) as -> by (rewrite <-E1, <-E2; symmetry; apply zip_fst_snd).
  assert (Forall2 (stored (g_store (ex_state true))) [nA; nB; nC] ex_pack) as Hf.
  { assert (∃ lC lB lA, ex_top = [lC; lB; lA]) as (lC & lB & lA & E).
    { assert (length ex_top = 3) as Hl by (by vm_compute). destruct ex_top as [|? [|? [|? []]]]; try discriminate Hl. by eexists _, _, _. }
    unfold ex_pack. rewrite E in Hc |- *. cbn [fmap list_fmap drop zip zip_with] in Hc |- *.
    repeat (apply Forall2_cons; split); [by apply (stored_suffix _ _ [(nC, lC); (nB, lB)] _ _ [] Hc)|by apply (stored_suffix _ _ [(nC, lC)] _ _ _ Hc)|exact Hc|constructor]. }
  assert (∀ ns, call_ok (SImport ex_pack ns)) as Hp.
  { intros ns. apply (C34_exported _ _ _ _ _ ns (ex_reached true)) in Hf; [done|]. apply (bool_decide_unpack _). by vm_compute. }
  repeat (apply Forall_cons; split); [apply Hp|apply Hp|done|split; apply id_order|constructor].
Qed.
Example C34_named_example : runs (script true import_calls ∅ ∅) = true ∧
  reached true (script_trace import_calls (outcomes (script true import_calls ∅ ∅))) (final (script true import_calls ∅ ∅)) ∧
  seen_result <$> outcomes (script true import_calls ∅ ∅) =
    [None; None; Some (inr ([nC; nB; nA], [false; false; false], shown ex_top)); Some (inl nD)].
Proof.
  split; [by vm_compute|]. split; [apply script_final; [exact import_calls_ok|apply runs_some; by vm_compute]|]. by vm_compute.
Qed.

(** ** C33.  The layer cache.  In every state a store with a cache loads the layers that the same store
    without the cache loads. *)
Theorem C33_get tr g x : reached true tr g → ∃ r r' c' c'',
  run [] (g_store g) (g_cache g) (get_layer true x) = Some (r, g_store g, c') ∧
  run [] (g_store g) ∅ (get_layer false x) = Some (r', g_store g, c'') ∧ alike r r'.
Proof. exact (λ H, cached_alike _ _ x (proj1 (reached_good _ _ _ H)) (proj2 (reached_good _ _ _ H))). Qed.
Print Assumptions C33_get.
(** dictionaries, counts, id maps, additions and removals (by object: see below): what is read from the files of one layer *)
Theorem C33_reads {A : Type} (f : layer → A) tr g x : reached true tr g →
  cached_read f (g_store g) (g_cache g) x = direct_read f (g_store g) x.
Proof. exact (λ H, cached_read_eq f _ _ x (proj2 (reached_good _ _ _ H))). Qed.
Print Assumptions C33_reads.
Theorem C33_parent tr g x : reached true tr g → cached_parent (g_store g) (g_cache g) x = s_parent (g_store g) x.
Proof. exact (λ H, cached_parent_eq _ _ x (proj2 (reached_good _ _ _ H))). Qed.
Print Assumptions C33_parent.
Example C33_example : elements (dom (D := gset lname) (g_cache (ex_state true))) ≡ₚ [nA; nB; nC; nD; nH] ∧
  (n_rollup <$> (g_cache (ex_state true) !! nC ≫= head)) = Some true.
Proof. split; [apply NoDup_Permutation; [apply NoDup_elements|apply (bool_decide_unpack _); by vm_compute|]|by vm_compute].
  intros x. assert (elements (dom (D := gset lname) (g_cache (ex_state true))) = elements (list_to_set (C:=gset lname) [nA; nB; nC; nD; nH])) as -> by (by vm_compute).
  by rewrite elem_of_elements, elem_of_list_to_set.
Qed.
(** the number of predicates is the exception: when the layer is not in the cache, the number of values is returned *)
Theorem C33_pred_count_refuted : ∃ tr g x, reached true tr g ∧
  cached_pred_count (g_store g) (g_cache g) x ≠ direct_pred_count (g_store g) x ∧
  cached_pred_count (g_store g) (g_cache g) x = Some 0 ∧ direct_pred_count (g_store g) x = Some 2.
Proof.
  set (ks := [([nA], SBase id id [AddValue (s_cow, s_likes, inl s_duck); AddValue (s_cow, s_says, inl s_duck)])] : list (list lname * scall)).
  exists (script_trace ks (outcomes (script true ks ∅ ∅))), (final (script true ks ∅ ∅)), nA.
  split; [apply script_final; [apply Forall_cons; split; [split; apply id_order|constructor]|apply runs_some; by vm_compute]|].
  by vm_compute.
Qed.
Print Assumptions C33_pred_count_refuted.

(** The additions and the removals of one object.  Without the cache they are right; *)
Theorem C33_by_object_direct cached tr g x l c A R o : reached cached tr g → stored (g_store g) x ((x, l) :: c) →
  l_additions l = Some A → l_removals l = Some R →
  direct_additions_o (g_store g) x o = Some (Some (filter (λ t, t_o t = o) A)) ∧
  direct_removals_o (g_store g) x o = Some (Some (filter (λ t, t_o t = o) R)).
Proof. exact (λ H, direct_o_ok _ x l c A R o (proj1 (reached_good _ _ _ H))). Qed.
Print Assumptions C33_by_object_direct.
(** with the cache, when there is one for this object; *)
Theorem C33_by_object_partial tr g x l c A R o : reached true tr g → stored (g_store g) x ((x, l) :: c) →
  l_additions l = Some A → l_removals l = Some R →
  ((∃ t, t ∈ A ∧ t_o t = o) → cached_additions_o (g_store g) (g_cache g) x o = Some (Some (filter (λ t, t_o t = o) A))) ∧
  ((∃ t, t ∈ R ∧ t_o t = o) → cached_removals_o (g_store g) (g_cache g) x o = Some (Some (filter (λ t, t_o t = o) R))).
Proof. exact (λ H, cached_o_ok _ _ x l c A R o (proj1 (reached_good _ _ _ H)) (proj2 (reached_good _ _ _ H))). Qed.
Print Assumptions C33_by_object_partial.
(** when there is none, those of another object are returned. *)
Definition by_object_calls : list (list lname * scall) := three_layers ++ [([], SGet nC)].
Definition by_object_state : gstate := final (script true by_object_calls ∅ ∅).
Lemma by_object_reached : reached true (script_trace by_object_calls (outcomes (script true by_object_calls ∅ ∅))) by_object_state.
Proof. apply script_final; [apply ex_calls_ok; [exact three_ok|by repeat constructor]|apply runs_some; by vm_compute]. Qed.
Theorem C33_by_object_refuted : ∃ tr g x A R, reached true tr g ∧
  cached_additions_o (g_store g) (g_cache g) x 2 = Some (Some A) ∧ direct_additions_o (g_store g) x 2 = Some (Some []) ∧
  cached_removals_o (g_store g) (g_cache g) x 2 = Some (Some R) ∧ direct_removals_o (g_store g) x 2 = Some (Some []) ∧
  (∃ t, t ∈ A ∧ t_o t ≠ 2) ∧ ∃ t, t ∈ R ∧ t_o t ≠ 2.
Proof.
  exists (script_trace by_object_calls (outcomes (script true by_object_calls ∅ ∅))), by_object_state, nC, [mkt 2 2 4], [mkt 1 2 3].
  split; [exact by_object_reached|].
  split_and!; try (vm_compute; reflexivity).
  - exists (mkt 2 2 4). split; [left|done].
  - exists (mkt 1 2 3). split; [left|done].
Qed.
Print Assumptions C33_by_object_refuted.
Example C33_by_object_example : direct_additions_o (g_store by_object_state) nC 4 = Some (Some [mkt 2 2 4]) ∧
  cached_additions_o (g_store by_object_state) (g_cache by_object_state) nC 4 = Some (Some [mkt 2 2 4]) ∧
  ∃ l c, stored (g_store by_object_state) nC ((nC, l) :: c) ∧ l_additions l = Some [mkt 2 2 4].
Proof.
  split; [vm_compute; reflexivity|]. split; [vm_compute; reflexivity|].
  destruct (C38_created_is_stored _ _ _ 0 (SChild (@rev _) id nB ex_ops3) nC by_object_reached) as [c Hc].
  { vm_compute. do 5 (apply elem_of_list_further). apply elem_of_list_here. }
  destruct (stored_ne _ _ _ Hc) as (l & c' & ->). exists l, c'. split; [exact Hc|].
  assert (Hf : (s_files (g_store by_object_state) nC ≫= l_additions) = Some [mkt 2 2 4]) by (vm_compute; reflexivity).
  destruct (stored_head _ _ _ _ Hc) as [_ E]. rewrite E in Hf. exact Hf.
Qed.

(** ** C36.  Ancestor queries follow the parent files. *)
Theorem C36_is_ancestor cached tr g x a : reached cached tr g →
  ∃ b, is_ancestor (fuel_of (g_store g)) (g_store g) x a = Ok b ∧ (b = true ↔ rtc (child_of (g_store g)) x a).
Proof. exact (λ H, match good_ancestry _ x (proj1 (reached_good _ _ _ H)) with ex_intro _ ns E => ancestor_iff _ x ns a E end). Qed.
Print Assumptions C36_is_ancestor.
Theorem C36_stack_names cached tr g x : reached cached tr g →
  ∃ ns, ancestry (g_store g) x ns ∧ stack_names (g_store g) x = Some (reverse ns).
Proof. exact (λ H, match good_ancestry _ x (proj1 (reached_good _ _ _ H)) with ex_intro _ ns E => ex_intro _ ns (conj E (stack_names_ok _ x ns E)) end). Qed.
Print Assumptions C36_stack_names.
Theorem C36_stack_names_upto cached tr g x ns a : reached cached tr g → ancestry (g_store g) x ns →
  (tc (child_of (g_store g)) x a → ∃ ns1 ns2, ns = ns1 ++ ns2 ∧ ancestry (g_store g) a ns2 ∧ stack_names_upto (g_store g) x a = Ok (reverse ns1)) ∧
  (¬ tc (child_of (g_store g)) x a → stack_names_upto (g_store g) x a = Err NotFound).
Proof. exact (λ _, stack_names_upto_ok (g_store g) x ns a). Qed.
Print Assumptions C36_stack_names_upto.
Example C36_example : stack_names (g_store (ex_state true)) nC = Some [nA; nB; nC] ∧
  stack_names_upto (g_store (ex_state true)) nC nA = Ok [nB; nC] ∧ stack_names_upto (g_store (ex_state true)) nA nA = Err NotFound ∧
  is_ancestor 10 (g_store (ex_state true)) nC nA = Ok true ∧ is_ancestor 10 (g_store (ex_state true)) nF nB = Ok false.
Proof. by vm_compute. Qed.

(** ** C39.  A layer that is not finished does no harm. *)
(** only layers that are stored completely, with their ancestors, are ever loaded *)
Theorem C39_loaded_is_complete cached tr g t x L : reached cached tr g → GDone t (SGet x) (Ok (RLayer (Some L))) ∈ tr →
  l_name L = Some x ∧ ∃ c, stored (g_store g) x c ∧ l_parent L = fst <$> c !! 1 ∧ same_answers (layers L) c.*2.
Proof. exact (loaded_is_stored cached tr g t x L). Qed.
Print Assumptions C39_loaded_is_complete.
(** every other layer still loads, also when the process stops at any point of any calls; C50 has the points within the
    writing of a rollup file *)
Theorem C39_others_load cached tr g g1 tr' g' x c t r : reached cached tr g → stored (g_store g) x c →
  gstep cached g (Some GCrash) g1 → gexec cached g1 tr' g' → GDone t (SGet x) r ∈ tr' →
  ∃ L, r = Ok (RLayer (Some L)) ∧ l_name L = Some x ∧ l_parent L = fst <$> c !! 1 ∧ same_answers (layers L) c.*2.
Proof. exact (loads_after_crash cached tr g g1 tr' g' x c t r). Qed.
Print Assumptions C39_others_load.
(** the head of a named graph is stored completely, at every moment *)
Theorem C39_head_is_complete cached tr its g h n l x : cexec cached tr its g h → label_after n its (Some l) → lb_layer l = Some x →
  ∃ c, stored (g_store g) x c.
Proof. exact (head_is_stored cached tr its g h n l x). Qed.
Print Assumptions C39_head_is_complete.
(** the ancestors that [set_head] looks at are those of the parent files *)
Theorem C39_head_ancestors cached tr its g h a x : cexec cached tr its g h → x ∈ h_layers h →
  ancestor h a x ↔ rtc (child_of (g_store g)) x a.
Proof. exact (ancestor_files cached tr its g h a x). Qed.
Print Assumptions C39_head_ancestors.

(** a label is made, and its head set to the second layer *)
Definition hn : bytes := [120].
Definition head_items : list hitem :=
  [HItem None None; HItem None None; HItem (Some (EvCreate 0 hn (Some 0) (Ok (Label hn None 0)))) None; HItem None None;
   HItem (Some (EvGet 0 hn (Some 0) (Ok (Some (Label hn None 0))))) None;
   HItem (Some (EvSet 0 (Label hn None 0) (Label hn (Some nB) 1) (Some 0) (Ok (Some (Label hn (Some nB) 1))))) (Some (0, SetHead hn nB, RBool true))].
Lemma head_example cached tr g : reached cached tr g → GCrash ∉ tr → held tr nB →
  s_parent (g_store g) nB = Some nA → s_parent (g_store g) nA = None →
  ∃ h, cexec cached tr head_items g h ∧ label_after hn head_items (Some (Label hn (Some nB) 1)).
Proof.
  intros H Hn Hh HB HA.
  eexists. split.
  - unfold head_items. pose proof (gexec_cexec _ _ _ H Hn) as C.
    eapply c_head in C; [|eapply (h_commit _ nA None); [apply not_elem_of_empty|done]|].
    2: { cbn. intros x Hx _. assert (x = nA) as -> by set_solver. split; [|by rewrite HA]. exists nB. split; [done|]. by apply rtc_once. }
    eapply c_head in C; [|eapply (h_commit _ nB (Some nA)); cbn; [|set_solver]|].
    2: { intros [E%elem_of_singleton|E]%elem_of_union; [discriminate E|by apply not_elem_of_empty in E]. }
    2: { cbn. intros x Hx Hni. assert (x = nB) as -> by set_solver. split; [|by rewrite HB]. exists nB. split; [done|]. apply rtc_refl. }
    eapply c_head in C; [|by eapply (h_other _ (EvCreate 0 hn (Some 0) (Ok (Label hn None 0))))|intros x Hx Hni; exfalso; exact (Hni Hx)].
    eapply c_head in C; [|by eapply (h_call _ 0 (SetHead hn nB)); [|cbn; set_solver]|intros x Hx Hni; exfalso; exact (Hni Hx)].
    eapply c_head in C; [|by eapply (h_get _ 0 (SetHead hn nB) (Some 0) (Label hn None 0))|intros x Hx Hni; exfalso; exact (Hni Hx)].
    eapply c_head in C; [|by eapply (h_set _ 0 (SetHead hn nB) (Label hn None 0) nB _ (Some 0) (Some (Label hn (Some nB) 1)))|intros x Hx Hni; exfalso; exact (Hni Hx)].
    exact C.
  - unfold label_after. change (on_name hn (levs head_items)) with
      [EvCreate 0 hn (Some 0) (Ok (Label hn None 0)); EvGet 0 hn (Some 0) (Ok (Some (Label hn None 0)));
       EvSet 0 (Label hn None 0) (Label hn (Some nB) 1) (Some 0) (Ok (Some (Label hn (Some nB) 1)))].
    eapply history_cons; [apply name_file, reg_create|]. eapply history_cons; [apply name_file, (reg_get (Label hn None 0))|].
    eapply history_cons; [apply name_file, reg_set; done|]. constructor.
Qed.
Definition no_crash (tr : list gev) : bool := forallb (λ e, match e with GCrash => false | _ => true end) tr.
Lemma no_crash_ok tr : no_crash tr = true → GCrash ∉ tr.
Proof. intros H Hin. apply elem_of_list_In in Hin. unfold no_crash in H. by apply forallb_forall with (x := GCrash) in H. Qed.
Example C39_example : ∃ h, cexec true (ex_trace true) head_items (ex_state true) h ∧ label_after hn head_items (Some (Label hn (Some nB) 1)).
Proof.
  apply head_example; [apply ex_reached|apply no_crash_ok; vm_compute; reflexivity| |vm_compute; reflexivity|vm_compute; reflexivity].
  left. exists 0, (SChild id (@rev _) nA ex_ops2). vm_compute. do 3 (apply elem_of_list_further). apply elem_of_list_here.
Qed.

(** ** C40.  Listing the layers *)
(** The memory store lists all layers that are stored, but also unfinished ones *)
Theorem C40_memory_lists_all s x c : stored s x c → ∃ ns, memory_layers s = Ok ns ∧ x ∈ ns.
Proof. exact (memory_lists_all s x c). Qed.
Print Assumptions C40_memory_lists_all.
Theorem C40_memory_refuted : ∃ tr g x ns, reached false tr g ∧ memory_layers (g_store g) = Ok ns ∧ x ∈ ns ∧ ¬ ∃ c, stored (g_store g) x c.
Proof. exact memory_lists_unfinished. Qed.
Print Assumptions C40_memory_refuted.
(** The directory store looks for layers in the wrong place and fails as soon as there is one *)
Theorem C40_directory_refuted s : s ≠ ∅ → directory_layers s = Err OtherError.
Proof. exact (directory_layers_fail s). Qed.
Print Assumptions C40_directory_refuted.
Example C40_example : g_store (ex_state false) ≠ ∅ ∧ directory_layers (g_store (ex_state false)) = Err OtherError ∧
  match memory_layers (g_store (ex_state false)) with Ok ns => length ns = 8 | _ => False end.
Proof. split; [|by vm_compute]. apply (some_nonempty _ nA). vm_compute. reflexivity. Qed.
