(** C38, for all calls: [aexec cached g tr g'] ranges over the executions of any number of threads with crashes, and
    unlike [reached] it has the calls that are known to go wrong: rollups of rollups, rollups with a wrong bound, merges
    of layers with id maps, and builders that are given ids of no triple.  (Imports are into unused names.) *)
From Verif Require Import Prelude Succinct TripleFiles Merge Layer Builder Rollup Squash MergeBase Names Spec
  Store SpecStore StoreAny StoreFacts StoreApi StoreAnyFacts PropertiesLayer PropertiesStore.

(** ** C38.  Files are written once: whatever is called, the files of a directory and its parent never change *)
Theorem C38_written_once cached tr g tr' g' : aexec cached gstate_init tr g → aexec cached g tr' g' →
  (∀ x l, s_files (g_store g) x = Some l → s_files (g_store g') x = Some l) ∧
  (∀ x p, s_parent (g_store g) x = Some p → s_parent (g_store g') x = Some p).
Proof. exact (λ H H', conj (kept_files _ _ (aexec_kept cached tr g tr' g' H H')) (kept_parent _ _ (aexec_kept cached tr g tr' g' H H'))). Qed.
Print Assumptions C38_written_once.
Theorem C38_stored_forever_any cached tr g tr' g' x c : aexec cached gstate_init tr g → aexec cached g tr' g' →
  stored (g_store g) x c → stored (g_store g') x c.
Proof. exact (λ H H', kept_stored _ _ x c (aexec_kept cached tr g tr' g' H H')). Qed.
Print Assumptions C38_stored_forever_any.
(** and while no layer below has a rollup, loading it anew gives exactly what is in its files *)
Theorem C38_loads_any cached tr g tr' g' x c : aexec cached gstate_init tr g → stored (g_store g) x c → aexec cached g tr' g' →
  Forall (λ e, s_rollup (g_store g') e.1 = None) c →
  ∃ L, run [] (g_store g') ∅ (get_layer false x) = Some (Ok (Some L), g_store g', ∅) ∧ n_name <$> L = c.*1 ∧ layers L = c.*2.
Proof. exact (any_loads cached tr g tr' g' x c). Qed.
Print Assumptions C38_loads_any.
(** every execution of the other theorems is one of these *)
Theorem C38_any_is_more cached g tr g' : gexec cached g tr g' → aexec cached g tr g'.
Proof. exact (gexec_aexec cached g tr g'). Qed.
Print Assumptions C38_any_is_more.

(** three layers; then a rollup of the third and then a rollup of that rollup.  The
    second layer is stored as before and loads *)
Lemma three_any ks : Forall (λ nk : list lname * scall, match nk.2 with SBase _ _ _ | SChild _ _ _ _ | SImport _ _ => False | _ => True end) ks →
  Forall (λ nk, call_ok nk.2 ∧ is_import nk.2 = false) (three_layers ++ ks).
Proof.
  intros H. apply Forall_app. split.
  - repeat (apply Forall_cons; split; [split; [split; first [apply id_order|apply rev_order]|done]|]). constructor.
  - eapply Forall_impl; [exact H|]. intros [? []]; done.
Qed.
Lemma script_twice {X} (f : store → store → X) cached ks ks' v :
  match script_any cached ks ∅ ∅ with
  | Some (_, s, c) => match script_any cached ks' s c with Some (_, s', _) => Some (f s s') | None => None end
  | None => None
  end = Some v → ∃ rs s c rs' s' c', script_any cached ks ∅ ∅ = Some (rs, s, c) ∧ script_any cached ks' s c = Some (rs', s', c') ∧ f s s' = v.
Proof.
  destruct (script_any cached ks ∅ ∅) as [[[rs s] c]|]; [|done]. destruct (script_any cached ks' s c) as [[[rs' s'] c']|] eqn:E; [|done].
  intros [= <-]. by exists rs, s, c, rs', s', c'.
Qed.
Definition bad_calls : list (list lname * scall) := [([nD], SRollupUpto nC nA); ([nE], SRollup nD)].
Example C38_any_example : ∃ tr g tr' g' c L, aexec true gstate_init tr g ∧ aexec true g tr' g' ∧ stored (g_store g) nB c ∧ c.*2 = drop 1 ex_top ∧
  s_rollup (g_store g') nC = Some nD ∧ s_rollup (g_store g') nD = Some nE ∧
  run [] (g_store g') ∅ (get_layer false nB) = Some (Ok (Some L), g_store g', ∅) ∧ layers L = drop 1 ex_top.
Proof.
  destruct (script_twice (λ s s', (s_files s nB, s_parent s nB, s_files s nA, s_parent s nA, (s_rollup s' nA, s_rollup s' nB, s_rollup s' nC, s_rollup s' nD)))
    true three_layers bad_calls (ex_top !! 1, Some nA, ex_top !! 2, None, (None, None, Some nD, Some nE)))
    as (rs & s & c & rs' & s' & c' & E & E' & H); [vm_compute; reflexivity|].
  apply pair_equal_spec in H as [H Hr]. apply pair_equal_spec in H as [H H4]. apply pair_equal_spec in H as [H H3]. apply pair_equal_spec in H as [H1 H2].
  apply pair_equal_spec in Hr as [Hr H8]. apply pair_equal_spec in Hr as [Hr H7]. apply pair_equal_spec in Hr as [H5 H6].
  destruct (ex_top !! 1) as [lB|] eqn:EB; [|vm_compute in EB; discriminate EB]. destruct (ex_top !! 2) as [lA|] eqn:EA; [|vm_compute in EA; discriminate EA].
  assert (stored s nB [(nB, lB); (nA, lA)]) as Hst.
  { apply (stored_child s nB lB nA); [exact H1| |exact H2|apply (stored_base s nA lA); [exact H3| |exact H4]].
    - vm_compute in EB. injection EB as <-. by eexists.
    - vm_compute in EA. injection EA as <-. reflexivity. }
  assert (aexec true gstate_init (script_trace three_layers rs) (GState s c ∅)) as A1.
  { eapply (script_aexec true three_layers); [|exact E]. rewrite <-(app_nil_r three_layers). apply three_any. constructor. }
  assert (aexec true (GState s c ∅) (script_trace bad_calls rs') (GState s' c' ∅)) as A2.
  { eapply script_aexec; [|exact E']. repeat constructor. }
  destruct (C38_loads_any _ _ _ _ _ nB _ A1 Hst A2) as (L & HL & _ & HL'); [repeat constructor; [exact H6|exact H5]|].
  assert (([(nB, lB); (nA, lA)] : list (lname * layer)).*2 = drop 1 ex_top) as Ed.
  { vm_compute in EB. vm_compute in EA. injection EB as <-. injection EA as <-. vm_compute. reflexivity. }
  exists (script_trace three_layers rs), (GState s c ∅), (script_trace bad_calls rs'), (GState s' c' ∅), [(nB, lB); (nA, lA)], L.
  split; [exact A1|]. split; [exact A2|]. split; [exact Hst|]. split; [exact Ed|]. split; [exact H7|]. split; [exact H8|]. split; [exact HL|]. rewrite HL'. exact Ed.
Qed.
