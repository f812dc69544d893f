(** C70.  Every layer in the store was returned by a call.  The executions are those of any number of threads, with nothing left
    out of account but odd imports ([aexec], StoreAny.v; C38_any_is_more).  The specification is in [SpecGiven]. *)
From Verif Require Import Prelude Succinct TripleFiles Merge Layer Builder Rollup Squash MergeBase Names Spec Store SpecStore StoreApi StoreAny StoreAnyFacts SpecGiven GivenFacts PropertiesStore.

(** When no call is under way and the process has not stopped meanwhile, whatever has files has been returned by a call, or
    requested in an import that succeeded. *)
Theorem C70_given cached tr g x l : aexec cached gstate_init tr g → finished tr g → s_files (g_store g) x = Some l →
  ∃ t k r, GDone t k r ∈ tr ∧ gave k r x.
Proof. exact (made_given_init cached tr g x l). Qed.
Print Assumptions C70_given.
(** The same from any point on: what is new was returned since then. *)
Theorem C70_given_since cached g tr g' x l : aexec cached g tr g' → g_threads g = ∅ → finished tr g' → s_files (g_store g') x = Some l →
  is_Some (s_files (g_store g) x) ∨ ∃ t k r, GDone t k r ∈ tr ∧ gave k r x.
Proof. exact (made_given cached g tr g' x l). Qed.
Print Assumptions C70_given_since.
(** Calls that fail, however many at a time, make no layer and change none; neither do those that only load.  No layer that was
    incomplete, because the process had stopped while it was made, is completed by them either. *)
Theorem C70_failed cached tr0 g tr g' : aexec cached gstate_init tr0 g → aexec cached g tr g' → g_threads g = ∅ → finished tr g' →
  (∀ t k r, GDone t k r ∈ tr → (∀ n, r ≠ Ok (RName n)) ∧ r ≠ Ok RDone) →
  (∀ x, s_files (g_store g') x = s_files (g_store g) x) ∧ ∀ x c, stored (g_store g') x c ↔ stored (g_store g) x c.
Proof. exact (failed_changes cached tr0 g tr g'). Qed.
Print Assumptions C70_failed.

(** Three layers are made, one of them is rolled up; then four calls fail and one loads a layer. *)
Definition given_calls : list (list lname * scall) := three_layers ++ [([nD], SRollup nC)].
Definition failing_calls : list (list lname * scall) :=
  [([nE], SRollupUpto nB nC); ([nF], SImprecise nB nC); ([], SSquashUpto nB nC); ([], SRollup nG); ([], SGet nB)].
Definition makes_nothing (r : outcome sres) : bool := match r with Ok (RName _) | Ok RDone => false | _ => true end.
Lemma script_two {X} (f : store → list (outcome sres) → X) cached ks ks' v :
  match script cached ks ∅ ∅ with
  | Some (_, s, c) => match script cached ks' s c with Some (rs', _, _) => Some (f s rs') | None => None end
  | None => None
  end = Some v → ∃ rs s c rs' s' c', script cached ks ∅ ∅ = Some (rs, s, c) ∧ script cached ks' s c = Some (rs', s', c') ∧ f s rs' = v.
Proof.
  destruct (script cached ks ∅ ∅) as [[[rs s] c]|]; [|done]. destruct (script cached ks' s c) as [[[rs' s'] c']|] eqn:E; [|done].
  intros [= <-]. by exists rs, s, c, rs', s', c'.
Qed.
Example C70_example : ∃ tr g tr' g', aexec true gstate_init tr g ∧ finished tr g ∧ is_Some (s_files (g_store g) nD) ∧
  aexec true g tr' g' ∧ finished tr' g' ∧ length tr' = 10 ∧ (∀ t k r, GDone t k r ∈ tr' → (∀ n, r ≠ Ok (RName n)) ∧ r ≠ Ok RDone).
Proof.
  destruct (script_two (λ s rs', (match s_files s nD with Some _ => true | None => false end, length rs', forallb makes_nothing rs')) true given_calls failing_calls (true, 5, true))
    as (rs & s & c & rs' & s' & c' & E & E' & H); [vm_compute; reflexivity|]. injection H as Hd Hl Hr.
  assert (Forall (λ nk : list lname * scall, call_ok nk.2) given_calls) as Hok.
  { clear. apply Forall_app. split; [apply three_ok|by repeat constructor]. }
  exists (script_trace given_calls rs), (GState s c ∅), (script_trace failing_calls rs'), (GState s' c' ∅).
  split; [apply gexec_aexec; exact (script_gexec _ given_calls _ _ _ _ _ Hok E)|]. split; [split; [reflexivity|apply script_no_crash]|].
  split; [clear E E'; cbn [g_store]; destruct (s_files s nD); [by eexists|discriminate Hd]|].
  assert (Forall (λ nk : list lname * scall, call_ok nk.2) failing_calls) as Hok' by (clear; by repeat constructor).
  split; [apply gexec_aexec; exact (script_gexec _ failing_calls _ _ _ _ _ Hok' E')|]. split; [split; [reflexivity|apply script_no_crash]|].
  clear E E'. split; [by destruct rs' as [|? [|? [|? [|? [|? [|]]]]]]|].
  intros t k r Hin%script_results. rewrite forallb_forall in Hr. specialize (Hr r (proj1 (elem_of_list_In _ _) Hin)). destruct r as [[]| |]; done.
Qed.
(** If the process stops when the files are written and the call has not returned, there is a layer that nobody was given. *)
Theorem C70_stopped_refuted : ∃ cached tr g x l, aexec cached gstate_init tr g ∧ g_threads g = ∅ ∧ stored (g_store g) x [(x, l)] ∧
  ∀ t k r, GDone t k r ∉ tr.
Proof. exact stopped_leaves. Qed.
Print Assumptions C70_stopped_refuted.
(** What is left of a call that failed is not always nothing: a rollup up to a layer that is no ancestor finds that out when it has
    made a directory, which stays.  The memory store lists it as a layer, and loading it fails. *)
Definition left_behind : list (list lname * scall) := three_layers ++ [([nE], SRollupUpto nB nC); ([], SGet nE)].
Theorem C70_left_behind_refuted : ∃ tr g x ns, reached true tr g ∧ finished tr g ∧ memory_layers (g_store g) = Ok ns ∧ x ∈ ns ∧
  (∀ c, ¬ stored (g_store g) x c) ∧ GDone 0 (SGet x) (Err NotFound) ∈ tr.
Proof.
  destruct (script_facts (λ rs s, (rs !! 4, match s !! nE with Some d => Some (d_files d) | None => None end)) (script true left_behind ∅ ∅)
    (Some (Err NotFound), Some None)) as (rs & s & c & E & H); [vm_compute; reflexivity|]. injection H as Hr Hd.
  assert (Forall (λ nk : list lname * scall, call_ok nk.2) left_behind) as Hok.
  { clear. apply Forall_app. split; [apply three_ok|by repeat constructor]. }
  exists (script_trace left_behind rs), (GState s c ∅), nE. eexists. split; [exact (script_reached _ _ _ _ _ Hok E)|]. clear E.
  split; [split; [reflexivity|apply script_no_crash]|]. split; [reflexivity|]. cbn [g_store].
  destruct (s !! nE) as [d|] eqn:Ed; [|discriminate Hd]. injection Hd as Hd. split; [apply elem_of_elements, elem_of_dom; by exists d|]. split.
  - intros c' Hc. assert (s_files s nE = None) as Hn by (unfold s_files; by rewrite Ed). inversion Hc; congruence.
  - destruct rs as [|r0 [|r1 [|r2 [|r3 [|r4 rs]]]]]; try discriminate Hr. injection Hr as ->. apply (elem_of_list_lookup_2 _ 9). reflexivity.
Qed.
Print Assumptions C70_left_behind_refuted.
