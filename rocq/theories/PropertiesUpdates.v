(** C60: an update of a named graph that the caller was told about is not lost.  Commits, calls on named graphs and
    everything else run interleaved in any way ([StoreHead], [StoreProcs]); the callers that update the graph use
    [set_head].  The vocabulary is in [SpecUpdates]. *)
From Verif Require Import Prelude Succinct TripleFiles Merge Layer Builder Rollup Squash MergeBase Names Spec LabelConc LabelSpec Head HeadSpec HeadFacts
  Store SpecStore StoreHead StoreHeadFacts StoreProcs StoreProcsFacts SpecUpdates UpdatesFacts PropertiesLayer PropertiesStore.

(** Whatever others did since then, also when the process was stopped and started again, the graph has a head that carries
    on from that layer, and everyone who has loaded that head saw these triples. *)
Theorem C60_kept cached tr its g h n x : cexec cached tr its g h → serves n its → only_set_head n its → told n x its →
  ∃ y newer older T T', head_now n its y ∧ carries_on (g_store g) x y newer older T T' ∧
    ∀ t L, GDone t (SGet y) (Ok (RLayer (Some L))) ∈ tr → shown (layers L) = Some T'.
Proof. exact (kept_one cached tr its g h n x). Qed.
Print Assumptions C60_kept.
(** In terms of the calls: a caller commits a layer and makes it the head.  Each triple that they added is in the graph,
    unless a newer layer takes it away; each one that they removed is not, unless a newer layer puts it back. *)
Theorem C60_committed cached tr its g h n x t nvord prord p cs : cexec cached tr its g h → serves n its → only_set_head n its →
  GDone t (SChild nvord prord p cs) (Ok (RName x)) ∈ tr → told n x its →
  ∃ cp y newer older T T', stored (g_store g) p cp ∧ head_now n its y ∧ carries_on (g_store g) x y newer older T T' ∧
    (∀ vt, vt ∈ added cp.*2 cs → vt ∉ removed cp.*2 cs → vt ∈ T' ∨ taken_away newer older vt) ∧
    (∀ vt, vt ∈ removed cp.*2 cs → vt ∉ added cp.*2 cs → vt ∉ T' ∨ put_in newer older vt).
Proof. exact (committed_one cached tr its g h n x t nvord prord p cs). Qed.
Print Assumptions C60_committed.
(** Of two callers that are both told so, one has built on the layer of the other. *)
Theorem C60_one_after_the_other cached tr its g h n x x' : cexec cached tr its g h → serves n its → only_set_head n its →
  told n x its → told n x' its → rtc (child_of (g_store g)) x x' ∨ rtc (child_of (g_store g)) x' x.
Proof. exact (λ H, told_two (g_store g) its h n x x' (cexec_hexec _ _ _ _ _ H) (cexec_agrees _ _ _ _ _ H)). Qed.
Print Assumptions C60_one_after_the_other.
(** The same when the callers are in several processes. *)
Theorem C60_kept_processes cached tr its g h n x : qexec cached tr its g h → serves n its → only_set_head n its → told n x its →
  ∃ y newer older T T', head_now n its y ∧ carries_on (p_store g) x y newer older T T' ∧
    ∀ i t L, PDone i t (SGet y) (Ok (RLayer (Some L))) ∈ tr → shown (layers L) = Some T'.
Proof. exact (kept_several cached tr its g h n x). Qed.
Print Assumptions C60_kept_processes.
Theorem C60_committed_processes cached tr its g h n x i t nvord prord p cs : qexec cached tr its g h → serves n its → only_set_head n its →
  PDone i t (SChild nvord prord p cs) (Ok (RName x)) ∈ tr → told n x its →
  ∃ cp y newer older T T', stored (p_store g) p cp ∧ head_now n its y ∧ carries_on (p_store g) x y newer older T T' ∧
    (∀ vt, vt ∈ added cp.*2 cs → vt ∉ removed cp.*2 cs → vt ∈ T' ∨ taken_away newer older vt) ∧
    (∀ vt, vt ∈ removed cp.*2 cs → vt ∉ added cp.*2 cs → vt ∉ T' ∨ put_in newer older vt).
Proof. exact (committed_several cached tr its g h n x i t nvord prord p cs). Qed.
Print Assumptions C60_committed_processes.
Theorem C60_one_after_the_other_processes cached tr its g h n x x' : qexec cached tr its g h → serves n its → only_set_head n its →
  told n x its → told n x' its → rtc (child_of (p_store g)) x x' ∨ rtc (child_of (p_store g)) x' x.
Proof. exact (λ H, told_two (p_store g) its h n x x' (qexec_hexec _ _ _ _ _ H) (qexec_agrees _ _ _ _ _ H)). Qed.
Print Assumptions C60_one_after_the_other_processes.

(** ** Example: the head is set to the second layer, then another caller sets it to the third, which builds on it and
    takes one triple away. *)
Definition two_updates : list hitem :=
  head_items ++
  [HItem None None; HItem None None; HItem (Some (EvGet 1 hn (Some 0) (Ok (Some (Label hn (Some nB) 1))))) None; HItem None None; HItem None None;
   HItem (Some (EvSet 1 (Label hn (Some nB) 1) (Label hn (Some nC) 2) (Some 0) (Ok (Some (Label hn (Some nC) 2))))) (Some (1, SetHead hn nC, RBool true))].
Lemma two_updates_exec cached tr g : reached cached tr g → GCrash ∉ tr → held tr nC →
  s_parent (g_store g) nC = Some nB → s_parent (g_store g) nB = Some nA → s_parent (g_store g) nA = None →
  ∃ h, cexec cached tr two_updates g h.
Proof.
  intros H Hn Hh HC HB HA. eexists. unfold two_updates, head_items. cbn [app]. pose proof (gexec_cexec _ _ _ H Hn) as C.
  eapply c_head in C; [|eapply (h_commit _ nA None); [apply not_elem_of_empty|done]|].
  2: { cbn. intros x Hx _. assert (x = nA) as -> by set_solver. split; [|by rewrite HA]. exists nC. split; [done|]. eapply rtc_l; [exact HC|by apply rtc_once]. }
  eapply c_head in C; [|eapply (h_commit _ nB (Some nA)); cbn; [|set_solver]|].
  2: { intros [E%elem_of_singleton|E]%elem_of_union; [discriminate E|by apply not_elem_of_empty in E]. }
  2: { cbn. intros x Hx Hni. assert (x = nB) as -> by set_solver. split; [|by rewrite HB]. exists nC. split; [done|]. by apply rtc_once. }
  eapply c_head in C; [|by eapply (h_other _ (EvCreate 0 hn (Some 0) (Ok (Label hn None 0))))|intros x Hx Hni; exfalso; exact (Hni Hx)].
  eapply c_head in C; [|by eapply (h_call _ 0 (SetHead hn nB)); [|cbn; set_solver]|intros x Hx Hni; exfalso; exact (Hni Hx)].
  eapply c_head in C; [|by eapply (h_get _ 0 (SetHead hn nB) (Some 0) (Label hn None 0))|intros x Hx Hni; exfalso; exact (Hni Hx)].
  eapply c_head in C; [|by eapply (h_set _ 0 (SetHead hn nB) (Label hn None 0) nB _ (Some 0) (Some (Label hn (Some nB) 1)))|intros x Hx Hni; exfalso; exact (Hni Hx)].
  eapply c_head in C; [|eapply (h_commit _ nC (Some nB)); cbn; [|set_solver]|].
  2: { intros [E%elem_of_singleton|[E%elem_of_singleton|E]%elem_of_union]%elem_of_union; [discriminate E|discriminate E|by apply not_elem_of_empty in E]. }
  2: { cbn. intros x Hx Hni. assert (x = nC) as -> by set_solver. split; [|by rewrite HC]. exists nC. split; [done|]. apply rtc_refl. }
  eapply c_head in C; [|by eapply (h_call _ 1 (SetHead hn nC)); [|cbn; set_solver]|intros x Hx Hni; exfalso; exact (Hni Hx)].
  eapply c_head in C; [|by eapply (h_get _ 1 (SetHead hn nC) (Some 0) (Label hn (Some nB) 1))|intros x Hx Hni; exfalso; exact (Hni Hx)].
  eapply c_head in C; [|by eapply (h_walk_up _ 1 (SetHead hn nC) (Label hn (Some nB) 1) nB nC nB)|intros x Hx Hni; exfalso; exact (Hni Hx)].
  eapply c_head in C; [|by eapply (h_walk_found _ 1 (SetHead hn nC) (Label hn (Some nB) 1) nB)|intros x Hx Hni; exfalso; exact (Hni Hx)].
  eapply c_head in C; [|by eapply (h_set _ 1 (SetHead hn nC) (Label hn (Some nB) 1) nC _ (Some 0) (Some (Label hn (Some nC) 2)))|intros x Hx Hni; exfalso; exact (Hni Hx)].
  exact C.
Qed.
Example C60_label : serves hn two_updates ∧ only_set_head hn two_updates ∧ told hn nB two_updates ∧ told hn nC two_updates ∧ head_now hn two_updates nC.
Proof.
  assert (label_after hn two_updates (Some (Label hn (Some nC) 2))) as Hl.
  { unfold label_after. change (on_name hn (levs two_updates)) with
      [EvCreate 0 hn (Some 0) (Ok (Label hn None 0)); EvGet 0 hn (Some 0) (Ok (Some (Label hn None 0)));
       EvSet 0 (Label hn None 0) (Label hn (Some nB) 1) (Some 0) (Ok (Some (Label hn (Some nB) 1)));
       EvGet 1 hn (Some 0) (Ok (Some (Label hn (Some nB) 1)));
       EvSet 1 (Label hn (Some nB) 1) (Label hn (Some nC) 2) (Some 0) (Ok (Some (Label hn (Some nC) 2)))].
    eapply history_cons; [apply name_file, reg_create|]. eapply history_cons; [apply name_file, (reg_get (Label hn None 0))|].
    eapply history_cons; [apply name_file, reg_set; done|]. eapply history_cons; [apply name_file, (reg_get (Label hn (Some nB) 1))|].
    eapply history_cons; [apply name_file, reg_set; done|]. constructor. }
  split; [split; [|by eexists]|split; [|split; [|split]]].
  - intros it t m i l Hin. unfold two_updates, head_items in Hin. cbn [app] in Hin. rewrite !elem_of_cons, elem_of_nil in Hin.
    intros El. repeat (destruct Hin as [->|Hin]; [cbn in El; by simplify_eq|]). done.
  - intros it t op r Hin. unfold two_updates, head_items in Hin. cbn [app] in Hin. rewrite !elem_of_cons, elem_of_nil in Hin.
    intros El _. left. repeat (destruct Hin as [->|Hin]; [cbn in El; simplify_eq; by eexists|]). done.
  - eexists _, 0. split; [apply (elem_of_list_lookup_2 _ 5); reflexivity|reflexivity].
  - eexists _, 1. split; [apply (elem_of_list_lookup_2 _ 11); reflexivity|reflexivity].
  - by exists (Label hn (Some nC) 2).
Qed.
Example C60_example : ∃ h, cexec true (ex_trace true) two_updates (ex_state true) h.
Proof.
  apply two_updates_exec; [apply ex_reached|apply no_crash_ok; vm_compute; reflexivity| |vm_compute; reflexivity|vm_compute; reflexivity|vm_compute; reflexivity].
  left. exists 0, (SChild (@rev _) id nB ex_ops3). vm_compute. do 5 (apply elem_of_list_further). apply elem_of_list_here.
Qed.
(** what the second layer shows, and what the head shows: the third layer takes what the cow says away, and puts in what
    the duck says *)
Example C60_triples : shown ex_child = Some [(s_cow, s_likes, inl s_duck); (s_cow, s_says, inr v_moo); (s_duck, s_likes, inl s_cow)] ∧
  shown ex_top = Some [(s_cow, s_likes, inl s_duck); (s_duck, s_likes, inl s_cow); (s_duck, s_says, inr v_quack)].
Proof. split; vm_compute; reflexivity. Qed.
