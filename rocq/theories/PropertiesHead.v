(** Properties of named graphs: C24 (the head only moves forward) and C25 (forced updates).  The
    executions are those of any number of callers, in any order ([Head]); [serves n its] says that
    the label store keeps its promise for the name [n] (C21), which all three stores do.  The
    specification is in [HeadSpec]. *)
From Verif Require Import Prelude Names LabelSeq LabelConc LabelSpec Head HeadSpec HeadFacts PropertiesLabel.

(** ** the label stores keep their promise *)
Theorem C24_directory_serves n its tr s : lexec tr s → ¬ deleted n tr → levs its = tr → serves n its.
Proof. exact (directory_serves n its tr s). Qed.
Print Assumptions C24_directory_serves.
Theorem C24_cached_serves n its cs : Forall call_ok cs.*2 → Forall (λ c, c ≠ CDelete n) cs.*2 →
  levs its = events cs (fst (run cd_call (CD ∅ ∅) cs.*2)) → serves n its.
Proof. exact (cached_serves n its cs). Qed.
Print Assumptions C24_cached_serves.
Theorem C24_memory_serves n its cs :
  (N.of_nat (length cs) ≤ u64_max)%N → Forall call_ok cs.*2 → Forall (λ c, ¬ is_delete c) cs.*2 →
  honest cs.*2 (fst (run mem_call ∅ cs.*2)) →
  levs its = events cs (fst (run mem_call ∅ cs.*2)) → serves n its.
Proof. exact (memory_serves n its cs). Qed.
Print Assumptions C24_memory_serves.

(** ** C24.  The head only moves forward. *)
(** [set_head] returned true: at that moment the head was unset or an ancestor of the new layer, and
    the new layer became the head *)
Theorem C24_forward its s n pre it post t x :
  hexec its s → serves n its → its = pre ++ it :: post → it_ret it = Some (t, SetHead n x, RBool true) →
  ∃ l nl, label_after n pre (Some l) ∧ label_after n (pre ++ [it]) (Some nl) ∧
    updates l nl ∧ lb_layer nl = Some x ∧ (lb_layer l = None ∨ ∃ a, lb_layer l = Some a ∧ ancestor s a x).
Proof. exact (set_head_forward its s n pre it post t x). Qed.
Print Assumptions C24_forward.
(** [set_head] returned false: the head it looked at is no ancestor of the new layer, or has been
    replaced since *)
Theorem C24_refused its s n pre it post t x :
  hexec its s → serves n its → its = pre ++ it :: post → it_ret it = Some (t, SetHead n x, RBool false) →
  ∃ l, seen n pre l ∧ ((∃ a, lb_layer l = Some a ∧ ¬ ancestor s a x) ∨
                        (∃ c, label_after n pre (Some c) ∧ (lb_version l < lb_version c)%N)).
Proof. exact (set_head_false its s n pre it post t x). Qed.
Print Assumptions C24_refused.
(** when all callers use [set_head], the heads form a chain, and the current head descends from all
    of them *)
Theorem C24_chain its s n c :
  hexec its s → serves n its → label_after n its c → only_set_head n its →
  StronglySorted (ancestor s) (heads n its) ∧
  ∀ h, h ∈ heads n its → ∃ l x, c = Some l ∧ lb_layer l = Some x ∧ ancestor s h x.
Proof. exact (heads_chain its s n c). Qed.
Print Assumptions C24_chain.

(** ** C25.  Forced head updates. *)
Theorem C25_version its s n pre it post t x v :
  hexec its s → serves n its → its = pre ++ it :: post → it_ret it = Some (t, ForceVersion n x v, RBool true) →
  ∃ l, label_after n pre (Some l) ∧ lb_version l = v ∧ label_after n (pre ++ [it]) (Some (Label n (Some x) (v + 1))).
Proof. exact (force_version_true its s n pre it post t x v). Qed.
Print Assumptions C25_version.
(** it is only refused when the version is another one *)
Theorem C25_version_refused its s n pre it post t x v :
  hexec its s → serves n its → its = pre ++ it :: post → it_ret it = Some (t, ForceVersion n x v, RBool false) →
  ∃ c, label_after n pre (Some c) ∧ lb_version c ≠ v ∧ label_after n (pre ++ [it]) (Some c).
Proof. exact (force_version_refused its s n pre it post t x v). Qed.
Print Assumptions C25_version_refused.
Theorem C25_force its s n pre it post t x :
  hexec its s → serves n its → its = pre ++ it :: post → it_ret it = Some (t, ForceHead n x, RDone) →
  ∃ l, label_after n pre (Some l) ∧ label_after n (pre ++ [it]) (Some (Label n (Some x) (lb_version l + 1))).
Proof. exact (force_head_done its s n pre it post t x). Qed.
Print Assumptions C25_force.
(** nothing else changes the head: every update is made by a call at the moment it returns success *)
Theorem C25_no_effect its s n it t l nl i r : hexec its s → serves n its → it ∈ its →
  it_lev it = Some (EvSet t l nl i (Ok (Some r))) →
  ∃ op, op_name op = lb_name l ∧ op_layer op = lb_layer nl ∧
    it_ret it = Some (t, op, match op with ForceHead _ _ => RDone | _ => RBool true end).
Proof. exact (update_returns its s n it t l nl i r). Qed.
Print Assumptions C25_no_effect.
(** [head_version] returns what the label is at that moment *)
Theorem C25_head_version its s n pre it post t x v :
  hexec its s → serves n its → its = pre ++ it :: post → it_ret it = Some (t, HeadVersion n, RHead x v) →
  label_after n pre (Some (Label n x v)).
Proof. exact (head_version_current its s n pre it post t x v). Qed.
Print Assumptions C25_head_version.

(** Four callers.  Two set the head at the same time, one of them fails and tries again; the third
    forces the head, first with an outdated version; the fourth reads it. *)
Definition hx_n := lx_n.
Definition hx_0 : label := Label hx_n None 0.
Definition hx_1 : label := Label hx_n (Some (lx_name 7)) 1.
Definition hx_2 : label := Label hx_n (Some (lx_name 8)) 2.
Definition hx_3 : label := Label hx_n (Some (lx_name 9)) 3.
Definition hx_set (k : N) : hop := SetHead hx_n (lx_name k).
Definition hx_items : list hitem := [
  HItem None None; HItem None None; HItem None None;
  HItem (Some (EvCreate 0 hx_n (Some 0) (Ok hx_0))) None;
  HItem None None; HItem None None;
  HItem (Some (EvGet 1 hx_n (Some 0) (Ok (Some hx_0)))) None;
  HItem (Some (EvGet 2 hx_n (Some 0) (Ok (Some hx_0)))) None;
  HItem (Some (EvSet 1 hx_0 hx_1 (Some 0) (Ok (Some hx_1)))) (Some (1, hx_set 7, RBool true));
  HItem (Some (EvSet 2 hx_0 (Label hx_n (Some (lx_name 8)) 1) (Some 0) (Ok None))) (Some (2, hx_set 8, RBool false));
  HItem None None;
  HItem (Some (EvGet 2 hx_n (Some 0) (Ok (Some hx_1)))) None;
  HItem None None; HItem None None;
  HItem (Some (EvSet 2 hx_1 hx_2 (Some 0) (Ok (Some hx_2)))) (Some (2, hx_set 8, RBool true));
  HItem None None;
  HItem (Some (EvGet 1 hx_n (Some 0) (Ok (Some hx_2)))) None;
  HItem None (Some (1, hx_set 9, RBool false))].
Definition hx_items' : list hitem := hx_items ++ [
  HItem None None;
  HItem (Some (EvGet 3 hx_n (Some 0) (Ok (Some hx_2)))) (Some (3, ForceVersion hx_n (lx_name 9) 1, RBool false));
  HItem None None;
  HItem (Some (EvGet 3 hx_n (Some 0) (Ok (Some hx_2)))) None;
  HItem (Some (EvSet 3 hx_2 hx_3 (Some 0) (Ok (Some hx_3)))) (Some (3, ForceVersion hx_n (lx_name 9) 2, RBool true));
  HItem None None;
  HItem (Some (EvGet 4 hx_n (Some 0) (Ok (Some hx_3)))) (Some (4, HeadVersion hx_n, RHead (Some (lx_name 9)) 3))].
Definition hx_calls : list (tid * lcall) :=
  [(0, CCreate hx_n); (1, CGet hx_n); (2, CGet hx_n); (1, CSet hx_0 (Some (lx_name 7))); (2, CSet hx_0 (Some (lx_name 8)));
   (2, CGet hx_n); (2, CSet hx_1 (Some (lx_name 8))); (1, CGet hx_n)].
Definition hx_calls' : list (tid * lcall) :=
  hx_calls ++ [(3, CGet hx_n); (3, CGet hx_n); (3, CSet hx_2 (Some (lx_name 9))); (4, CGet hx_n)].
Lemma hx_exec : ∃ s, hexec hx_items s ∧ ∃ s', hexec hx_items' s'.
Proof.
  pose proof hexec_nil as H.
  eapply hexec_step in H; [|eapply (h_commit _ (lx_name 7) None); [by vm_compute|done]].
  eapply hexec_step in H; [|eapply (h_commit _ (lx_name 8) (Some (lx_name 7))); [set_solver|set_solver]].
  eapply hexec_step in H; [|eapply (h_commit _ (lx_name 9) None); [set_solver|done]].
  eapply hexec_step in H; [|eapply (h_other _ (EvCreate 0 hx_n (Some 0) (Ok hx_0))); done].
  eapply hexec_step in H; [|eapply (h_call _ 1 (hx_set 7)); [done|cbn; set_solver]].
  eapply hexec_step in H; [|eapply (h_call _ 2 (hx_set 8)); [done|cbn; set_solver]].
  eapply hexec_step in H; [|eapply (h_get _ 1 (hx_set 7) (Some 0) hx_0); reflexivity].
  eapply hexec_step in H; [|eapply (h_get _ 2 (hx_set 8) (Some 0) hx_0); reflexivity].
  eapply hexec_step in H; [|eapply (h_set _ 1 (hx_set 7) hx_0 (lx_name 7) hx_1 (Some 0) (Some hx_1)); reflexivity].
  eapply hexec_step in H; [|eapply (h_set _ 2 (hx_set 8) hx_0 (lx_name 8) (Label hx_n (Some (lx_name 8)) 1) (Some 0) None); reflexivity].
  eapply hexec_step in H; [|eapply (h_call _ 2 (hx_set 8)); [done|cbn; set_solver]].
  eapply hexec_step in H; [|eapply (h_get _ 2 (hx_set 8) (Some 0) hx_1); reflexivity].
  eapply hexec_step in H; [|eapply (h_walk_up _ 2 (hx_set 8) hx_1 (lx_name 7) (lx_name 8) (lx_name 7)); [reflexivity|done|reflexivity]].
  eapply hexec_step in H; [|eapply (h_walk_found _ 2 (hx_set 8) hx_1 (lx_name 7)); reflexivity].
  eapply hexec_step in H; [|eapply (h_set _ 2 (hx_set 8) hx_1 (lx_name 8) hx_2 (Some 0) (Some hx_2)); reflexivity].
  eapply hexec_step in H; [|eapply (h_call _ 1 (hx_set 9)); [done|cbn; set_solver]].
  eapply hexec_step in H; [|eapply (h_get _ 1 (hx_set 9) (Some 0) hx_2); reflexivity].
  eapply hexec_step in H; [|eapply (h_walk_end _ 1 (hx_set 9) hx_2 (lx_name 8) (lx_name 9)); [reflexivity|done|reflexivity]].
  eexists. split; [exact H|].
  eapply hexec_step in H; [|eapply (h_call _ 3 (ForceVersion hx_n (lx_name 9) 1)); [done|cbn; set_solver]].
  eapply hexec_step in H; [|eapply (h_get _ 3 (ForceVersion hx_n (lx_name 9) 1) (Some 0) hx_2); reflexivity].
  eapply hexec_step in H; [|eapply (h_call _ 3 (ForceVersion hx_n (lx_name 9) 2)); [done|cbn; set_solver]].
  eapply hexec_step in H; [|eapply (h_get _ 3 (ForceVersion hx_n (lx_name 9) 2) (Some 0) hx_2); reflexivity].
  eapply hexec_step in H; [|eapply (h_set _ 3 (ForceVersion hx_n (lx_name 9) 2) hx_2 (lx_name 9) hx_3 (Some 0) (Some hx_3)); reflexivity].
  eapply hexec_step in H; [|eapply (h_call _ 4 (HeadVersion hx_n)); [done|done]].
  eapply hexec_step in H; [|eapply (h_get _ 4 (HeadVersion hx_n) (Some 0) hx_3); reflexivity].
  eexists. exact H.
Qed.
Lemma hx_serves : serves hx_n hx_items'.
Proof.
  pose proof (lx_layer 7 ltac:(done)) as H7. pose proof (lx_layer 8 ltac:(done)) as H8. pose proof (lx_layer 9 ltac:(done)) as H9.
  apply (cached_serves hx_n hx_items' hx_calls'); [| |by vm_compute].
  - repeat (apply Forall_cons; split; [done|]). constructor.
  - repeat (apply Forall_cons; split; [done|]). constructor.
Qed.
Example C24_example : ∃ s c, hexec hx_items s ∧ serves hx_n hx_items ∧ label_after hx_n hx_items c ∧ only_set_head hx_n hx_items ∧
  heads hx_n hx_items = [lx_name 7; lx_name 8] ∧
  it_ret <$> hx_items !! 14 = Some (Some (2, SetHead hx_n (lx_name 8), RBool true)) ∧
  it_ret <$> hx_items !! 17 = Some (Some (1, SetHead hx_n (lx_name 9), RBool false)).
Proof.
  destruct hx_exec as (s & Hs & _). pose proof (serves_app _ _ _ hx_serves) as Hsv. destruct (serves_history _ _ Hsv) as [c Hc].
  exists s, c. split; [done|]. split; [done|]. split; [done|]. split; [|done].
  intros it t op r Hin Hret _. unfold hx_items in Hin.
  repeat (apply elem_of_cons in Hin; destruct Hin as [->|Hin]; [try discriminate Hret; injection Hret as <- <- <-; left; eexists; reflexivity|]).
  by apply elem_of_nil in Hin.
Qed.
Example C25_example : ∃ s, hexec hx_items' s ∧ serves hx_n hx_items' ∧
  it_ret <$> hx_items' !! 19 = Some (Some (3, ForceVersion hx_n (lx_name 9) 1, RBool false)) ∧
  it_ret <$> hx_items' !! 22 = Some (Some (3, ForceVersion hx_n (lx_name 9) 2, RBool true)) ∧
  it_ret <$> hx_items' !! 24 = Some (Some (4, HeadVersion hx_n, RHead (Some (lx_name 9)) 3)).
Proof.
  destruct hx_exec as (_ & _ & s & Hs). exists s. split; [done|]. split; [exact hx_serves|]. done.
Qed.
