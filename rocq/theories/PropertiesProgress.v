(** C54: calls on labels and named graphs do not wait forever.  [goes_on], [heads_go_on] and [served] are defined in
    SpecProgress.v. *)
From Verif Require Import Prelude Names LabelSeq LabelConc LabelSpec LabelPool Head HeadSpec HeadFacts SpecProgress LabelProgress PoolProgress HeadProgress PropertiesLabel PropertiesHead StarveFacts.

(** ** C54.  Labels in a directory: while a call has not returned, some call can go on, whatever locks are held; *)
Theorem C54_labels_go_on tr s : lexec tr s → s_threads s ≠ ∅ → ∃ s', goes_on s s'.
Proof. exact (labels_go_on tr s). Qed.
Print Assumptions C54_labels_go_on.
(** without new calls, the calls can only go on for so many steps, however they take turns; *)
Theorem C54_labels_end s : ∃ b, ∀ k s', nsteps goes_on k s s' → k ≤ b.
Proof. exact (ex_intro _ _ (labels_end s)). Qed.
Print Assumptions C54_labels_end.
(** so all return. *)
Theorem C54_labels_finish tr s : lexec tr s → ∃ s', rtc goes_on s s' ∧ s_threads s' = ∅.
Proof. exact (labels_finish tr s). Qed.
Print Assumptions C54_labels_finish.
(** The calls of the file system and the waits for locks are run by the threads of a pool.  If there are not more callers than
    threads, the same holds; *)
Theorem C54_pool_go_on_partial cap tr x : pexec cap tr x → s_threads (p_labels x) ≠ ∅ → size (s_threads (p_labels x)) ≤ cap →
  ∃ y, pool_goes_on cap x y.
Proof. exact (pool_go_on cap tr x). Qed.
Print Assumptions C54_pool_go_on_partial.
Theorem C54_pool_end cap tr x : pexec cap tr x → ∃ b, ∀ k y, nsteps (pool_goes_on cap) k x y → k ≤ b.
Proof. exact (pool_ends cap tr x). Qed.
Print Assumptions C54_pool_end.
Theorem C54_pool_finish_partial cap tr x : pexec cap tr x → size (s_threads (p_labels x)) ≤ cap →
  ∃ y, rtc (pool_goes_on cap) x y ∧ s_threads (p_labels y) = ∅.
Proof. exact (pool_finish cap tr x). Qed.
Print Assumptions C54_pool_finish_partial.
(** with one caller more than there are threads, those who wait for a label take all threads, and the one who has locked it
    gets none to read it: from then on none of them returns, nor gets any further, whatever happens. *)
Lemma crowded cap k : 0 < cap → k ≤ cap → ∃ tr x, pexec cap tr x ∧ size (s_threads (p_labels x)) = S k ∧ busy (p_requests x) = k ∧
  (k = cap → ∀ y, rtc (λ x y, ∃ e, pstep cap x e y) x y →
   ∀ t p, s_threads (p_labels x) !! t = Some p → s_threads (p_labels y) !! t = Some p).
Proof.
  intros Hcap Hk. pose proof (pexec_nil cap) as H. unfold pstate_init in H.
  pose proof (lx_layer 7 ltac:(done)) as H7. assert (label_ok lx_l0) as H0 by (split; [done|done]).
  assert (busy ∅ < cap) as Hb by exact Hcap.
  eapply run_begin in H; [|eapply (start_create _ 0 lx_n); reflexivity|reflexivity].
  eapply (run_goto _ _ _ _ 0) in H; [|eapply (create_stat _ 0 lx_n); reflexivity|reflexivity|reflexivity|discriminate|reflexivity|exact Hb|reflexivity].
  eapply (run_goto _ _ _ _ 0) in H; [|eapply (create_open _ 0 lx_n 0); reflexivity|reflexivity|reflexivity|discriminate|reflexivity|exact Hb|reflexivity].
  eapply (run_goto _ _ _ _ 0) in H; [|eapply (create_lock _ 0 lx_n 0); reflexivity|reflexivity|reflexivity|discriminate|reflexivity|exact Hb|reflexivity].
  eapply (run_goto _ _ _ _ 0) in H; [|eapply (create_write _ 0 lx_n 0 0 new_label_contents []); reflexivity|reflexivity|reflexivity|discriminate|reflexivity|exact Hb|reflexivity].
  eapply (run_leave _ _ _ _ 0) in H; [|eapply (create_done _ 0 lx_n 0); reflexivity|reflexivity|reflexivity|reflexivity|exact Hb].
  eapply run_begin in H; [|eapply (start_set _ 0 lx_l0 (Some (lx_name 7)) lx_a); done || reflexivity|reflexivity].
  eapply (run_goto _ _ _ _ 0) in H; [|eapply (set_open _ 0 lx_l0 lx_a 0); reflexivity|reflexivity|reflexivity|discriminate|reflexivity|exact Hb|reflexivity].
  eapply (run_goto _ _ _ _ 0) in H; [|eapply (set_lock _ 0 lx_l0 lx_a 0); reflexivity|reflexivity|reflexivity|discriminate|reflexivity|exact Hb|reflexivity].
  match type of H with pexec _ ?tr (PState ?s _) =>
    assert (∀ t p, s_threads s !! t = Some p → t = 0 ∧ p = PSetRead lx_l0 lx_a 0) as Hone;
    [|exists tr, (state s lx_l0 lx_a 0 k); split;
      [apply (state_all cap s lx_l0 lx_a (Some (lx_name 7)) 0 (Inode new_label_contents (Some 0) [] lx_n 0) 0 Hone);
        [reflexivity|reflexivity|reflexivity|exact H0|exact H7|reflexivity|lia|exact H]
      |split; [apply (state_size s lx_l0 lx_a 0 Hone); by eexists|split; [apply busy_requests|]]]]
  end.
  - intros t p Ht. cbn [goto leave put s_threads] in Ht.
    apply lookup_insert_Some in Ht as [[<- <-]|[Hne Ht]]; [by split|exfalso].
    do 2 (rewrite lookup_insert_ne in Ht by done). rewrite lookup_delete_ne in Ht by done.
    do 5 (rewrite lookup_insert_ne in Ht by done). cbn in Ht. by rewrite lookup_empty in Ht.
  - intros -> y Hy. eapply stuck_forever; [|exact Hy]. apply (state_stuck cap _ _ _ _ (Inode new_label_contents (Some 0) [] lx_n 0) 0 Hone); reflexivity.
Qed.
Lemma crowded_full cap : 0 < cap → ∃ tr x, pexec cap tr x ∧ size (s_threads (p_labels x)) = S cap ∧
  ∀ y, rtc (λ x y, ∃ e, pstep cap x e y) x y →
  ∀ t p, s_threads (p_labels x) !! t = Some p → s_threads (p_labels y) !! t = Some p.
Proof. intros H. destruct (crowded cap cap H ltac:(lia)) as (tr & x & H1 & H2 & _ & H3). exists tr, x. split; [done|]. split; [done|]. by apply H3. Qed.
Theorem C54_pool_refuted cap : 0 < cap → ∃ tr x, pexec cap tr x ∧ size (s_threads (p_labels x)) = S cap ∧
  ∀ y, rtc (λ x y, ∃ e, pstep cap x e y) x y →
  ∀ t p, s_threads (p_labels x) !! t = Some p → s_threads (p_labels y) !! t = Some p.
Proof. exact (crowded_full cap). Qed.
Print Assumptions C54_pool_refuted.
(** A caller waits for a lock on a thread of the pool exactly when another caller is in the way; *)
Theorem C54_pool_waits cap tr x t p i alone : pexec cap tr x → s_threads (p_labels x) !! t = Some p → wants_lock p i alone →
  p_requests x !! t = None →
  ((∃ e y, pstep cap x e y ∧ p_requests y !! t = Some Queued) ↔ in_the_way (p_labels x) t i alone).
Proof. exact (pool_waits cap tr x t p i alone). Qed.
Print Assumptions C54_pool_waits.
(** one who has read the file of a label needs no thread to answer, unless the label is to be written. *)
Theorem C54_pool_answers cap tr x t p : pexec cap tr x → s_threads (p_labels x) !! t = Some p →
  match p with
  | PGetDone _ _ _ => True
  | PSetGot l _ _ d => ∀ l', get_label_from_data (lb_name l) d ≠ Ok l'
  | _ => False
  end → ∃ ev y, pstep cap x (Some ev) y ∧ s_threads (p_labels y) !! t = None.
Proof. exact (pool_answers cap tr x t p). Qed.
Print Assumptions C54_pool_answers.
(** Three of five threads wait for a lock that a fourth caller has. *)
Example C54_pool_example : ∃ tr x, pexec 5 tr x ∧ size (s_threads (p_labels x)) = 4 ∧ busy (p_requests x) = 3.
Proof. destruct (crowded 5 3) as (tr & x & H1 & H2 & H3 & _); [lia|lia|]. by exists tr, x. Qed.
(** One caller has read a label, another is about to update it: it has to wait, and the first can answer. *)
Example C54_pool_waits_example : ∃ tr x d, pexec 5 tr x ∧ p_requests x = ∅ ∧
  s_threads (p_labels x) !! 0 = Some (PSetLock lx_l0 lx_a 0) ∧ wants_lock (PSetLock lx_l0 lx_a 0) 0 true ∧
  s_threads (p_labels x) !! 1 = Some (PGetDone lx_n 0 d) ∧ in_the_way (p_labels x) 0 0 true.
Proof.
  pose proof (pexec_nil 5) as H. unfold pstate_init in H.
  pose proof (lx_layer 7 ltac:(done)) as H7. assert (label_ok lx_l0) as H0 by (split; [done|done]).
  assert (busy ∅ < 5) as Hb by (vm_compute; lia).
  eapply run_begin in H; [|eapply (start_create _ 0 lx_n); reflexivity|reflexivity].
  eapply (run_goto _ _ _ _ 0) in H; [|eapply (create_stat _ 0 lx_n); reflexivity|reflexivity|reflexivity|discriminate|reflexivity|exact Hb|reflexivity].
  eapply (run_goto _ _ _ _ 0) in H; [|eapply (create_open _ 0 lx_n 0); reflexivity|reflexivity|reflexivity|discriminate|reflexivity|exact Hb|reflexivity].
  eapply (run_goto _ _ _ _ 0) in H; [|eapply (create_lock _ 0 lx_n 0); reflexivity|reflexivity|reflexivity|discriminate|reflexivity|exact Hb|reflexivity].
  eapply (run_goto _ _ _ _ 0) in H; [|eapply (create_write _ 0 lx_n 0 0 new_label_contents []); reflexivity|reflexivity|reflexivity|discriminate|reflexivity|exact Hb|reflexivity].
  eapply (run_leave _ _ _ _ 0) in H; [|eapply (create_done _ 0 lx_n 0); reflexivity|reflexivity|reflexivity|reflexivity|exact Hb].
  eapply run_begin in H; [|eapply (start_set _ 0 lx_l0 (Some (lx_name 7)) lx_a); done || reflexivity|reflexivity].
  eapply (run_goto _ _ _ _ 0) in H; [|eapply (set_open _ 0 lx_l0 lx_a 0); reflexivity|reflexivity|reflexivity|discriminate|reflexivity|exact Hb|reflexivity].
  eapply run_begin in H; [|eapply (start_get _ 1 lx_n); reflexivity|reflexivity].
  eapply (run_goto _ _ _ _ 1) in H; [|eapply (get_open _ 1 lx_n 0); reflexivity|reflexivity|reflexivity|discriminate|reflexivity|exact Hb|reflexivity].
  eapply (run_goto _ _ _ _ 1) in H; [|eapply (get_lock _ 1 lx_n 0); reflexivity|reflexivity|reflexivity|discriminate|reflexivity|exact Hb|reflexivity].
  eapply (run_goto _ _ _ _ 1) in H; [|eapply (get_read _ 1 lx_n 0); reflexivity|reflexivity|reflexivity|discriminate|reflexivity|exact Hb|reflexivity].
  eexists _, _, _. split; [exact H|]. split; [reflexivity|]. split; [reflexivity|]. split; [by split|]. split; [reflexivity|].
  eexists 1, _, false. split; [discriminate|]. split; [reflexivity|]. by split.
Qed.
(** Named graphs: while a call has not returned, some call can go on with an answer that the label store may give; *)
Theorem C54_heads_go_on its s : hexec its s → served (its, s) → h_threads s ≠ ∅ → ∃ y, heads_go_on (its, s) y ∧ served y.
Proof. exact (heads_go its s). Qed.
Print Assumptions C54_heads_go_on.
(** without new calls, the calls can only go on for so many steps, however they take turns and whatever the label store
    answers: setting a head by force is not tried over and over again; *)
Theorem C54_heads_end its s : hexec its s → ∃ b, ∀ k y, nsteps heads_go_on k (its, s) y → served y → k ≤ b.
Proof. exact (heads_end its s). Qed.
Print Assumptions C54_heads_end.
(** so all return. *)
Theorem C54_heads_finish its s : hexec its s → served (its, s) →
  ∃ its' s', rtc heads_go_on (its, s) (its', s') ∧ served (its', s') ∧ h_threads s' = ∅.
Proof. exact (heads_finish its s). Qed.
Print Assumptions C54_heads_finish.
(** An attempt to set a head is only lost when an update of the very label it looked at has succeeded: some caller gets on; *)
Theorem C54_heads_lost its s n pre it post t l nl i : hexec its s → serves n its → its = pre ++ it :: post →
  it_lev it = Some (EvSet t l nl i (Ok None)) → lb_name l = n → ∃ e u nl' j, e ∈ pre ∧ it_lev e = Some (EvSet u l nl' j (Ok (Some nl'))).
Proof. exact (lost_to its s n pre it post t l nl i). Qed.
Print Assumptions C54_heads_lost.
(** but with new calls coming, the same caller may lose any number of times: it then still tries to set the head by force,
    and has not returned. *)
Theorem C54_force_refuted n x k : (N.of_nat k ≤ u64_max)%N → ∃ its s l, hexec its s ∧ served (its, s) ∧
  (∀ it op r, it ∈ its → it_ret it ≠ Some (1, op, r)) ∧ h_threads s = {[1 := HSet (ForceHead n x) l]} ∧
  length (filter (λ it, lost 1 it = true) its) = k.
Proof. exact (starves_exists n x k). Qed.
Print Assumptions C54_force_refuted.
Example C54_heads_lost_example : ∃ its s pre it post l nl i, hexec its s ∧ serves [110] its ∧ its = pre ++ it :: post ∧
  it_lev it = Some (EvSet 1 l nl i (Ok None)) ∧ lb_name l = [110].
Proof.
  exists (rounds [110] [] 2), (waiting [110] [] 2), (take 7 (rounds [110] [] 2)). eexists. exists (drop 8 (rounds [110] [] 2)). eexists _, _, _.
  split; [apply rounds_exec; by vm_compute|]. split; [exact (rounds_served [110] [] 2 (waiting [110] [] 2) [110])|].
  split; [reflexivity|]. split; reflexivity.
Qed.

(** One caller has locked the file of a label to update it, two others wait for it. *)
Example C54_labels_example : ∃ tr s, lexec tr s ∧
  s_threads s !! 1 = Some (PSetLock lx_l0 lx_a 0) ∧ s_threads s !! 2 = Some (PSetRead lx_l0 lx_b 0) ∧ s_threads s !! 3 = Some (PGetLock lx_n 0).
Proof.
  pose proof lexec_nil as H.
  pose proof (lx_layer 7 ltac:(done)) as H7. pose proof (lx_layer 8 ltac:(done)) as H8.
  assert (label_ok lx_l0) as H0 by (split; [done|done]).
  eapply lexec_step in H; [|eapply (start_create _ 0 lx_n); reflexivity].
  eapply lexec_step in H; [|eapply (create_stat _ 0 lx_n); reflexivity].
  eapply lexec_step in H; [|eapply (create_open _ 0 lx_n 0); reflexivity].
  eapply lexec_step in H; [|eapply (create_lock _ 0 lx_n 0); reflexivity].
  eapply lexec_step in H; [|eapply (create_write _ 0 lx_n 0 0 new_label_contents []); reflexivity].
  eapply lexec_step in H; [|eapply (create_done _ 0 lx_n 0); reflexivity].
  eapply lexec_step in H; [|eapply (start_set _ 1 lx_l0 (Some (lx_name 7)) lx_a); done || reflexivity].
  eapply lexec_step in H; [|eapply (start_set _ 2 lx_l0 (Some (lx_name 8)) lx_b); done || reflexivity].
  eapply lexec_step in H; [|eapply (start_get _ 3 lx_n); done || reflexivity].
  eapply lexec_step in H; [|eapply (set_open _ 1 lx_l0 lx_a 0); done || reflexivity].
  eapply lexec_step in H; [|eapply (set_open _ 2 lx_l0 lx_b 0); done || reflexivity].
  eapply lexec_step in H; [|eapply (get_open _ 3 lx_n 0); done || reflexivity].
  eapply lexec_step in H; [|eapply (set_lock _ 2 lx_l0 lx_b 0); done || reflexivity].
  eexists _, _. split; [exact H|]. vm_compute. split_and!; reflexivity.
Qed.
(** Two callers force the head at the same time: one of them has to try again. *)
Definition fx (k : N) : hop := ForceHead hx_n (lx_name k).
Definition fx_before : list hitem := [
  HItem None None; HItem None None;
  HItem (Some (EvCreate 0 hx_n (Some 0) (Ok hx_0))) None;
  HItem None None; HItem None None;
  HItem (Some (EvGet 1 hx_n (Some 0) (Ok (Some hx_0)))) None;
  HItem (Some (EvGet 2 hx_n (Some 0) (Ok (Some hx_0)))) None].
Definition fx_after : list hitem := [
  HItem (Some (EvSet 1 hx_0 hx_1 (Some 0) (Ok (Some hx_1)))) (Some (1, fx 7, RDone));
  HItem (Some (EvSet 2 hx_0 (Label hx_n (Some (lx_name 8)) 1) (Some 0) (Ok None))) None;
  HItem (Some (EvGet 2 hx_n (Some 0) (Ok (Some hx_1)))) None;
  HItem (Some (EvSet 2 hx_1 hx_2 (Some 0) (Ok (Some hx_2)))) (Some (2, fx 8, RDone))].
Definition fx_calls : list (tid * lcall) :=
  [(0, CCreate hx_n); (1, CGet hx_n); (2, CGet hx_n); (1, CSet hx_0 (Some (lx_name 7))); (2, CSet hx_0 (Some (lx_name 8)));
   (2, CGet hx_n); (2, CSet hx_1 (Some (lx_name 8)))].
Lemma fx_served s : served (fx_before ++ fx_after, s).
Proof.
  intros n. pose proof (lx_layer 7 ltac:(done)) as H7. pose proof (lx_layer 8 ltac:(done)) as H8.
  apply (cached_serves n _ fx_calls); [| |by vm_compute].
  - repeat (apply Forall_cons; split; [done|]). constructor.
  - repeat (apply Forall_cons; split; [done|]). constructor.
Qed.
Lemma on_step k x y z : heads_go_on y z → nsteps heads_go_on k x y → nsteps heads_go_on (S k) x z.
Proof. intros Hs H. by apply (nsteps_r k x y z). Qed.
Example C54_heads_example : ∃ s y, hexec fx_before s ∧ served (fx_before, s) ∧
  h_threads s !! 1 = Some (HSet (fx 7) hx_0) ∧ h_threads s !! 2 = Some (HSet (fx 8) hx_0) ∧
  nsteps heads_go_on 4 (fx_before, s) y ∧ y.1 = fx_before ++ fx_after ∧ served y ∧ h_threads y.2 = ∅.
Proof.
  pose proof hexec_nil as H.
  eapply hexec_step in H; [|eapply (h_commit _ (lx_name 7) None); [by vm_compute|done]].
  eapply hexec_step in H; [|eapply (h_commit _ (lx_name 8) (Some (lx_name 7))); [set_solver|set_solver]].
  eapply hexec_step in H; [|eapply (h_other _ (EvCreate 0 hx_n (Some 0) (Ok hx_0))); done].
  eapply hexec_step in H; [|eapply (h_call _ 1 (fx 7)); [done|cbn; set_solver]].
  eapply hexec_step in H; [|eapply (h_call _ 2 (fx 8)); [done|cbn; set_solver]].
  eapply hexec_step in H; [|eapply (h_get _ 1 (fx 7) (Some 0) hx_0); reflexivity].
  eapply hexec_step in H; [|eapply (h_get _ 2 (fx 8) (Some 0) hx_0); reflexivity].
  match type of H with hexec _ ?s => pose proof (nsteps_O heads_go_on (fx_before, s)) as N; exists s end.
  eapply on_step in N; [|eapply (go_leave _ _ 1); [reflexivity|eapply (h_set _ 1 (fx 7) hx_0 (lx_name 7) hx_1 (Some 0) (Some hx_1)); reflexivity]].
  eapply on_step in N; [|eapply (go_goto _ _ 2 _ (HGet (fx 8))); [reflexivity|discriminate|eapply (h_set _ 2 (fx 8) hx_0 (lx_name 8) (Label hx_n (Some (lx_name 8)) 1) (Some 0) None); reflexivity]].
  eapply on_step in N; [|eapply (go_goto _ _ 2 _ (HSet (fx 8) hx_1)); [reflexivity|discriminate|eapply (h_get _ 2 (fx 8) (Some 0) hx_1); reflexivity]].
  eapply on_step in N; [|eapply (go_leave _ _ 2); [reflexivity|eapply (h_set _ 2 (fx 8) hx_1 (lx_name 8) hx_2 (Some 0) (Some hx_2)); reflexivity]].
  eexists. split; [exact H|]. split; [exact (λ n, serves_app n _ _ (fx_served hstate_init n))|].
  split; [reflexivity|]. split; [reflexivity|]. split; [exact N|]. split; [reflexivity|].
  split; [exact (fx_served hstate_init)|]. apply map_size_empty_iff. vm_compute. reflexivity.
Qed.
