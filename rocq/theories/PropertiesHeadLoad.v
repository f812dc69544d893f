(** C68.  The head of a named graph can be loaded.  The executions are those of any number of callers, in any order, some of
    which may pass layers of another store ([HeadLoad]).  The specification is in [SpecHead]. *)
From Verif Require Import Prelude Names LabelConc LabelSpec Head HeadLoad SpecHead HeadLoadFacts.

(** ** the label stores give only labels that were set *)
Theorem C68_directory_faithful evs s : lexec evs s → faithful evs.
Proof. exact (directory_faithful evs s). Qed.
Print Assumptions C68_directory_faithful.
Theorem C68_names_faithful evs : (∀ n, ∃ c, history name_reg None (on_name n evs) c) → faithful evs.
Proof. exact (name_faithful evs). Qed.
Print Assumptions C68_names_faithful.

(** ** if no caller passes a layer of another store, no call says that the layer is missing *)
Theorem C68_found tr s : fexec tr s → (∀ t op, FForeign t op ∉ tr) → faithful (answers tr) → ∀ t n x, FMissing t n x ∉ tr.
Proof. exact (head_found tr s). Qed.
Print Assumptions C68_found.
(** every label that was set names a layer of the store *)
Theorem C68_labels tr s : fexec tr s → (∀ t op, FForeign t op ∉ tr) → faithful (answers tr) → ∀ u l0 l j r x,
  EvSet u l0 l j r ∈ answers tr → lb_layer l = Some x → x ∈ h_layers s.1.
Proof. exact (label_found tr s). Qed.
Print Assumptions C68_labels.
(** ** the layer and the version that are returned were read together, from the label of that name *)
Theorem C68_returned tr s : fexec tr s → ∀ t n x v, FHead t n x v ∈ tr →
  x ∈ h_layers s.1 ∧ ∃ i l, EvGet t n i (Ok (Some l)) ∈ answers tr ∧ lb_layer l = Some x ∧ lb_version l = v.
Proof. intros H. exact (proj2 (head_was_read tr s H)). Qed.
Print Assumptions C68_returned.
(** ** [set_head] with a layer of this store replaces only heads that are in this store *)
Theorem C68_blocked tr s : fexec tr s → ∀ t n x l nl i r q a,
  FItem (HItem (Some (EvSet t l nl i r)) (Some (t, SetHead n x, q))) ∈ tr → lb_layer l = Some a →
  FForeign t (SetHead n x) ∈ tr ∨ a ∈ h_layers s.1.
Proof. intros H. exact (si_done tr s (sinv_exec tr s H)). Qed.
Print Assumptions C68_blocked.

(** ** concrete runs *)
Definition fx_n : bytes := [103].
Definition fx_x : lname := repeat 1%N 5.
Definition fx_y : lname := repeat 2%N 5.
Definition fx_l0 := Label fx_n None 0.
Definition fx_get (t : tid) (l : label) := EvGet t fx_n (Some 0) (Ok (Some l)).
Definition fx_l1 (y : lname) := Label fx_n (Some y) 1.
Definition fx_start (y : lname) (begin : fev) : list fev :=
  [FItem (HItem None None); FItem (HItem (Some (EvCreate 0 fx_n (Some 0) (Ok fx_l0))) None); begin;
   FItem (HItem (Some (fx_get 1 fx_l0)) None);
   FItem (HItem (Some (EvSet 1 fx_l0 (fx_l1 y) (Some 0) (Ok (Some (fx_l1 y))))) (Some (1, SetHead fx_n y, RBool true)));
   FItem (HItem None None);
   FItem (HItem (Some (fx_get 2 (fx_l1 y))) (Some (2, HeadVersion fx_n, RHead (Some y) 1%N)))].
Definition fx_good : list fev := fx_start fx_x (FItem (HItem None None)) ++ [FHead 2 fx_n fx_x 1].
Definition fx_bad : list fev := fx_start fx_y (FForeign 1 (SetHead fx_n fx_y)) ++
  [FMissing 2 fx_n fx_y; FItem (HItem None None); FItem (HItem (Some (fx_get 3 (fx_l1 fx_y))) None);
   FItem (HItem None (Some (3, SetHead fx_n fx_x, RBool false)))].

Lemma f_quiet tr h it h' : fexec tr (h, ∅) → hstep h it h' → head_read it = None → fexec (tr ++ [FItem it]) (h', ∅).
Proof.
  intros H Hs E. eapply fexec_step; [exact H|]. pose proof (f_step h ∅ it h' Hs) as F. rewrite E in F. apply F.
  intros t [z Hz]. by rewrite lookup_empty in Hz.
Qed.
Lemma f_read tr h it h' t y : fexec tr (h, ∅) → hstep h it h' → head_read it = Some (t, y) → fexec (tr ++ [FItem it]) (h', {[t := y]}).
Proof.
  intros H Hs E. eapply fexec_step; [exact H|]. pose proof (f_step h ∅ it h' Hs) as F. rewrite E in F. apply F.
  intros u [z Hz]. by rewrite lookup_empty in Hz.
Qed.
Lemma fx_good_exec : ∃ h, fexec fx_good (h, ∅) ∧ h_layers h = {[fx_x]} ∪ ∅.
Proof.
  pose proof fexec_nil as H.
  eapply f_quiet in H; [|eapply (h_commit _ fx_x None); [by vm_compute|done]|reflexivity].
  eapply f_quiet in H; [|eapply (h_other _ (EvCreate 0 fx_n (Some 0) (Ok fx_l0))); done|reflexivity].
  eapply f_quiet in H; [|eapply (h_call _ 1 (SetHead fx_n fx_x)); [reflexivity|cbn; set_solver]|reflexivity].
  eapply f_quiet in H; [|eapply (h_get _ 1 (SetHead fx_n fx_x) (Some 0) fx_l0); reflexivity|reflexivity].
  eapply f_quiet in H; [|eapply (h_set _ 1 (SetHead fx_n fx_x) fx_l0 fx_x (fx_l1 fx_x) (Some 0) (Some (fx_l1 fx_x))); reflexivity|reflexivity].
  eapply f_quiet in H; [|eapply (h_call _ 2 (HeadVersion fx_n)); [reflexivity|exact I]|reflexivity].
  eapply f_read in H; [|eapply (h_get _ 2 (HeadVersion fx_n) (Some 0) (fx_l1 fx_x)); reflexivity|reflexivity].
  eapply fexec_step in H; [|eapply (f_loaded _ _ 2 fx_n fx_x 1%N); [reflexivity|cbn; set_solver]].
  rewrite delete_singleton in H. eexists. split; [exact H|reflexivity].
Qed.
Lemma fx_other n es : n ≠ fx_n → Forall (λ e, ev_name e = fx_n) es → on_name n es = [].
Proof. intros Hn. induction 1 as [|e es He _ IH]; [done|]. unfold on_name in *. rewrite filter_cons_False; [exact IH|]. rewrite He. auto. Qed.
Example C68_example : ∃ s, fexec fx_good s ∧ (∀ t op, FForeign t op ∉ fx_good) ∧ faithful (answers fx_good) ∧ FHead 2 fx_n fx_x 1 ∈ fx_good.
Proof.
  destruct fx_good_exec as (h & H & _). exists (h, ∅). split; [exact H|]. split; [|split].
  - intros t op Hin. unfold fx_good, fx_start in Hin. cbn [app] in Hin.
    repeat (apply elem_of_cons in Hin; destruct Hin as [Hin|Hin]; [discriminate Hin|]). by apply elem_of_nil in Hin.
  - apply name_faithful. intros n. destruct (decide (n = fx_n)) as [->|Hn].
    + exists (Some (fx_l1 fx_x)). change (history name_reg None [EvCreate 0 fx_n (Some 0) (Ok fx_l0); fx_get 1 fx_l0;
        EvSet 1 fx_l0 (fx_l1 fx_x) (Some 0) (Ok (Some (fx_l1 fx_x))); fx_get 2 (fx_l1 fx_x)] (Some (fx_l1 fx_x))).
      eapply history_cons; [apply name_file, reg_create|]. eapply history_cons; [apply name_file, (reg_get fx_l0)|].
      eapply history_cons; [apply name_file, reg_set; split; reflexivity|]. eapply history_cons; [apply name_file, (reg_get (fx_l1 fx_x))|]. constructor.
    + exists None. rewrite fx_other; [constructor|exact Hn|]. vm_compute. repeat constructor.
  - apply (elem_of_list_lookup_2 _ 7). reflexivity.
Qed.

Example C68_blocked_example : ∃ tr s i r q nl, fexec tr s ∧
  FItem (HItem (Some (EvSet 3 (fx_l1 fx_x) nl i r)) (Some (3, SetHead fx_n fx_y, q))) ∈ tr ∧ lb_layer (fx_l1 fx_x) = Some fx_x ∧ (∀ t op, FForeign t op ∉ tr).
Proof.
  pose proof fexec_nil as H.
  eapply f_quiet in H; [|eapply (h_commit _ fx_x None); [by vm_compute|done]|reflexivity].
  eapply f_quiet in H; [|eapply (h_commit _ fx_y (Some fx_x)); [by vm_compute|cbn; set_solver]|reflexivity].
  eapply f_quiet in H; [|eapply (h_other _ (EvCreate 0 fx_n (Some 0) (Ok fx_l0))); done|reflexivity].
  eapply f_quiet in H; [|eapply (h_call _ 1 (SetHead fx_n fx_x)); [reflexivity|cbn; set_solver]|reflexivity].
  eapply f_quiet in H; [|eapply (h_get _ 1 (SetHead fx_n fx_x) (Some 0) fx_l0); reflexivity|reflexivity].
  eapply f_quiet in H; [|eapply (h_set _ 1 (SetHead fx_n fx_x) fx_l0 fx_x (fx_l1 fx_x) (Some 0) (Some (fx_l1 fx_x))); reflexivity|reflexivity].
  eapply f_quiet in H; [|eapply (h_call _ 3 (SetHead fx_n fx_y)); [reflexivity|cbn; set_solver]|reflexivity].
  eapply f_quiet in H; [|eapply (h_get _ 3 (SetHead fx_n fx_y) (Some 0) (fx_l1 fx_x)); reflexivity|reflexivity].
  eapply f_quiet in H; [|eapply (h_walk_up _ 3 (SetHead fx_n fx_y) (fx_l1 fx_x) fx_x fx_y fx_x); [reflexivity|done|reflexivity]|reflexivity].
  eapply f_quiet in H; [|eapply (h_walk_found _ 3 (SetHead fx_n fx_y) (fx_l1 fx_x) fx_x); reflexivity|reflexivity].
  eapply f_quiet in H; [|eapply (h_set _ 3 (SetHead fx_n fx_y) (fx_l1 fx_x) fx_y (Label fx_n (Some fx_y) 2) (Some 0) (Some (Label fx_n (Some fx_y) 2))); reflexivity|reflexivity].
  eexists _, _, (Some 0), (Ok (Some (Label fx_n (Some fx_y) 2))), (RBool true), (Label fx_n (Some fx_y) 2).
  split; [exact H|]. split; [apply (elem_of_list_lookup_2 _ 10); reflexivity|]. split; [reflexivity|].
  intros t op Hin. cbn [app] in Hin.
  repeat (apply elem_of_cons in Hin; destruct Hin as [Hin|Hin]; [discriminate Hin|]). by apply elem_of_nil in Hin.
Qed.

(** ** with a layer of another store the head is lost, although the label store keeps its promise: [set_head] returned true,
    [head] then does not find the layer, and [set_head] with a layer of this store is refused *)
Theorem C68_foreign_refuted : ∃ tr s n x y, fexec tr s ∧ (∃ c, history name_reg None (on_name n (answers tr)) c) ∧ x ∈ h_layers s.1 ∧
  (∃ pre e post, tr = pre ++ FItem (HItem (Some e) (Some (1, SetHead n y, RBool true))) :: post ∧
    FMissing 2 n y ∈ post ∧ FItem (HItem None (Some (3, SetHead n x, RBool false))) ∈ post).
Proof.
  pose proof fexec_nil as H.
  eapply f_quiet in H; [|eapply (h_commit _ fx_x None); [by vm_compute|done]|reflexivity].
  eapply f_quiet in H; [|eapply (h_other _ (EvCreate 0 fx_n (Some 0) (Ok fx_l0))); done|reflexivity].
  eapply fexec_step in H; [|eapply (f_foreign _ _ 1 (SetHead fx_n fx_y)); reflexivity].
  eapply f_quiet in H; [|eapply (h_get _ 1 (SetHead fx_n fx_y) (Some 0) fx_l0); reflexivity|reflexivity].
  eapply f_quiet in H; [|eapply (h_set _ 1 (SetHead fx_n fx_y) fx_l0 fx_y (fx_l1 fx_y) (Some 0) (Some (fx_l1 fx_y))); reflexivity|reflexivity].
  eapply f_quiet in H; [|eapply (h_call _ 2 (HeadVersion fx_n)); [reflexivity|exact I]|reflexivity].
  eapply f_read in H; [|eapply (h_get _ 2 (HeadVersion fx_n) (Some 0) (fx_l1 fx_y)); reflexivity|reflexivity].
  eapply fexec_step in H; [|eapply (f_missing _ _ 2 fx_n fx_y 1%N); [reflexivity|by vm_compute]].
  rewrite delete_singleton in H.
  eapply f_quiet in H; [|eapply (h_call _ 3 (SetHead fx_n fx_x)); [reflexivity|cbn; set_solver]|reflexivity].
  eapply f_quiet in H; [|eapply (h_get _ 3 (SetHead fx_n fx_x) (Some 0) (fx_l1 fx_y)); reflexivity|reflexivity].
  eapply f_quiet in H; [|eapply (h_walk_end _ 3 (SetHead fx_n fx_x) (fx_l1 fx_y) fx_y fx_x); [reflexivity|done|reflexivity]|reflexivity].
  exists fx_bad. eexists. exists fx_n, fx_x, fx_y. split; [exact H|]. split; [|split].
  - exists (Some (fx_l1 fx_y)). change (history name_reg None [EvCreate 0 fx_n (Some 0) (Ok fx_l0); fx_get 1 fx_l0;
      EvSet 1 fx_l0 (fx_l1 fx_y) (Some 0) (Ok (Some (fx_l1 fx_y))); fx_get 2 (fx_l1 fx_y); fx_get 3 (fx_l1 fx_y)] (Some (fx_l1 fx_y))).
    eapply history_cons; [apply name_file, reg_create|]. eapply history_cons; [apply name_file, (reg_get fx_l0)|].
    eapply history_cons; [apply name_file, reg_set; split; reflexivity|]. eapply history_cons; [apply name_file, (reg_get (fx_l1 fx_y))|].
    eapply history_cons; [apply name_file, (reg_get (fx_l1 fx_y))|]. constructor.
  - cbn. set_solver.
  - exists (take 4 fx_bad), (EvSet 1 fx_l0 (fx_l1 fx_y) (Some 0) (Ok (Some (fx_l1 fx_y)))), (drop 5 fx_bad). split; [reflexivity|].
    split; [apply (elem_of_list_lookup_2 _ 2); reflexivity|apply (elem_of_list_lookup_2 _ 5); reflexivity].
Qed.
Print Assumptions C68_foreign_refuted.
