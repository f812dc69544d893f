(** C69.  A version stands for one state of a named graph.  The executions are those of any number of callers, in any order
    ([Head]); [serves n its] says that the label store keeps its promise for the name [n] (C21), which the stores do as long
    as the graph is not deleted ([C24_directory_serves] and the theorems beside it).  The specification is in [SpecVersions]. *)
From Verif Require Import Prelude Names LabelSeq LabelConc LabelSpec Head HeadSpec HeadFacts SpecVersions VersionFacts PropertiesLabel PropertiesHead.

(** A caller was told the head [x] and the version [v]; later [force_set_head_version] with that version returned true.
    Then it has replaced that head, and nobody has updated the graph in between. *)
Theorem C69_unchanged its s n pre a mid b post t u x y v : hexec its s → serves n its → its = pre ++ a :: mid ++ b :: post →
  it_ret a = Some (t, HeadVersion n, RHead x v) → it_ret b = Some (u, ForceVersion n y v, RBool true) →
  label_after n (pre ++ a :: mid) (Some (Label n x v)) ∧ untouched n mid.
Proof. exact (versions_unchanged its s n pre a mid b post t u x y v). Qed.
Print Assumptions C69_unchanged.
(** Of all calls of [force_set_head_version] with the same version at most one returns true. *)
Theorem C69_once its s n pre a mid b post t u x y v : hexec its s → serves n its → its = pre ++ a :: mid ++ b :: post →
  it_ret a = Some (t, ForceVersion n x v, RBool true) → it_ret b ≠ Some (u, ForceVersion n y v, RBool true).
Proof. exact (version_once its s n pre a mid b post t u x y v). Qed.
Print Assumptions C69_once.
(** Whoever is told the same version is told the same head. *)
Theorem C69_same_head its s n pre a mid b post t u x y v : hexec its s → serves n its → its = pre ++ a :: mid ++ b :: post →
  it_ret a = Some (t, HeadVersion n, RHead x v) → it_ret b = Some (u, HeadVersion n, RHead y v) → x = y.
Proof. exact (two_heads its s n pre a mid b post t u x y v). Qed.
Print Assumptions C69_same_head.

(** A caller asks for the version twice and replaces the head. *)
Definition vx_1 : label := Label hx_n (Some (lx_name 7)) 1.
Definition vx_2 : label := Label hx_n (Some (lx_name 9)) 2.
Definition vx_told (t : tid) (l : label) : hitem :=
  HItem (Some (EvGet t hx_n (Some 0) (Ok (Some l)))) (Some (t, HeadVersion hx_n, RHead (lb_layer l) (lb_version l))).
Definition vx_begin : list hitem := [
  HItem None None; HItem None None; HItem None None; HItem (Some (EvCreate 0 hx_n (Some 0) (Ok hx_0))) None;
  HItem None None; HItem (Some (EvGet 1 hx_n (Some 0) (Ok (Some hx_0)))) None;
  HItem (Some (EvSet 1 hx_0 vx_1 (Some 0) (Ok (Some vx_1)))) (Some (1, hx_set 7, RBool true));
  HItem None None; vx_told 2 vx_1].
Definition vx_force (l : label) : list hitem := [
  HItem None None; HItem (Some (EvGet 2 hx_n (Some 0) (Ok (Some l)))) None;
  HItem (Some (EvSet 2 l vx_2 (Some 0) (Ok (Some vx_2)))) (Some (2, ForceVersion hx_n (lx_name 9) 1, RBool true))].
Definition vx_good : list hitem := vx_begin ++ [HItem None None; vx_told 3 vx_1] ++ vx_force vx_1.
Definition vx_good_calls : list (tid * lcall) :=
  [(0, CCreate hx_n); (1, CGet hx_n); (1, CSet hx_0 (Some (lx_name 7))); (2, CGet hx_n); (3, CGet hx_n); (2, CGet hx_n); (2, CSet vx_1 (Some (lx_name 9)))].
Definition vx_other : label := Label hx_n (Some (lx_name 8)) 1.
Definition vx_bad : list hitem := vx_begin ++ [
  HItem (Some (EvDelete 0 hx_n true)) None; HItem (Some (EvCreate 0 hx_n (Some 0) (Ok hx_0))) None;
  HItem None None; HItem (Some (EvGet 1 hx_n (Some 0) (Ok (Some hx_0)))) None;
  HItem (Some (EvSet 1 hx_0 vx_other (Some 0) (Ok (Some vx_other)))) (Some (1, hx_set 8, RBool true))] ++ vx_force vx_other.
Definition vx_bad_calls : list (tid * lcall) :=
  [(0, CCreate hx_n); (1, CGet hx_n); (1, CSet hx_0 (Some (lx_name 7))); (2, CGet hx_n); (0, CDelete hx_n); (0, CCreate hx_n);
   (1, CGet hx_n); (1, CSet hx_0 (Some (lx_name 8))); (2, CGet hx_n); (2, CSet vx_other (Some (lx_name 9)))].
Lemma vx_exec : (∃ s, hexec vx_good s) ∧ ∃ s, hexec vx_bad s.
Proof.
  pose proof hexec_nil as H.
  eapply hexec_step in H; [|eapply (h_commit _ (lx_name 7) None); [by vm_compute|done]].
  eapply hexec_step in H; [|eapply (h_commit _ (lx_name 8) None); [set_solver|done]].
  eapply hexec_step in H; [|eapply (h_commit _ (lx_name 9) None); [set_solver|done]].
  eapply hexec_step in H; [|eapply (h_other _ (EvCreate 0 hx_n (Some 0) (Ok hx_0))); done].
  eapply hexec_step in H; [|eapply (h_call _ 1 (hx_set 7)); [done|cbn; set_solver]].
  eapply hexec_step in H; [|eapply (h_get _ 1 (hx_set 7) (Some 0) hx_0); reflexivity].
  eapply hexec_step in H; [|eapply (h_set _ 1 (hx_set 7) hx_0 (lx_name 7) vx_1 (Some 0) (Some vx_1)); reflexivity].
  eapply hexec_step in H; [|eapply (h_call _ 2 (HeadVersion hx_n)); [done|exact I]].
  eapply hexec_step in H; [|eapply (h_get _ 2 (HeadVersion hx_n) (Some 0) vx_1); reflexivity].
  split.
  - eapply hexec_step in H; [|eapply (h_call _ 3 (HeadVersion hx_n)); [done|exact I]].
    eapply hexec_step in H; [|eapply (h_get _ 3 (HeadVersion hx_n) (Some 0) vx_1); reflexivity].
    eapply hexec_step in H; [|eapply (h_call _ 2 (ForceVersion hx_n (lx_name 9) 1)); [done|cbn; set_solver]].
    eapply hexec_step in H; [|eapply (h_get _ 2 (ForceVersion hx_n (lx_name 9) 1) (Some 0) vx_1); reflexivity].
    eapply hexec_step in H; [|eapply (h_set _ 2 (ForceVersion hx_n (lx_name 9) 1) vx_1 (lx_name 9) vx_2 (Some 0) (Some vx_2)); reflexivity].
    eexists. exact H.
  - eapply hexec_step in H; [|eapply (h_other _ (EvDelete 0 hx_n true)); done].
    eapply hexec_step in H; [|eapply (h_other _ (EvCreate 0 hx_n (Some 0) (Ok hx_0))); done].
    eapply hexec_step in H; [|eapply (h_call _ 1 (hx_set 8)); [done|cbn; set_solver]].
    eapply hexec_step in H; [|eapply (h_get _ 1 (hx_set 8) (Some 0) hx_0); reflexivity].
    eapply hexec_step in H; [|eapply (h_set _ 1 (hx_set 8) hx_0 (lx_name 8) vx_other (Some 0) (Some vx_other)); reflexivity].
    eapply hexec_step in H; [|eapply (h_call _ 2 (ForceVersion hx_n (lx_name 9) 1)); [done|cbn; set_solver]].
    eapply hexec_step in H; [|eapply (h_get _ 2 (ForceVersion hx_n (lx_name 9) 1) (Some 0) vx_other); reflexivity].
    eapply hexec_step in H; [|eapply (h_set _ 2 (ForceVersion hx_n (lx_name 9) 1) vx_other (lx_name 9) vx_2 (Some 0) (Some vx_2)); reflexivity].
    eexists. exact H.
Qed.
Example C69_example : ∃ s, hexec vx_good s ∧ serves hx_n vx_good ∧
  it_ret <$> vx_good !! 8 = Some (Some (2, HeadVersion hx_n, RHead (Some (lx_name 7)) 1)) ∧
  it_ret <$> vx_good !! 10 = Some (Some (3, HeadVersion hx_n, RHead (Some (lx_name 7)) 1)) ∧
  it_ret <$> vx_good !! 13 = Some (Some (2, ForceVersion hx_n (lx_name 9) 1, RBool true)).
Proof.
  destruct vx_exec as [[s H] _]. exists s. split; [exact H|]. split; [|split; [reflexivity|split; reflexivity]].
  pose proof (lx_layer 7 ltac:(done)) as H7. pose proof (lx_layer 9 ltac:(done)) as H9.
  apply (cached_serves hx_n vx_good vx_good_calls); [| |by vm_compute].
  - repeat (apply Forall_cons; split; [done|]). constructor.
  - repeat (apply Forall_cons; split; [done|]). constructor.
Qed.
(** Not so for a graph that is deleted and created again, in each of the three label stores: a caller is told the first head;
    the graph is deleted, created again and given another head; the version that the caller was told is accepted, and the
    other head is replaced. *)
Theorem C69_recreated_refuted : ∃ its s cs n pre a mid b post t u x y w v, hexec its s ∧
  levs its = events cs (fst (run dir_call ∅ cs.*2)) ∧ levs its = events cs (fst (run cd_call (CD ∅ ∅) cs.*2)) ∧
  levs its = events cs (fst (run mem_call ∅ cs.*2)) ∧
  its = pre ++ a :: mid ++ b :: post ∧ it_ret a = Some (t, HeadVersion n, RHead (Some x) v) ∧
  it_ret b = Some (u, ForceVersion n y v, RBool true) ∧ it_lev b = Some (EvSet u (Label n (Some w) v) (Label n (Some y) (v + 1)) (Some 0) (Ok (Some (Label n (Some y) (v + 1))))) ∧
  w ≠ x.
Proof.
  destruct vx_exec as [_ [s H]].
  exists vx_bad, s, vx_bad_calls, hx_n, (take 8 vx_bad), (vx_told 2 vx_1), (take 7 (drop 9 vx_bad)).
  eexists. exists [], 2, 2, (lx_name 7), (lx_name 9), (lx_name 8), 1%N. split; [exact H|].
  split; [vm_compute; reflexivity|]. split; [vm_compute; reflexivity|]. split; [vm_compute; reflexivity|].
  split; [reflexivity|]. split; [reflexivity|]. split; [reflexivity|]. split; [reflexivity|]. by vm_compute.
Qed.
Print Assumptions C69_recreated_refuted.
