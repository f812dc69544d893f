(** Properties of the label stores: updates (C21), crashes (C22), interchangeability (C23), creation
    (C44), reopening (C45).  The specification is in [LabelSpec]. *)
From Verif Require Import Prelude Names SpecText NamesFacts LabelSeq LabelConc LabelSpec LabelConcFacts LabelSeqFacts.

(** ** C21.  Label updates never lose a write. *)
(** In the directory store, under every interleaving, the calls that worked on one file, in the
    order in which they returned, are the calls on one compare-and-swap register. *)
Theorem C21_directory_file tr s i : lexec tr s → ∃ c, history reg None (on_file i tr) c.
Proof. exact (file_register tr s i). Qed.
Print Assumptions C21_directory_file.
(** So are all calls on one name that is never deleted. *)
Theorem C21_directory_name tr s n : lexec tr s → ¬ deleted n tr → ∃ c, history name_reg None (on_name n tr) c.
Proof. exact (name_register tr s n). Qed.
Print Assumptions C21_directory_name.
(** The cached directory store and the memory store make one call at a time. *)
Theorem C21_cached cs n : Forall call_ok cs.*2 → Forall (λ c, c ≠ CDelete n) cs.*2 →
  ∃ c, history name_reg None (on_name n (events cs (fst (run cd_call (CD ∅ ∅) cs.*2)))) c.
Proof. exact (cached_history cs n). Qed.
Print Assumptions C21_cached.
(** The memory store only compares versions, so that callers must update labels they were shown. *)
Theorem C21_memory cs n :
  (N.of_nat (length cs) ≤ u64_max)%N → Forall call_ok cs.*2 → Forall (λ c, ¬ is_delete c) cs.*2 →
  honest cs.*2 (fst (run mem_call ∅ cs.*2)) →
  ∃ c, history name_reg None (on_name n (events cs (fst (run mem_call ∅ cs.*2)))) c.
Proof. exact (memory_history cs n). Qed.
Print Assumptions C21_memory.
(** In such a sequence of calls, at most one update of the same label succeeds, *)
Theorem C21_once c es c' l j k e e' :
  history name_reg c es c' → es !! j = Some e → es !! k = Some e' → updated l e → updated l e' → j = k.
Proof. exact (history_updated_once c es c' l j k e e'). Qed.
Print Assumptions C21_once.
(** and the version is the number of updates that succeeded. *)
Theorem C21_version es l : history name_reg None es (Some l) →
  lb_version l = N.of_nat (length (filter set_ok es)).
Proof. exact (history_count es l). Qed.
Print Assumptions C21_version.
(** every file history is a name history, so that both apply to it *)
Theorem C21_file_is_name c es c' : history reg c es c' → history name_reg c es c'.
Proof. exact (history_mono reg name_reg c es c' name_file). Qed.
Print Assumptions C21_file_is_name.

(** two callers update the same label; each starts before the other has finished *)
Definition lx_n : bytes := [109].
Definition lx_name (k : N) : lname := repeat k 5.
Definition lx_l0 : label := Label lx_n None 0.
Definition lx_a : label := Label lx_n (Some (lx_name 7)) 1.
Definition lx_b : label := Label lx_n (Some (lx_name 8)) 1.
Lemma lx_layer k : (k ≤ 99)%N → layer_ok (Some (lx_name k)).
Proof.
  intros Hk. split; [done|]. unfold lx_name. cbn [repeat].
  assert (k ≤ u32_max)%N by (transitivity 99%N; [done|by vm_compute]). repeat (apply Forall_cons; split; [done|]). constructor.
Qed.
Example C21_example : ∃ tr s, lexec tr s ∧ ¬ deleted lx_n tr ∧
  tr = [EvCreate 0 lx_n (Some 0) (Ok lx_l0); EvSet 2 lx_l0 lx_b (Some 0) (Ok (Some lx_b));
        EvSet 1 lx_l0 lx_a (Some 0) (Ok None); EvGet 0 lx_n (Some 0) (Ok (Some lx_b))].
Proof.
  pose proof lexec_nil as H.
  pose proof (lx_layer 7 ltac:(done)) as H7. pose proof (lx_layer 8 ltac:(done)) as H8.
  assert (label_ok lx_l0) as H0 by (split; [done|done]).
  eapply lexec_step in H; [|eapply (start_create _ 0 lx_n); reflexivity].
  eapply lexec_step in H; [|eapply (create_stat _ 0 lx_n); reflexivity].
  eapply lexec_step in H; [|eapply (create_open _ 0 lx_n 0); reflexivity].
  eapply lexec_step in H; [|eapply (create_lock _ 0 lx_n 0); reflexivity].
  eapply lexec_step in H; [|eapply (create_write _ 0 lx_n 0 0 new_label_contents []); reflexivity].
  eapply lexec_step in H; [|eapply (create_done _ 0 lx_n 0); reflexivity].
  eapply lexec_step in H; [|eapply (start_set _ 1 lx_l0 (Some (lx_name 7)) lx_a); done || reflexivity].
  eapply lexec_step in H; [|eapply (start_set _ 2 lx_l0 (Some (lx_name 8)) lx_b); done || reflexivity].
  eapply lexec_step in H; [|eapply (set_open _ 1 lx_l0 lx_a 0); done || reflexivity].
  eapply lexec_step in H; [|eapply (set_open _ 2 lx_l0 lx_b 0); done || reflexivity].
  eapply lexec_step in H; [|eapply (set_lock _ 2 lx_l0 lx_b 0); done || reflexivity].
  eapply lexec_step in H; [|eapply (set_read _ 2 lx_l0 lx_b 0); done || reflexivity].
  eapply lexec_step in H; [|eapply (set_truncate _ 2 lx_l0 lx_b 0); done || reflexivity].
  eapply lexec_step in H; [|eapply (set_write _ 2 lx_l0 lx_b 0 0 (take 7 (label_contents lx_b)) (drop 7 (label_contents lx_b))); done || reflexivity].
  eapply lexec_step in H; [|eapply (set_write _ 2 lx_l0 lx_b 0 7 (drop 7 (label_contents lx_b)) []); done || reflexivity].
  eapply lexec_step in H; [|eapply (set_done _ 2 lx_l0 lx_b 0); done || reflexivity].
  eapply lexec_step in H; [|eapply (set_lock _ 1 lx_l0 lx_a 0); done || reflexivity].
  eapply lexec_step in H; [|eapply (set_read _ 1 lx_l0 lx_a 0); done || reflexivity].
  eapply lexec_step in H; [|eapply (set_bad _ 1 lx_l0 lx_a 0 _ _ (Ok None)); [reflexivity|reflexivity|by vm_compute]].
  eapply lexec_step in H; [|eapply (start_get _ 0 lx_n); done || reflexivity].
  eapply lexec_step in H; [|eapply (get_open _ 0 lx_n 0); done || reflexivity].
  eapply lexec_step in H; [|eapply (get_lock _ 0 lx_n 0); done || reflexivity].
  eapply lexec_step in H; [|eapply (get_read _ 0 lx_n 0); done || reflexivity].
  eapply lexec_step in H; [|eapply (get_done _ 0 lx_n 0); done || reflexivity].
  eexists _, _. split; [exact H|]. split.
  - intros [t Hin]. vm_compute in Hin. repeat (apply elem_of_cons in Hin; destruct Hin as [[=]|Hin]). by apply elem_of_nil in Hin.
  - vm_compute. reflexivity.
Qed.

(** ABA in the memory store: a label is deleted, created and updated again; an update of the old
    label then replaces the new one although it was never shown to that caller. *)
Definition aba_calls : list lcall :=
  [CCreate lx_n; CSet lx_l0 (Some (lx_name 7)); CDelete lx_n; CCreate lx_n; CSet lx_l0 (Some (lx_name 8))].
Theorem C21_memory_refuted : ∃ cs l c layer nl,
  Forall call_ok (cs ++ [CSet l layer]) ∧ honest (cs ++ [CSet l layer]) (fst (run mem_call ∅ cs)) ∧
  fst (run mem_call (snd (run mem_call ∅ cs)) [CGet (lb_name l); CSet l layer]) = [RGet (Ok (Some c)); RSet (Ok (Some nl))] ∧
  c ≠ l.
Proof.
  exists aba_calls, lx_a, lx_b, None, (Label lx_n None 2).
  pose proof (lx_layer 7 ltac:(done)) as H7. pose proof (lx_layer 8 ltac:(done)) as H8.
  split; [|split; [|split]].
  - repeat (apply Forall_cons; split; [done|]). constructor.
  - intros j l layer Hj. unfold aba_calls in Hj. cbn [app] in Hj.
    destruct j as [|[|[|[|[|[|j]]]]]]; try discriminate Hj; injection Hj as <- <-.
    + exists 0, (RCreate (Ok lx_l0)). split; [lia|]. split; [by vm_compute|done].
    + exists 0, (RCreate (Ok lx_l0)). split; [lia|]. split; [by vm_compute|done].
    + exists 1, (RSet (Ok (Some lx_a))). split; [lia|]. split; [by vm_compute|done].
  - by vm_compute.
  - by vm_compute.
Qed.
Print Assumptions C21_memory_refuted.
(** The version of a label has 64 bits; when they are used up, setting the label panics. *)
Theorem C21_overflow_refuted : ∃ fs l layer, call_ok (CSet l layer) ∧ (run dir_call fs [CGet (lb_name l); CSet l layer]).1 = [RGet (Ok (Some l)); RSet Panic].
Proof.
  exists {[ lx_n := label_contents (Label lx_n None u64_max) ]}, (Label lx_n None u64_max), None.
  split; [split; [split; [reflexivity|exact I]|exact I]|]. vm_compute. reflexivity.
Qed.
Print Assumptions C21_overflow_refuted.
Example C21_sequential_example :
  let cs := [(0, CCreate lx_n); (1, CGet lx_n); (1, CSet lx_l0 (Some (lx_name 7))); (2, CSet lx_l0 (Some (lx_name 8))); (2, CGet lx_n)] in
  (N.of_nat (length cs) ≤ u64_max)%N ∧ Forall call_ok cs.*2 ∧ Forall (λ c, ¬ is_delete c) cs.*2 ∧
  honest cs.*2 (fst (run mem_call ∅ cs.*2)) ∧
  fst (run mem_call ∅ cs.*2) = [RCreate (Ok lx_l0); RGet (Ok (Some lx_l0)); RSet (Ok (Some lx_a)); RSet (Ok None); RGet (Ok (Some lx_a))].
Proof.
  pose proof (lx_layer 7 ltac:(done)) as H7. pose proof (lx_layer 8 ltac:(done)) as H8.
  split; [by vm_compute|]. split; [|split; [|split]].
  - repeat (apply Forall_cons; split; [done|]). constructor.
  - repeat (apply Forall_cons; split; [intros []|]). constructor.
  - intros j l layer Hj. destruct j as [|[|[|[|[|j]]]]]; try discriminate Hj; injection Hj as <- <-.
    + exists 1, (RGet (Ok (Some lx_l0))). split; [lia|]. split; [by vm_compute|done].
    + exists 1, (RGet (Ok (Some lx_l0))). split; [lia|]. split; [by vm_compute|done].
  - by vm_compute.
Qed.

(** ** C22.  A crash never corrupts a label. *)
(** What the files of the directory store hold whenever the process stops: the current label, the
    label that is being written, or, while a caller is writing, something that is rejected.  The
    full property, that nothing is ever rejected, fails: [C22_refuted]. *)
Theorem C22_directory_partial tr s n d : lexec tr s → on_disk s n = Some d →
  ∃ i c, s_dir s !! n = Some i ∧ history reg None (on_file i tr) c ∧
    ((∃ l, c = Some l ∧ get_label_from_data n d = Ok l)
     ∨ (writing n s ∧ (∃ e, get_label_from_data n d = Err e))
     ∨ (writing n s ∧ ∃ nl, get_label_from_data n d = Ok nl ∧
          match c with Some l => updates l nl | None => nl = Label n None 0 end)).
Proof. exact (disk_state tr s n d). Qed.
Print Assumptions C22_directory_partial.
(** a crash after the file was emptied loses the label *)
Theorem C22_refuted : ∃ tr s l d e, lexec tr s ∧ tr = [EvCreate 0 (lb_name l) (Some 0) (Ok l)] ∧
  on_disk s (lb_name l) = Some d ∧ get_label_from_data (lb_name l) d = Err e.
Proof.
  pose proof lexec_nil as H.
  pose proof (lx_layer 7 ltac:(done)) as H7.
  assert (label_ok lx_l0) as H0 by (split; [done|done]).
  eapply lexec_step in H; [|eapply (start_create _ 0 lx_n); reflexivity].
  eapply lexec_step in H; [|eapply (create_stat _ 0 lx_n); reflexivity].
  eapply lexec_step in H; [|eapply (create_open _ 0 lx_n 0); reflexivity].
  eapply lexec_step in H; [|eapply (create_lock _ 0 lx_n 0); reflexivity].
  eapply lexec_step in H; [|eapply (create_write _ 0 lx_n 0 0 new_label_contents []); reflexivity].
  eapply lexec_step in H; [|eapply (create_done _ 0 lx_n 0); reflexivity].
  eapply lexec_step in H; [|eapply (start_set _ 1 lx_l0 (Some (lx_name 7)) lx_a); done || reflexivity].
  eapply lexec_step in H; [|eapply (set_open _ 1 lx_l0 lx_a 0); reflexivity].
  eapply lexec_step in H; [|eapply (set_lock _ 1 lx_l0 lx_a 0); reflexivity].
  eapply lexec_step in H; [|eapply (set_read _ 1 lx_l0 lx_a 0); reflexivity].
  eapply lexec_step in H; [|eapply (set_truncate _ 1 lx_l0 lx_a 0); reflexivity].
  eexists _, _, lx_l0, _, _. split; [exact H|]. split; [reflexivity|]. split; [reflexivity|]. by vm_compute.
Qed.
Print Assumptions C22_refuted.
(** Where writing an update over the old file stops in the cached directory store, which does not
    empty the file (directory.rs:421-427), the file can hold a label that never was: here the
    version and part of the layer name are those of the new label, the rest that of the old. *)
Theorem C22_cached_mixture_refuted : ∃ l nl k x, label_ok l ∧ label_ok nl ∧ updates l nl ∧
  get_label_from_data (lb_name l) (write_over (label_contents l) (take k (label_contents nl))) = Ok x ∧ x ≠ l ∧ x ≠ nl.
Proof.
  exists lx_a, (Label lx_n (Some (lx_name 8)) 2), 20, (Label lx_n (Some [8; 8; 7; 7; 7]%N) 2).
  split; [split; [by vm_compute|by apply lx_layer]|]. split; [split; [by vm_compute|by apply lx_layer]|].
  split; [done|]. split; [by vm_compute|]. done.
Qed.
Print Assumptions C22_cached_mixture_refuted.

(** ** C23.  Label stores are interchangeable. *)
(** The directory store and the cached directory store opened on the same files give the same
    answers, labels being listed in some order. *)
Theorem C23_directory_cached fs s cs : cd_open fs = Ok s → Forall call_ok cs →
  Forall2 same_answer (fst (run dir_call fs cs)) (fst (run cd_call s cs)).
Proof. exact (dir_cached fs s cs). Qed.
Print Assumptions C23_directory_cached.
(** The memory store and the directory store give the same answers, up to the kind of an error, as
    long as callers update labels they were shown and nothing is deleted.  Missing for the full
    property: deletions and the kind of an error, see below. *)
Theorem C23_memory_partial cs :
  (N.of_nat (length cs) ≤ u64_max)%N → Forall call_ok cs → Forall (λ c, ¬ is_delete c) cs →
  honest cs (fst (run mem_call ∅ cs)) →
  Forall2 similar_answer (fst (run mem_call ∅ cs)) (fst (run dir_call ∅ cs)).
Proof. exact (memory_directory cs). Qed.
Print Assumptions C23_memory_partial.
(** after a deletion the memory store accepts an update that the directory store refuses *)
Theorem C23_delete_refuted : ∃ cs, Forall call_ok cs ∧ honest cs (fst (run mem_call ∅ cs)) ∧
  ¬ Forall2 similar_answer (fst (run mem_call ∅ cs)) (fst (run dir_call ∅ cs)).
Proof.
  exists (aba_calls ++ [CSet lx_a None]).
  pose proof (lx_layer 7 ltac:(done)) as H7. pose proof (lx_layer 8 ltac:(done)) as H8.
  split; [|split].
  - repeat (apply Forall_cons; split; [done|]). constructor.
  - intros j l layer Hj. unfold aba_calls in Hj. cbn [app] in Hj.
    destruct j as [|[|[|[|[|[|j]]]]]]; try discriminate Hj; injection Hj as <- <-.
    + exists 0, (RCreate (Ok lx_l0)). split; [lia|]. split; [by vm_compute|done].
    + exists 0, (RCreate (Ok lx_l0)). split; [lia|]. split; [by vm_compute|done].
    + exists 1, (RSet (Ok (Some lx_a))). split; [lia|]. split; [by vm_compute|done].
  - intros HF.
    assert (fst (run mem_call ∅ (aba_calls ++ [CSet lx_a None])) !! 5 = Some (RSet (Ok (Some (Label lx_n None 2))))) as E1 by (by vm_compute).
    assert (fst (run dir_call ∅ (aba_calls ++ [CSet lx_a None])) !! 5 = Some (RSet (Ok None))) as E2 by (by vm_compute).
    pose proof (Forall2_lookup_lr _ _ _ _ _ _ HF E1 E2) as Hs. discriminate Hs.
Qed.
Print Assumptions C23_delete_refuted.
(** updating a label that does not exist is another kind of error *)
Theorem C23_error_kind_refuted : ∃ cs, Forall call_ok cs ∧
  fst (run mem_call ∅ cs) = [RSet (Err InvalidInput)] ∧ fst (run dir_call ∅ cs) = [RSet (Err NotFound)].
Proof.
  exists [CSet lx_l0 None]. split; [|by vm_compute]. apply Forall_cons. split; [done|constructor].
Qed.
Print Assumptions C23_error_kind_refuted.
Example C23_example : ∃ fs s, cd_open fs = Ok s ∧ cd_map s !! lx_n = Some lx_a ∧ cd_map s !! [120] = Some (Label [120] None 17).
Proof.
  exists (<[lx_n := label_contents lx_a]> (<[[120] := [49; 55; 10; 10]]> ∅)). eexists. split; [vm_compute; reflexivity|]. by vm_compute.
Qed.

(** ** C44.  Label creation is exclusive. *)
(** in the directory store, under every interleaving *)
Theorem C44_directory tr s n : lexec tr s → creations n tr ≤ deletions n tr + 1.
Proof. exact (creations_bound tr s n). Qed.
Print Assumptions C44_directory.
Theorem C44_starts_empty tr s t n i l : lexec tr s → EvCreate t n i (Ok l) ∈ tr → l = Label n None 0.
Proof. exact (created_empty tr s t n i l). Qed.
Print Assumptions C44_starts_empty.
(** in any sequence of calls on one name as in C21, hence in the other two stores *)
Theorem C44_once es c : history name_reg None es c → length (filter create_ok es) ≤ 1.
Proof. exact (history_created_once es c). Qed.
Print Assumptions C44_once.
(** two callers create the same label; both have found it missing *)
Example C44_example : ∃ tr s, lexec tr s ∧
  tr = [EvCreate 1 lx_n None (Err AlreadyExists); EvCreate 0 lx_n (Some 0) (Ok lx_l0); EvDelete 0 lx_n true;
        EvCreate 1 lx_n (Some 1) (Ok lx_l0)].
Proof.
  pose proof lexec_nil as H.
  eapply lexec_step in H; [|eapply (start_create _ 0 lx_n); reflexivity].
  eapply lexec_step in H; [|eapply (start_create _ 1 lx_n); reflexivity].
  eapply lexec_step in H; [|eapply (create_stat _ 0 lx_n); reflexivity].
  eapply lexec_step in H; [|eapply (create_stat _ 1 lx_n); reflexivity].
  eapply lexec_step in H; [|eapply (create_open _ 0 lx_n 0); reflexivity].
  eapply lexec_step in H; [|eapply (create_late _ 1 lx_n 0); reflexivity].
  eapply lexec_step in H; [|eapply (create_lock _ 0 lx_n 0); reflexivity].
  eapply lexec_step in H; [|eapply (create_write _ 0 lx_n 0 0 new_label_contents []); reflexivity].
  eapply lexec_step in H; [|eapply (create_done _ 0 lx_n 0); reflexivity].
  eapply lexec_step in H; [|eapply (start_delete _ 0 lx_n); reflexivity].
  eapply lexec_step in H; [|eapply (delete_file _ 0 lx_n); reflexivity].
  eapply lexec_step in H; [|eapply (start_create _ 1 lx_n); reflexivity].
  eapply lexec_step in H; [|eapply (create_stat _ 1 lx_n); reflexivity].
  eapply lexec_step in H; [|eapply (create_open _ 1 lx_n 1); reflexivity].
  eapply lexec_step in H; [|eapply (create_lock _ 1 lx_n 1); reflexivity].
  eapply lexec_step in H; [|eapply (create_write _ 1 lx_n 1 0 new_label_contents []); reflexivity].
  eapply lexec_step in H; [|eapply (create_done _ 1 lx_n 1); reflexivity].
  eexists _, _. split; [exact H|]. reflexivity.
Qed.

(** ** C45.  Labels survive reopening. *)
(** The directory store keeps nothing but its files.  The cached directory store comes back as it
    was unless [clear_label] was called; with [clear_label] it may not, see below. *)
Theorem C45_cached_partial cs s : Forall call_ok cs → Forall (λ c, ¬ is_clear c) cs →
  s = snd (run cd_call (CD ∅ ∅) cs) → cd_open (cd_files s) = Ok s.
Proof. exact (cached_reopen cs s). Qed.
Print Assumptions C45_cached_partial.
Theorem C45_clear_refuted : ∃ cs e, Forall call_ok cs ∧
  cd_open (cd_files (snd (run cd_call (CD ∅ ∅) cs))) = Err e.
Proof.
  exists [CCreate lx_n; CSet lx_l0 (Some (lx_name 7)); CSet lx_a None]. eexists. split; [|vm_compute; reflexivity].
  pose proof (lx_layer 7 ltac:(done)) as H7. repeat (apply Forall_cons; split; [done|]). constructor.
Qed.
Print Assumptions C45_clear_refuted.
(** a label file written by the directory store is always read back *)
Theorem C45_directory cs : Forall call_ok cs → ∃ s, cd_open (snd (run dir_call ∅ cs)) = Ok s.
Proof. exact (directory_reopen cs). Qed.
Print Assumptions C45_directory.
Example C45_example : let cs := [CCreate lx_n; CSet lx_l0 (Some (lx_name 7)); CSet lx_a (Some (lx_name 8))] in
  Forall call_ok cs ∧ Forall (λ c, ¬ is_clear c) cs ∧
  cd_map (snd (run cd_call (CD ∅ ∅) cs)) !! lx_n = Some (Label lx_n (Some (lx_name 8)) 2).
Proof.
  pose proof (lx_layer 7 ltac:(done)) as H7. pose proof (lx_layer 8 ltac:(done)) as H8.
  split; [|split; [|by vm_compute]].
  - repeat (apply Forall_cons; split; [done|]). constructor.
  - repeat (apply Forall_cons; split; [intros []|]). constructor.
Qed.
