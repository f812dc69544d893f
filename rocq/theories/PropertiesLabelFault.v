(** C61: what a failing disk does to labels (directory stores). *)
From Verif Require Import Prelude Names NamesFacts LabelSeq LabelSpec LabelSeqFacts LabelFault SpecFault LabelFaultFacts.

(** A call that meets a fault does not touch the other labels. *)
Theorem C61_directory_others f fs c n : ¬ about c n → snd (dir_call_f f fs c) !! n = fs !! n.
Proof. exact (dir_others f fs c n). Qed.
Print Assumptions C61_directory_others.
Theorem C61_cached_others f s c n : ¬ about c n →
  cd_map (snd (cd_call_f f s c)) !! n = cd_map s !! n ∧ cd_files (snd (cd_call_f f s c)) !! n = cd_files s !! n.
Proof. exact (cd_others f s c n). Qed.
Print Assumptions C61_cached_others.

(** Faults are reported: a call does not say that it has made or updated a label when making, locking, writing or syncing the file
    failed; and one that does not fail has done what it does without the fault.  The cached store locks no files. *)
Theorem C61_directory_reported f fs c : ¬ failed (fst (dir_call_f f fs c)) →
  dir_call_f f fs c = dir_call fs c ∧ ¬ wrote (fst (dir_call_f f fs c)).
Proof. exact (dir_reported f fs c). Qed.
Print Assumptions C61_directory_reported.
Theorem C61_cached_reported f s c : f ≠ AtLock → ¬ failed (fst (cd_call_f f s c)) →
  cd_call_f f s c = cd_call s c ∧ ¬ wrote (fst (cd_call_f f s c)).
Proof. exact (cd_reported f s c). Qed.
Print Assumptions C61_cached_reported.
(** Making a label fails when the file is synced; asked for another label meanwhile, the stores answer.  Without faults labels are made. *)
Example C61_reported_example : let n := [110] in
  fst (dir_call_f AtSync ∅ (CCreate n)) = RCreate (Err OtherError) ∧ fst (cd_call_f AtSync (CD ∅ ∅) (CCreate n)) = RCreate (Err OtherError) ∧
  ¬ failed (fst (dir_call_f AtSync ∅ (CGet n))) ∧ ¬ failed (fst (cd_call_f AtSync (CD ∅ ∅) (CGet n))) ∧
  wrote (fst (dir_call ∅ (CCreate n))) ∧ wrote (fst (cd_call (CD ∅ ∅) (CCreate n))).
Proof. vm_compute. split_and!; try reflexivity; try exact I; by intros []. Qed.

(** Unless the fault is in writing the file, or in locking a file just made, the call has done all or nothing.
    Missing: a fault in writing, which is refuted below. *)
Theorem C61_directory_partial f fs c r fs' : dir_call_f f fs c = (r, fs') → (∀ k, f ≠ AtWrite k) →
  (f = AtLock → ∀ n, c ≠ CCreate n) → fs' = fs ∨ fs' = snd (dir_call fs c).
Proof. exact (dir_all_or_nothing f fs c r fs'). Qed.
Print Assumptions C61_directory_partial.
(** Whatever the fault, asking for a label afterwards gives what it gave before, or what it would give had the call
    succeeded, or an error: never anything else. *)
Theorem C61_directory_never_wrong f fs c n : call_ok c →
  let asked fs := fst (dir_call fs (CGet n)) in
  let after := snd (dir_call_f f fs c) in
  asked after = asked fs ∨ asked after = asked (snd (dir_call fs c)) ∨ ∃ e, asked after = RGet (Err e).
Proof. exact (dir_never_wrong f fs c n). Qed.
Print Assumptions C61_directory_never_wrong.

(** In the cached store a failing update is not seen and can be tried again, after which all is as if the fault had
    not been, also for one who opens the directory anew. *)
Theorem C61_cached_unseen f s l layer r s' : cd_call_f f s (CSet l layer) = (r, s') → failed r → cd_map s' = cd_map s.
Proof. exact (cd_set_map f s l layer r s'). Qed.
Print Assumptions C61_cached_unseen.
Theorem C61_cached_retry cs f s l layer r s' nl :
  Forall call_ok cs → Forall (λ c, ¬ is_clear c) cs → s = snd (run cd_call (CD ∅ ∅) cs) →
  call_ok (CSet l layer) → layer ≠ None → cd_call_f f s (CSet l layer) = (r, s') → failed r →
  cd_map s !! lb_name l = Some l → with_updated_layer l layer = Some nl →
  ∃ s'', cd_call s' (CSet l layer) = (RSet (Ok (Some nl)), s'') ∧ s'' = snd (cd_call s (CSet l layer)) ∧
    cd_open (cd_files s'') = Ok s''.
Proof. exact (cd_retry_history cs f s l layer r s' nl). Qed.
Print Assumptions C61_cached_retry.

Definition fx_n : bytes := [109].
Definition fx_l0 : label := Label fx_n None 0.
Definition fx_layer : option lname := Some (repeat 7%N 5).
Definition fx_l1 : label := Label fx_n fx_layer 1.
Lemma fx_layer_ok : layer_ok fx_layer.
Proof. split; [done|]. unfold fx_layer. cbn [repeat]. repeat constructor; done. Qed.
Lemma fx_call_ok : call_ok (CSet fx_l0 fx_layer).
Proof. split; [split; done|exact fx_layer_ok]. Qed.
(** The update meets a fault after four bytes; the file then holds a mixture; trying again succeeds. *)
Example C61_retry_example :
  let s := snd (run cd_call (CD ∅ ∅) [CCreate fx_n]) in
  call_ok (CSet fx_l0 fx_layer) ∧ cd_map s !! lb_name fx_l0 = Some fx_l0 ∧
  fst (cd_call_f (AtWrite 4) s (CSet fx_l0 fx_layer)) = RSet (Err OtherError) ∧
  fst (run_f cd_step s [(Some (AtWrite 4), CSet fx_l0 fx_layer); (None, CGet fx_n); (None, CSet fx_l0 fx_layer); (None, CGet fx_n)])
    = [RSet (Err OtherError); RGet (Ok (Some fx_l0)); RSet (Ok (Some fx_l1)); RGet (Ok (Some fx_l1))].
Proof.
  split; [exact fx_call_ok|]. split; [vm_compute; reflexivity|]. split; vm_compute; reflexivity.
Qed.

(** Refuted for the directory store: the disk is full for one moment, when a label is updated; from then on every call
    on that label fails, whatever calls are made, until it is deleted, and so does listing the labels. *)
Theorem C61_directory_set_refuted : ∃ fs l layer, fs = snd (run dir_call ∅ [CCreate (lb_name l)]) ∧
  fst (dir_call fs (CGet (lb_name l))) = RGet (Ok (Some l)) ∧ call_ok (CSet l layer) ∧
  ∃ r fs', dir_call_f (AtWrite 0) fs (CSet l layer) = (r, fs') ∧
  ∀ cs, Forall (λ c, c ≠ CDelete (lb_name l)) cs →
    ∀ c r', (c, r') ∈ later dir_call fs' cs → about c (lb_name l) → failed r'.
Proof.
  exists (snd (run dir_call ∅ [CCreate fx_n])), fx_l0, fx_layer. split; [reflexivity|]. split; [vm_compute; reflexivity|].
  split; [exact fx_call_ok|].
  eexists _, (<[fx_n := []]> (snd (run dir_call ∅ [CCreate fx_n]))). split; [vm_compute; reflexivity|].
  intros cs Hcs. apply (dir_stuck cs _ fx_n); [|exact Hcs]. eexists [], _. rewrite lookup_insert. split; [reflexivity|reflexivity].
Qed.
Print Assumptions C61_directory_set_refuted.
(** Likewise for making a label: the name cannot be read, and cannot be made again. *)
Theorem C61_directory_create_refuted : ∃ n r fs', dir_call_f (AtWrite 0) ∅ (CCreate n) = (r, fs') ∧
  ∀ cs, Forall (λ c, c ≠ CDelete n) cs →
    ∀ c r', (c, r') ∈ later dir_call fs' cs → about c n → failed r'.
Proof.
  exists fx_n. eexists _, (<[fx_n := []]> ∅). split; [vm_compute; reflexivity|].
  intros cs Hcs. apply (dir_stuck cs _ fx_n); [|exact Hcs]. eexists [], _. rewrite lookup_insert. split; [reflexivity|reflexivity].
Qed.
Print Assumptions C61_directory_create_refuted.

(** Refuted for the cached store: making a label fails; asking for it says that there is none, making it fails from
    then on, deleting it does not help, and whatever calls are made the directory cannot be opened again. *)
Theorem C61_cached_create_refuted : ∃ n r s', cd_call_f (AtWrite 0) (CD ∅ ∅) (CCreate n) = (r, s') ∧
  ∀ cs, (∀ r', (CGet n, r') ∈ later cd_call s' cs → r' = RGet (Ok None)) ∧
    (∀ r', (CCreate n, r') ∈ later cd_call s' cs → failed r') ∧
    ∀ s'', cd_open (cd_files (snd (run cd_call s' cs))) ≠ Ok s''.
Proof.
  exists fx_n. eexists _, (CD ∅ (<[fx_n := []]> ∅)). split; [vm_compute; reflexivity|].
  intros cs. destruct (cd_orphan cs (CD ∅ (<[fx_n := []]> ∅)) fx_n []) as (H1 & H2 & _ & H4).
  - cbn [cd_map]. apply lookup_empty.
  - cbn [cd_files]. apply lookup_insert.
  - split; [exact H2|]. split; [exact H1|]. intros s''. apply (cd_open_broken _ fx_n). eexists [], _. split; [exact H4|reflexivity].
Qed.
Print Assumptions C61_cached_create_refuted.
(** An update fails in the cached store when one byte has been written and is not tried again: the label is as it was, but
    after opening the directory again it is a label that never was, neither the old nor the new one. *)
Theorem C61_cached_set_refuted : ∃ s l layer r s', s = snd (run cd_call (CD ∅ ∅) [CCreate (lb_name l)]) ∧
  call_ok (CSet l layer) ∧ cd_call_f (AtWrite 1) s (CSet l layer) = (r, s') ∧
  fst (cd_call s' (CGet (lb_name l))) = RGet (Ok (Some l)) ∧
  ∃ s'', cd_open (cd_files s') = Ok s'' ∧ fst (cd_call s'' (CGet (lb_name l))) ≠ RGet (Ok (Some l)) ∧
    (∀ nl, with_updated_layer l layer = Some nl → fst (cd_call s'' (CGet (lb_name l))) ≠ RGet (Ok (Some nl))).
Proof.
  exists (snd (run cd_call (CD ∅ ∅) [CCreate fx_n])), fx_l0, fx_layer.
  eexists _, _. split; [reflexivity|].
  split; [exact fx_call_ok|]. split; [vm_compute; reflexivity|].
  split; [vm_compute; reflexivity|].
  eexists. split; [vm_compute; reflexivity|]. split; [intros E; vm_compute in E; discriminate E|].
  intros nl Hu E. vm_compute in Hu. injection Hu as <-. vm_compute in E. discriminate E.
Qed.
Print Assumptions C61_cached_set_refuted.
(** Deleting fails in the cached store: the label is gone, cannot be made again, and is back when the directory is
    opened again. *)
Theorem C61_cached_delete_refuted : ∃ s n l r s', s = snd (run cd_call (CD ∅ ∅) [CCreate n]) ∧
  fst (cd_call s (CGet n)) = RGet (Ok (Some l)) ∧
  cd_call_f AtOpen s (CDelete n) = (r, s') ∧ failed r ∧
  (∀ cs, (∀ r', (CGet n, r') ∈ later cd_call s' cs → r' = RGet (Ok None)) ∧ (∀ r', (CCreate n, r') ∈ later cd_call s' cs → failed r')) ∧
  ∃ s'', cd_open (cd_files s') = Ok s'' ∧ fst (cd_call s'' (CGet n)) = RGet (Ok (Some l)).
Proof.
  exists (snd (run cd_call (CD ∅ ∅) [CCreate fx_n])), fx_n, fx_l0.
  eexists _, _. split; [reflexivity|]. split; [vm_compute; reflexivity|]. split; [vm_compute; reflexivity|].
  split; [exact I|]. split.
  - intros cs. match goal with |- context [later cd_call ?s _] => destruct (cd_orphan cs s fx_n new_label_contents) as (H1 & H2 & _ & _) end.
    + vm_compute. reflexivity.
    + vm_compute. reflexivity.
    + split; [exact H2|exact H1].
  - eexists. split; [vm_compute; reflexivity|]. vm_compute. reflexivity.
Qed.
Print Assumptions C61_cached_delete_refuted.
