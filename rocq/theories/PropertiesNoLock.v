(** C65: labels in a build that reads them without locks (feature [noreadlock]). *)
From Verif Require Import Prelude Names SpecText NamesFacts LabelConc LabelSpec LabelConcFacts LabelNoLock SpecNoLock NoLockFacts.

(** Whatever the readers do, for the other callers every run is a run of the store in which readers lock: the same
    files, and the same results in the same order.  So no update is lost (C21), creation is exclusive (C44), and a
    crash leaves what it leaves with locks (C22). *)
Theorem C65_updates : ∀ tr s, nexec tr s → lexec (no_gets tr) s.1.
Proof. exact nexec_lexec. Qed.
Print Assumptions C65_updates.
(** In particular the updates of a name are those of a compare-and-swap register. *)
Theorem C65_register : ∀ tr s n, nexec tr s → ¬ deleted n (no_gets tr) →
  ∃ c, history name_reg None (on_name n (no_gets tr)) c.
Proof. exact (λ tr s n H, name_register (no_gets tr) s.1 n (nexec_lexec tr s H)). Qed.
Print Assumptions C65_register.

(** A reader during whose call the file is not written gets the label that is in the file.  Missing for the full
    property, that a reader gets a label that was there at some time during its call: files that are written
    meanwhile (refuted below). *)
Theorem C65_quiet_partial : ∀ i d s es s' t n tr e s'',
  nexec tr s → s.2 !! t = Some (RRead n i []) → nquiet i d s es s' → (∀ e, e ∈ es → caller e ≠ t) →
  nstep s' (Some e) s'' → caller e = t → e = EvGet t n (Some i) (get_result (get_label_from_data n d)).
Proof. exact (λ i d s es s' t n tr e s'' Hx Ht Hq, quiet_read i d s es s' t n tr e s'' Hx Hq Ht). Qed.
Print Assumptions C65_quiet_partial.
(** The text of a file that a reader gets hold of in one piece is that of the current label, or of the label that is
    being written, or, while a caller is writing, something that is rejected. *)
Theorem C65_piece_partial : ∀ tr s n d, nexec tr s → on_disk s.1 n = Some d →
  ∃ i c, s_dir s.1 !! n = Some i ∧ history reg None (on_file i (no_gets tr)) c ∧
    ((∃ l, c = Some l ∧ get_label_from_data n d = Ok l)
     ∨ (writing n s.1 ∧ (∃ e, get_label_from_data n d = Err e))
     ∨ (writing n s.1 ∧ ∃ nl, get_label_from_data n d = Ok nl ∧
          match c with Some l => updates l nl | None => nl = Label n None 0 end)).
Proof. exact (λ tr s n d H, disk_state (no_gets tr) s.1 n d (nexec_lexec tr s H)). Qed.
Print Assumptions C65_piece_partial.

(** A reader is told that there is no label only before it is created, or when it has been deleted. *)
Theorem C65_absent : ∀ tr s pre t n r post, nexec tr s → tr = pre ++ EvGet t n None r :: post →
  r = Ok None ∧ ((∃ u i l, EvCreate u n i (Ok l) ∈ pre) → deleted n pre).
Proof. exact absent_read. Qed.
Print Assumptions C65_absent.

(** ** Two runs *)
Definition ky_n : bytes := [109].
Definition ky_name (k : N) : lname := repeat k 5.
Definition ky_l0 : label := Label ky_n None 0.
Definition ky_a : label := Label ky_n (Some (ky_name 7)) 1.
Definition ky_b : label := Label ky_n (Some (ky_name 8)) 2.
Definition ky_mixture : label := Label ky_n (Some [7; 7; 8; 8; 8]%N) 1.

#[local] Instance reading_dec p : Decision (reading p).
Proof. destruct p; cbn; apply _. Defined.
Lemma apart_here s rd :
  bool_decide (map_Forall (λ _ p, ¬ reading p) (s_threads s) ∧ map_Forall (λ t _, s_threads s !! t = None) rd) = true → apart s rd.
Proof. intros [H1 H2]%bool_decide_eq_true. split; [exact H1|]. intros t [r Hr]. by apply (H2 t r). Qed.
Ltac other tac := eapply n_other; [tac; first [reflexivity|by repeat constructor|done]|apply apart_here; vm_compute; reflexivity].

(** A label is created and deleted, then a reader comes. *)
Example C65_absent_example : ∃ s, nexec [EvCreate 0 ky_n (Some 0) (Ok ky_l0); EvDelete 0 ky_n true; EvGet 1 ky_n None (Ok None)] s.
Proof.
  pose proof nexec_nil as H.
  eapply nexec_step in H; [|other ltac:(eapply (start_create _ 0 ky_n))].
  eapply nexec_step in H; [|other ltac:(eapply (create_stat _ 0 ky_n))].
  eapply nexec_step in H; [|other ltac:(eapply (create_open _ 0 ky_n 0))].
  eapply nexec_step in H; [|other ltac:(eapply (create_lock _ 0 ky_n 0))].
  eapply nexec_step in H; [|other ltac:(eapply (create_write _ 0 ky_n 0 0 new_label_contents []))].
  eapply nexec_step in H; [|other ltac:(eapply (create_done _ 0 ky_n 0))].
  eapply nexec_step in H; [|other ltac:(eapply (start_delete _ 0 ky_n))].
  eapply nexec_step in H; [|other ltac:(eapply (delete_file _ 0 ky_n 0))].
  eapply nexec_step in H; [|eapply (n_start _ _ 1 ky_n); reflexivity].
  eapply nexec_step in H; [|eapply (n_absent _ _ 1 ky_n); reflexivity].
  eexists. match type of H with nexec ?tr _ => match goal with |- nexec ?t0 _ => replace t0 with tr by (vm_compute; reflexivity) end end. exact H.
Qed.
(** The label is created and updated; a reader takes the first part of its text, then somebody updates it once more,
    then the reader takes the rest.  It is given a label that nobody ever wrote. *)
Definition ky_events : list lev :=
  [EvCreate 0 ky_n (Some 0) (Ok ky_l0); EvSet 0 ky_l0 ky_a (Some 0) (Ok (Some ky_a));
   EvSet 0 ky_a ky_b (Some 0) (Ok (Some ky_b)); EvGet 1 ky_n (Some 0) (Ok (Some ky_mixture))].
Theorem C65_mixture_refuted : ∃ tr s t l, nexec tr s ∧ EvGet t (lb_name l) (Some 0) (Ok (Some l)) ∈ tr ∧
  (∀ e, e ∈ tr → caller e ≠ t → match e with EvSet _ _ l' _ _ | EvCreate _ _ _ (Ok l') => l' ≠ l | _ => False end).
Proof.
  assert (H : ∃ s, nexec ky_events s).
  { pose proof nexec_nil as H.
    eapply nexec_step in H; [|other ltac:(eapply (start_create _ 0 ky_n))].
    eapply nexec_step in H; [|other ltac:(eapply (create_stat _ 0 ky_n))].
    eapply nexec_step in H; [|other ltac:(eapply (create_open _ 0 ky_n 0))].
    eapply nexec_step in H; [|other ltac:(eapply (create_lock _ 0 ky_n 0))].
    eapply nexec_step in H; [|other ltac:(eapply (create_write _ 0 ky_n 0 0 new_label_contents []))].
    eapply nexec_step in H; [|other ltac:(eapply (create_done _ 0 ky_n 0))].
    eapply nexec_step in H; [|other ltac:(eapply (start_set _ 0 ky_l0 (Some (ky_name 7)) ky_a))].
    eapply nexec_step in H; [|other ltac:(eapply (set_open _ 0 ky_l0 ky_a 0))].
    eapply nexec_step in H; [|other ltac:(eapply (set_lock _ 0 ky_l0 ky_a 0))].
    eapply nexec_step in H; [|other ltac:(eapply (set_read _ 0 ky_l0 ky_a 0))].
    eapply nexec_step in H; [|other ltac:(eapply (set_truncate _ 0 ky_l0 ky_a 0))].
    eapply nexec_step in H; [|other ltac:(eapply (set_write _ 0 ky_l0 ky_a 0 0 (label_contents ky_a) []))].
    eapply nexec_step in H; [|other ltac:(eapply (set_done _ 0 ky_l0 ky_a 0))].
    eapply nexec_step in H; [|eapply (n_start _ _ 1 ky_n); reflexivity].
    eapply nexec_step in H; [|eapply (n_open _ _ 1 ky_n 0); reflexivity].
    eapply nexec_step in H; [|eapply (n_read _ _ 1 ky_n 0 [] _ (take 18 (label_contents ky_a)) (drop 18 (label_contents ky_a))); [reflexivity..|discriminate]].
    eapply nexec_step in H; [|other ltac:(eapply (start_set _ 0 ky_a (Some (ky_name 8)) ky_b))].
    eapply nexec_step in H; [|other ltac:(eapply (set_open _ 0 ky_a ky_b 0))].
    eapply nexec_step in H; [|other ltac:(eapply (set_lock _ 0 ky_a ky_b 0))].
    eapply nexec_step in H; [|other ltac:(eapply (set_read _ 0 ky_a ky_b 0))].
    eapply nexec_step in H; [|other ltac:(eapply (set_truncate _ 0 ky_a ky_b 0))].
    eapply nexec_step in H; [|other ltac:(eapply (set_write _ 0 ky_a ky_b 0 0 (label_contents ky_b) []))].
    eapply nexec_step in H; [|other ltac:(eapply (set_done _ 0 ky_a ky_b 0))].
    eapply nexec_step in H; [|eapply (n_read _ _ 1 ky_n 0 _ _ (drop 18 (label_contents ky_b)) []); [reflexivity..|discriminate]].
    eapply nexec_step in H; [|eapply (n_done _ _ 1 ky_n 0); [reflexivity|reflexivity|apply Nat.leb_le; vm_compute; reflexivity]].
    eexists. match type of H with nexec ?tr _ => replace ky_events with tr by (vm_compute; reflexivity) end. exact H. }
  destruct H as [s H]. exists ky_events, s, 1, ky_mixture. split; [exact H|]. split.
  - apply (elem_of_list_lookup_2 _ 3). reflexivity.
  - intros e He Hc. unfold ky_events in He. rewrite !elem_of_cons, elem_of_nil in He.
    destruct He as [->|[->|[->|[->|[]]]]]; [discriminate..|]. by destruct Hc.
Qed.
Print Assumptions C65_mixture_refuted.
(** A reader that comes while an update has emptied the file is given an error, although the label is never absent. *)
Theorem C65_empty_refuted : ∃ tr s t n k, nexec tr s ∧ EvGet t n (Some 0) (Err k) ∈ tr ∧
  (∃ u l, tr !! 0 = Some (EvCreate u n (Some 0) (Ok l))) ∧ ¬ deleted n tr.
Proof.
  assert (H : ∃ s, nexec [EvCreate 0 ky_n (Some 0) (Ok ky_l0); EvGet 1 ky_n (Some 0) (Err InvalidData)] s).
  { pose proof nexec_nil as H.
    eapply nexec_step in H; [|other ltac:(eapply (start_create _ 0 ky_n))].
    eapply nexec_step in H; [|other ltac:(eapply (create_stat _ 0 ky_n))].
    eapply nexec_step in H; [|other ltac:(eapply (create_open _ 0 ky_n 0))].
    eapply nexec_step in H; [|other ltac:(eapply (create_lock _ 0 ky_n 0))].
    eapply nexec_step in H; [|other ltac:(eapply (create_write _ 0 ky_n 0 0 new_label_contents []))].
    eapply nexec_step in H; [|other ltac:(eapply (create_done _ 0 ky_n 0))].
    eapply nexec_step in H; [|other ltac:(eapply (start_set _ 0 ky_l0 (Some (ky_name 7)) ky_a))].
    eapply nexec_step in H; [|other ltac:(eapply (set_open _ 0 ky_l0 ky_a 0))].
    eapply nexec_step in H; [|other ltac:(eapply (set_lock _ 0 ky_l0 ky_a 0))].
    eapply nexec_step in H; [|other ltac:(eapply (set_read _ 0 ky_l0 ky_a 0))].
    eapply nexec_step in H; [|other ltac:(eapply (set_truncate _ 0 ky_l0 ky_a 0))].
    eapply nexec_step in H; [|eapply (n_start _ _ 1 ky_n); reflexivity].
    eapply nexec_step in H; [|eapply (n_open _ _ 1 ky_n 0); reflexivity].
    eapply nexec_step in H; [|eapply (n_done _ _ 1 ky_n 0); [reflexivity|reflexivity|apply Nat.leb_le; vm_compute; reflexivity]].
    eexists. match type of H with nexec ?tr _ => match goal with |- nexec ?t0 _ => replace t0 with tr by (vm_compute; reflexivity) end end. exact H. }
  destruct H as [s H]. eexists _, s, 1, ky_n, InvalidData. split; [exact H|]. split; [|split].
  - apply (elem_of_list_lookup_2 _ 1). reflexivity.
  - exists 0, ky_l0. reflexivity.
  - intros [u Hu]. rewrite !elem_of_cons, elem_of_nil in Hu. destruct Hu as [?|[?|[]]]; discriminate.
Qed.
Print Assumptions C65_empty_refuted.
