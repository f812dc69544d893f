(** C55: label calls that are given up.  [xexec A] runs calls of which some are given up at the points [A] (LabelCancel.v); [xhistory],
    [returned], [unchanged_yet] and [fails] are defined in SpecCancel.v, [history], [reg] and [name_reg] in LabelSpec.v and [goes_on]
    in SpecProgress.v. *)
From Verif Require Import Prelude Names LabelConc LabelSpec SpecProgress LabelCancel SpecCancel LabelCancelFacts PropertiesLabel.

(** ** C55.  If calls are only given up before they have begun to change anything, the calls that return say the same as if the others
    had not been made; *)
Theorem C55_before_file_partial tr s i : xexec unchanged_yet tr s → ∃ c, history reg None (on_file i (returned tr)) c.
Proof. exact (before_file tr s i). Qed.
Print Assumptions C55_before_file_partial.
Theorem C55_before_name_partial tr s n : xexec unchanged_yet tr s → ¬ deleted n (returned tr) →
  ∃ c, history name_reg None (on_name n (returned tr)) c.
Proof. exact (before_name tr s n). Qed.
Print Assumptions C55_before_name_partial.
(** wherever calls are given up, an update that was given up has either happened, or not, or has lost the label, and nothing else: the
    calls on other files are not affected; *)
Theorem C55_file_partial tr s i : xexec anywhere tr s → ∃ c, xhistory None (xon_file i tr) c.
Proof. exact (cancel_file anywhere tr s i). Qed.
Print Assumptions C55_file_partial.
(** that update is one that [set_label] was called for; *)
Theorem C55_stopped_updates tr s t l nl i r : xexec anywhere tr s → StopSet t l nl i r ∈ tr → updates l nl.
Proof. exact (stopped_updates anywhere tr s t l nl i r). Qed.
Print Assumptions C55_stopped_updates.
(** what is said to be given up is what the caller had asked for, the caller is gone, and unless it was deleting a label no label has
    come or gone; *)
Theorem C55_stopped_asked A s e s' t a : xstep A s (Some e) s' → given_up e = Some (t, a) →
  ∃ p, s_threads s !! t = Some p ∧ asks p = a ∧ A p ∧ s_threads s' = delete t (s_threads s) ∧
    ((∀ n, a ≠ AskDelete n) → s_dir s' = s_dir s).
Proof. exact (stopped_asked A s e s' t a). Qed.
Print Assumptions C55_stopped_asked.
Example C55_stopped_asked_example : let n := [109] in let s := LState ∅ ∅ {[3 := PGetOpen n]} in
  xstep anywhere s (Some (StopGet 3 n None (Ok ()))) (leave s 3) ∧ given_up (StopGet 3 n None (Ok ())) = Some (3, AskGet n).
Proof. split; [|done]. apply (x_stop anywhere (LState ∅ ∅ {[3 := PGetOpen [109]]}) 3 (PGetOpen [109]) (Ok ())); [apply lookup_singleton|done|by left]. Qed.
(** once a label that could be read cannot be read any more, no call on its file succeeds again; *)
Theorem C55_lost_for_ever tr1 tr2 tr3 s i t n l t' n' k :
  xexec anywhere (tr1 ++ Returned (EvGet t n (Some i) (Ok (Some l))) :: tr2 ++ Returned (EvGet t' n' (Some i) (Err k)) :: tr3) s →
  ∀ ev, Returned ev ∈ tr3 → ev_ino ev = Some i → fails ev.
Proof. exact (lost_for_ever anywhere tr1 tr2 tr3 s i t n l t' n' k). Qed.
Print Assumptions C55_lost_for_ever.
(** a call that is given up leaves no lock behind: the others go on and return. *)
Theorem C55_go_on tr s : xexec anywhere tr s → s_threads s ≠ ∅ → ∃ s', goes_on s s'.
Proof. exact (cancel_go_on anywhere tr s). Qed.
Print Assumptions C55_go_on.
Theorem C55_finish tr s : xexec anywhere tr s → ∃ s', rtc goes_on s s' ∧ s_threads s' = ∅.
Proof. exact (cancel_finish anywhere tr s). Qed.
Print Assumptions C55_finish.

(** steps of a run *)
Lemma xgo A tr s e s' : lstep s e s' → xexec A tr s → xexec A (tr ++ option_list (Returned <$> e)) s'.
Proof. intros H He. by apply (xexec_step A tr s _ s' He), x_step. Qed.
Lemma xstop (A : pc → Prop) tr s t p r : s_threads s !! t = Some p → A p → r = Ok () ∨ in_operation p ∧ r = Panic → xexec A tr s →
  xexec A (tr ++ [stop_event t p r]) (leave (released s t p) t).
Proof. intros H1 H2 H3 He. apply (xexec_step A tr s (Some (stop_event t p r)) _ He). by apply x_stop. Qed.
(** a label has been created and read *)
Lemma xcreated A : ∃ s, xexec A [Returned (EvCreate 0 lx_n (Some 0) (Ok lx_l0)); Returned (EvGet 0 lx_n (Some 0) (Ok (Some lx_l0)))] s ∧
  s_threads s = ∅ ∧ s_dir s !! lx_n = Some 0 ∧ s_inodes s !! 0 = Some (Inode new_label_contents None [] lx_n 0).
Proof.
  pose proof (xexec_nil A) as H.
  eapply xgo in H; [|eapply (start_create _ 0 lx_n); reflexivity].
  eapply xgo in H; [|eapply (create_stat _ 0 lx_n); reflexivity].
  eapply xgo in H; [|eapply (create_open _ 0 lx_n 0); reflexivity].
  eapply xgo in H; [|eapply (create_lock _ 0 lx_n 0); reflexivity].
  eapply xgo in H; [|eapply (create_write _ 0 lx_n 0 0 new_label_contents []); reflexivity].
  eapply xgo in H; [|eapply (create_done _ 0 lx_n 0); reflexivity].
  eapply xgo in H; [|eapply (start_get _ 0 lx_n); reflexivity].
  eapply xgo in H; [|eapply (get_open _ 0 lx_n 0); reflexivity].
  eapply xgo in H; [|eapply (get_lock _ 0 lx_n 0); reflexivity].
  eapply xgo in H; [|eapply (get_read _ 0 lx_n 0); reflexivity].
  eapply xgo in H; [|eapply (get_done _ 0 lx_n 0); reflexivity].
  eexists. split; [exact H|]. split; [apply map_size_empty_iff; vm_compute; reflexivity|]. split; vm_compute; reflexivity.
Qed.
(** ** An update that is given up between emptying the file and writing to it loses the label: nobody can read, update or create it. *)
Theorem C55_set_refuted : ∃ s, xexec anywhere
  [Returned (EvCreate 0 lx_n (Some 0) (Ok lx_l0)); Returned (EvGet 0 lx_n (Some 0) (Ok (Some lx_l0)));
   StopSet 1 lx_l0 lx_a (Some 0) (Ok ());
   Returned (EvGet 2 lx_n (Some 0) (Err InvalidData)); Returned (EvSet 2 lx_l0 lx_a (Some 0) (Err InvalidData));
   Returned (EvCreate 2 lx_n None (Err InvalidInput))] s.
Proof.
  destruct (xcreated anywhere) as (s & H & Hz & Hd & Hi).
  pose proof (lx_layer 7 ltac:(done)) as H7. assert (label_ok lx_l0) as H0 by (split; [done|done]).
  destruct s as [d ns ts]. cbn [s_threads s_dir s_inodes] in *. subst ts.
  eapply xgo in H; [|eapply (start_set _ 1 lx_l0 (Some (lx_name 7)) lx_a); done || reflexivity].
  eapply xgo in H; [|eapply (set_open _ 1 lx_l0 lx_a 0); [reflexivity|exact Hd]].
  eapply xgo in H; [|eapply (set_lock _ 1 lx_l0 lx_a 0); [reflexivity|exact Hi|reflexivity|reflexivity]].
  eapply xgo in H; [|eapply (set_read _ 1 lx_l0 lx_a 0); [reflexivity|apply lookup_insert]].
  eapply xgo in H; [|eapply (set_truncate _ 1 lx_l0 lx_a 0); [reflexivity|apply lookup_insert|vm_compute; reflexivity]].
  eapply (xstop _ _ _ 1 _ (Ok ())) in H; [|reflexivity|exact I|by left].
  cbn [released] in H.
  match type of H with context [s_inodes ?s !! 0] => replace (s_inodes s !! 0) with (Some (Inode [] (Some 1) [] lx_n 0)) in H by (symmetry; apply lookup_insert) end.
  eapply xgo in H; [|eapply (start_get _ 2 lx_n); reflexivity].
  eapply xgo in H; [|eapply (get_open _ 2 lx_n 0); [reflexivity|exact Hd]].
  eapply xgo in H; [|eapply (get_lock _ 2 lx_n 0); [reflexivity|apply lookup_insert|reflexivity]].
  eapply xgo in H; [|eapply (get_read _ 2 lx_n 0); [reflexivity|apply lookup_insert]].
  eapply xgo in H; [|eapply (get_done _ 2 lx_n 0); [reflexivity|apply lookup_insert]].
  eapply xgo in H; [|eapply (start_set _ 2 lx_l0 (Some (lx_name 7)) lx_a); done || reflexivity].
  eapply xgo in H; [|eapply (set_open _ 2 lx_l0 lx_a 0); [reflexivity|exact Hd]].
  eapply xgo in H; [|eapply (set_lock _ 2 lx_l0 lx_a 0); [reflexivity|apply lookup_insert|reflexivity|reflexivity]].
  eapply xgo in H; [|eapply (set_read _ 2 lx_l0 lx_a 0); [reflexivity|apply lookup_insert]].
  eapply xgo in H; [|eapply (set_bad _ 2 lx_l0 lx_a 0 _ _ (Err InvalidData)); [reflexivity|apply lookup_insert|vm_compute; reflexivity]].
  eapply xgo in H; [|eapply (start_create _ 2 lx_n); reflexivity].
  eapply xgo in H; [|eapply (create_exists _ 2 lx_n 0); [reflexivity|exact Hd]].
  eexists. exact H.
Qed.
Print Assumptions C55_set_refuted.
(** A creation that is given up leaves a name that can be neither read nor created, until it is deleted. *)
Theorem C55_create_refuted : ∃ s, xexec anywhere
  [StopCreate 0 lx_n (Some 0) (Ok ());
   Returned (EvCreate 2 lx_n None (Err InvalidInput)); Returned (EvGet 2 lx_n (Some 0) (Err InvalidData));
   Returned (EvDelete 2 lx_n true); Returned (EvCreate 2 lx_n (Some 1) (Ok lx_l0))] s.
Proof.
  pose proof (xexec_nil anywhere) as H.
  eapply xgo in H; [|eapply (start_create _ 0 lx_n); reflexivity].
  eapply xgo in H; [|eapply (create_stat _ 0 lx_n); reflexivity].
  eapply xgo in H; [|eapply (create_open _ 0 lx_n 0); reflexivity].
  eapply (xstop _ _ _ 0 _ (Ok ())) in H; [|reflexivity|exact I|by left].
  eapply xgo in H; [|eapply (start_create _ 2 lx_n); reflexivity].
  eapply xgo in H; [|eapply (create_exists _ 2 lx_n 0); reflexivity].
  eapply xgo in H; [|eapply (start_get _ 2 lx_n); reflexivity].
  eapply xgo in H; [|eapply (get_open _ 2 lx_n 0); reflexivity].
  eapply xgo in H; [|eapply (get_lock _ 2 lx_n 0); reflexivity].
  eapply xgo in H; [|eapply (get_read _ 2 lx_n 0); reflexivity].
  eapply xgo in H; [|eapply (get_done _ 2 lx_n 0); reflexivity].
  eapply xgo in H; [|eapply (start_delete _ 2 lx_n); reflexivity].
  eapply xgo in H; [|eapply (delete_file _ 2 lx_n 0); reflexivity].
  eapply xgo in H; [|eapply (start_create _ 2 lx_n); reflexivity].
  eapply xgo in H; [|eapply (create_stat _ 2 lx_n); reflexivity].
  eapply xgo in H; [|eapply (create_open _ 2 lx_n 1); reflexivity].
  eapply xgo in H; [|eapply (create_lock _ 2 lx_n 1); reflexivity].
  eapply xgo in H; [|eapply (create_write _ 2 lx_n 1 0 new_label_contents []); reflexivity].
  eapply xgo in H; [|eapply (create_done _ 2 lx_n 1); reflexivity].
  eexists. exact H.
Qed.
Print Assumptions C55_create_refuted.
(** Giving up a call that is reading panics. *)
Theorem C55_panic_refuted : ∃ s, xexec unchanged_yet
  [Returned (EvCreate 0 lx_n (Some 0) (Ok lx_l0)); Returned (EvGet 0 lx_n (Some 0) (Ok (Some lx_l0))); StopGet 1 lx_n (Some 0) Panic] s.
Proof.
  destruct (xcreated unchanged_yet) as (s & H & Hz & Hd & Hi). destruct s as [d ns ts]. cbn [s_threads s_dir s_inodes] in *. subst ts.
  eapply xgo in H; [|eapply (start_get _ 1 lx_n); reflexivity].
  eapply xgo in H; [|eapply (get_open _ 1 lx_n 0); [reflexivity|exact Hd]].
  eapply xgo in H; [|eapply (get_lock _ 1 lx_n 0); [reflexivity|exact Hi|reflexivity]].
  eapply (xstop _ _ _ 1 _ Panic) in H; [|reflexivity|exact I|by right].
  eexists. exact H.
Qed.
Print Assumptions C55_panic_refuted.
(** One caller gives up an update after reading the label; another has waited for the lock and updates it. *)
Example C55_before_example : ∃ s, xexec unchanged_yet
  [Returned (EvCreate 0 lx_n (Some 0) (Ok lx_l0)); Returned (EvGet 0 lx_n (Some 0) (Ok (Some lx_l0)));
   StopSet 1 lx_l0 lx_b (Some 0) (Ok ()); Returned (EvSet 2 lx_l0 lx_a (Some 0) (Ok (Some lx_a)))] s ∧
  ¬ deleted lx_n (returned [Returned (EvCreate 0 lx_n (Some 0) (Ok lx_l0)); Returned (EvGet 0 lx_n (Some 0) (Ok (Some lx_l0)));
   StopSet 1 lx_l0 lx_b (Some 0) (Ok ()); Returned (EvSet 2 lx_l0 lx_a (Some 0) (Ok (Some lx_a)))]).
Proof.
  destruct (xcreated unchanged_yet) as (s & H & Hz & Hd & Hi).
  pose proof (lx_layer 7 ltac:(done)) as H7. pose proof (lx_layer 8 ltac:(done)) as H8. assert (label_ok lx_l0) as H0 by (split; [done|done]).
  destruct s as [d ns ts]. cbn [s_threads s_dir s_inodes] in *. subst ts.
  eapply xgo in H; [|eapply (start_set _ 1 lx_l0 (Some (lx_name 8)) lx_b); done || reflexivity].
  eapply xgo in H; [|eapply (set_open _ 1 lx_l0 lx_b 0); [reflexivity|exact Hd]].
  eapply xgo in H; [|eapply (set_lock _ 1 lx_l0 lx_b 0); [reflexivity|exact Hi|reflexivity|reflexivity]].
  eapply xgo in H; [|eapply (set_read _ 1 lx_l0 lx_b 0); [reflexivity|apply lookup_insert]].
  eapply xgo in H; [|eapply (start_set _ 2 lx_l0 (Some (lx_name 7)) lx_a); done || reflexivity].
  eapply xgo in H; [|eapply (set_open _ 2 lx_l0 lx_a 0); [reflexivity|exact Hd]].
  eapply (xstop _ _ _ 1 _ (Ok ())) in H; [|reflexivity|exact I|by left].
  cbn [released] in H.
  match type of H with context [s_inodes ?s !! 0] => replace (s_inodes s !! 0) with (Some (Inode new_label_contents (Some 1) [] lx_n 0)) in H by (symmetry; apply lookup_insert) end.
  eapply xgo in H; [|eapply (set_lock _ 2 lx_l0 lx_a 0); [reflexivity|apply lookup_insert|reflexivity|reflexivity]].
  eapply xgo in H; [|eapply (set_read _ 2 lx_l0 lx_a 0); [reflexivity|apply lookup_insert]].
  eapply xgo in H; [|eapply (set_truncate _ 2 lx_l0 lx_a 0); [reflexivity|apply lookup_insert|vm_compute; reflexivity]].
  eapply xgo in H; [|eapply (set_write _ 2 lx_l0 lx_a 0 0 (label_contents lx_a) []); [rewrite app_nil_r; reflexivity|apply lookup_insert]].
  eapply xgo in H; [|eapply (set_done _ 2 lx_l0 lx_a 0); [reflexivity|apply lookup_insert]].
  eexists. split; [exact H|]. intros [t Ht]. cbn [returned] in Ht. repeat (apply elem_of_cons in Ht as [Ht|Ht]; [discriminate Ht|]). by apply elem_of_nil in Ht.
Qed.
