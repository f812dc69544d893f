(** C56: label calls happen one at a time.  [texec] runs the callers of LabelConc.v and records when calls begin and return
    (LabelTimed.v); [linearizable], [call_in] and [ends] are defined in SpecLinear.v. *)
From Verif Require Import Prelude Names LabelSeq LabelConc LabelSpec LabelTimed SpecLinear LinearFacts PropertiesLabel.

(** ** C56.  The calls that returned can be ordered so that calls of which one returned before the other began keep their order, and
    every name sees creations, reads, updates and deletions each happen all at once in this order; *)
Theorem C56_linearizable tr s : texec tr s → linearizable tr.
Proof. exact (texec_linearizable tr s). Qed.
Print Assumptions C56_linearizable.
(** every answer is one to a call that had begun; *)
Theorem C56_answers tr s : texec tr s → ∀ j e, tr !! j = Some (Ends e) → ∃ b, call_in tr (b, j, e).
Proof. exact (texec_answers tr s). Qed.
Print Assumptions C56_answers.
(** all runs of LabelConc.v, which C21, C22, C54 and C55 are about, are among these. *)
Theorem C56_all_runs tr s : lexec tr s → ∃ ttr, texec ttr s ∧ ends ttr = tr.
Proof. exact (lexec_texec tr s). Qed.
Print Assumptions C56_all_runs.

Lemma tbegin tr s t c p : s_threads s !! t = None → begins c p → lstep s None (goto s t p) → texec tr s → texec (tr ++ [Begins t c]) (goto s t p).
Proof. intros H1 H2 H3 H. by apply texec_begin. Qed.
Lemma tgoto tr s t p q s' : lstep s None s' → s_threads s !! t = Some p → s_threads s' = <[t := q]> (s_threads s) → texec tr s → texec tr s'.
Proof.
  intros H1 H2 H3 H. rewrite <- (app_nil_r tr). change [] with (option_list (Ends <$> @None lev)). apply (texec_step tr s); [done|done|].
  intros u Hu. rewrite H3, lookup_insert_ne; [done|]. intros ->. by rewrite H2 in Hu.
Qed.
Lemma tleave tr s t p e s' : lstep s (Some e) s' → s_threads s !! t = Some p → s_threads s' = delete t (s_threads s) → texec tr s → texec (tr ++ [Ends e]) s'.
Proof.
  intros H1 H2 H3 H. change [Ends e] with (option_list (Ends <$> Some e)). apply (texec_step tr s); [done|done|].
  intros u Hu. rewrite H3. destruct (decide (u = t)) as [->|?]; [by rewrite lookup_delete|by rewrite lookup_delete_ne].
Qed.
(** An update has opened the file when the label is deleted and created again; it succeeds, on the file that is gone.  In the order in which
    the calls returned the answers make no sense: the update has to come before the deletion. *)
Definition tx_run : list titem := [
  Begins 0 (CCreate lx_n); Ends (EvCreate 0 lx_n (Some 0) (Ok lx_l0));
  Begins 1 (CSet lx_l0 (Some (lx_name 7)));
  Begins 2 (CDelete lx_n); Ends (EvDelete 2 lx_n true);
  Begins 2 (CGet lx_n); Ends (EvGet 2 lx_n None (Ok None));
  Ends (EvSet 1 lx_l0 lx_a (Some 0) (Ok (Some lx_a)));
  Begins 2 (CCreate lx_n); Ends (EvCreate 2 lx_n (Some 1) (Ok lx_l0))].
Example C56_example : (∃ s, texec tx_run s) ∧ ¬ ∃ c, calls_on Absent (ends tx_run) c.
Proof.
  split.
  - pose proof texec_nil as H.
    pose proof (lx_layer 7 ltac:(done)) as H7. assert (label_ok lx_l0) as H0 by (split; [done|done]).
    eapply (tbegin _ _ 0 (CCreate lx_n) (PCreStat lx_n)) in H; [|reflexivity|exact eq_refl|eapply (start_create _ 0 lx_n); reflexivity].
    eapply (tgoto _ _ 0) in H; [|eapply (create_stat _ 0 lx_n); reflexivity|reflexivity|reflexivity].
    eapply (tgoto _ _ 0) in H; [|eapply (create_open _ 0 lx_n 0); reflexivity|reflexivity|reflexivity].
    eapply (tgoto _ _ 0) in H; [|eapply (create_lock _ 0 lx_n 0); reflexivity|reflexivity|reflexivity].
    eapply (tgoto _ _ 0) in H; [|eapply (create_write _ 0 lx_n 0 0 new_label_contents []); reflexivity|reflexivity|reflexivity].
    eapply (tleave _ _ 0) in H; [|eapply (create_done _ 0 lx_n 0); reflexivity|reflexivity|reflexivity].
    eapply (tbegin _ _ 1 (CSet lx_l0 (Some (lx_name 7))) (PSetOpen lx_l0 lx_a)) in H; [|reflexivity|split; [reflexivity|vm_compute; reflexivity]|eapply (start_set _ 1 lx_l0 (Some (lx_name 7)) lx_a); done || reflexivity].
    eapply (tgoto _ _ 1) in H; [|eapply (set_open _ 1 lx_l0 lx_a 0); reflexivity|reflexivity|reflexivity].
    eapply (tbegin _ _ 2 (CDelete lx_n) (PDel lx_n)) in H; [|reflexivity|exact eq_refl|eapply (start_delete _ 2 lx_n); reflexivity].
    eapply (tleave _ _ 2) in H; [|eapply (delete_file _ 2 lx_n 0); reflexivity|reflexivity|reflexivity].
    eapply (tbegin _ _ 2 (CGet lx_n) (PGetOpen lx_n)) in H; [|reflexivity|exact eq_refl|eapply (start_get _ 2 lx_n); reflexivity].
    eapply (tleave _ _ 2) in H; [|eapply (get_absent _ 2 lx_n); reflexivity|reflexivity|reflexivity].
    eapply (tgoto _ _ 1) in H; [|eapply (set_lock _ 1 lx_l0 lx_a 0); reflexivity|reflexivity|reflexivity].
    eapply (tgoto _ _ 1) in H; [|eapply (set_read _ 1 lx_l0 lx_a 0); reflexivity|reflexivity|reflexivity].
    eapply (tgoto _ _ 1) in H; [|eapply (set_truncate _ 1 lx_l0 lx_a 0); reflexivity|reflexivity|reflexivity].
    eapply (tgoto _ _ 1) in H; [|eapply (set_write _ 1 lx_l0 lx_a 0 0 (label_contents lx_a) []); reflexivity|reflexivity|reflexivity].
    eapply (tleave _ _ 1) in H; [|eapply (set_done _ 1 lx_l0 lx_a 0); reflexivity|reflexivity|reflexivity].
    eapply (tbegin _ _ 2 (CCreate lx_n) (PCreStat lx_n)) in H; [|reflexivity|exact eq_refl|eapply (start_create _ 2 lx_n); reflexivity].
    eapply (tgoto _ _ 2) in H; [|eapply (create_stat _ 2 lx_n); reflexivity|reflexivity|reflexivity].
    eapply (tgoto _ _ 2) in H; [|eapply (create_open _ 2 lx_n 1); reflexivity|reflexivity|reflexivity].
    eapply (tgoto _ _ 2) in H; [|eapply (create_lock _ 2 lx_n 1); reflexivity|reflexivity|reflexivity].
    eapply (tgoto _ _ 2) in H; [|eapply (create_write _ 2 lx_n 1 0 new_label_contents []); reflexivity|reflexivity|reflexivity].
    eapply (tleave _ _ 2) in H; [|eapply (create_done _ 2 lx_n 1); reflexivity|reflexivity|reflexivity].
    eexists. exact H.
  - intros [c H]. unfold tx_run in H. cbn [ends] in H.
    inversion H as [|? ? G1|? ? ? ? ? X ?]; subst; [|inversion X].
    inversion G1 as [| |? ? ? ? ? X G2]; subst. inversion X; subst. clear X.
    inversion G2 as [| |? ? ? ? ? X G3]; subst. inversion X; subst. clear X.
    inversion G3 as [|? ? G4|? ? ? ? ? X G4]; subst.
    + inversion G4 as [| |? ? ? ? ? X ?]; subst. inversion X.
    + inversion X; subst. clear X. inversion G4 as [|? ? G5|? ? ? ? ? X ?]; subst; [|inversion X].
      inversion G5 as [| |? ? ? ? ? X ?]; subst. inversion X.
Qed.
