(** C57: calls on named graphs happen one at a time.  [gexec] runs callers of [create], [open], [delete], [head_version], [set_head],
    [force_set_head] and [force_set_head_version] and records when calls begin and return (GraphTimed.v); [graph_linearizable] and
    [graph_call_in] are defined in SpecGraph.v, [linearizable] in SpecLinear.v. *)
From Verif Require Import Prelude Names LabelSeq LabelConc LabelSpec LabelTimed SpecLinear LinearFacts Head HeadSpec GraphTimed SpecGraph GraphLinearFacts.
From Verif Require Import PropertiesLabel PropertiesLinear.

(** ** C57.  If calls on the label store happen one at a time, then so do calls on named graphs, although they make several calls on the
    label store each; *)
Theorem C57_linearizable tr g : gexec tr g → linearizable (label_items tr) → graph_linearizable (g_heads g) tr.
Proof. exact (gexec_linearizable tr g). Qed.
Print Assumptions C57_linearizable.
(** with the directory label store they do (C56); *)
Theorem C57_directory tr g s : gexec tr g → texec (label_items tr) s → graph_linearizable (g_heads g) tr.
Proof. exact (λ H H', gexec_linearizable tr g H (texec_linearizable _ s H')). Qed.
Print Assumptions C57_directory.
(** every answer is one to a call that had begun. *)
Theorem C57_answers tr g : gexec tr g → ∀ j t o r, tr !! j = Some (Returns t o r) → ∃ b, graph_call_in tr (b, j, (t, o, r)).
Proof. exact (gexec_answers tr g). Qed.
Print Assumptions C57_answers.

(** While a caller sets the head, another one deletes the graph, finds that it is gone, and creates it again; the head is set on the file
    that is gone, so that the call has to be thought to happen before the deletion. *)
Definition gx_op : hop := SetHead lx_n (lx_name 7).
Definition gx_run : list nitem := [
  Starts 0 (Create lx_n); OnLabel (Begins 0 (CCreate lx_n)); OnLabel (Ends (EvCreate 0 lx_n (Some 0) (Ok lx_l0))); Returns 0 (Create lx_n) GDone;
  Starts 1 (Graph gx_op); OnLabel (Begins 1 (CGet lx_n)); OnLabel (Ends (EvGet 1 lx_n (Some 0) (Ok (Some lx_l0))));
  OnLabel (Begins 1 (CSet lx_l0 (Some (lx_name 7))));
  Starts 2 (Delete lx_n); OnLabel (Begins 2 (CDelete lx_n)); OnLabel (Ends (EvDelete 2 lx_n true)); Returns 2 (Delete lx_n) (GFound true);
  Starts 2 (Open lx_n); OnLabel (Begins 2 (CGet lx_n)); OnLabel (Ends (EvGet 2 lx_n None (Ok None))); Returns 2 (Open lx_n) (GFound false);
  OnLabel (Ends (EvSet 1 lx_l0 lx_a (Some 0) (Ok (Some lx_a)))); Returns 1 (Graph gx_op) (GHead (RBool true));
  Starts 2 (Create lx_n); OnLabel (Begins 2 (CCreate lx_n)); OnLabel (Ends (EvCreate 2 lx_n (Some 1) (Ok lx_l0))); Returns 2 (Create lx_n) GDone].
Lemma gx_texec : ∃ s, texec (label_items gx_run) s.
Proof.
  pose proof texec_nil as H.
  pose proof (lx_layer 7 ltac:(done)) as H7. assert (label_ok lx_l0) as H0 by (split; [done|done]).
  eapply (tbegin _ _ 0 (CCreate lx_n) (PCreStat lx_n)) in H; [|reflexivity|exact eq_refl|eapply (start_create _ 0 lx_n); reflexivity].
  eapply (tgoto _ _ 0) in H; [|eapply (create_stat _ 0 lx_n); reflexivity|reflexivity|reflexivity].
  eapply (tgoto _ _ 0) in H; [|eapply (create_open _ 0 lx_n 0); reflexivity|reflexivity|reflexivity].
  eapply (tgoto _ _ 0) in H; [|eapply (create_lock _ 0 lx_n 0); reflexivity|reflexivity|reflexivity].
  eapply (tgoto _ _ 0) in H; [|eapply (create_write _ 0 lx_n 0 0 new_label_contents []); reflexivity|reflexivity|reflexivity].
  eapply (tleave _ _ 0) in H; [|eapply (create_done _ 0 lx_n 0); reflexivity|reflexivity|reflexivity].
  eapply (tbegin _ _ 1 (CGet lx_n) (PGetOpen lx_n)) in H; [|reflexivity|exact eq_refl|eapply (start_get _ 1 lx_n); reflexivity].
  eapply (tgoto _ _ 1) in H; [|eapply (get_open _ 1 lx_n 0); reflexivity|reflexivity|reflexivity].
  eapply (tgoto _ _ 1) in H; [|eapply (get_lock _ 1 lx_n 0); reflexivity|reflexivity|reflexivity].
  eapply (tgoto _ _ 1) in H; [|eapply (get_read _ 1 lx_n 0); reflexivity|reflexivity|reflexivity].
  eapply (tleave _ _ 1) in H; [|eapply (get_done _ 1 lx_n 0); reflexivity|reflexivity|reflexivity].
  eapply (tbegin _ _ 1 (CSet lx_l0 (Some (lx_name 7))) (PSetOpen lx_l0 lx_a)) in H; [|reflexivity|split; [reflexivity|vm_compute; reflexivity]|eapply (start_set _ 1 lx_l0 (Some (lx_name 7)) lx_a); done || reflexivity].
  eapply (tgoto _ _ 1) in H; [|eapply (set_open _ 1 lx_l0 lx_a 0); reflexivity|reflexivity|reflexivity].
  eapply (tbegin _ _ 2 (CDelete lx_n) (PDel lx_n)) in H; [|reflexivity|exact eq_refl|eapply (start_delete _ 2 lx_n); reflexivity].
  eapply (tleave _ _ 2) in H; [|eapply (delete_file _ 2 lx_n 0); reflexivity|reflexivity|reflexivity].
  eapply (tbegin _ _ 2 (CGet lx_n) (PGetOpen lx_n)) in H; [|reflexivity|exact eq_refl|eapply (start_get _ 2 lx_n); reflexivity].
  eapply (tleave _ _ 2) in H; [|eapply (get_absent _ 2 lx_n); reflexivity|reflexivity|reflexivity].
  eapply (tgoto _ _ 1) in H; [|eapply (set_lock _ 1 lx_l0 lx_a 0); reflexivity|reflexivity|reflexivity].
  eapply (tgoto _ _ 1) in H; [|eapply (set_read _ 1 lx_l0 lx_a 0); reflexivity|reflexivity|reflexivity].
  eapply (tgoto _ _ 1) in H; [|eapply (set_truncate _ 1 lx_l0 lx_a 0); reflexivity|reflexivity|reflexivity].
  eapply (tgoto _ _ 1) in H; [|eapply (set_write _ 1 lx_l0 lx_a 0 0 (label_contents lx_a) []); reflexivity|reflexivity|reflexivity].
  eapply (tleave _ _ 1) in H; [|eapply (set_done _ 1 lx_l0 lx_a 0); reflexivity|reflexivity|reflexivity].
  eapply (tbegin _ _ 2 (CCreate lx_n) (PCreStat lx_n)) in H; [|reflexivity|exact eq_refl|eapply (start_create _ 2 lx_n); reflexivity].
  eapply (tgoto _ _ 2) in H; [|eapply (create_stat _ 2 lx_n); reflexivity|reflexivity|reflexivity].
  eapply (tgoto _ _ 2) in H; [|eapply (create_open _ 2 lx_n 1); reflexivity|reflexivity|reflexivity].
  eapply (tgoto _ _ 2) in H; [|eapply (create_lock _ 2 lx_n 1); reflexivity|reflexivity|reflexivity].
  eapply (tgoto _ _ 2) in H; [|eapply (create_write _ 2 lx_n 1 0 new_label_contents []); reflexivity|reflexivity|reflexivity].
  eapply (tleave _ _ 2) in H; [|eapply (create_done _ 2 lx_n 1); reflexivity|reflexivity|reflexivity].
  eexists. exact H.
Qed.
Lemma gcall tr h d p t op : d !! t = None → h_threads h !! t = None → match op_layer op with Some x => x ∈ h_layers h | None => True end →
  gexec tr (GState h d p) → gexec (tr ++ [Starts t (Graph op)]) (GState (hgoto h t (HGet op)) d p).
Proof. intros H1 H2 H3 H. by apply gexec_call. Qed.
Lemma gdirect tr h d p t o c : d !! t = None → h_threads h !! t = None → direct_call o = Some c →
  gexec tr (GState h d p) → gexec (tr ++ [Starts t o]) (GState h (<[t := o]> d) p).
Proof. intros H1 H2 H3 H. by apply (gexec_direct tr h d p t o c). Qed.
Lemma gbegin tr h d p t c : next_call (GState h d p) t = Some c → p !! t = None →
  gexec tr (GState h d p) → gexec (tr ++ [OnLabel (Begins t c)]) (GState h d (<[t := c]> p)).
Proof. intros H1 H2 H. by apply gexec_begin. Qed.
Lemma gdone tr h d p c e o : p !! ev_tid e = Some c → answers c e → d !! ev_tid e = Some o →
  gexec tr (GState h d p) → gexec (tr ++ [OnLabel (Ends e); Returns (ev_tid e) o (direct_res e)]) (GState h (delete (ev_tid e) d) (delete (ev_tid e) p)).
Proof. intros H1 H2 H3 H. by apply (gexec_direct_end tr h d p c e o). Qed.
Lemma gend tr h d p c e r h' q : p !! ev_tid e = Some c → answers c e → h_threads h !! ev_tid e = Some q →
  hstep h (HItem (Some e) r) h' → (∀ u, u ≠ ev_tid e → h_threads h' !! u = h_threads h !! u) → h_threads h' !! ev_tid e ≠ Some q →
  gexec tr (GState h d p) → gexec (tr ++ OnLabel (Ends e) :: ret_items r) (GState h' d (delete (ev_tid e) p)).
Proof. intros H1 H2 H3 H4 H5 H6 H. by apply (gexec_end tr h d p c e r h' q). Qed.
Definition gx_h : hstate := HState {[lx_name 7]} ∅ ∅.
Definition gx_h1 : hstate := hgoto gx_h 1 (HGet gx_op).
Definition gx_h2 : hstate := hgoto gx_h1 1 (HSet gx_op lx_l0).
Definition gx_h3 : hstate := hleave gx_h2 1.
Lemma gx_gexec : ∃ g, gexec gx_run g.
Proof.
  assert (gexec ([] ++ ret_items None) (GState gx_h ∅ ∅)) as H.
  { apply (gexec_silent [] hstate_init ∅ ∅ None gx_h gexec_nil).
    - replace gx_h with (HState ({[lx_name 7]} ∪ h_layers hstate_init) (h_parents hstate_init) (h_threads hstate_init)).
      + apply (h_commit hstate_init (lx_name 7) None); [apply not_elem_of_empty|done].
      + unfold gx_h. f_equal. cbn [hstate_init h_layers]. apply (union_empty_r_L {[lx_name 7]}).
    - intros t _. apply lookup_empty.
    - intros t [c E]. by rewrite lookup_empty in E. }
  cbn [ret_items app] in H.
  eapply (gdirect _ _ _ _ 0 (Create lx_n) (CCreate lx_n)) in H; [|reflexivity|reflexivity|reflexivity].
  eapply (gbegin _ _ _ _ 0 (CCreate lx_n)) in H; [|reflexivity|reflexivity].
  eapply (gdone _ _ _ _ (CCreate lx_n) (EvCreate 0 lx_n (Some 0) (Ok lx_l0)) (Create lx_n)) in H; [|reflexivity|exact eq_refl|reflexivity].
  eapply (gcall _ _ _ _ 1 gx_op) in H; [|reflexivity|reflexivity|exact (proj2 (elem_of_singleton (C := gset lname) (lx_name 7) (lx_name 7)) eq_refl)].
  eapply (gbegin _ _ _ _ 1 (CGet lx_n)) in H; [|reflexivity|reflexivity].
  eapply (gend _ _ _ _ (CGet lx_n) (EvGet 1 lx_n (Some 0) (Ok (Some lx_l0))) None gx_h2 (HGet gx_op)) in H;
    [|reflexivity|exact eq_refl|reflexivity|apply (h_get gx_h1 1 gx_op (Some 0) lx_l0); reflexivity|intros u Hu; apply lookup_insert_ne; intros E; by rewrite E in Hu|intros E; vm_compute in E; discriminate E].
  eapply (gbegin _ _ _ _ 1 (CSet lx_l0 (Some (lx_name 7)))) in H; [|reflexivity|reflexivity].
  eapply (gdirect _ _ _ _ 2 (Delete lx_n) (CDelete lx_n)) in H; [|reflexivity|reflexivity|reflexivity].
  eapply (gbegin _ _ _ _ 2 (CDelete lx_n)) in H; [|reflexivity|reflexivity].
  eapply (gdone _ _ _ _ (CDelete lx_n) (EvDelete 2 lx_n true) (Delete lx_n)) in H; [|reflexivity|exact eq_refl|reflexivity].
  eapply (gdirect _ _ _ _ 2 (Open lx_n) (CGet lx_n)) in H; [|reflexivity|reflexivity|reflexivity].
  eapply (gbegin _ _ _ _ 2 (CGet lx_n)) in H; [|reflexivity|reflexivity].
  eapply (gdone _ _ _ _ (CGet lx_n) (EvGet 2 lx_n None (Ok None)) (Open lx_n)) in H; [|reflexivity|exact eq_refl|reflexivity].
  eapply (gend _ _ _ _ (CSet lx_l0 (Some (lx_name 7))) (EvSet 1 lx_l0 lx_a (Some 0) (Ok (Some lx_a))) (Some (1, gx_op, RBool true)) gx_h3 (HSet gx_op lx_l0)) in H;
    [|reflexivity|split; [reflexivity|vm_compute; reflexivity]|reflexivity|apply (h_set gx_h2 1 gx_op lx_l0 (lx_name 7) lx_a (Some 0) (Some lx_a)); [reflexivity|reflexivity|vm_compute; reflexivity]|intros u Hu; apply lookup_delete_ne; intros E; by rewrite E in Hu|intros E; vm_compute in E; discriminate E].
  eapply (gdirect _ _ _ _ 2 (Create lx_n) (CCreate lx_n)) in H; [|reflexivity|reflexivity|reflexivity].
  eapply (gbegin _ _ _ _ 2 (CCreate lx_n)) in H; [|reflexivity|reflexivity].
  eapply (gdone _ _ _ _ (CCreate lx_n) (EvCreate 2 lx_n (Some 1) (Ok lx_l0)) (Create lx_n)) in H; [|reflexivity|exact eq_refl|reflexivity].
  eexists. exact H.
Qed.
Example C57_example : (∃ g, gexec gx_run g) ∧ (∃ s, texec (label_items gx_run) s) ∧
  gx_run !! 15 = Some (Returns 2 (Open lx_n) (GFound false)) ∧ gx_run !! 17 = Some (Returns 1 (Graph gx_op) (GHead (RBool true))).
Proof. split; [exact gx_gexec|]. split; [exact gx_texec|]. split; reflexivity. Qed.
