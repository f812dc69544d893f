(** The facts about triple files in the form of C12 and C42. *)
From Verif Require Import Prelude ListFacts Succinct SuccinctFacts TripleFiles TripleBuildFacts IterFacts
  TripleReadFacts TripleQueryFacts TripleIterFacts.

Section files.
  Context (sparse : bool) (T : list triple) (HT : SSorted T)
    (Hnz : ∀ t, t ∈ T → 1 ≤ t_s t ∧ 1 ≤ t_p t ∧ 1 ≤ t_o t).
  Lemma files_build : ∃ tf, build_tfiles sparse T = Some tf ∧ tf_ok sparse tf T.
  Proof. apply build_tfiles_ok; [done|]. intros t Ht%Hnz. unfold nonzero. lia. Qed.
  Lemma files_decode : ∃ tf, build_tfiles sparse T = Some tf ∧
    tf_triples tf = Some T ∧
    tf_count tf = Some (length T) ∧
    (∀ t, ∃ b, layer_triple_exists tf t = Some b ∧ (b = true ↔ t ∈ T)) ∧
    (∀ s, tf_triples_s tf s = Some (filter (λ t, t_s t = s) T)) ∧
    (∀ s p, tf_triples_sp tf s p = Some (filter (λ t, t_s t = s ∧ t_p t = p) T)) ∧
    (∀ p, 1 ≤ p → tf_triples_p tf p = Some (filter (λ t, t_p t = p) T)) ∧
    (∀ o, tf_triples_o tf o = Some (filter (λ t, t_o t = o) T)).
  Proof.
    destruct files_build as (tf & E & Hok). exists tf. split_and!; [done|..].
    - by eapply tf_triples_ok.
    - by eapply tf_count_ok.
    - intros t. rewrite (layer_triple_exists_ok _ _ _ Hok). eexists. split; [done|]. apply bool_decide_eq_true.
    - intros s. by eapply tf_triples_s_ok.
    - intros s p. by eapply tf_triples_sp_ok.
    - intros p Hp. eapply tf_triples_p_ok; [done|lia].
    - intros o. by eapply tf_triples_o_ok.
  Qed.
  Lemma files_stream : ∃ tf, build_tfiles sparse T = Some tf ∧ tf_stream tf = Some T ∧ tf_triples tf = Some T.
  Proof.
    destruct files_build as (tf & E & Hok). exists tf. split_and!; [done|..].
    - by eapply tf_stream_ok.
    - by eapply tf_triples_ok.
  Qed.
  Lemma files_internal_o o : (∃ t, t ∈ T ∧ t_o t = o) →
    ∃ tf, build_tfiles sparse T = Some tf ∧ tf_triples_o_internal tf o = Some (filter (λ t, t_o t = o) T).
  Proof.
    intros Ho. destruct files_build as (tf & E & Hok). exists tf. split; [done|].
    eapply tf_triples_o_internal_ok; [done|]. by left.
  Qed.
End files.

(** checking that a concrete list is in order *)
Fixpoint ascending {A} `{Ord A} (l : list A) : bool :=
  match l with [] => true | x :: l' => bool_decide (Forall (olt x) l') && ascending l' end.
Lemma ascending_ok {A} `{Ord A} (l : list A) : ascending l = true → SSorted l.
Proof.
  induction l as [|x l IH]; [constructor|]. cbn. intros [Hx Hl]%andb_true_iff.
  apply bool_decide_eq_true in Hx. constructor; [auto|]. done.
Qed.
