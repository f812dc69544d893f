(** Stacks that give the same answers: same ids, same counts, same triples. *)
From Verif Require Import Prelude ListFacts Succinct SuccinctFacts TripleFiles TripleBuildFacts TripleReadFacts
  Merge MergeFacts Layer StackFacts StackCountFacts DictFacts WfFacts.

Record same_layer (st st' : stack) : Prop := {
  sl_obj : ∀ x, object_id st x = object_id st' x;
  sl_pred : ∀ p, predicate_id st p = predicate_id st' p;
  sl_nv : nv_count st = nv_count st';
  sl_pc : pred_count st = pred_count st';
  sl_counts : all_counts st = all_counts st';
  sl_view : ∀ u, in_view u st ↔ in_view u st' }.

Lemma same_refl st : same_layer st st.
Proof. by split. Qed.
Lemma same_sym st st' : same_layer st st' → same_layer st' st.
Proof. intros [????? Hv]. split; auto. intros u. by rewrite Hv. Qed.
Lemma same_trans st st' st'' : same_layer st st' → same_layer st' st'' → same_layer st st''.
Proof.
  intros [H1 H2 H3 H4 H5 H6] [G1 G2 G3 G4 G5 G6]. split; try congruence.
  intros u. by rewrite H6.
Qed.
Lemma same_den st st' vt u : same_layer st st' → den st vt u ↔ den st' vt u.
Proof. intros Hs. unfold den. by rewrite !(sl_obj _ _ Hs), (sl_pred _ _ Hs). Qed.
Lemma same_objs st st' x : dicts_ok st → dicts_ok st' → same_layer st st' → x ∈ objs st ↔ x ∈ objs st'.
Proof. intros Hd Hd' Hs. rewrite <-!object_id_known by done. by setoid_rewrite (sl_obj _ _ Hs). Qed.
Lemma same_preds st st' x : dicts_ok st → dicts_ok st' → same_layer st st' → x ∈ preds st ↔ x ∈ preds st'.
Proof. intros Hd Hd' Hs. rewrite <-!predicate_id_known by done. by setoid_rewrite (sl_pred _ _ Hs). Qed.
Lemma same_id_object st st' i : dicts_ok st → dicts_ok st' → same_layer st st' → id_object st i = id_object st' i.
Proof.
  intros Hd Hd' Hs. destruct (id_object_ok st i Hd) as ([x|] & -> & H1).
  - destruct H1 as [_ H1]. rewrite (sl_obj _ _ Hs) in H1. apply object_id_iff in H1; [|done]. by rewrite H1.
  - destruct (id_object_ok st' i Hd') as ([x|] & -> & H2); [|done]. rewrite (sl_nv _ _ Hs) in H1. lia.
Qed.
Lemma same_id_predicate st st' i : dicts_ok st → dicts_ok st' → same_layer st st' → id_predicate st i = id_predicate st' i.
Proof.
  intros Hd Hd' Hs. destruct (id_predicate_ok st i Hd) as ([x|] & -> & H1).
  - destruct H1 as [_ H1]. rewrite (sl_pred _ _ Hs) in H1. apply predicate_id_iff in H1; [|done]. by rewrite H1.
  - destruct (id_predicate_ok st' i Hd') as ([x|] & -> & H2); [|done]. rewrite (sl_pc _ _ Hs) in H1. lia.
Qed.

(** The same layer on top of stacks that give the same answers. *)
Section cons.
  Context (l : layer) (st st' : stack) (Hw : wf (l :: st)) (Hw' : wf st') (Hs : same_layer st st').
  Lemma same_cons_layer : same_layer (l :: st) (l :: st').
  Proof.
    split.
    - intros x. rewrite !object_id_cons, (sl_nv _ _ Hs), (sl_obj _ _ Hs). done.
    - intros p. cbn [predicate_id]. by rewrite (sl_pc _ _ Hs), (sl_pred _ _ Hs).
    - cbn. by rewrite (sl_nv _ _ Hs).
    - cbn. by rewrite (sl_pc _ _ Hs).
    - cbn. by rewrite (sl_counts _ _ Hs).
    - intros u. rewrite !in_view_cons. by rewrite (sl_view _ _ Hs).
  Qed.
  Lemma same_cons_wf : wf (l :: st').
  Proof.
    destruct Hw as [(Hd & Hl & Ho & Hp) Hf Hc [Hi Ha]]. pose proof (wf_dicts _ Hw') as Hd'.
    split.
    - split; [done|]. split; [done|]. split.
      + intros x Hx. rewrite <-(same_objs st st' x Hd Hd' Hs). auto.
      + intros x Hx. rewrite <-(same_preds st st' x Hd Hd' Hs). auto.
    - apply Forall_cons in Hf as [? _]. constructor; [done|]. apply Hw'.
    - apply changes_ok_cons in Hc as (_ & HA & HR). apply changes_ok_cons. split; [apply Hw'|].
      split; intros u Hu; rewrite <-(sl_view _ _ Hs); auto.
    - split; [apply Hw'|]. intros u Hu. destruct (Ha u Hu) as [vt Hvt]. exists vt.
      by apply (same_den _ _ vt u same_cons_layer).
  Qed.
End cons.
Lemma same_app top st st' : wf (top ++ st) → wf st' → same_layer st st' →
  wf (top ++ st') ∧ same_layer (top ++ st) (top ++ st').
Proof.
  induction top as [|l top IH]; [done|]. cbn [app]. intros Hw Hw' Hs.
  destruct (IH (wf_tail _ _ Hw) Hw' Hs) as [Hw2 Hs2]. split.
  - by apply (same_cons_wf l (top ++ st)).
  - by apply same_cons_layer.
Qed.
