(** Well-formed stacks, the string triples that hold in them, and stability of ids. *)
From Verif Require Import Prelude ListFacts Succinct SuccinctFacts TripleFiles TripleBuildFacts TripleReadFacts
  Merge MergeFacts Layer StackFacts DictFacts.

(** The ids of a string triple. *)
Definition den (st : stack) (vt : vtriple) (u : triple) : Prop :=
  object_id st (inl vt.1.1) = Some (Some (t_s u)) ∧
  predicate_id st vt.1.2 = Some (Some (t_p u)) ∧
  object_id st vt.2 = Some (Some (t_o u)).
(** The string triple is part of the stack. *)
Definition holds (st : stack) (vt : vtriple) : Prop := ∃ u, den st vt u ∧ in_view u st.

(** Every added triple resolves to strings in the layer that adds it. *)
Fixpoint ids_ok (st : stack) : Prop :=
  match st with
  | [] => True
  | l :: st' => ids_ok st' ∧ ∀ u, u ∈ adds l → ∃ vt, den (l :: st') vt u
  end.
Record wf (st : stack) : Prop := {
  wf_dicts : dicts_ok st;
  wf_files : Forall files_ok st;
  wf_changes : changes_ok st;
  wf_ids : ids_ok st }.
Lemma wf_nil : wf [].
Proof. split; done. Qed.

Lemma den_fun st vt u u' : den st vt u → den st vt u' → u = u'.
Proof.
  intros (H1 & H2 & H3) (H1' & H2' & H3'). rewrite H1 in H1'. rewrite H2 in H2'. rewrite H3 in H3'.
  destruct u as [[??]?], u' as [[??]?]; unfold t_s, t_p, t_o in *; cbn in *. congruence.
Qed.

Section dicts.
  Context (st : stack) (Hd : dicts_ok st).
  Lemma object_id_inj x y i : object_id st x = Some (Some i) → object_id st y = Some (Some i) → x = y.
  Proof. rewrite !object_id_iff by done. congruence. Qed.
  Lemma predicate_id_inj x y i : predicate_id st x = Some (Some i) → predicate_id st y = Some (Some i) → x = y.
  Proof. rewrite !predicate_id_iff by done. congruence. Qed.
  Lemma object_id_range x i : object_id st x = Some (Some i) → 1 ≤ i ≤ nv_count st.
  Proof. intros E. destruct (object_id_ok st x Hd) as (r & E' & Hr). rewrite E in E'. injection E' as <-. tauto. Qed.
  Lemma predicate_id_range x i : predicate_id st x = Some (Some i) → 1 ≤ i ≤ pred_count st.
  Proof. intros E. destruct (predicate_id_ok st x Hd) as (r & E' & Hr). rewrite E in E'. injection E' as <-. tauto. Qed.
  Lemma object_id_known x : (∃ i, object_id st x = Some (Some i)) ↔ x ∈ objs st.
  Proof.
    destruct (object_id_ok st x Hd) as ([i|] & E & Hr); rewrite E; [|naive_solver].
    split; [tauto|eauto].
  Qed.
  Lemma predicate_id_known x : (∃ i, predicate_id st x = Some (Some i)) ↔ x ∈ preds st.
  Proof.
    destruct (predicate_id_ok st x Hd) as ([i|] & E & Hr); rewrite E; [|naive_solver].
    split; [tauto|eauto].
  Qed.
  Lemma object_id_unknown x : x ∉ objs st → object_id st x = Some None.
  Proof. destruct (object_id_ok st x Hd) as ([i|] & E & Hr); [tauto|done]. Qed.
  Lemma predicate_id_unknown x : x ∉ preds st → predicate_id st x = Some None.
  Proof. destruct (predicate_id_ok st x Hd) as ([i|] & E & Hr); [tauto|done]. Qed.
  Lemma den_inj vt vt' u : den st vt u → den st vt' u → vt = vt'.
  Proof.
    intros (H1 & H2 & H3) (H1' & H2' & H3'). destruct vt as [[??]?], vt' as [[??]?]; cbn [fst snd] in *.
    pose proof (object_id_inj _ _ _ H1 H1'). pose proof (predicate_id_inj _ _ _ H2 H2').
    pose proof (object_id_inj _ _ _ H3 H3'). congruence.
  Qed.
  Lemma den_known vt : (∃ u, den st vt u) ↔ inl vt.1.1 ∈ objs st ∧ vt.1.2 ∈ preds st ∧ vt.2 ∈ objs st.
  Proof.
    rewrite <-!object_id_known, <-predicate_id_known. split.
    - intros (u & ? & ? & ?). split_and!; eauto.
    - intros ([i Hi] & [j Hj] & [k Hk]). exists (mkt i j k). done.
  Qed.
  Lemma den_range vt u : den st vt u →
    1 ≤ t_s u ≤ nv_count st ∧ 1 ≤ t_p u ≤ pred_count st ∧ 1 ≤ t_o u ≤ nv_count st.
  Proof. intros (H1 & H2 & H3). split; [|split]; [eapply object_id_range|eapply predicate_id_range|eapply object_id_range]; eassumption. Qed.
  Lemma den_nonzero vt u : den st vt u → nonzero u.
  Proof. intros H%den_range. unfold nonzero. lia. Qed.

  (** layer.rs:83-152 *)
  Lemma value_triple_to_id_ok vt :
    ∃ r, value_triple_to_id st vt = Some r ∧
      match r with Some u => den st vt u | None => ∀ u, ¬ den st vt u end.
  Proof.
    unfold value_triple_to_id. change (subject_id st vt.1.1) with (object_id st (inl vt.1.1)).
    destruct (object_id_ok st (inl vt.1.1) Hd) as ([i|] & E1 & _); rewrite E1; cbn [mbind option_bind].
    2:{ eexists; split; [done|]. intros u (E & _). congruence. }
    destruct (predicate_id_ok st vt.1.2 Hd) as ([j|] & E2 & _); rewrite E2; cbn [mbind option_bind].
    2:{ eexists; split; [done|]. intros u (_ & E & _). congruence. }
    destruct (object_id_ok st vt.2 Hd) as ([k|] & E3 & _); rewrite E3; cbn [mbind option_bind].
    2:{ eexists; split; [done|]. intros u (_ & _ & E). congruence. }
    eexists; split; [done|]. done.
  Qed.
  Lemma value_triple_to_id_iff vt u : value_triple_to_id st vt = Some (Some u) ↔ den st vt u.
  Proof.
    destruct (value_triple_to_id_ok vt) as (r & -> & Hr). split.
    - intros [= ->]. done.
    - intros Hu. destruct r as [u'|]; [|by destruct (Hr u)]. by rewrite (den_fun st vt u u').
  Qed.
  Lemma id_subject_iff i s : id_subject st i = Some (Some s) ↔ object_id st (inl s) = Some (Some i).
  Proof.
    rewrite object_id_iff by done. rewrite id_subject_eq.
    destruct (id_object_ok st i Hd) as ([x|] & -> & _); cbn; [|naive_solver]. destruct x; naive_solver.
  Qed.
  Lemma id_triple_to_string_ok u :
    ∃ r, id_triple_to_string st u = Some r ∧
      match r with Some vt => den st vt u | None => ∀ vt, ¬ den st vt u end.
  Proof.
    unfold id_triple_to_string.
    assert (∃ rs, id_subject st (t_s u) = Some rs) as [rs Ers].
    { rewrite id_subject_eq. destruct (id_object_ok st (t_s u) Hd) as (r1 & -> & _). eauto. }
    pose proof (id_subject_iff (t_s u)) as Hs. rewrite Ers in *. cbn [mbind option_bind] in *.
    destruct rs as [s|].
    2:{ eexists; split; [done|]. intros vt (E & _). apply Hs in E. congruence. }
    destruct (id_predicate_ok st (t_p u) Hd) as (r2 & E2 & _). rewrite E2. cbn [mbind option_bind].
    destruct r2 as [p|].
    2:{ eexists; split; [done|]. intros vt (_ & E & _). apply predicate_id_iff in E; [|done]. congruence. }
    destruct (id_object_ok st (t_o u) Hd) as (r3 & E3 & _). rewrite E3. cbn [mbind option_bind].
    destruct r3 as [o|].
    2:{ eexists; split; [done|]. intros vt (_ & _ & E). apply object_id_iff in E; [|done]. congruence. }
    eexists; split; [done|]. split_and!; cbn.
    - by apply Hs.
    - by apply predicate_id_iff.
    - by apply object_id_iff.
  Qed.
  Lemma id_triple_to_string_iff u vt : id_triple_to_string st u = Some (Some vt) ↔ den st vt u.
  Proof.
    destruct (id_triple_to_string_ok u) as (r & -> & Hr). split.
    - intros [= ->]. done.
    - intros Hu. destruct r as [vt'|]; [|by destruct (Hr vt)]. by rewrite (den_inj vt vt' u).
  Qed.
End dicts.

(** ** Ids are stable when a layer is put on top *)
Lemma objs_cons l st x : x ∈ objs (l :: st) ↔ x ∈ l_objs l ∨ x ∈ objs st.
Proof. unfold objs. cbn. by rewrite elem_of_app. Qed.
Lemma preds_cons l st x : x ∈ preds (l :: st) ↔ x ∈ l_preds l ∨ x ∈ preds st.
Proof. unfold preds. cbn. by rewrite elem_of_app. Qed.
Section stable.
  Context (l : layer) (st : stack) (Hd : dicts_ok (l :: st)).
  Lemma dicts_ok_tail : dicts_ok st.
  Proof. apply Hd. Qed.
  Lemma object_id_stable x : x ∈ objs st → object_id (l :: st) x = object_id st x.
  Proof.
    intros Hx. rewrite object_id_cons. destruct (dict_id (l_objs l) x) as [i|] eqn:E; [|done].
    apply dict_id_get, dict_get_elem in E. destruct Hd as (_ & _ & Ho & _). by destruct (Ho x E).
  Qed.
  Lemma predicate_id_stable x : x ∈ preds st → predicate_id (l :: st) x = predicate_id st x.
  Proof.
    intros Hx. cbn. destruct (dict_id (l_preds l) x) as [i|] eqn:E; [|done].
    apply dict_id_get, dict_get_elem in E. destruct Hd as (_ & _ & _ & Ho). by destruct (Ho x E).
  Qed.
  Lemma den_stable vt u : den st vt u → den (l :: st) vt u.
  Proof.
    intros Hu. pose proof dicts_ok_tail as Ht. destruct (proj1 (den_known st Ht vt)) as (K1 & K2 & K3); [eauto|].
    destruct Hu as (H1 & H2 & H3). split_and!.
    - by rewrite object_id_stable.
    - by rewrite predicate_id_stable.
    - by rewrite object_id_stable.
  Qed.
  Lemma id_object_stable i : i ≤ nv_count st → id_object (l :: st) i = id_object st i.
  Proof.
    intros Hi. destruct (decide (i = 0)) as [->|]; [done|]. by rewrite id_object_cons, decide_False by lia.
  Qed.
  Lemma id_predicate_stable i : i ≤ pred_count st → id_predicate (l :: st) i = id_predicate st i.
  Proof.
    intros Hi. destruct (decide (i = 0)) as [->|]; [done|]. by rewrite id_predicate_cons, decide_False by lia.
  Qed.
  (** new strings get ids above the parent's *)
  Lemma object_id_new x i : x ∉ objs st → object_id (l :: st) x = Some (Some i) → nv_count st < i.
  Proof.
    intros Hx E. apply object_id_iff in E; [|done]. destruct (decide (i ≤ nv_count st)) as [Hi|]; [|lia].
    rewrite id_object_stable in E by done. apply object_id_iff in E; [|apply dicts_ok_tail].
    destruct Hx. apply object_id_known; [apply dicts_ok_tail|]. eauto.
  Qed.
  Lemma predicate_id_new x i : x ∉ preds st → predicate_id (l :: st) x = Some (Some i) → pred_count st < i.
  Proof.
    intros Hx E. apply predicate_id_iff in E; [|done]. destruct (decide (i ≤ pred_count st)) as [Hi|]; [|lia].
    rewrite id_predicate_stable in E by done. apply predicate_id_iff in E; [|apply dicts_ok_tail].
    destruct Hx. apply predicate_id_known; [apply dicts_ok_tail|]. eauto.
  Qed.
  Lemma den_stable_inv vt u : den (l :: st) vt u →
    t_s u ≤ nv_count st → t_p u ≤ pred_count st → t_o u ≤ nv_count st → den st vt u.
  Proof.
    intros (H1 & H2 & H3) B1 B2 B3. pose proof dicts_ok_tail as Ht.
    apply object_id_iff in H1, H3; [|done..]. apply predicate_id_iff in H2; [|done].
    rewrite id_object_stable in H1, H3 by done. rewrite id_predicate_stable in H2 by done.
    split_and!; [by apply object_id_iff|by apply predicate_id_iff|by apply object_id_iff].
  Qed.
End stable.

(** ** All of a well-formed stack resolves *)
Lemma wf_tail l st : wf (l :: st) → wf st.
Proof.
  intros [Hd Hf Hc Hi]. split.
  - apply Hd.
  - by apply Forall_cons in Hf as [_ ?].
  - by apply changes_ok_cons in Hc as [? _].
  - apply Hi.
Qed.
Lemma in_view_den st u : wf st → in_view u st → ∃ vt, den st vt u.
Proof.
  induction st as [|l st IH]; intros Hw Hu; [by apply in_view_nil in Hu|].
  apply in_view_cons in Hu as [Hu|[Hu _]].
  - destruct Hw as [_ _ _ [_ Hi]]. auto.
  - destruct (IH (wf_tail _ _ Hw) Hu) as [vt Hvt]. exists vt. apply den_stable; [apply Hw|done].
Qed.
Lemma holds_iff st vt u : dicts_ok st → den st vt u → holds st vt ↔ in_view u st.
Proof.
  intros Hd Hu. split; [|by exists u]. intros (u' & Hu' & Hv). by rewrite (den_fun st vt u u').
Qed.
Theorem value_triple_exists_ok st vt : wf st →
  ∃ b, value_triple_exists st vt = Some b ∧ (b = true ↔ holds st vt).
Proof.
  intros [Hd Hf Hc Hi]. unfold value_triple_exists.
  destruct (value_triple_to_id_ok st Hd vt) as ([u|] & -> & Hr); cbn [mbind option_bind].
  - rewrite triple_exists_ok by done. eexists; split; [done|].
    rewrite bool_decide_eq_true, view_elem. by rewrite (holds_iff st vt u).
  - eexists; split; [done|]. split; [done|]. intros (u & Hu & _). by destruct (Hr u).
Qed.
