(** Facts about partially resolved triples *)
From Verif Require Import Prelude Succinct TripleFiles Merge Layer Builder Rollup Squash MergeBase Spec HistoryFacts ReachFacts ApiFacts Resolve.

Lemma partially_total st vt : reachable st → ∃ s p o, subject_id st vt.1.1 = Some s ∧ predicate_id st vt.1.2 = Some p ∧ object_id st vt.2 = Some o.
Proof.
  intros H. destruct (lookups_total st (reachable_wf st H)) as (H1 & H2 & H3 & H4 & _).
  destruct (H1 vt.1.1) as [s Es], (H4 vt.1.2) as [p Ep].
  assert (is_Some (object_id st vt.2)) as [o Eo] by (unfold object_id; destruct vt.2; auto). by exists s, p, o.
Qed.
Lemma partially_iff st vt : reachable st → ∃ pt, partially_resolved st vt = Some pt ∧
  (∀ t, value_triple_to_id st vt = Some (Some t) ↔ pt = to_resolved t) ∧
  (value_triple_to_id st vt = Some None ↔ is_resolved (pt_s pt) && is_resolved (pt_p pt) && is_resolved (pt_o pt) = false).
Proof.
  intros H. destruct (partially_total st vt H) as (s & p & o & Es & Ep & Eo). unfold partially_resolved, value_triple_to_id.
  rewrite Es, Ep, Eo. cbn [mbind option_bind]. eexists. split; [done|]. unfold to_resolved.
  destruct s as [s|], p as [p|], o as [o|]; cbn [or_unresolved is_resolved pt_s pt_p pt_o andb]; (split; [|split; by intros]); intros [[a b] c]; 
    (split; [try done; intros [= -> -> ->]; done|try done; intros [= -> -> ->]; done]).
Qed.
Lemma resolve_resolved nodes preds vals t : resolve_with nodes preds vals (to_resolved t) = Some t.
Proof. by destruct t as [[]]. Qed.
Lemma resolve_child st st' vt pt nodes preds vals : reachable st → rtc step st st' → partially_resolved st vt = Some pt →
  (∀ s, subject_id st s = Some None → subject_id st' s = Some (nodes s)) →
  (∀ p, predicate_id st p = Some None → predicate_id st' p = Some (preds p)) →
  (∀ v, object_value_id st v = Some None → object_value_id st' v = Some (vals v)) →
  value_triple_to_id st' vt = Some (resolve_with nodes preds vals pt).
Proof.
  intros H Hr Hpt Hn Hp Hv. destruct (partially_total st vt H) as (s & p & o & Es & Ep & Eo).
  destruct (ids_stable st st' (reachable_wf st H) Hr) as (S1 & S2 & _).
  unfold partially_resolved in Hpt. rewrite Es, Ep, Eo in Hpt. cbn [mbind option_bind] in Hpt. injection Hpt as <-.
  assert (subject_id st' vt.1.1 = Some (match or_unresolved vt.1.1 s with Unresolved x => nodes x | Resolved i => Some i end)) as Es'.
  { destruct s as [s|]; cbn [or_unresolved]; [by apply (S1 (inl vt.1.1))|by apply Hn]. }
  assert (predicate_id st' vt.1.2 = Some (match or_unresolved vt.1.2 p with Unresolved x => preds x | Resolved i => Some i end)) as Ep'.
  { destruct p as [p|]; cbn [or_unresolved]; [by apply S2|by apply Hp]. }
  assert (object_id st' vt.2 = Some (match or_unresolved vt.2 o with Unresolved (inl n) => nodes n | Unresolved (inr v) => vals v | Resolved i => Some i end)) as Eo'.
  { destruct o as [o|]; cbn [or_unresolved]; [by apply S1|]. destruct vt.2; [by apply Hn|by apply Hv]. }
  unfold value_triple_to_id. rewrite Es', Ep', Eo'. cbn [mbind option_bind]. unfold resolve_with. cbn [pt_s pt_p pt_o].
  destruct (match or_unresolved vt.1.1 s with Unresolved x => nodes x | Resolved i => Some i end) as [a|]; [|done]. cbn [mbind option_bind].
  destruct (match or_unresolved vt.1.2 p with Unresolved x => preds x | Resolved i => Some i end) as [b|]; [|done]. cbn [mbind option_bind].
  by destruct (match or_unresolved vt.2 o with Unresolved (inl n) => nodes n | Unresolved (inr v) => vals v | Resolved i => Some i end).
Qed.
Lemma resolve_unresolved st vt nodes preds vals :
  (∀ s, subject_id st s = Some (nodes s)) → (∀ p, predicate_id st p = Some (preds p)) → (∀ v, object_value_id st v = Some (vals v)) →
  value_triple_to_id st vt = Some (resolve_with nodes preds vals (to_unresolved vt)).
Proof.
  intros Hs Hp Hv. unfold value_triple_to_id, resolve_with, to_unresolved. cbn [pt_s pt_p pt_o]. rewrite Hs, Hp.
  assert (object_id st vt.2 = Some match vt.2 with inl n => nodes n | inr v => vals v end) as Eo
    by (unfold object_id; destruct vt.2; [apply Hs|apply Hv]).
  rewrite Eo. cbn [mbind option_bind]. destruct (nodes vt.1.1); [|done]. cbn [mbind option_bind].
  destruct (preds vt.1.2); [|done]. cbn [mbind option_bind]. destruct vt.2 as [x|x]; [by destruct (nodes x)|by destruct (vals x)].
Qed.
