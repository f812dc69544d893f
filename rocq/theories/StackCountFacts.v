(** Counts, single lookups and net changes of a stack of layers. *)
From Verif Require Import Prelude ListFacts Succinct SuccinctFacts TripleFiles TripleBuildFacts
  IterFacts TripleReadFacts TripleQueryFacts TripleIterFacts Merge MergeFacts Layer StackFacts.

(** ** Counts *)
Lemma view_cons_perm l st : files_ok l → changes_ok (l :: st) →
  view (l :: st) ++ rems l ≡ₚ view st ++ adds l.
Proof.
  intros Hl (_ & Hadd & Hrem)%changes_ok_cons. apply NoDup_Permutation.
  - apply NoDup_app. split_and!.
    + apply ssorted_nodup, view_sorted.
    + intros u Hu%view_elem Hr. apply in_view_cons in Hu as [Ha|[_ ?]]; [|done]. by apply Hadd in Ha as [_ ?].
    + by apply ssorted_nodup, rems_sorted.
  - apply NoDup_app. split_and!.
    + apply ssorted_nodup, view_sorted.
    + intros u Hu%view_elem Ha. by apply Hadd in Ha as [? _].
    + by apply ssorted_nodup, adds_sorted.
  - intros u. rewrite !elem_of_app, !view_elem, in_view_cons. split.
    + intros [[?|[? ?]]|Hr]; auto.
    + intros [Hv|Ha]; [|by left; left]. destruct (decide (u ∈ rems l)); [by right|]. left. right. done.
Qed.
Lemma addition_counts_ok st : Forall files_ok st → addition_counts st = Some (total (adds <$> st)).
Proof.
  induction 1 as [|l st Hl _ IH]; [done|]. cbn [addition_counts]. rewrite addition_count_ok by done.
  cbn [mbind option_bind]. by rewrite IH.
Qed.
Lemma removal_counts_ok st : Forall files_ok st → removal_counts st = Some (total (rems <$> st)).
Proof.
  induction 1 as [|l st Hl _ IH]; [done|]. cbn [removal_counts]. rewrite removal_count_ok by done.
  cbn [mbind option_bind]. by rewrite IH.
Qed.
Lemma view_count st : Forall files_ok st → changes_ok st →
  length (view st) + total (rems <$> st) = total (adds <$> st).
Proof.
  induction 1 as [|l st Hl Hst IH]; intros Hc; [done|].
  pose proof (view_cons_perm l st Hl Hc) as Hp. apply Permutation_length in Hp. rewrite !app_length in Hp.
  apply changes_ok_cons in Hc as [Hc _]. specialize (IH Hc). cbn [fmap list_fmap total] in *. lia.
Qed.
Theorem triple_count_ok st : Forall files_ok st → changes_ok st → triple_count st = Some (length (view st)).
Proof.
  intros Hf Hc. unfold triple_count. rewrite addition_counts_ok, removal_counts_ok by done.
  cbn [mbind option_bind]. pose proof (view_count st Hf Hc). rewrite decide_True by lia. f_equal. lia.
Qed.

(** ** One triple with a given subject and predicate *)
(** the numbers of a run, from [pos] on *)
Definition in_run (a : adj) (pos o : nat) : Prop :=
  ∃ k, pos ≤ k ∧ adj_nums a !! k = Some o ∧ rank1 (adj_bits a) k = rank1 (adj_bits a) pos.
Lemma in_run_step a pos num bit o : adj_nums a !! pos = Some num → adj_bits a !! pos = Some bit →
  in_run a pos o ↔ o = num ∨ (bit = false ∧ in_run a (S pos) o).
Proof.
  intros Hnum Hbit. unfold in_run. split.
  - intros (k & Hk & Ho & Hr). destruct (decide (k = pos)) as [->|].
    { left. congruence. }
    right. pose proof (rank1_mono (adj_bits a) (S pos) k ltac:(lia)) as Hm.
    rewrite (rank1_S _ _ _ Hbit) in Hm. destruct bit; [lia|]. split; auto.
    exists k. rewrite (rank1_S _ _ _ Hbit), Nat.add_0_r. auto with lia.
  - intros [->|[-> (k & Hk & Ho & Hr)]]; [eauto|].
    rewrite (rank1_S _ _ _ Hbit), Nat.add_0_r in Hr. exists k. auto with lia.
Qed.
Lemma run_objects_ok a fuel pos : adj_wf a → pos < right_count a → right_count a - pos < fuel →
  ∃ os, run_objects fuel a pos = Some os ∧ ∀ o, o ∈ os ↔ in_run a pos o.
Proof.
  intros Hwf. revert pos. induction fuel as [|fuel IH]; intros pos Hpos Hf; [lia|].
  cbn [run_objects]. unfold num_at_pos, bit_at_pos.
  destruct (lookup_lt_is_Some_2 (adj_nums a) pos) as [num Hnum]; [done|].
  destruct (adj_bit_num a Hwf pos num Hnum) as [bit Hbit].
  rewrite Hbit, Hnum. cbn [mbind option_bind]. setoid_rewrite (in_run_step a pos num bit); try done.
  destruct bit.
  - eexists. split; [done|]. intros o. rewrite elem_of_list_singleton. naive_solver.
  - pose proof (adj_open a pos Hwf Hbit). destruct (IH (S pos)) as (os & -> & Hos); [lia..|].
    cbn [mbind option_bind]. eexists. split; [done|]. intros o. rewrite elem_of_cons, Hos. naive_solver.
Qed.
Lemma first_not_in_ok a fuel pos ex : adj_wf a → pos < right_count a → right_count a - pos < fuel →
  ∃ r, first_not_in fuel a pos ex = Some r ∧
    match r with
    | Some o => in_run a pos o ∧ o ∉ ex
    | None => ∀ o, in_run a pos o → o ∈ ex
    end.
Proof.
  intros Hwf. revert pos. induction fuel as [|fuel IH]; intros pos Hpos Hf; [lia|].
  cbn [first_not_in]. unfold num_at_pos, bit_at_pos.
  destruct (lookup_lt_is_Some_2 (adj_nums a) pos) as [num Hnum]; [done|].
  destruct (adj_bit_num a Hwf pos num Hnum) as [bit Hbit].
  rewrite Hbit, Hnum. cbn [mbind option_bind].
  pose proof (λ o, in_run_step a pos num bit o Hnum Hbit) as Hstep.
  case_decide as Hd; [eexists; split; [done|]; cbn; rewrite Hstep; auto|].
  destruct bit.
  - eexists. split; [done|]. cbn. intros o [->|[? _]]%Hstep; done.
  - pose proof (adj_open a pos Hwf Hbit). destruct (IH (S pos)) as (r & -> & Hr); [lia..|].
    eexists. split; [done|]. destruct r as [o|].
    + destruct Hr. rewrite Hstep. auto.
    + intros o [->|[_ ?]]%Hstep; auto.
Qed.

Section position.
  Context (sparse : bool) (tf : tfiles) (T : list triple) (Hok : tf_ok sparse tf T).
  Notation spo := (tf_spo tf).
  Notation rd_spo := (rd_spo _ _ _ Hok).

  Lemma tf_position_ok s p : ∃ r, tf_position tf s p = Some r ∧
    match r with
    | Some n => n < right_count spo ∧ ∀ o, in_run spo n o ↔ mkt s p o ∈ T
    | None => ∀ o, mkt s p o ∉ T
    end.
  Proof.
    destruct (sp_o_position_ok _ _ _ Hok s p) as (r & E & Hr). exists r. split; [done|].
    destruct r as [n|].
    - destruct Hr as (Hn & Hd & Hmin). split; [done|]. intros o. unfold mkt.
      rewrite (elem_of_spo_T _ _ _ _ _ rd_spo). split.
      + intros (k & Hk & Hnum & Hrk). exists (S (rank1 (adj_bits spo) n)). split; auto.
        apply elem_of_list_lookup. exists k. by rewrite adj_pairs_lookup, Hnum, Hrk.
      + intros (i & Hin & Hd').
        pose proof (so_ix _ _ _ _ _ rd_spo _ _ Hin) as Hix.
        assert (i = S (rank1 (adj_bits spo) n)) as ->
          by (eapply (dec_sp_inj _ _ _ _ _ rd_spo); eauto; lia).
        apply elem_of_list_lookup in Hin as [k Hk].
        pose proof (lookup_lt_Some _ _ _ Hk) as Hlt. rewrite adj_pairs_length in Hlt.
        rewrite adj_pairs_lookup in Hk. apply fmap_Some in Hk as (num & Hnum & [= Hrk <-]).
        exists k. split_and!; auto.
    - intros o (i & Hin & Hd)%(elem_of_spo_T _ _ _ _ _ rd_spo).
      pose proof (so_ix _ _ _ _ _ rd_spo _ _ Hin). apply (Hr i); auto. lia.
  Qed.
End position.

Lemma single_loop_ok st s p ex : Forall files_ok st → st ≠ [] →
  ∃ r, single_loop st s p ex = Some r ∧
    match r with
    | Some t => ∃ o, t = mkt s p o ∧ in_view t (tail st) ∧ (∀ l, head st = Some l → t ∉ rems l) ∧ o ∉ ex
    | None => ∀ o, in_view (mkt s p o) (tail st) →
                   (∃ l, head st = Some l ∧ mkt s p o ∈ rems l) ∨ o ∈ ex
    end.
Proof.
  intros Hf. revert ex. induction Hf as [|l st Hl Hf IH]; intros ex Hne; [done|].
  cbn [single_loop]. destruct st as [|parent st].
  { exists None. split; [done|]. intros o []. }
  apply Forall_cons in Hf as Hf'. destruct Hf' as [Hpar Hf'].
  (* what the removals of l exclude *)
  assert (Hexcl : ∃ excl,
    match l_neg l with
    | None => Some []
    | Some tf =>
        pos ← tf_position tf s p;
        match pos with
        | None => Some []
        | Some pos => run_objects (S (right_count (tf_spo tf))) (tf_spo tf) pos
        end
    end = Some excl ∧ ∀ o, o ∈ excl ↔ mkt s p o ∈ rems l).
  { destruct (l_neg l) as [tf|] eqn:En.
    - destruct (lf_neg _ Hl tf En) as [sp H].
      destruct (tf_position_ok _ _ _ H s p) as (r & -> & Hr). cbn [mbind option_bind].
      destruct r as [n|].
      + destruct Hr as [Hn Hr].
        destruct (run_objects_ok (tf_spo tf) (S (right_count (tf_spo tf))) n) as (os & -> & Hos); [apply H|done|lia|].
        eexists. split; [done|]. intros o. by rewrite Hos.
      + eexists. split; [done|]. intros o. specialize (Hr o). split; [by intros ?%elem_of_nil|tauto].
    - eexists. split; [done|]. intros o. rewrite rems_none by done. split; by intros ?%elem_of_nil. }
  destruct Hexcl as (excl & -> & Hexcl). cbn [mbind option_bind].
  destruct (lf_pos _ Hpar) as [sp H].
  destruct (tf_position_ok _ _ _ H s p) as (r & -> & Hr). cbn [mbind option_bind].
  assert (Hfound : ∃ found,
    match r with
    | None => Some None
    | Some pos => first_not_in (S (right_count (tf_spo (l_pos parent)))) (tf_spo (l_pos parent)) pos (excl ++ ex)
    end = Some found ∧
    match found with
    | Some o => mkt s p o ∈ adds parent ∧ o ∉ excl ++ ex
    | None => ∀ o, mkt s p o ∈ adds parent → o ∈ excl ++ ex
    end).
  { destruct r as [n|].
    - destruct Hr as [Hn Hr].
      destruct (first_not_in_ok (tf_spo (l_pos parent)) (S (right_count (tf_spo (l_pos parent)))) n (excl ++ ex))
        as (f & -> & Hfn); [apply H|done|lia|].
      eexists. split; [done|]. destruct f as [o|].
      + by rewrite <-Hr.
      + intros o. rewrite <-Hr. apply Hfn.
    - eexists. split; [done|]. intros o Ho. by apply Hr in Ho. }
  destruct Hfound as (found & -> & Hfound). cbn [mbind option_bind tail head].
  destruct found as [o|].
  - eexists. split; [done|]. destruct Hfound as [Ha Hx]. rewrite not_elem_of_app, Hexcl in Hx. exists o.
    split; [done|]. split; [apply in_view_cons; by left|]. split; [|tauto]. intros ? [= <-]. tauto.
  - destruct (IH (excl ++ ex) ltac:(done)) as (r' & -> & Hr'). eexists. split; [done|].
    cbn [tail head] in Hr'. destruct r' as [t|].
    + destruct Hr' as (o & -> & Hv & Hnr & Hx). rewrite not_elem_of_app, Hexcl in Hx. exists o.
      split; [done|]. split; [apply in_view_cons; right; split; auto|]. split; [|tauto]. intros ? [= <-]. tauto.
    + intros o [Ha|[Hv Hn]]%in_view_cons.
      * apply Hfound, elem_of_app in Ha as [Ha|Ha]; [|by right]. left. exists l. split; auto. by apply Hexcl.
      * apply Hr' in Hv as [(? & [= <-] & ?)|Hx]; [done|]. apply elem_of_app in Hx as [Hx|Hx]; [|by right].
        left. exists l. split; auto. by apply Hexcl.
Qed.
Theorem single_triple_sp_ok st s p : Forall files_ok st → st ≠ [] →
  ∃ r, single_triple_sp st s p = Some r ∧
    match r with
    | Some t => t ∈ view st ∧ t_s t = s ∧ t_p t = p
    | None => ∀ t, t ∈ view st → ¬ (t_s t = s ∧ t_p t = p)
    end.
Proof.
  intros Hf Hne. destruct st as [|l st]; [done|]. unfold single_triple_sp.
  apply Forall_cons in Hf as Hf'. destruct Hf' as [Hl Hf'].
  destruct (lf_pos _ Hl) as [sp H].
  destruct (tf_position_ok _ _ _ H s p) as (r & -> & Hr). cbn [mbind option_bind].
  destruct r as [n|].
  - destruct Hr as [Hn Hr]. unfold num_at_pos.
    destruct (lookup_lt_is_Some_2 (adj_nums (tf_spo (l_pos l))) n) as [num Hnum]; [done|].
    rewrite Hnum. cbn [mbind option_bind]. eexists. split; [done|].
    split; [|done]. apply view_elem, in_view_cons. left. apply Hr. exists n. auto.
  - destruct (single_loop_ok (l :: st) s p [] Hf Hne) as (r & -> & Hr'). eexists. split; [done|].
    cbn [tail head] in Hr'. destruct r as [t|].
    + destruct Hr' as (o & -> & Hv & Hnr & _). split; [|done]. apply view_elem, in_view_cons. auto.
    + intros [[s' p'] o] Hv [Es Ep]. unfold t_s, t_p in Es, Ep. cbn in Es, Ep. subst s' p'.
      apply view_elem, in_view_cons in Hv as [Ha|[Hv Hn']].
      * by apply (Hr o).
      * destruct (Hr' o Hv) as [(? & [= <-] & ?)|?%elem_of_nil]; done.
Qed.

(** ** Net changes *)
Definition stack_diff (top base : stack) : list (bool * triple) :=
  omap (λ u : triple,
    if decide (in_view u (top ++ base)) then
      if decide (in_view u base) then None else Some (true, u)
    else if decide (in_view u base) then Some (false, u) else None)
   (dedup (osort (mjoin (adds <$> top) ++ mjoin (rems <$> top)))).
Lemma stack_diff_sorted top base : SSorted (snd <$> stack_diff top base).
Proof.
  unfold stack_diff. set (f := λ u : triple, _ : option (bool * triple)).
  assert (∀ u c, f u = Some c → c.2 = u) as Hfst.
  { intros u c. subst f. cbn. repeat case_decide; intros [= <-]; done. }
  pose proof (dedup_osort_ssorted (mjoin (adds <$> top) ++ mjoin (rems <$> top))) as Hs.
  induction (dedup _) as [|u k IH]; [constructor|]. apply ssorted_cons in Hs as [Hs Hu]. cbn.
  destruct (f u) as [c|] eqn:E; [|by apply IH]. cbn. apply ssorted_cons. split; [by apply IH|].
  rewrite (Hfst _ _ E). intros y (c' & -> & Hc')%elem_of_list_fmap.
  apply elem_of_list_omap in Hc' as (v & Hv & E'). rewrite (Hfst _ _ E'). auto.
Qed.
Lemma in_view_app_ne u top base :
  in_view u (top ++ base) → ¬ in_view u base → ∃ l, l ∈ top ∧ u ∈ adds l.
Proof.
  induction top as [|l top IH]; [done|]. cbn [app]. rewrite in_view_cons. intros [?|[Hv _]] Hb.
  - exists l. split; [left|done].
  - destruct (IH Hv Hb) as (l' & ? & ?). exists l'. split; [by right|done].
Qed.
Lemma not_in_view_app u top base :
  ¬ in_view u (top ++ base) → in_view u base → ∃ l, l ∈ top ∧ u ∈ rems l.
Proof.
  induction top as [|l top IH]; [done|]. cbn [app]. rewrite in_view_cons. intros Hv Hb.
  destruct (decide (u ∈ rems l)) as [Hr|Hr].
  - exists l. split; [left|done].
  - destruct IH as (l' & ? & ?); auto. exists l'. split; [by right|done].
Qed.
Lemma stack_diff_elem top base b u : (b, u) ∈ stack_diff top base ↔
  if b : bool then in_view u (top ++ base) ∧ ¬ in_view u base
  else in_view u base ∧ ¬ in_view u (top ++ base).
Proof.
  unfold stack_diff. rewrite elem_of_list_omap. split.
  - intros (v & _ & E). repeat case_decide; simplify_eq; auto.
  - intros Hb. exists u. rewrite elem_of_dedup_osort, elem_of_app, !elem_of_list_join.
    setoid_rewrite elem_of_list_fmap. destruct b; destruct Hb as [H1 H2].
    + destruct (in_view_app_ne _ _ _ H1 H2) as (l & ? & ?). split; [left; naive_solver|].
      by rewrite decide_True, decide_False by done.
    + destruct (not_in_view_app _ _ _ H2 H1) as (l & ? & ?). split; [right; naive_solver|].
      by rewrite decide_False, decide_True by done.
Qed.

(** the layers may be given in any order *)
Lemma occurs_perm u (Ps Qs : list (list triple)) : Ps ≡ₚ Qs → occurs u Ps = occurs u Qs.
Proof. intros H. induction H as [|P Ps Qs _ IH|P Q Ps|]; cbn; [done|by rewrite IH|lia|congruence]. Qed.
Theorem stack_changes_perm top' top base : top' ≡ₚ top → Forall files_ok top → changes_ok (top ++ base) →
  stack_changes top' = Some (stack_diff top base).
Proof.
  intros Hp Hf' Hc. assert (Forall files_ok top') as Hf by (by rewrite Hp).
  unfold stack_changes. destruct (sit_from_ok top' Hf) as [HP HN].
  assert (Hbal : ∀ u, occurs u (adds <$> top') + (if decide (in_view u base) then 1 else 0) =
    occurs u (rems <$> top') + (if decide (in_view u (top ++ base)) then 1 else 0)).
  { intros u. rewrite !(occurs_perm u (_ <$> top') (_ <$> top)) by (by apply fmap_Permutation).
    specialize (Hc u). rewrite !fmap_app in Hc.
    pose proof (chain_balance u (adds <$> top) (rems <$> top) (adds <$> base) (rems <$> base)) as Hb.
    rewrite !fmap_length in Hb. specialize (Hb eq_refl Hc).
    assert (Hd : in_view u (top ++ base) ↔
      present u ((adds <$> top) ++ (adds <$> base)) ((rems <$> top) ++ (rems <$> base))).
    { unfold in_view. by rewrite !fmap_app. }
    rewrite (decide_ext _ _ _ _ Hd). exact Hb. }
  apply (change_collect _ _ _ _ osit_spec _ _ _ _ _ HP HN).
  - split; [|split].
    + apply Forall_fmap. eapply Forall_impl; [exact Hf|]. intros l Hl. cbn. rewrite fmap_id_triple. by apply adds_sorted.
    + apply Forall_fmap. eapply Forall_impl; [exact Hf|]. intros l Hl. cbn. rewrite fmap_id_triple. by apply rems_sorted.
    + intros u. specialize (Hbal u). repeat case_decide; lia.
  - by apply stack_fuel_ok.
  - apply stack_diff_sorted.
  - intros [b u]. rewrite stack_diff_elem. unfold net_change. cbn [fst snd].
    specialize (Hbal u). destruct b; repeat case_decide; split; intros; try lia; tauto.
Qed.
Theorem stack_changes_ok top base : Forall files_ok top → changes_ok (top ++ base) →
  stack_changes top = Some (stack_diff top base).
Proof. by apply stack_changes_perm. Qed.
