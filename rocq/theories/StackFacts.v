(** Reading a stack of layers: every query of internal/mod.rs gives what the additions and
    removals of the layers say. *)
From Verif Require Import Prelude ListFacts Succinct SuccinctFacts TripleFiles TripleBuildFacts
  IterFacts TripleReadFacts TripleQueryFacts TripleIterFacts Merge MergeFacts Layer.

(** ** What a layer and a stack hold *)
Definition adds (l : layer) : list triple := default [] (l_additions l).
Definition rems (l : layer) : list triple := default [] (l_removals l).

(** the files of a layer are as the file builders write them *)
Record files_ok (l : layer) : Prop := {
  lf_pos : ∃ sparse, tf_ok sparse (l_pos l) (adds l);
  lf_neg : ∀ tf, l_neg l = Some tf → ∃ sparse, tf_ok sparse tf (rems l) }.

Definition in_view (u : triple) (st : stack) : Prop := present u (adds <$> st) (rems <$> st).
Definition changes_ok (st : stack) : Prop := ∀ u, chain_ok u (adds <$> st) (rems <$> st).
#[global] Instance in_view_dec u st : Decision (in_view u st).
Proof. unfold in_view. apply _. Defined.
(** the triples of a stack, in order *)
Definition view (st : stack) : list triple :=
  filter (λ u, in_view u st) (dedup (osort (mjoin (adds <$> st)))).

Lemma in_view_nil u : ¬ in_view u [].
Proof. intros H; exact H. Qed.
Lemma in_view_cons u l st : in_view u (l :: st) ↔ u ∈ adds l ∨ (in_view u st ∧ u ∉ rems l).
Proof. done. Qed.
Lemma in_view_adds u st : in_view u st → ∃ l, l ∈ st ∧ u ∈ adds l.
Proof.
  intros (P & HP & Hu)%present_elem. apply elem_of_list_fmap in HP as (l & -> & ?). eauto.
Qed.
Lemma view_elem u st : u ∈ view st ↔ in_view u st.
Proof.
  unfold view. rewrite elem_of_list_filter, elem_of_dedup_osort. split; [tauto|]. intros Hu. split; auto.
  destruct (in_view_adds _ _ Hu) as (l & ? & ?). apply elem_of_list_join. exists (adds l).
  split; auto. apply elem_of_list_fmap. eauto.
Qed.
Lemma view_sorted st : SSorted (view st).
Proof. apply ssorted_filter, dedup_osort_ssorted. Qed.
Lemma view_ext st st' : (∀ u, in_view u st ↔ in_view u st') → view st = view st'.
Proof.
  intros Hu. apply ssorted_ext; auto using view_sorted. intros u. by rewrite !view_elem.
Qed.
Lemma changes_ok_cons l st : changes_ok (l :: st) ↔
  changes_ok st ∧ (∀ u, u ∈ adds l → ¬ in_view u st ∧ u ∉ rems l) ∧ (∀ u, u ∈ rems l → in_view u st).
Proof.
  unfold changes_ok, in_view. cbn. split.
  - intros H. split_and!; intros u; destruct (H u) as (? & ? & ?); auto.
  - intros (H1 & H2 & H3) u. split_and!; auto.
Qed.

Lemma adds_eq l T : l_additions l = Some T → adds l = T.
Proof. unfold adds. by intros ->. Qed.
Lemma rems_eq l T : l_removals l = Some T → rems l = T.
Proof. unfold rems. by intros ->. Qed.
Lemma rems_none l : l_neg l = None → rems l = [].
Proof. intros H. unfold rems, l_removals. by rewrite H. Qed.

(** ** Files of one layer *)
Section layer.
  Context (l : layer) (Hf : files_ok l).
  Lemma l_additions_ok : l_additions l = Some (adds l).
  Proof. destruct (lf_pos _ Hf) as [sp H]. exact (tf_triples_ok sp _ _ H). Qed.
  Lemma l_removals_ok : l_removals l = Some (rems l).
  Proof.
    unfold l_removals. destruct (l_neg l) as [tf|] eqn:E.
    - destruct (lf_neg _ Hf tf E) as [sp H]. exact (tf_triples_ok sp _ _ H).
    - by rewrite rems_none.
  Qed.
  Lemma adds_sorted : SSorted (adds l).
  Proof. destruct (lf_pos _ Hf) as [sp H]. exact (T_sorted sp _ _ H). Qed.
  Lemma rems_sorted : SSorted (rems l).
  Proof.
    destruct (l_neg l) as [tf|] eqn:E.
    - destruct (lf_neg _ Hf tf E) as [sp H]. exact (T_sorted sp _ _ H).
    - rewrite rems_none by done. constructor.
  Qed.
  Lemma adds_nonzero u : u ∈ adds l → nonzero u.
  Proof. destruct (lf_pos _ Hf) as [sp H]. exact (T_nonzero sp _ _ H u). Qed.
  Lemma rems_nonzero u : u ∈ rems l → nonzero u.
  Proof.
    destruct (l_neg l) as [tf|] eqn:E.
    - destruct (lf_neg _ Hf tf E) as [sp H]. exact (T_nonzero sp _ _ H u).
    - rewrite rems_none by done. by intros ?%elem_of_nil.
  Qed.
  Lemma addition_exists_ok u : addition_exists l u = Some (bool_decide (u ∈ adds l)).
  Proof. destruct (lf_pos _ Hf) as [sp H]. exact (layer_triple_exists_ok sp _ _ H u). Qed.
  Lemma removal_exists_ok u : removal_exists l u = Some (bool_decide (u ∈ rems l)).
  Proof.
    unfold removal_exists. destruct (l_neg l) as [tf|] eqn:E.
    - destruct (lf_neg _ Hf tf E) as [sp H]. exact (layer_triple_exists_ok sp _ _ H u).
    - rewrite rems_none by done. rewrite bool_decide_eq_false_2; [done|]. by intros ?%elem_of_nil.
  Qed.
  Lemma addition_count_ok : addition_count l = Some (length (adds l)).
  Proof. destruct (lf_pos _ Hf) as [sp H]. exact (tf_count_ok sp _ _ H). Qed.
  Lemma removal_count_ok : removal_count l = Some (length (rems l)).
  Proof.
    unfold removal_count. destruct (l_neg l) as [tf|] eqn:E.
    - destruct (lf_neg _ Hf tf E) as [sp H]. exact (tf_count_ok sp _ _ H).
    - by rewrite rems_none.
  Qed.
  Lemma adds_fuel : length (adds l) < tf_fuel (l_pos l).
  Proof.
    destruct (lf_pos _ Hf) as [sp H]. rewrite <-(rest_0 sp _ _ H). apply tf_fuel_ok.
  Qed.
  Lemma rems_fuel : length (rems l) ≤ neg_fuel l.
  Proof.
    unfold neg_fuel. destruct (l_neg l) as [tf|] eqn:E.
    - destruct (lf_neg _ Hf tf E) as [sp H]. rewrite <-(rest_0 sp _ _ H). apply Nat.lt_le_incl, tf_fuel_ok.
    - by rewrite rems_none.
  Qed.
End layer.

Lemma stack_fuel_ok st : Forall files_ok st → total (adds <$> st) + total (rems <$> st) < stack_fuel st.
Proof.
  induction 1 as [|l st Hl _ IH]; cbn [fmap list_fmap total stack_fuel]; [lia|]. pose proof (adds_fuel l Hl). pose proof (rems_fuel l Hl). lia.
Qed.

(** ** One query, whatever the iterators *)
Section query.
  Context {St K : Type} `{Ord K} (key : triple → K) `{!Inj (=) (=) key}.
  Context (next peek : St → option (option triple * St)) (I : St → list triple → Prop).
  Context (Hspec : iter_spec next peek I).
  Context (D : triple → Prop) `{!∀ u, Decision (D u)} (HD : ∀ u v, olt (key u) (key v) → D v → D u).
  Context (Q : triple → Prop) `{!∀ u, Decision (Q u)}.

  (** [l] is what is left of [T] after looking for [Q] *)
  Record sought (T l : list triple) : Prop := {
    sk_sorted : SSorted (key <$> l);
    sk_in : ∀ u, u ∈ l → u ∈ T ∧ (D u → Q u);
    sk_all : ∀ u, u ∈ T → D u → Q u → u ∈ l }.

  Lemma sought_length T l : sought T l → length l ≤ length T.
  Proof.
    intros Hs. apply submseteq_length, NoDup_submseteq.
    - eapply NoDup_fmap_1, ssorted_nodup, Hs.
    - intros u Hu. by apply (sk_in _ _ Hs).
  Qed.
  Lemma sought_total Ts ls : Forall2 sought Ts ls → total ls ≤ total Ts.
  Proof. induction 1 as [|T l Ts ls Hs _ IH]; cbn; [done|]. pose proof (sought_length _ _ Hs). lia. Qed.
  Lemma sought_same u Ts ls : Forall2 sought Ts ls → D u → Q u → Forall2 (same_mem u) ls Ts.
  Proof.
    intros HF Du Qu. induction HF as [|T l Ts ls Hs _ IH]; constructor; auto.
    split; [intros Hu; by apply (sk_in _ _ Hs)|]. intros Hu. by apply (sk_all _ _ Hs).
  Qed.
  Lemma sought_absent u Ts ls : Forall2 sought Ts ls → D u → ¬ Q u → ∀ l, l ∈ ls → u ∉ l.
  Proof.
    intros HF Du Qu l Hl Hu. destruct (elem_of_list_lookup_1 _ _ Hl) as [i Hi].
    destruct (Forall2_lookup_r _ _ _ _ _ HF Hi) as (T & _ & Hs). by apply Qu, (sk_in _ _ Hs).
  Qed.

  Lemma query_ok F its Ps Ns Ps' Ns' L :
    Forall2 I its.1 Ps' → Forall2 I its.2 Ns' → Forall2 sought Ps Ps' → Forall2 sought Ns Ns' →
    (∀ u, chain_ok u Ps Ns) → total Ps < F →
    SSorted (key <$> L) → (∀ u, u ∈ L ↔ D u ∧ Q u ∧ present u Ps Ns) →
    ∃ L2, collect (merged_next key next peek F) F its = Some (L ++ L2) ∧ ∀ u, u ∈ L2 → ¬ D u.
  Proof.
    intros HP HN HsP HsN Hc HF HL HLe.
    assert (Hlen : length Ps' = length Ns').
    { rewrite <-(Forall2_length _ _ _ HsP), <-(Forall2_length _ _ _ HsN).
      destruct Ps as [|P0 Ps0]; [destruct Ns; [done|]|]; exact (chain_length (0,0,0) _ _ (Hc (0,0,0))). }
    assert (Habs : ∀ u, D u → ¬ Q u → ¬ present u Ps' Ns').
    { intros u Du Qu (P & HPin & Hu)%present_elem. by eapply (sought_absent u Ps Ps'). }
    assert (Hsame : ∀ u, D u → Q u → present u Ps' Ns' ↔ present u Ps Ns).
    { intros u Du Qu. apply present_same; by apply sought_same. }
    eapply (merged_collect_upto key next peek I Hspec D HD F its Ps' Ns' L); auto.
    - split; [|split; [|split; [done|]]].
      + clear -HsP. induction HsP as [|?? ?? Hs]; constructor; auto. apply Hs.
      + clear -HsN. induction HsN as [|?? ?? Hs]; constructor; auto. apply Hs.
      + intros u Du. destruct (decide (Q u)) as [Qu|Qu].
        * apply (chain_ok_same u Ps' Ps Ns' Ns); [by apply sought_same..|apply Hc].
        * pose proof (sought_absent u _ _ HsP Du Qu) as Ha1.
          pose proof (sought_absent u _ _ HsN Du Qu) as Ha2.
          clear -Hlen Ha1 Ha2. revert Ns' Hlen Ha2. induction Ps' as [|P Ps' IH]; intros [|N Ns'] Hlen Ha2; try done.
          cbn. split_and!.
          -- apply IH; [intros; apply Ha1; by right|cbn in Hlen; lia|intros; apply Ha2; by right].
          -- intros Hu. exfalso. by apply (Ha1 P ltac:(left)).
          -- intros Hu. exfalso. by apply (Ha2 N ltac:(left)).
    - eapply Nat.le_lt_trans; [by apply sought_total|done].
    - intros u. rewrite HLe. split.
      + intros (Du & Qu & Hp). split; auto. by apply Hsame.
      + intros (Du & Hp). assert (Q u) as Qu by (destruct (decide (Q u)); [done|by exfalso; eapply Habs]).
        split_and!; auto. by apply Hsame.
  Qed.
End query.

(** ** Iterators over all layers *)
Definition opt_den {St} (den : tfiles → list triple → St → list triple → Prop)
  (o : option St) (l : list triple) : Prop :=
  match o with
  | None => l = []
  | Some it => ∃ sparse tf T, tf_ok sparse tf T ∧ den tf T it l
  end.
Lemma opt_spec {St} den (next peek : St → option (option triple * St)) :
  (∀ sparse tf T, tf_ok sparse tf T → iter_spec next peek (den tf T)) →
  iter_spec (opt_next next) (opt_next peek) (opt_den den).
Proof.
  intros Hs. split; intros [it|] l Hd; cbn in Hd; try (subst l; exists None; done).
  - destruct Hd as (sp & tf & T & Hok & Hd).
    destruct (is_next _ _ _ (Hs _ _ _ Hok) _ _ Hd) as (it' & E & Hd'). cbn. rewrite E. cbn.
    eexists. split; [done|]. cbn. eauto.
  - destruct Hd as (sp & tf & T & Hok & Hd).
    destruct (is_peek _ _ _ (Hs _ _ _ Hok) _ _ Hd) as (it' & E & Hd'). cbn. rewrite E. cbn.
    eexists. split; [done|]. cbn. eauto.
Qed.

Definition osit_den : option sit → list triple → Prop := opt_den (λ tf _, sit_den tf).
Definition opit_den (p : nat) : option pit → list triple → Prop := opt_den (λ tf T, pit_den tf T p).
Definition ooit_den : option oit → list triple → Prop := opt_den (λ tf _, oit_den tf).
Lemma osit_spec : iter_spec (opt_next sit_next) (opt_next sit_peek) osit_den.
Proof. apply opt_spec. intros. by eapply sit_spec. Qed.
Lemma opit_spec p : p ≠ 0 → iter_spec (opt_next pit_next) (opt_next pit_peek) (opit_den p).
Proof. intros Hp. apply opt_spec. intros. by eapply pit_spec. Qed.
Lemma ooit_spec : iter_spec (opt_next oit_next) (opt_next oit_peek) ooit_den.
Proof. apply opt_spec. intros. by eapply oit_spec. Qed.

(** seeking every layer *)
Lemma seek_all_ok {St} (seek : St → option St) (I : option St → list triple → Prop)
  (R : list triple → list triple → Prop) sts Ts :
  Forall2 (λ st T, ∃ st' l, opt_seek seek st = Some st' ∧ I st' l ∧ R T l) sts Ts →
  ∃ sts' ls, seek_all seek sts = Some sts' ∧ Forall2 I sts' ls ∧ Forall2 R Ts ls.
Proof.
  induction 1 as [|st T sts Ts (st' & l & E & HI & HR) _ (sts' & ls & E' & HI' & HR')].
  - by exists [], [].
  - exists (st' :: sts'), (l :: ls). cbn. rewrite E. cbn. rewrite E'. cbn. auto.
Qed.
Lemma Forall2_map_l {A B C} (R : B → C → Prop) (f : A → B) (g : A → C) (P : A → Prop) l :
  Forall P l → (∀ x, P x → R (f x) (g x)) → Forall2 R (f <$> l) (g <$> l).
Proof. intros HF HR. induction HF; cbn; constructor; auto. Qed.

Lemma take_while_app_l {A} (f : A → bool) (l k : list A) :
  (∀ x, x ∈ k → f x = false) → take_while f (l ++ k) = take_while f l.
Proof.
  intros Hk. induction l as [|x l IH]; cbn.
  - destruct k as [|y k]; [done|]. cbn. by rewrite (Hk y ltac:(left)).
  - rewrite IH. done.
Qed.

#[global] Instance id_inj_triple : Inj (=) (=) (λ t : triple, t).
Proof. intros ?? E. exact E. Qed.
#[global] Instance okey_inj : Inj (=) (=) okey.
Proof. intros [[a b] c] [[a' b'] c']. unfold okey, t_s, t_p, t_o. cbn. congruence. Qed.
Lemma fmap_id_triple (l : list triple) : (λ t : triple, t) <$> l = l.
Proof. apply list_fmap_id. Qed.

Section stack.
  Context (st : stack) (Hf : Forall files_ok st) (Hc : changes_ok st).

  Lemma fuel_lt : total (adds <$> st) < stack_fuel st.
  Proof. pose proof (stack_fuel_ok st Hf). lia. Qed.

  (** a seek of every layer, through the iterators of [l_pos] and [l_neg] *)
  Lemma seek_stack {St} (it : tfiles → St) (seek : St → option St)
        (I : option St → list triple → Prop) (R : list triple → list triple → Prop) :
    R [] [] → I None [] →
    (∀ sparse tf T, tf_ok sparse tf T → ∃ it' l, seek (it tf) = Some it' ∧ I (Some it') l ∧ R T l) →
    ∃ pos neg Ps Ns,
      seek_all seek ((λ l, Some (it (l_pos l))) <$> st) = Some pos ∧
      seek_all seek ((λ l, it <$> l_neg l) <$> st) = Some neg ∧
      Forall2 I pos Ps ∧ Forall2 I neg Ns ∧ Forall2 R (adds <$> st) Ps ∧ Forall2 R (rems <$> st) Ns.
  Proof.
    intros HR0 HI0 Hseek.
    destruct (seek_all_ok seek I R ((λ l, Some (it (l_pos l))) <$> st) (adds <$> st)) as (pos & Ps & -> & ? & ?).
    { eapply Forall2_map_l; [exact Hf|]. intros l Hl. destruct (lf_pos _ Hl) as [sp Hk].
      destruct (Hseek _ _ _ Hk) as (it' & k & E & ? & ?). cbn. rewrite E. cbn. eauto. }
    destruct (seek_all_ok seek I R ((λ l, it <$> l_neg l) <$> st) (rems <$> st)) as (neg & Ns & -> & ? & ?).
    { eapply Forall2_map_l; [exact Hf|]. intros l Hl. destruct (l_neg l) as [tf|] eqn:En; cbn.
      - destruct (lf_neg _ Hl tf En) as [sp Hk]. destruct (Hseek _ _ _ Hk) as (it' & k & E & ? & ?).
        rewrite E. cbn. eauto.
      - rewrite rems_none by done. eauto. }
    by exists pos, neg, Ps, Ns.
  Qed.

  Lemma sit_from_ok : Forall2 osit_den (sit_from st).1 (adds <$> st) ∧ Forall2 osit_den (sit_from st).2 (rems <$> st).
  Proof.
    assert (∀ sparse tf T, tf_ok sparse tf T → osit_den (Some (tf_iter tf)) T) as Hden.
    { intros sp tf T H. exists sp, tf, T. split; auto. rewrite <-(rest_0 sp tf T H).
      apply sit_den_at; [apply sit_new_at|done]. }
    split; eapply Forall2_map_l; try exact Hf; intros l Hl.
    - destruct (lf_pos _ Hl) as [sp H]. by eapply Hden.
    - destruct (l_neg l) as [tf|] eqn:En; cbn; [|by rewrite rems_none].
      destruct (lf_neg _ Hl tf En) as [sp H]. by eapply Hden.
  Qed.

  Theorem triples_ok : triples st = Some (view st).
  Proof.
    unfold triples, stack_collect. destruct sit_from_ok as [HP HN].
    apply (merged_collect _ _ _ _ osit_spec _ _ _ _ _ HP HN).
    - split; [|split; [|split]].
      + apply Forall_fmap. eapply Forall_impl; [exact Hf|]. intros l Hl. cbn. rewrite fmap_id_triple. by apply adds_sorted.
      + apply Forall_fmap. eapply Forall_impl; [exact Hf|]. intros l Hl. cbn. rewrite fmap_id_triple. by apply rems_sorted.
      + by rewrite !fmap_length.
      + intros u _. apply Hc.
    - apply fuel_lt.
    - rewrite fmap_id_triple. apply view_sorted.
    - intros u. apply view_elem.
  Qed.

  Lemma view_filter_sorted (P : triple → Prop) `{!∀ u, Decision (P u)} : SSorted (filter P (view st)).
  Proof. apply ssorted_filter, view_sorted. Qed.

  Theorem triples_s_ok s : triples_s st s = Some (filter (λ t, t_s t = s) (view st)).
  Proof.
    unfold triples_s, sit_from. cbn [fst snd].
    destruct (seek_stack tf_iter (λ it, sit_seek_subject it s) osit_den
      (sought (λ t, t) (λ _, True) (λ t, s ≤ t_s t))) as (pos & neg & Ps & Ns & -> & -> & HP & HN & HsP & HsN).
    - split; [constructor|by intros ? ?%elem_of_nil|by intros ? ?%elem_of_nil].
    - done.
    - intros sp tf T H. destruct (sit_seek_subject_ok sp tf T H (tf_iter tf) s) as (it' & n & E & Hat & Hpk & Hr); auto.
      exists it', (rest tf n). split; [done|]. split.
      + exists sp, tf, T. split; auto. by apply sit_den_at.
      + rewrite Hr. split.
        * rewrite fmap_id_triple. apply ssorted_filter. by eapply T_sorted.
        * intros u [??]%elem_of_list_filter. auto.
        * intros u ? _ ?. by apply elem_of_list_filter.
    - cbn [mbind option_bind]. unfold stack_collect.
      destruct (query_ok (λ t, t) _ _ _ osit_spec (λ _, True) ltac:(done) (λ t, s ≤ t_s t)
        (stack_fuel st) (pos, neg) _ _ Ps Ns (filter (λ t, s ≤ t_s t) (view st)) HP HN HsP HsN Hc fuel_lt)
        as (L2 & -> & HL2).
      + rewrite fmap_id_triple. apply view_filter_sorted.
      + intros u. rewrite elem_of_list_filter, view_elem. unfold in_view. tauto.
      + cbn [mbind option_bind]. f_equal. destruct L2 as [|x L2]; [|by destruct (HL2 x ltac:(left))].
        rewrite app_nil_r. rewrite (take_while_filter (λ t, t_s t = s)).
        * rewrite filter_filter_and. apply filter_ext_in. intros. lia.
        * apply view_filter_sorted.
        * intros x y [Hx _]%elem_of_list_filter _ Hlt%t_s_mono Hy. lia.
  Qed.

  Theorem triples_sp_ok s p : triples_sp st s p = Some (filter (λ t, t_s t = s ∧ t_p t = p) (view st)).
  Proof.
    unfold triples_sp, sit_from. cbn [fst snd].
    destruct (seek_stack tf_iter (λ it, sit_seek_sp it s p) osit_den
      (sought (λ t, t) (λ t, t_s t ≤ s) (λ t, t_s t = s ∧ p ≤ t_p t)))
      as (pos & neg & Ps & Ns & -> & -> & HP & HN & HsP & HsN).
    - split; [constructor|by intros ? ?%elem_of_nil|by intros ? ?%elem_of_nil].
    - done.
    - intros sp tf T H. destruct (sit_seek_sp_ok sp tf T H (tf_iter tf) s p) as (it' & n & E & Hat & Hpk & Hr1 & Hr2); auto.
      exists it', (rest tf n). split; [done|]. split.
      + exists sp, tf, T. split; auto. by apply sit_den_at.
      + split.
        * rewrite fmap_id_triple. by eapply rest_sorted.
        * intros u Hu. split; [by eapply rest_elem|]. intros. destruct (Hr1 u Hu). split; [lia|]. apply H2. lia.
        * intros u ? _ [? ?]. by apply Hr2.
    - cbn [mbind option_bind]. unfold stack_collect.
      assert (HD : ∀ u v : triple, olt u v → t_s v ≤ s → t_s u ≤ s) by (intros u v Hlt%t_s_mono ?; lia).
      destruct (query_ok (λ t, t) _ _ _ osit_spec (λ t, t_s t ≤ s) HD (λ t, t_s t = s ∧ p ≤ t_p t)
        (stack_fuel st) (pos, neg) _ _ Ps Ns (filter (λ t, t_s t = s ∧ p ≤ t_p t) (view st)) HP HN HsP HsN Hc fuel_lt)
        as (L2 & -> & HL2).
      + rewrite fmap_id_triple. apply view_filter_sorted.
      + intros u. rewrite elem_of_list_filter, view_elem. unfold in_view. split; [|tauto].
        intros [[? ?] ?]. split_and!; auto. lia.
      + cbn [mbind option_bind]. f_equal. rewrite take_while_app_l.
        2:{ intros x Hx%HL2. apply bool_decide_eq_false_2. lia. }
        rewrite (take_while_filter (λ t, t_s t = s ∧ t_p t = p)).
        * rewrite filter_filter_and. apply filter_ext_in. intros. lia.
        * apply view_filter_sorted.
        * intros x y [Hx _]%elem_of_list_filter [Hy _]%elem_of_list_filter Hlt [Hs Hp].
          destruct x as [[a b] c], y as [[a' b'] c']. unfold t_s, t_p in *. cbn in *. ord_num.
  Qed.

  Theorem triples_p_ok p : p ≠ 0 → triples_p st p = Some (filter (λ t, t_p t = p) (view st)).
  Proof.
    intros Hp. unfold triples_p.
    assert (Hs : ∀ sp tf T, tf_ok sp tf T →
      opit_den p (tf_iter_p tf p) (filter (λ t, t_p t = p) T) ∧
      sought (λ t, t) (λ _, True) (λ t, t_p t = p) T (filter (λ t, t_p t = p) T)).
    { intros sp tf T H. split.
      - pose proof (tf_iter_p_ok sp tf T H p Hp) as Hit. destruct (tf_iter_p tf p); cbn; [|done].
        exists sp, tf, T. auto.
      - split.
        + rewrite fmap_id_triple. apply ssorted_filter. by eapply T_sorted.
        + intros u [??]%elem_of_list_filter. auto.
        + intros u ? _ ?. by apply elem_of_list_filter. }
    set (flt := λ T : list triple, filter (λ t, t_p t = p) T).
    assert (Hfl : ∀ l, files_ok l → sought (λ t, t) (λ _, True) (λ t, t_p t = p) (rems l) (flt (rems l)) ∧
       opit_den p (tf ← l_neg l; tf_iter_p tf p) (flt (rems l))).
    { intros l Hl. destruct (l_neg l) as [tf|] eqn:En; cbn.
      - destruct (lf_neg _ Hl tf En) as [sp H]. destruct (Hs _ _ _ H). done.
      - rewrite rems_none by done. split; [|done].
        split; [constructor|by intros ? ?%elem_of_nil|by intros ? ?%elem_of_nil]. }
    destruct (query_ok (λ t, t) _ _ _ (opit_spec p Hp) (λ _, True) ltac:(done) (λ t, t_p t = p)
      (stack_fuel st) (pit_from st p) (adds <$> st) (rems <$> st)
      ((λ l, flt (adds l)) <$> st) ((λ l, flt (rems l)) <$> st) (filter (λ t, t_p t = p) (view st))) as (L2 & E & HL2).
    - eapply Forall2_map_l; [exact Hf|]. intros l Hl. destruct (lf_pos _ Hl) as [sp H]. by eapply Hs.
    - eapply Forall2_map_l; [exact Hf|]. intros l Hl. by apply Hfl.
    - eapply Forall2_map_l; [exact Hf|]. intros l Hl. destruct (lf_pos _ Hl) as [sp H]. by eapply Hs.
    - eapply Forall2_map_l; [exact Hf|]. intros l Hl. by apply Hfl.
    - done.
    - apply fuel_lt.
    - rewrite fmap_id_triple. apply view_filter_sorted.
    - intros u. rewrite elem_of_list_filter, view_elem. unfold in_view. tauto.
    - rewrite E. destruct L2 as [|x L2]; [by rewrite app_nil_r|by destruct (HL2 x ltac:(left))].
  Qed.

  Theorem triples_o_ok o : triples_o st o = Some (filter (λ t, t_o t = o) (view st)).
  Proof.
    unfold triples_o, oit_from. cbn [fst snd].
    destruct (seek_stack (λ tf, tf_iter_o tf false) (λ it, oit_seek it o) ooit_den
      (sought okey (λ _, True) (λ t, o ≤ t_o t))) as (pos & neg & Ps & Ns & -> & -> & HP & HN & HsP & HsN).
    - split; [constructor|by intros ? ?%elem_of_nil|by intros ? ?%elem_of_nil].
    - done.
    - intros sp tf T H. destruct (tf_iter_o_seek sp tf T H o) as (it' & k & E & Hden & Hsort & Hmem).
      exists it', k. split; [done|]. split.
      + exists sp, tf, T. auto.
      + split; auto.
        * intros u [??]%Hmem. auto.
        * intros u ? _ ?. by apply Hmem.
    - cbn [mbind option_bind].
      set (L := osort (okey <$> filter (λ t, o ≤ t_o t) (view st))).
      set (unkey := λ k : nat * (nat * nat), mkt k.2.1 k.2.2 k.1).
      assert (Hun : ∀ t, unkey (okey t) = t) by (by intros [[? ?] ?]).
      assert (HLk : okey <$> (unkey <$> L) = L).
      { rewrite <-list_fmap_compose. rewrite <-(list_fmap_id L) at 2. apply list_fmap_ext.
        intros ? [? [? ?]] _. done. }
      assert (HLe : ∀ u, u ∈ unkey <$> L ↔ o ≤ t_o u ∧ in_view u st).
      { intros u. rewrite <-view_elem, <-(elem_of_list_filter (λ t, o ≤ t_o t)), elem_of_list_fmap. split.
        - intros (k & -> & Hk). subst L. apply elem_of_osort, elem_of_list_fmap in Hk as (t & -> & Ht). by rewrite Hun.
        - intros Hu. exists (okey u). split; [by rewrite Hun|]. apply elem_of_osort, elem_of_list_fmap. eauto. }
      assert (HLs : SSorted (okey <$> (unkey <$> L))).
      { rewrite HLk. apply osort_ssorted, NoDup_fmap_2; [apply _|]. apply ssorted_nodup, view_filter_sorted. }
      destruct (query_ok okey _ _ _ ooit_spec (λ _, True) ltac:(done) (λ t, o ≤ t_o t)
        (stack_fuel st) (pos, neg) _ _ Ps Ns (unkey <$> L) HP HN HsP HsN Hc fuel_lt HLs)
        as (L2 & -> & HL2).
      + intros u. rewrite HLe. unfold in_view. tauto.
      + cbn [mbind option_bind]. f_equal. destruct L2 as [|x L2]; [|by destruct (HL2 x ltac:(left))].
        rewrite app_nil_r. rewrite keyed_take_while; auto.
        * apply keyed_ext.
          -- by apply keyed_filter.
          -- assert (okey <$> filter (λ t, t_o t = o) (view st) =
               (λ t, (o, (t_s t, t_p t))) <$> filter (λ t, t_o t = o) (view st)) as ->.
             { apply list_fmap_ext. intros i t Ht%elem_of_list_lookup_2.
               apply elem_of_list_filter in Ht as [<- _]. done. }
             pose proof (view_filter_sorted (λ t, t_o t = o)) as Hs.
             assert (∀ t, t ∈ filter (λ t, t_o t = o) (view st) → t_o t = o) as Ho
               by (by intros t [? _]%elem_of_list_filter).
             induction (filter (λ t, t_o t = o) (view st)) as [|t k IH]; [constructor|].
             apply ssorted_cons in Hs as [Hs Ht]. cbn. apply ssorted_cons. split.
             ++ apply IH; auto. intros u Hu. apply Ho. by right.
             ++ intros y (u & -> & Hu)%elem_of_list_fmap.
                pose proof (Ht u Hu). pose proof (Ho t ltac:(left)). pose proof (Ho u ltac:(by right)).
                destruct t as [[? ?] ?], u as [[? ?] ?]. unfold t_s, t_p, t_o in *. cbn in *. subst. ord_num.
          -- intros u. rewrite !elem_of_list_filter, HLe, view_elem. intuition lia.
        * intros x y [Hx _]%HLe [Hy _]%HLe Hlt Ho. pose proof (okey_mono _ _ Hlt). lia.
  Qed.

  Lemma in_view_nonzero u : in_view u st → nonzero u.
  Proof.
    intros (l & Hl & Hu)%in_view_adds. rewrite Forall_forall in Hf. eapply adds_nonzero; eauto.
  Qed.
  Lemma triple_exists_ok u : triple_exists st u = Some (bool_decide (u ∈ view st)).
  Proof.
    unfold triple_exists. case_decide as Hz.
    { rewrite bool_decide_eq_false_2; [done|]. rewrite view_elem. intros Hu%in_view_nonzero.
      unfold nonzero in Hu. lia. }
    assert (exists_loop st u = Some (bool_decide (in_view u st))) as ->.
    2:{ f_equal. apply bool_decide_ext. symmetry. apply view_elem. }
    clear Hc. induction Hf as [|l k Hl Hk IH]; [done|].
    cbn [exists_loop]. rewrite addition_exists_ok by done. cbn [mbind option_bind].
    destruct (decide (u ∈ adds l)) as [Ha|Ha].
    { rewrite bool_decide_eq_true_2 by done. rewrite bool_decide_eq_true_2; [done|]. by left. }
    rewrite bool_decide_eq_false_2 by done. rewrite removal_exists_ok by done. cbn [mbind option_bind].
    destruct (decide (u ∈ rems l)) as [Hr|Hr].
    { rewrite bool_decide_eq_true_2 by done. rewrite bool_decide_eq_false_2; [done|]. intros [?|[? ?]]; done. }
    rewrite bool_decide_eq_false_2 by done. rewrite IH by done. f_equal. apply bool_decide_ext.
    rewrite in_view_cons. tauto.
  Qed.
End stack.
