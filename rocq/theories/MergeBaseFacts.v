(** Merging base layers writes the layer that a commit of the union of their triples would
    write. *)
From Verif Require Import Prelude ListFacts Succinct SuccinctFacts TripleFiles TripleBuildFacts IterFacts TripleReadFacts
  TripleQueryFacts TripleIterFacts Merge MergeFacts Layer StackFacts DictFacts WfFacts InternFacts Builder Rollup RollupFacts
  RollupSame Squash MergeBase Spec BuilderFacts CommitFacts HistoryFacts SquashFacts.

(** ** Merging sorted lists that share elements *)
Section kmerge.
  Context {K : Type} `{HK : Ord K}.
  Lemma kmerge_loop_sorted f (ls : list (list K)) : Forall (λ l, SSorted l) ls → length (mjoin ls) ≤ f →
    kmerge_loop (λ x, x) f ls ≡ₚ mjoin ls ∧ StronglySorted ole (kmerge_loop (λ x, x) f ls).
  Proof.
    revert ls. induction f as [|f IH]; intros ls Hs Hf.
    { destruct (mjoin ls); [|cbn in Hf; lia]. split; [done|constructor]. }
    cbn [kmerge_loop]. destruct (pick (λ x, x) ls) as [[x r]|] eqn:E.
    - destruct (pick_Some (λ x : K, x) ls x r E) as (H1' & H2' & H3').
      { eapply Forall_impl; [exact Hs|]. intros l Hl. change (λ x : K, x) with (@id K). by rewrite list_fmap_id. }
      rewrite H1' in Hf. cbn in Hf.
      destruct (IH r) as [I1 I2]; [|lia|].
      { apply Forall_forall. intros l Hl. rewrite Forall_forall in H2'. specialize (H2' l Hl).
        revert H2'. change (λ x : K, x) with (@id K). by rewrite list_fmap_id. }
      split; [by rewrite I1, H1'|]. constructor; [done|]. apply Forall_forall. intros z Hz.
      rewrite I1 in Hz. destruct (olt_total x z) as [?|[->|?]].
      + apply ole_alt. by left.
      + apply ole_alt. by right.
      + destruct (H3' z); [|done]. rewrite H1'. by right.
    - rewrite (pick_None _ _ E). split; [done|constructor].
  Qed.
  Lemma kmerge_sorted (ls : list (list K)) : Forall (λ l, SSorted l) ls →
    StronglySorted ole (kmerge (λ x, x) ls) ∧ ∀ x, x ∈ kmerge (λ x, x) ls ↔ x ∈ mjoin ls.
  Proof.
    intros Hs. destruct (kmerge_loop_sorted (length (mjoin ls)) ls Hs) as [H1 H2]; [done|].
    split; [done|]. intros x. unfold kmerge. by rewrite H1.
  Qed.
End kmerge.

Lemma ssorted_rel {A B} `{Ord A, Ord B} (P : A → B → Prop) l k : Forall2 P l k →
  (∀ x y x' y', P x x' → P y y' → olt x y → olt x' y') → SSorted l → SSorted k.
Proof.
  intros HF Hm. induction HF as [|x y l k Hxy HF IH]; intros Hs; [constructor|].
  apply ssorted_cons in Hs as [Hs Hx]. apply ssorted_cons. split; [by apply IH|].
  intros z Hz. destruct (elem_rel _ _ _ _ HF Hz) as (z' & Hz' & Hp). eapply Hm; [exact Hxy|exact Hp|]. by apply Hx.
Qed.

(** ** Dictionaries *)
Lemma dict_id_nonzero {A} `{EqDecision A} (d : list A) x i : dict_id d x = Some i → ∃ j, i = S j ∧ d !! j = Some x.
Proof. intros E. apply dict_id_get in E. destruct i as [|i]; [done|]. by exists i. Qed.
Section dedup.
  Context {A : Type} `{Ord A, EqDecision A}.
  Lemma dedup_merge_ok (ds : list (list A)) : ∃ maps, dedup_merge ds = Some (maps, dedup (osort (mjoin ds))) ∧
    Forall2 (λ d m, Forall2 (λ x j, dict_id (dedup (osort (mjoin ds))) x = Some (S j)) d m) ds maps.
  Proof.
    unfold dedup_merge. set (u := dedup (osort (mjoin ds))).
    destruct (mapM_rel (mapM (λ x, pred <$> dict_id u x)) (λ d m, Forall2 (λ x j, dict_id u x = Some (S j)) d m) ds)
      as (maps & -> & HF).
    - intros d Hd. apply mapM_rel. intros x Hx. destruct (dict_id u x) as [i|] eqn:E.
      + destruct (dict_id_nonzero _ _ _ E) as (j & -> & _). by exists j.
      + apply dict_id_None in E. destruct E. unfold u. rewrite elem_of_dedup_osort. apply elem_of_list_join. eauto.
    - by exists maps.
  Qed.
End dedup.

(** ** A base layer without id maps *)
Record plain (l : layer) : Prop := {
  pl_dict : ldict_ok l;
  pl_nvmap : l_nvmap l = None;
  pl_pmap : l_pmap l = None }.
Lemma plain_dicts l : plain l → dicts_ok [l].
Proof. intros [Hl _ _]. split; [done|]. split; [done|]. split; intros x _; by intros ?%elem_of_nil. Qed.
Lemma plain_object l x : plain l → object_id [l] x = Some (dict_id (l_objs l) x).
Proof.
  intros [_ Hn _]. rewrite object_id_cons. destruct (dict_id (l_objs l) x) as [i|]; [|by destruct x].
  rewrite Hn. cbn [inner_to_outer mbind option_bind]. cbn [nv_count]. by rewrite Nat.add_0_r.
Qed.
Lemma plain_predicate l x : plain l → predicate_id [l] x = Some (dict_id (l_preds l) x).
Proof.
  intros [_ _ Hp]. cbn [predicate_id]. destruct (dict_id (l_preds l) x) as [i|]; [|done].
  rewrite Hp. cbn [inner_to_outer mbind option_bind]. cbn [pred_count]. by rewrite Nat.add_0_r.
Qed.
Lemma l_objs_sorted l : ldict_ok l → SSorted (l_objs l).
Proof.
  intros Hl. unfold l_objs. apply ssorted_app. split_and!.
  - apply fmap_ssorted; [|apply Hl]. done.
  - apply fmap_ssorted; [|apply Hl]. done.
  - intros x y (s & -> & _)%elem_of_list_fmap (v & -> & _)%elem_of_list_fmap. done.
Qed.
Lemma dict_id_lt {A} `{Ord A, EqDecision A} (d : list A) x y i j : SSorted d →
  dict_id d x = Some i → dict_id d y = Some j → i < j ↔ olt x y.
Proof.
  intros Hs Hi Hj. destruct (dict_id_nonzero _ _ _ Hi) as (i' & -> & Hi'), (dict_id_nonzero _ _ _ Hj) as (j' & -> & Hj').
  split.
  - intros ?. eapply (ssorted_lookup d i' j'); [done..|lia].
  - intros Hlt. pose proof (ssorted_lookup_lt d i' j' x y Hs Hi' Hj' Hlt). lia.
Qed.
Lemma plain_order l vt vt' u u' : plain l → den [l] vt u → den [l] vt' u' → olt u u' ↔ olt vt vt'.
Proof.
  intros Hl. unfold den. rewrite !plain_object, !plain_predicate by done.
  destruct vt as [[s p] o], vt' as [[s' p'] o'], u as [[us up] uo], u' as [[us' up'] uo'].
  unfold t_s, t_p, t_o. cbn [fst snd]. intros (E1 & E2 & E3) (E1' & E2' & E3').
  injection E1 as E1. injection E2 as E2. injection E3 as E3. injection E1' as E1'. injection E2' as E2'. injection E3' as E3'.
  pose proof (l_objs_sorted l (pl_dict _ Hl)) as So. pose proof (ld_preds _ (pl_dict _ Hl)) as Sp.
  pose proof (dict_id_lt _ _ _ _ _ So E1 E1') as L1. pose proof (dict_id_lt _ _ _ _ _ Sp E2 E2') as L2.
  pose proof (dict_id_lt _ _ _ _ _ So E3 E3') as L3.
  assert (Q1 : us = us' ↔ s = s').
  { split; [|intros ->; congruence]. intros ->. apply dict_id_get in E1, E1'. rewrite E1 in E1'. by injection E1'. }
  assert (Q2 : up = up' ↔ p = p').
  { split; [|intros ->; congruence]. intros ->. apply dict_id_get in E2, E2'. rewrite E2 in E2'. by injection E2'. }
  change (olt (s, p, o) (s', p', o') : Prop) with ((olt s s' ∨ (s = s' ∧ olt p p')) ∨ ((s, p) = (s', p') ∧ olt o o')).
  change (olt (us, up, uo) (us', up', uo') : Prop)
    with ((us < us' ∨ (us = us' ∧ up < up')) ∨ ((us, up) = (us', up') ∧ uo < uo')).
  change (olt (inl s : obj) (inl s')) with (olt s s') in L1.
  rewrite !pair_equal_spec, L1, L2, L3, Q1, Q2. done.
Qed.

(** ** Mapping the triples of one layer *)
Section map.
  Context (l k : layer) (Hl : plain l) (Hk : plain k) (n p v : list nat).
  Context (Hn : Forall2 (λ x j, dict_id (l_nodes l) x = Some (S j)) (l_nodes k) n).
  Context (Hp : Forall2 (λ x j, dict_id (l_preds l) x = Some (S j)) (l_preds k) p).
  Context (Hv : Forall2 (λ x j, dict_id (l_vals l) x = Some (S j)) (l_vals k) v).
  Lemma map_node s i : dict_id (l_nodes k) s = Some i →
    ∃ j, map_get n i = Some j ∧ dict_id (l_nodes l) s = Some (j + 1) ∧ 1 ≤ i ≤ length n.
  Proof.
    intros E. destruct (dict_id_nonzero _ _ _ E) as (i' & -> & Hi).
    destruct (Forall2_lookup_l _ _ _ _ _ Hn Hi) as (j & Hj & Ej). exists j. split; [done|].
    rewrite Ej. split; [f_equal; lia|]. apply lookup_lt_Some in Hj. lia.
  Qed.
  Lemma map_pred s i : dict_id (l_preds k) s = Some i →
    ∃ j, map_get p i = Some j ∧ dict_id (l_preds l) s = Some (j + 1).
  Proof.
    intros E. destruct (dict_id_nonzero _ _ _ E) as (i' & -> & Hi).
    destruct (Forall2_lookup_l _ _ _ _ _ Hp Hi) as (j & Hj & Ej). exists j. split; [done|].
    rewrite Ej. f_equal; lia.
  Qed.
  Lemma map_triple_ok vt t : den [k] vt t →
    ∃ t', map_triple n p v (length (l_nodes l)) t = Some t' ∧ den [l] vt t'.
  Proof.
    unfold den. rewrite !plain_object, !plain_predicate by done. rewrite !l_objs_id.
    intros (E1 & E2 & E3). injection E1 as E1. injection E2 as E2. injection E3 as E3.
    destruct (map_node _ _ E1) as (s & S1 & S2 & _), (map_pred _ _ E2) as (q & P1 & P2).
    unfold map_triple. rewrite S1, P1. cbn [mbind option_bind].
    destruct (vt.2) as [o|o] eqn:Eo.
    - destruct (map_node _ _ E3) as (j & O1 & O2 & O3). rewrite decide_True by lia. rewrite O1. cbn [mbind option_bind].
      eexists. split; [done|].
      unfold t_s, t_p, t_o; cbn [mkt fst snd]. by rewrite S2, P2, O2.
    - destruct (dict_id (l_vals k) o) as [i|] eqn:E; [|done]. cbn in E3. injection E3 as E3.
      destruct (dict_id_nonzero _ _ _ E) as (i' & -> & Hi).
      destruct (Forall2_lookup_l _ _ _ _ _ Hv Hi) as (j & Hj & Ej).
      pose proof (Forall2_length _ _ _ Hn) as Ln.
      rewrite decide_False by lia. replace (t_o t - 1 - length n) with i' by lia. rewrite Hj. cbn [mbind option_bind].
      eexists. split; [done|].
      unfold t_s, t_p, t_o; cbn [mkt fst snd]. rewrite S2, P2, Ej. cbn. do 2 f_equal. split; [done|]. split; [done|]. do 2 f_equal. lia.
  Qed.
End map.

Definition base_of (k : layer) : Prop := ∃ V, committed [] V [] k.
Lemma base_plain k : base_of k → plain k.
Proof.
  intros [V Hc]. pose proof Hc as [Em Ep ? ? ? _ _ _ _]. split; [|done|done].
  split; try done; [by rewrite Em|by rewrite Ep].
Qed.
(** the triples that the stream of a base layer yields *)
Lemma base_stream_elem k : base_of k → ∃ T, base_triple_stream (l_pos k) = Some T ∧ SSorted T ∧
  ∀ t, t ∈ T ↔ in_view t [k].
Proof.
  intros [V Hc]. pose proof (plain_dicts k (base_plain k (ex_intro _ V Hc))) as Hd.
  destruct (cm_pos _ _ _ _ Hc) as (T & HT & E & HTe).
  destruct (build_tfiles_ok (bool_decide (@nil layer ≠ [])) T HT) as (tf & E' & Hok).
  { intros u (vt & _ & _ & Hu & _)%HTe. exact (den_nonzero _ Hd _ _ Hu). }
  rewrite E in E'. injection E' as <-.
  rewrite bool_decide_eq_false_2 in Hok by (intros H; by apply H).
  exists T. split; [|split; [done|]].
  - pose proof (tf_stream_ok _ _ _ Hok) as Es. unfold tf_stream in Es.
    destruct (tf_subjects (l_pos k)) as [ss|] eqn:Ess; [|done].
    pose proof (proj1 (fo_sparse _ _ _ Hok)) as Hsp. rewrite Ess in Hsp. by specialize (Hsp ltac:(eauto)).
  - assert (adds k = T) as <- by (apply adds_eq; exact (tf_triples_ok _ _ _ Hok)).
    intros t. rewrite in_view_cons. split; [auto|]. intros [?|[?%in_view_nil _]]; done.
Qed.

Section merge.
  Context (l : layer) (Hl : plain l).
  Let P := λ (k : layer) (t t' : triple), in_view t [k] ∧ ∃ vt, den [k] vt t ∧ den [l] vt t'.
  Lemma map_streams_ok ls nm pm vm : (∀ k, k ∈ ls → base_of k) → (∀ k t, k ∈ ls → in_view t [k] → ∃ vt, den [k] vt t) →
    Forall2 (λ d m, Forall2 (λ x j, dict_id (l_nodes l) x = Some (S j)) d m) (l_nodes <$> ls) nm →
    Forall2 (λ d m, Forall2 (λ x j, dict_id (l_preds l) x = Some (S j)) d m) (l_preds <$> ls) pm →
    Forall2 (λ d m, Forall2 (λ x j, dict_id (l_vals l) x = Some (S j)) d m) (l_vals <$> ls) vm →
    ∃ ts, map_streams nm pm vm (length (l_nodes l)) ls = Some ts ∧
      Forall (λ T, SSorted T) ts ∧
      ∀ t', t' ∈ mjoin ts ↔ ∃ k vt, k ∈ ls ∧ holds [k] vt ∧ den [l] vt t'.
  Proof.
    revert nm pm vm. induction ls as [|k ls IH]; intros nm pm vm Hb Hv Fn Fp Fv.
    { exists []. split; [by destruct nm, pm, vm|]. split; [constructor|]. intros t'. split; [by intros ?%elem_of_nil|].
      intros (k & _ & Hk & _). by apply elem_of_nil in Hk. }
    apply Forall2_cons_inv_l in Fn as (n & nm' & Hn & Fn' & ->). apply Forall2_cons_inv_l in Fp as (p & pm' & Hp & Fp' & ->).
    apply Forall2_cons_inv_l in Fv as (v & vm' & Hvv & Fv' & ->).
    assert (Hk : base_of k) by (apply Hb; left). cbn [map_streams].
    destruct (base_stream_elem k Hk) as (T & -> & HT & HTe). cbn [mbind option_bind].
    pose proof (base_plain k Hk) as Hpk.
    destruct (mapM_rel (map_triple n p v (length (l_nodes l))) (P k) T) as (T' & -> & HF).
    { intros t Ht. apply HTe in Ht. destruct (Hv k t) as [vt Hvt]; [left|done|].
      destruct (map_triple_ok l k Hl Hpk n p v Hn Hp Hvv vt t Hvt) as (t' & E & Ht'). exists t'. split; [done|].
      split; [done|]. eauto. }
    cbn [mbind option_bind].
    destruct (IH nm' pm' vm') as (ts & -> & Hs & Hts); [intros; apply Hb; by right|intros; apply Hv; [by right|done]|done..|].
    cbn [mbind option_bind]. eexists. split; [done|]. split.
    - constructor; [|done]. apply (ssorted_rel (P k) T T' HF); [|exact HT].
      intros x y x' y' (_ & vt & A1 & A2) (_ & vt' & B1 & B2) Hlt.
      apply (plain_order l vt vt' x' y' Hl A2 B2). by apply (plain_order k vt vt' x y Hpk A1 B1).
    - intros t'. rewrite mjoin_cons, elem_of_app, Hts. split.
      + intros [Ht|(k' & vt & ? & ? & ?)].
        * destruct (elem_rel _ _ _ _ HF Ht) as (t & _ & Hv' & vt & A1 & A2). exists k, vt. split; [left|].
          split; [by exists t|done].
        * exists k', vt. split; [by right|done].
      + intros (k' & vt & [->|Hk']%elem_of_cons & Hh & Hd).
        * left. destruct Hh as (t & Ht & Hv'). apply HTe in Hv'.
          destruct (elem_rel_l _ _ _ _ HF Hv') as (t2 & Ht2 & _ & vt' & A1 & A2).
          rewrite (den_inj _ (plain_dicts k Hpk) vt' vt t A1 Ht) in A2. by rewrite (den_fun _ _ _ _ Hd A2).
        * right. eauto.
  Qed.
End merge.

Theorem merge_base_committed ls V : (∀ k, k ∈ ls → base_of k) → (∀ k, k ∈ ls → wf [k]) →
  (∀ vt, vt ∈ V ↔ ∃ k, k ∈ ls ∧ holds [k] vt) →
  ∃ l, merge_base_layers ls = Some l ∧ committed [] V [] l.
Proof.
  intros Hb Hw HV. unfold merge_base_layers.
  destruct (dedup_merge_ok (l_nodes <$> ls)) as (nm & -> & Fn). cbn [mbind option_bind].
  destruct (dedup_merge_ok (l_preds <$> ls)) as (pm & -> & Fp). cbn [mbind option_bind].
  destruct (dedup_merge_ok (l_vals <$> ls)) as (vm & -> & Fv). cbn [mbind option_bind].
  destruct (build_tfiles_ok false [] (SSorted_nil _)) as (tf0 & _ & _); [by intros u ?%elem_of_nil|].
  set (nodes := dedup (osort (mjoin (l_nodes <$> ls)))) in *. set (prs := dedup (osort (mjoin (l_preds <$> ls)))) in *.
  set (vals := dedup (osort (mjoin (l_vals <$> ls)))) in *.
  assert (Hpl : ∀ tf, plain (Layer nodes prs vals None None tf None)).
  { intros tf. split; [|done|done]. split; try done; apply dedup_osort_ssorted. }
  set (l0 := Layer nodes prs vals None None tf0 None).
  assert (Hd0 : dicts_ok [l0]) by apply plain_dicts, Hpl.
  destruct (map_streams_ok l0 (Hpl tf0) ls nm pm vm Hb) as (ts & Ets & Hs & Hts); [|exact Fn|exact Fp|exact Fv|].
  { intros k t Hk Ht. apply in_view_den; auto. }
  change (length (l_nodes l0)) with (length nodes) in Ets. rewrite Ets. cbn [mbind option_bind].
  destruct (kmerge_sorted ts Hs) as [Km Ke]. set (T := dedup (kmerge (λ t, t) ts)).
  assert (HT : SSorted T) by (by apply dedup_ssorted).
  assert (HTe : ∀ u, u ∈ T ↔ ∃ vt, vt ∈ V ∧ den [l0] vt u).
  { intros u. unfold T. rewrite elem_of_dedup, Ke, Hts. setoid_rewrite HV. naive_solver. }
  unfold base_layer. destruct (build_tfiles_ok false T HT) as (tf & Etf & _).
  { intros u (vt & _ & Hu)%HTe. exact (den_nonzero _ Hd0 _ _ Hu). }
  rewrite Etf. cbn [mbind option_bind]. eexists. split; [done|].
  assert (Hh : ∀ k, k ∈ ls → ∃ Vk, committed [] Vk [] k ∧ ∀ vt, vt ∈ Vk ↔ holds [k] vt).
  { intros k Hk. destruct (Hb k Hk) as [Vk Hc]. exists Vk. split; [done|]. intros vt.
    rewrite (committed_holds [] Vk [] k wf_nil Hc vt). split.
    - intros H1. left. split; [done|]. by intros ?%elem_of_nil.
    - intros [[? _]|[(u & _ & Hu) _]]; [done|]. by apply in_view_nil in Hu. }
  assert (Ho : ∀ k x, k ∈ ls → x ∈ l_objs k ↔ ∃ vt, holds [k] vt ∧ (x = inl vt.1.1 ∨ x = vt.2)).
  { intros k x Hk. destruct (Hh k Hk) as (Vk & Hc & HVk). rewrite (cm_objs _ _ _ _ Hc). split.
    - intros (_ & vt & Hvt & _ & Hx). exists vt. split; [|done]. by apply HVk.
    - intros (vt & Hvt & Hx). split; [by intros ?%elem_of_nil|]. exists vt. split; [by apply HVk|].
      split; [by intros ?%elem_of_nil|done]. }
  assert (Hpr : ∀ k x, k ∈ ls → x ∈ l_preds k ↔ ∃ vt, holds [k] vt ∧ x = vt.1.2).
  { intros k x Hk. destruct (Hh k Hk) as (Vk & Hc & HVk). rewrite (cm_prs _ _ _ _ Hc). split.
    - intros (_ & vt & Hvt & _ & Hx). exists vt. split; [|done]. by apply HVk.
    - intros (vt & Hvt & Hx). split; [by intros ?%elem_of_nil|]. exists vt. split; [by apply HVk|].
      split; [by intros ?%elem_of_nil|done]. }
  split; try done; try apply dedup_osort_ssorted.
  - intros x.
    assert (x ∈ l_objs (Layer nodes prs vals None None tf None) ↔ ∃ k, k ∈ ls ∧ x ∈ l_objs k) as ->.
    { destruct x as [x|x].
      - rewrite l_objs_inl. cbn [l_nodes]. unfold nodes. rewrite elem_of_dedup_osort, mjoin_fmap_elem. by setoid_rewrite l_objs_inl.
      - rewrite l_objs_inr. cbn [l_vals]. unfold vals. rewrite elem_of_dedup_osort, mjoin_fmap_elem. by setoid_rewrite l_objs_inr. }
    split.
    + intros (k & Hk & Hx). split; [by intros ?%elem_of_nil|]. apply Ho in Hx as (vt & Hvt & Hx); [|done].
      exists vt. split; [apply HV; eauto|]. split; [by intros ?%elem_of_nil|done].
    + intros (_ & vt & Hvt & _ & Hx). apply HV in Hvt as (k & Hk & Hvt). exists k. split; [done|]. apply Ho; eauto.
  - intros x. cbn [l_preds]. unfold prs. rewrite elem_of_dedup_osort, mjoin_fmap_elem. split.
    + intros (k & Hk & Hx). split; [by intros ?%elem_of_nil|]. apply Hpr in Hx as (vt & Hvt & Hx); [|done].
      exists vt. split; [apply HV; eauto|]. split; [by intros ?%elem_of_nil|done].
    + intros (_ & vt & Hvt & _ & Hx). apply HV in Hvt as (k & Hk & Hvt). exists k. split; [done|]. apply Hpr; eauto.
  - exists T. split; [done|]. split; [done|]. intros u. rewrite HTe. split.
    + intros (vt & Hvt & Hu). exists vt. split_and!; [done|by intros ?%elem_of_nil|exact Hu|by intros ?%in_view_nil].
    + intros (vt & Hvt & _ & Hu & _). exists vt. split; [done|exact Hu].
Qed.
