(** Committing a layer builder. *)
From Verif Require Import Prelude ListFacts Succinct SuccinctFacts TripleFiles TripleBuildFacts
  TripleReadFacts Merge MergeFacts Layer StackFacts DictFacts WfFacts Builder InternFacts BuilderFacts.

Lemma osort_fst_ssorted {A} `{Ord A} (l : list (A * nat)) : NoDup (osort l).*1 → SSorted (osort l).*1.
Proof.
  intros Hnd. apply fst_ssorted; [|done]. apply osort_ssorted. rewrite <-(osort_perm l). by eapply NoDup_fmap_1.
Qed.
Lemma sorted_filter {A} `{Ord A} (P : A → Prop) `{!∀ x, Decision (P x)} (l : list A) :
  StronglySorted ole l → StronglySorted ole (filter P l).
Proof.
  induction 1 as [|x l Hs IH Hall]; rewrite ?filter_nil, ?filter_cons; [constructor|].
  case_decide; auto. constructor; auto. rewrite Forall_forall in *.
  intros y [_ Hy]%elem_of_list_filter. auto.
Qed.
Lemma nodup_filter_fmap {A B} (f : A → B) (P : B → Prop) `{!∀ x, Decision (P x)} (l : list A) :
  NoDup l → (∀ x y, x ∈ l → y ∈ l → P (f x) → f x = f y → x = y) → NoDup (filter P (f <$> l)).
Proof.
  induction 1 as [|x l Hx Hl IH]; intros Hinj; [constructor|]. rewrite fmap_cons, filter_cons.
  assert (NoDup (filter P (f <$> l))) as Hnd.
  { apply IH. intros y z Hy Hz. apply Hinj; by right. }
  case_decide as Hp; [|done]. apply NoDup_cons. split; [|done].
  intros [_ (y & E & Hy)%elem_of_list_fmap]%elem_of_list_filter. destruct Hx.
  rewrite (Hinj x y); [done|left|by right|done|done].
Qed.
(** writing a sorted list that contains zeroes *)
Lemma build_list_ok {A} sparse (f : A → triple) (V : list A) (Q : triple → Prop) `{!∀ u, Decision (Q u)} :
  NoDup V → (∀ x y, x ∈ V → y ∈ V → nonzero (f x) → f x = f y → x = y) →
  ∃ T tf, SSorted T ∧ (∀ u, u ∈ T ↔ nonzero u ∧ Q u ∧ ∃ x, x ∈ V ∧ u = f x) ∧
    build_tfiles sparse (filter Q (osort (f <$> V))) = Some tf ∧ build_tfiles sparse T = Some tf.
Proof.
  intros HV Hinj. set (T := filter nonzero (filter Q (osort (f <$> V)))).
  assert (HT : ∀ u, u ∈ T ↔ nonzero u ∧ Q u ∧ ∃ x, x ∈ V ∧ u = f x).
  { intros u. unfold T. rewrite !elem_of_list_filter, elem_of_osort, elem_of_list_fmap. naive_solver. }
  assert (SSorted T) as HTs.
  { unfold T. apply sorted_nodup_ssorted; [apply sorted_filter, sorted_filter, osort_sorted|].
    rewrite list_filter_filter. rewrite (osort_perm (f <$> V)). apply nodup_filter_fmap; [done|].
    intros x y Hx Hy [? ?]. by apply Hinj. }
  destruct (build_tfiles_ok sparse T HTs) as (tf & E & _); [intros u; rewrite HT; tauto|].
  exists T, tf. rewrite (build_tfiles_nonzero _ (filter Q _)). done.
Qed.

Lemma match_nil {A B} (l : list A) (x y : B) :
  match l with [] => x | _ => y end = if decide (l = []) then x else y.
Proof. by destruct l. Qed.

Section commit.
  Context (st : stack) (Hw : wf st).
  Context (nvord : list (obj * nat) → list (obj * nat)) (prord : list (str * nat) → list (str * nat)).
  Context (Hnvord : ∀ m, nvord m ≡ₚ m) (Hprord : ∀ m, prord m ≡ₚ m).
  Context (b : builder) (A R : list vtriple) (Hb : bld_ok st b A R).
  Notation lookO := (object_id st).
  Notation lookP := (predicate_id st).
  Notation nv := (nv_count st).
  Notation np := (pred_count st).
  Notation nO := (b_ncnt b + b_vcnt b).
  Notation tn := (tenc st b).
  Lemma Hd : dicts_ok st.
  Proof. apply Hw. Qed.
  Lemma Hm : maps_ok st b.
  Proof. apply Hb. Qed.

  (** the deduplicated lists, as string triples *)
  Lemma sorted_strings (L : list vtriple) : (∀ vt, vt ∈ L → vhas st b vt) →
    ∃ V, tn <$> V = dedup (osort (tn <$> L)) ∧ NoDup V ∧ (∀ vt, vt ∈ V ↔ vt ∈ L).
  Proof.
    intros HL. destruct (preimage tn (.∈ L) (dedup (osort (tn <$> L)))) as (V & EV & HV).
    { intros y. rewrite elem_of_dedup_osort, elem_of_list_fmap. naive_solver. }
    exists V. split; [done|]. split.
    - eapply NoDup_fmap_1. rewrite EV. apply ssorted_nodup, dedup_osort_ssorted.
    - intros vt. split; [apply HV|]. intros Hvt.
      assert (tn vt ∈ tn <$> V) as (vt' & E & Hvt')%elem_of_list_fmap.
      { rewrite EV, elem_of_dedup_osort. by apply elem_of_list_fmap_1. }
      apply (tenc_inj st Hd b vt vt' Hm) in E; subst; auto.
  Qed.
  Lemma tenc_elem (V L : list vtriple) vt : (∀ vt, vt ∈ V ↔ vt ∈ L) → (∀ vt, vt ∈ L → vhas st b vt) →
    vhas st b vt → tn vt ∈ tn <$> V ↔ vt ∈ L.
  Proof.
    intros HV HL Hvt. rewrite elem_of_list_fmap. split.
    - intros (vt' & E & Hvt'). apply HV in Hvt'. apply (tenc_inj st Hd b vt vt' Hm) in E; subst; auto.
    - intros ?%HV. eauto.
  Qed.
  Lemma tenc_in_range vt : vhas st b vt → ¬ out_of_range nv np (tn vt) ↔ den st vt (tn vt).
  Proof.
    intros (h1 & h2 & h3). destruct Hm as [Hm1 _ Hm2 _]. unfold out_of_range, den. cbn.
    pose proof (tid_old _ _ (lookO_tot st Hd) _ _ _ Hm1 h1). pose proof (tid_old _ _ (lookP_tot st Hd) _ _ _ Hm2 h2).
    pose proof (tid_old _ _ (lookO_tot st Hd) _ _ _ Hm1 h3). unfold t_s, t_p, t_o in *. cbn in *.
    rewrite <-H, <-H0, <-H1. lia.
  Qed.

  (** the layer before its triple files are written *)
  Definition okeys (L : list vtriple) : list obj := mjoin ((λ vt : vtriple, [inl vt.1.1; vt.2]) <$> L).
  Lemma elem_of_okeys L x : x ∈ okeys L ↔ ∃ vt, vt ∈ L ∧ (x = inl vt.1.1 ∨ x = vt.2).
  Proof.
    unfold okeys. rewrite elem_of_list_join. setoid_rewrite elem_of_list_fmap. split.
    - intros (k & Hx & vt & -> & Hvt). exists vt. split; [done|].
      apply elem_of_cons in Hx as [->|Hx]; [auto|]. apply elem_of_list_singleton in Hx. auto.
    - intros (vt & Hvt & Hx). exists [inl vt.1.1; vt.2]. split; [|eauto].
      destruct Hx as [->| ->]; [left|right; left].
  Qed.

  Theorem commit_ok : ∃ l, commit nvord prord st b = Some l ∧ committed st A R l.
  Proof.
    unfold commit. rewrite (bk_adds _ _ _ _ Hb), (bk_rems _ _ _ _ Hb).
    pose proof (bk_hasA _ _ _ _ Hb) as hA. pose proof (bk_hasR _ _ _ _ Hb) as hR.
    destruct (sorted_strings A hA) as (VA & EA & NA & IA). destruct (sorted_strings R hR) as (VR & ER & NR & IR).
    rewrite noops_ok by apply dedup_osort_ssorted. rewrite <-EA, <-ER.
    assert (hVA : ∀ vt, vt ∈ VA → vhas st b vt) by (intros; apply hA, IA; done).
    assert (hVR : ∀ vt, vt ∈ VR → vhas st b vt) by (intros; apply hR, IR; done).
    (* the lists as functions of strings *)
    set (fA := λ vt, if decide (vt ∈ R) then zero3 else tn vt).
    set (fR := λ vt, if decide (vt ∈ A) then zero3 else clear_range nv np (tn vt)).
    assert (EA' : (λ a, if decide (a ∈ tn <$> VR) then zero3 else a) <$> (tn <$> VA) = fA <$> VA).
    { rewrite <-list_fmap_compose. apply list_fmap_ext. intros i vt Hi%elem_of_list_lookup_2. unfold fA. cbn.
      pose proof (tenc_elem VR R vt IR hR (hVA vt Hi)). do 2 case_decide; try done; exfalso; tauto. }
    assert (ER' : (λ r, if decide (r ∈ tn <$> VA) then zero3 else clear_range nv np r) <$> (tn <$> VR) = fR <$> VR).
    { rewrite <-list_fmap_compose. apply list_fmap_ext. intros i vt Hi%elem_of_list_lookup_2. unfold fR. cbn.
      pose proof (tenc_elem VA A vt IA hA (hVR vt Hi)). do 2 case_decide; try done; exfalso; tauto. }
    rewrite EA', ER'. clear EA' ER' EA ER.
    set (eff := filter (.∉ R) VA).
    assert (Heff : ∀ vt, vt ∈ eff ↔ vt ∈ A ∧ vt ∉ R) by (intros; unfold eff; rewrite elem_of_list_filter, IA; tauto).
    destruct Hm as [Hm1 Hc1 Hm2 Hc2].
    assert (HRin : ∀ t, t ∈ fR <$> VR → t = zero3 ∨ ∃ vt, vt ∈ R ∧ vt ∉ A ∧ t = tn vt ∧ den st vt t).
    { intros t (vt & -> & Hvt)%elem_of_list_fmap. unfold fR. case_decide; [auto|]. unfold clear_range.
      case_decide as Hr; [auto|]. right. exists vt. apply tenc_in_range in Hr; [|auto]. rewrite <-IR. auto. }
    assert (HAin : ∀ t, t ∈ fA <$> VA → t = zero3 ∨ ∃ vt, vt ∈ eff ∧ t = tn vt).
    { intros t (vt & -> & Hvt)%elem_of_list_fmap. unfold fA. case_decide; [auto|]. right. exists vt.
      rewrite Heff, <-IA. auto. }
    assert (HAeff : ∀ vt, vt ∈ eff → tn vt ∈ fA <$> VA).
    { intros vt [Hvt HvR]%Heff. apply elem_of_list_fmap. exists vt. rewrite IA. split; [|done]. unfold fA.
      by rewrite decide_False. }
    assert (heff : ∀ vt, vt ∈ eff → vhas st b vt) by (intros vt [? _]%Heff; auto).
    (* ids in use *)
    assert (Hso : ∀ i, i ∈ so_ids ((fA <$> VA) ++ (fR <$> VR)) ↔ ∃ t, t ∈ (fA <$> VA) ++ (fR <$> VR) ∧ (i = t_s t ∨ i = t_o t)).
    { intros i. unfold so_ids. rewrite elem_of_list_join. setoid_rewrite elem_of_list_fmap. split.
      - intros (k & Hx & t & -> & Ht). exists t. split; [done|].
        apply elem_of_cons in Hx as [->|Hx]; [auto|]. apply elem_of_list_singleton in Hx. auto.
      - intros (t & Ht & Hx). exists [t_s t; t_o t]. split; [|eauto]. destruct Hx as [->| ->]; [left|right; left]. }
    destruct (marks_ok nv (replicate nO false) (so_ids ((fA <$> VA) ++ (fR <$> VR)))) as (nvex & Env & Hl1 & Hx1).
    { rewrite replicate_length. intros i (t & Ht & Hi)%Hso. apply elem_of_app in Ht as [Ht|Ht].
      - destruct (HAin t Ht) as [->|(vt & Hvt & ->)]; [destruct Hi; subst; cbn; lia|].
        destruct (heff vt Hvt) as (h1 & h2 & h3).
        pose proof (tid_range _ _ (lookO_tot st Hd) _ _ _ Hm1 h1). pose proof (tid_range _ _ (lookO_tot st Hd) _ _ _ Hm1 h3).
        destruct Hi as [->| ->]; unfold t_s, t_o; cbn; lia.
      - destruct (HRin t Ht) as [->|(vt & _ & _ & _ & Hvt)]; [destruct Hi; subst; cbn; lia|].
        apply den_range in Hvt; [|exact Hd]. destruct Hi; subst; lia. }
    destruct (marks_ok np (replicate (b_pcnt b) false) (t_p <$> ((fA <$> VA) ++ (fR <$> VR)))) as (pex & Ep & Hl2 & Hx2).
    { rewrite replicate_length. intros i (t & -> & Ht)%elem_of_list_fmap. apply elem_of_app in Ht as [Ht|Ht].
      - destruct (HAin t Ht) as [->|(vt & Hvt & ->)]; [cbn; lia|].
        destruct (heff vt Hvt) as (h1 & h2 & h3).
        pose proof (tid_range _ _ (lookP_tot st Hd) _ _ _ Hm2 h2). unfold t_p; cbn; lia.
      - destruct (HRin t Ht) as [->|(vt & _ & _ & _ & Hvt)]; [cbn; lia|].
        apply den_range in Hvt; [|exact Hd]. lia. }
    rewrite replicate_length in Hl1, Hl2.
    rewrite (existences_ok _ _ _ _ _ _ _ Env Ep). cbn [mbind option_bind]. clear Env Ep.
    assert (Hrep : ∀ n i, replicate n false !! i = Some true → False) by (intros n i [? ?]%lookup_replicate; done).
    destruct (used_entries lookO nv (lookO_tot st Hd) (object_id_inj st Hd) (b_nvs b) (nvord (b_nvs b)) nO (okeys eff) nvex)
      as (us & Eus & U1 & U2 & U3 & U4); [done|apply Hnvord| |lia| |].
    { intros k (vt & Hvt & Hk)%elem_of_okeys. destruct (heff vt Hvt) as (h1 & h2 & h3). by destruct Hk; subst. }
    { intros i. rewrite Hx1. split.
      - intros [?%Hrep|Hi]; [done|]. apply Hso in Hi as (t & Ht & Hi). apply elem_of_app in Ht as [Ht|Ht].
        + destruct (HAin t Ht) as [->|(vt & Hvt & ->)]; [destruct Hi as [Hi|Hi]; unfold t_s, t_o in Hi; cbn in Hi; lia|].
          apply elem_of_list_fmap. destruct Hi as [Hi|Hi]; eexists; (split; [exact Hi|]); apply elem_of_okeys; eauto.
        + destruct (HRin t Ht) as [->|(vt & _ & _ & _ & Hvt)]; [destruct Hi as [Hi|Hi]; unfold t_s, t_o in Hi; cbn in Hi; lia|].
          apply den_range in Hvt; [|exact Hd]. destruct Hi; lia.
      - intros (k & -> & Hk)%elem_of_list_fmap. right. apply elem_of_okeys in Hk as (vt & Hvt & Hk). apply Hso.
        exists (tn vt). split; [apply elem_of_app; auto|]. destruct Hk as [->| ->]; [left|right]; done. }
    rewrite Eus. cbn [mbind option_bind]. clear Eus.
    destruct (used_entries lookP np (lookP_tot st Hd) (predicate_id_inj st Hd) (b_prs b) (prord (b_prs b)) (b_pcnt b)
      ((λ vt : vtriple, vt.1.2) <$> eff) pex)
      as (ups & Eus & P1 & P2 & P3 & P4); [done|apply Hprord| |lia| |].
    { intros k (vt & -> & Hvt)%elem_of_list_fmap. by destruct (heff vt Hvt) as (h1 & h2 & h3). }
    { intros i. rewrite Hx2. split.
      - intros [?%Hrep|Hi]; [done|]. apply elem_of_list_fmap in Hi as (t & Hi & Ht). apply elem_of_app in Ht as [Ht|Ht].
        + destruct (HAin t Ht) as [->|(vt & Hvt & ->)]; [unfold t_p in Hi; cbn in Hi; lia|].
          apply elem_of_list_fmap. eexists; (split; [exact Hi|]). apply elem_of_list_fmap. eauto.
        + destruct (HRin t Ht) as [->|(vt & _ & _ & _ & Hvt)]; [unfold t_p in Hi; cbn in Hi; lia|].
          apply den_range in Hvt; [|exact Hd]. lia.
      - intros (k & -> & Hk)%elem_of_list_fmap. right. apply elem_of_list_fmap in Hk as (vt & -> & Hvt).
        apply elem_of_list_fmap. exists (tn vt). split; [done|]. apply elem_of_app; auto. }
    rewrite Eus. cbn [mbind option_bind]. clear Eus.
    (* final ids *)
    destruct (fill_entries lookO nv (lookO_tot st Hd) (b_nvs b) nO us Hm1 U1 U2 U3) as (nvm & Ef & Hf).
    pose proof (osort_objs us (NoDup_fmap_1 fst us U1)) as Eos.
    set (nodes := osort (only_nodes us)) in *. set (vals := osort (only_vals us)) in *.
    assert (Eos2 : (osort us).*2 = nodes.*2 ++ vals.*2).
    { rewrite Eos, fmap_app, <-!list_fmap_compose. done. }
    assert (Eos1 : (osort us).*1 = (inl <$> nodes.*1) ++ (inr <$> vals.*1)).
    { rewrite Eos, fmap_app, <-!list_fmap_compose. done. }
    rewrite Eos2, fill_app in Ef. destruct (fill nv (replicate nO 0) (nv + 1) nodes.*2) as [nvm1|] eqn:Ef1; [|done].
    cbn [mbind option_bind] in Ef |- *. rewrite fmap_length in Ef.
    replace (nv + length nodes + 1) with (nv + 1 + length nodes) by lia. rewrite Ef. cbn [mbind option_bind].
    destruct (fill_entries lookP np (lookP_tot st Hd) (b_prs b) (b_pcnt b) ups Hm2 P1 P2 P3) as (pm & Ef2 & Hf2).
    rewrite Ef2. cbn [mbind option_bind]. clear Ef Ef1 Ef2.
    set (fidO := λ x, match lookO x with Some (Some i) => i | _ => default 0 (dict_id (osort us).*1 x) + nv end).
    set (fidP := λ x, match lookP x with Some (Some i) => i | _ => default 0 (dict_id (osort ups).*1 x) + np end).
    set (fn := λ vt : vtriple, mkt (fidO (inl vt.1.1)) (fidP vt.1.2) (fidO vt.2)).
    assert (HfO : ∀ x, x ∈ okeys eff → remap nv nvm (tid lookO (b_nvs b) x) = Some (fidO x)).
    { intros x Hx. pose proof Hx as (vt & Hvt & Hk)%elem_of_okeys. destruct (heff vt Hvt) as (h1 & h2 & h3).
      assert (has lookO (b_nvs b) x) as Hh by (by destruct Hk; subst).
      rewrite Hf; [|done|by intros; apply U4]. unfold fidO.
      destruct (lookO_tot st Hd x) as (r & El & _). rewrite El. destruct r as [i|]; [done|].
      destruct (dict_id (osort us).*1 x) as [j|] eqn:Ej; [done|]. exfalso. apply dict_id_None in Ej. apply Ej.
      rewrite osort_perm. by apply U4. }
    assert (HfP : ∀ vt, vt ∈ eff → remap np pm (tid lookP (b_prs b) vt.1.2) = Some (fidP vt.1.2)).
    { intros vt Hvt. destruct (heff vt Hvt) as (h1 & h2 & h3).
      assert (vt.1.2 ∈ (λ vt : vtriple, vt.1.2) <$> eff) as Hin by (apply elem_of_list_fmap; eauto).
      rewrite Hf2; [|done|by intros; apply P4]. unfold fidP.
      destruct (lookP_tot st Hd vt.1.2) as (r & El & _). rewrite El. destruct r as [i|]; [done|].
      destruct (dict_id (osort ups).*1 vt.1.2) as [j|] eqn:Ej; [done|]. exfalso. apply dict_id_None in Ej. apply Ej.
      rewrite osort_perm. by apply P4. }
    rewrite (mapM_fmap fA (remap_triple nv np nvm pm) (λ vt, if decide (vt ∈ R) then zero3 else fn vt)).
    2:{ intros vt Hvt. unfold fA. destruct (decide (vt ∈ R)) as [|HvR].
        - unfold remap_triple, remap. cbn. by rewrite !decide_False by lia.
        - assert (vt ∈ eff) as He by (by apply Heff; rewrite <-IA).
          unfold remap_triple. change (t_s (tn vt)) with (tid lookO (b_nvs b) (inl vt.1.1)).
          change (t_o (tn vt)) with (tid lookO (b_nvs b) vt.2). change (t_p (tn vt)) with (tid lookP (b_prs b) vt.1.2).
          rewrite HfO by (apply elem_of_okeys; eauto). rewrite HfP by done.
          rewrite HfO by (apply elem_of_okeys; eauto). done. }
    rewrite (mapM_fmap fR (remap_triple nv np nvm pm) fR).
    2:{ intros vt Hvt. destruct (HRin (fR vt)) as [->|(vt' & _ & _ & _ & Hvt')]; [by apply elem_of_list_fmap_1|..].
        - unfold remap_triple, remap. cbn. by rewrite !decide_False by lia.
        - apply den_range in Hvt'; [|exact Hd]. unfold remap_triple, remap. rewrite !decide_False by lia.
          cbn. by destruct (fR vt) as [[??]?]. }
    cbn [mbind option_bind]. clear Hf Hf2 HfO HfP HAeff Hx1 Hx2 Hl1 Hl2 nvex pex.
    set (fA' := λ vt, if decide (vt ∈ R) then zero3 else fn vt).
    (* the dictionaries of the new layer *)
    set (prs := osort ups) in *.
    assert (HN : NoDup (nodes.*1) ∧ NoDup (vals.*1)).
    { assert (NoDup (osort us).*1) as Hnd by (by rewrite osort_perm). rewrite Eos1 in Hnd.
      apply NoDup_app in Hnd as (H1 & _ & H2). split; by eapply NoDup_fmap_1. }
    assert (HobjsU : ∀ x, x ∈ (osort us).*1 ↔ x ∉ objs st ∧ ∃ vt, vt ∈ A ∧ vt ∉ R ∧ (x = inl vt.1.1 ∨ x = vt.2)).
    { intros x. rewrite osort_perm, U4, elem_of_okeys. setoid_rewrite Heff. split.
      - intros [Hl (vt & [? ?] & ?)]. split; [|eauto]. intros Hx. apply object_id_known in Hx as [??]; [congruence|exact Hd].
      - intros [Hl (vt & ? & ? & ?)]. split; [|eauto]. by apply object_id_unknown; [exact Hd|]. }
    assert (HprsU : ∀ p, p ∈ prs.*1 ↔ p ∉ preds st ∧ ∃ vt, vt ∈ A ∧ vt ∉ R ∧ p = vt.1.2).
    { intros x. unfold prs. rewrite osort_perm, P4, elem_of_list_fmap. setoid_rewrite Heff. split.
      - intros [Hl (vt & -> & ? & ?)]. split; [|eauto]. intros Hx. apply predicate_id_known in Hx as [??]; [congruence|exact Hd].
      - intros [Hl (vt & ? & ? & ->)]. split; [|eauto]. by apply predicate_id_unknown; [exact Hd|]. }
    assert (Hden : ∀ pos neg vt, vt ∈ eff → den (Layer nodes.*1 prs.*1 vals.*1 None None pos neg :: st) vt (fn vt)).
    { intros pos neg vt Hvt. pose proof Hvt as [HvA HvR]%Heff.
      assert (HO : ∀ x, x = inl vt.1.1 ∨ x = vt.2 →
        object_id (Layer nodes.*1 prs.*1 vals.*1 None None pos neg :: st) x = Some (Some (fidO x))).
      { intros x Hx. rewrite object_id_cons. unfold l_objs. cbn [l_nodes l_vals l_nvmap inner_to_outer].
        rewrite <-Eos1. unfold fidO. destruct (dict_id (osort us).*1 x) as [j|] eqn:Ej.
        - apply dict_id_get, dict_get_elem, HobjsU in Ej as [Ho _]. apply object_id_unknown in Ho; [|exact Hd].
          rewrite Ho. done.
        - apply dict_id_None in Ej. rewrite HobjsU in Ej.
          destruct (lookO_tot st Hd x) as ([i|] & El & _); rewrite El; [done|]. exfalso. apply Ej. split; [|eauto].
          intros Hx'. apply object_id_known in Hx' as [??]; [congruence|exact Hd]. }
      split; [by apply HO; left|]. split; [|by apply HO; right].
      cbn [predicate_id l_preds l_pmap inner_to_outer]. change (t_p (fn vt)) with (fidP vt.1.2). unfold fidP. fold prs.
      destruct (dict_id prs.*1 vt.1.2) as [j|] eqn:Ej.
      - apply dict_id_get, dict_get_elem, HprsU in Ej as [Ho _]. apply predicate_id_unknown in Ho; [|exact Hd].
        rewrite Ho. done.
      - apply dict_id_None in Ej. rewrite HprsU in Ej.
        destruct (lookP_tot st Hd vt.1.2) as ([i|] & El & _); rewrite El; [done|]. exfalso. apply Ej. split; [|eauto].
        intros Hx'. apply predicate_id_known in Hx' as [??]; [congruence|exact Hd]. }
    assert (Hsn : SSorted nodes.*1) by (apply osort_fst_ssorted, HN).
    assert (Hsv : SSorted vals.*1) by (apply osort_fst_ssorted, HN).
    assert (Hsp : SSorted prs.*1) by (apply osort_fst_ssorted; by rewrite osort_perm).
    assert (Hdl : ∀ pos neg, dicts_ok (Layer nodes.*1 prs.*1 vals.*1 None None pos neg :: st)).
    { intros pos neg. split; [exact Hd|]. split; [by split|]. unfold l_objs. cbn [l_nodes l_vals l_preds]. split.
      - intros x. rewrite <-Eos1. intros Hx%HobjsU. apply Hx.
      - intros x Hx%HprsU. apply Hx. }
    assert (HfnA : ∀ vt, vt ∈ VA → nonzero (fA' vt) → vt ∈ eff ∧ fA' vt = fn vt).
    { intros vt Hvt. unfold fA'. case_decide; [by intros ?%zero3_not_nonzero|]. intros _. by rewrite Heff, <-IA. }
    assert (HfnR : ∀ vt, vt ∈ VR → nonzero (fR vt) → fR vt = tn vt ∧ vt ∉ A ∧ den st vt (fR vt)).
    { intros vt Hvt. unfold fR. case_decide; [by intros ?%zero3_not_nonzero|]. unfold clear_range.
      case_decide as Hr; [by intros ?%zero3_not_nonzero|]. intros _. apply tenc_in_range in Hr; [|auto]. done. }
    assert (SA : ∀ pos neg u, nonzero u ∧ (∃ vt, vt ∈ VA ∧ u = fA' vt) ↔
      ∃ vt, vt ∈ A ∧ vt ∉ R ∧ den (Layer nodes.*1 prs.*1 vals.*1 None None pos neg :: st) vt u).
    { intros pos neg u. split.
      - intros (Hnz & vt & Hvt & ->). destruct (HfnA vt Hvt Hnz) as [He ->]. exists vt.
        pose proof (Hden pos neg vt He). apply Heff in He as [??]. auto.
      - intros (vt & HvA & HvR & Hu). assert (vt ∈ eff) as He by (by apply Heff).
        rewrite (den_fun _ _ _ _ Hu (Hden pos neg vt He)). split.
        + eapply den_nonzero; [apply (Hdl pos neg)|by apply Hden].
        + exists vt. rewrite IA. split; [done|]. unfold fA'. by rewrite decide_False. }
    assert (SR : ∀ u, nonzero u ∧ (∃ vt, vt ∈ VR ∧ u = fR vt) ↔ ∃ vt, vt ∈ R ∧ vt ∉ A ∧ den st vt u).
    { intros u. split.
      - intros (Hnz & vt & Hvt & ->). destruct (HfnR vt Hvt Hnz) as (_ & ? & ?). exists vt. by rewrite <-IR.
      - intros (vt & HvR & HvA & Hu). split; [eapply den_nonzero; [exact Hd|exact Hu]|]. exists vt. rewrite IR. split; [done|].
        destruct (tenc_den st b vt u Hm Hu) as [<- Hh]. unfold fR. rewrite decide_False by done.
        unfold clear_range. rewrite decide_False; [done|]. by apply tenc_in_range. }
    assert (Hcom : ∀ pos neg,
      (∃ T, SSorted T ∧ build_tfiles (bool_decide (st ≠ [])) T = Some pos ∧
        ∀ u, u ∈ T ↔ ∃ vt, vt ∈ A ∧ vt ∉ R ∧ den (Layer nodes.*1 prs.*1 vals.*1 None None pos neg :: st) vt u ∧ ¬ in_view u st) →
      (if decide (st = []) then neg = None
       else ∃ T tf, SSorted T ∧ neg = Some tf ∧ build_tfiles true T = Some tf ∧
         ∀ u, u ∈ T ↔ ∃ vt, vt ∈ R ∧ vt ∉ A ∧ den st vt u ∧ in_view u st) →
      committed st A R (Layer nodes.*1 prs.*1 vals.*1 None None pos neg)).
    { intros pos neg Hpos Hneg. split; cbn [l_nvmap l_pmap l_nodes l_preds l_vals l_pos l_neg]; try done.
      intros x. unfold l_objs. cbn [l_nodes l_vals]. rewrite <-Eos1. apply HobjsU. }
    assert (InjA : ∀ x y, x ∈ VA → y ∈ VA → nonzero (fA' x) → fA' x = fA' y → x = y).
    { intros x y Hx Hy Hnz E. pose proof Hnz as Hnz'. rewrite E in Hnz'. 
      destruct (HfnA x Hx Hnz) as [Ex Ex'], (HfnA y Hy Hnz') as [Ey Ey'].
      rewrite Ex', Ey' in E. pose proof (Hden (TF None None (Adj [] []) (Adj [] []) (Adj [] []) []) None x Ex) as D1.
      pose proof (Hden (TF None None (Adj [] []) (Adj [] []) (Adj [] []) []) None y Ey) as D2. rewrite E in D1.
      eapply den_inj; [apply Hdl|exact D1|exact D2]. }
    assert (InjR : ∀ x y, x ∈ VR → y ∈ VR → nonzero (fR x) → fR x = fR y → x = y).
    { intros x y Hx Hy Hnz E. pose proof Hnz as Hnz'. rewrite E in Hnz'. 
      destruct (HfnR x Hx Hnz) as (Ex & _ & _), (HfnR y Hy Hnz') as (Ey & _ & _). rewrite Ex, Ey in E.
      eapply tenc_inj; eauto using Hm, Hd. }
    clearbody fA' fR.
    rewrite match_nil. destruct (decide (st = [])) as [Est|Est].
    - unfold base_layer.
      destruct (build_list_ok false fA' VA (λ _, True)) as (T & tf & HT & HTe & E & E'); [done|done|].
      rewrite (filter_all (λ _, True)) in E by done. rewrite E. cbn [mbind option_bind].
      eexists. split; [done|]. apply Hcom; [|done].
      exists T. split; [done|]. split; [by rewrite bool_decide_eq_false_2 by naive_solver|].
      intros u. rewrite HTe. pose proof (SA tf None u) as HS. split.
      + intros (Hnz & _ & Hu). destruct (proj1 HS) as (vt & ? & ? & ?); [done|]. exists vt. split_and!; try done.
        rewrite Est. apply in_view_nil.
      + intros (vt & ? & ? & ? & _). destruct (proj2 HS) as [? ?]; [eauto|]. done.
    - unfold child_layer.
      rewrite (filter_opt_all (not_known (subject_id st))).
      2:{ intros x Hx. unfold not_known. assert ((inl x : obj) ∈ (osort us).*1) as Hx' by (rewrite Eos1; apply elem_of_app; left; by apply elem_of_list_fmap_1). apply HobjsU in Hx'.
          change (subject_id st x) with (object_id st (inl x)).
          rewrite object_id_unknown; [done|exact Hd|apply Hx']. }
      cbn [mbind option_bind]. rewrite (filter_opt_all (not_known (predicate_id st))).
      2:{ intros x Hx%HprsU. unfold not_known. rewrite predicate_id_unknown; [done|exact Hd|apply Hx]. }
      cbn [mbind option_bind]. rewrite (filter_opt_all (not_known (object_value_id st))).
      2:{ intros x Hx. unfold not_known. assert ((inr x : obj) ∈ (osort us).*1) as Hx' by (rewrite Eos1; apply elem_of_app; right; by apply elem_of_list_fmap_1). apply HobjsU in Hx'.
          change (object_value_id st x) with (object_id st (inr x)).
          rewrite object_id_unknown; [done|exact Hd|apply Hx']. }
      cbn [mbind option_bind].
      pose proof (triple_exists_ok st (wf_files _ Hw)) as Hex.
      rewrite (filter_opt_ok (λ t, e ← triple_exists st t; Some (negb e)) (λ t, ¬ in_view t st)).
      2:{ intros t _. rewrite Hex. cbn [mbind option_bind]. f_equal. pose proof (view_elem t st).
          rewrite <-bool_decide_not. apply bool_decide_ext. tauto. }
      cbn [mbind option_bind]. rewrite (filter_opt_ok (triple_exists st) (λ t, in_view t st)).
      2:{ intros t _. rewrite Hex. f_equal. apply bool_decide_ext. by rewrite view_elem. }
      cbn [mbind option_bind].
      destruct (build_list_ok true fA' VA (λ t, ¬ in_view t st)) as (T & tf & HT & HTe & E & E'); [done|done|].
      rewrite E. cbn [mbind option_bind].
      destruct (build_list_ok true fR VR (λ t, in_view t st)) as (T2 & tf2 & HT2 & HTe2 & E2 & E2'); [done|done|].
      rewrite E2. cbn [mbind option_bind].
      eexists. split; [done|]. apply Hcom.
      + exists T. split; [done|]. split; [by rewrite bool_decide_eq_true_2|].
        intros u. rewrite HTe. pose proof (SA tf (Some tf2) u) as HS. split.
        * intros (Hnz & ? & Hu). destruct (proj1 HS) as (vt & ? & ? & ?); [done|]. eauto.
        * intros (vt & ? & ? & ? & ?). destruct (proj2 HS) as [? ?]; [eauto|]. done.
      + exists T2, tf2. split_and!; try done.
        intros u. rewrite HTe2. pose proof (SR u) as HS. split.
        * intros (Hnz & ? & Hu). destruct (proj1 HS) as (vt & ? & ? & ?); [done|]. eauto.
        * intros (vt & ? & ? & ? & ?). destruct (proj2 HS) as [? ?]; [eauto|]. done.
  Qed.
End commit.
