(** Calls of the builder with ids that stand for nothing leave no trace in what is committed. *)
From Verif Require Import Prelude ListFacts Succinct TripleFiles TripleBuildFacts Merge Layer DictFacts Builder Spec SpecStray
  StackFacts WfFacts InternFacts BuilderFacts CommitFacts HistoryFacts ApiFacts.

Lemma filter_osort (P : triple → Prop) `{!∀ x, Decision (P x)} (l : list triple) :
  filter P (osort l) = osort (filter P l).
Proof.
  assert (StronglySorted ole (filter P (osort l))) as Hs.
  { pose proof (osort_sorted l) as Hs. induction Hs as [|x k Hs IH Hall]; [constructor|].
    rewrite filter_cons. case_decide; [|done]. constructor; [done|].
    rewrite Forall_forall in *. intros y [_ Hy]%elem_of_list_filter. auto. }
  apply (StronglySorted_unique ole); [done|apply osort_sorted|].
  by rewrite !osort_perm.
Qed.

Section within.
  Context (nv np : nat).
  Notation oor := (out_of_range nv np).
  Lemma mark_within off ex id : id ≤ off → mark off ex id = Some ex.
  Proof. intros Hi. unfold mark. by rewrite decide_False by lia. Qed.
  Lemma existences_filter nvex pex (ts : list triple) :
    existences nv np nvex pex ts = existences nv np nvex pex (filter oor ts).
  Proof.
    revert nvex pex. induction ts as [|t ts IH]; intros nvex pex; [done|]. rewrite filter_cons.
    case_decide as Hr.
    - cbn [existences]. destruct (mark nv nvex (t_s t)); [|done]. cbn [mbind option_bind].
      destruct (mark np pex (t_p t)); [|done]. cbn [mbind option_bind].
      destruct (mark nv l (t_o t)); [|done]. cbn [mbind option_bind]. apply IH.
    - unfold out_of_range in Hr. cbn [existences]. rewrite mark_within by lia. cbn [mbind option_bind].
      rewrite mark_within by lia. cbn [mbind option_bind]. rewrite mark_within by lia. cbn [mbind option_bind]. apply IH.
  Qed.
  Lemma remap_within nvm pm t : ¬ oor t → remap_triple nv np nvm pm t = Some t.
  Proof.
    unfold out_of_range. intros Hr. unfold remap_triple, remap. rewrite !decide_False by lia. cbn.
    by destruct t as [[??]?].
  Qed.
  Lemma mapM_filter (P : triple → Prop) `{!∀ x, Decision (P x)} nvm pm (X : list triple) :
    filter P <$> mapM (remap_triple nv np nvm pm) X =
    filter P <$> mapM (remap_triple nv np nvm pm) (filter (λ t, oor t ∨ P t) X).
  Proof.
    induction X as [|t X IH]; [done|]. rewrite filter_cons. case_decide as Hk.
    - cbn [mapM]. destruct (remap_triple nv np nvm pm t) as [t'|]; [|done]. cbn [mbind option_bind].
      destruct (mapM _ X) as [Y|], (mapM _ (filter _ X)) as [Y'|]; cbn [mbind option_bind] in *; try done.
      injection IH as IH. change (Some (filter P (t' :: Y)) = Some (filter P (t' :: Y'))).
      f_equal. rewrite !filter_cons. case_decide; [by f_equal|done].
    - cbn [mapM]. rewrite remap_within by tauto. cbn [mbind option_bind]. rewrite <-IH.
      destruct (mapM _ X) as [Y|]; [|done]. change (Some (filter P (t :: Y)) = Some (filter P Y)). f_equal. rewrite filter_cons, decide_False; [done|tauto].
  Qed.
  Lemma mapM_filter_ext (P : triple → Prop) `{!∀ x, Decision (P x)} nvm pm (X X' : list triple) :
    filter (λ t, oor t ∨ P t) X = filter (λ t, oor t ∨ P t) X' →
    match mapM (remap_triple nv np nvm pm) X, mapM (remap_triple nv np nvm pm) X' with
    | Some Y, Some Y' => filter P Y = filter P Y'
    | None, None => True
    | _, _ => False
    end.
  Proof.
    intros E. pose proof (mapM_filter P nvm pm X) as H1. rewrite E, <-(mapM_filter P nvm pm X') in H1.
    destruct (mapM _ X), (mapM _ X'); try done. by injection H1.
  Qed.
End within.

(** commit after the lists have been cleared *)
Section tail.
  Context (nvord : list (obj * nat) → list (obj * nat)) (prord : list (str * nat) → list (str * nat)).
  Definition finish (st : stack) (b : builder) (A R : list triple) : option layer :=
    let nv := nv_count st in
    let np := pred_count st in
    '(nvex, pex) ← existences nv np (replicate (b_ncnt b + b_vcnt b) false)
                     (replicate (b_pcnt b) false) (A ++ R);
    nvs ← used nv nvex (nvord (b_nvs b));
    prs ← used np pex (prord (b_prs b));
    let nodes := osort (only_nodes nvs) in
    let vals := osort (only_vals nvs) in
    let prs := osort prs in
    nvm ← fill nv (replicate (b_ncnt b + b_vcnt b) 0) (nv + 1) (snd <$> nodes);
    nvm ← fill nv nvm (nv + length nodes + 1) (snd <$> vals);
    pm ← fill np (replicate (b_pcnt b) 0) (np + 1) (snd <$> prs);
    A ← mapM (remap_triple nv np nvm pm) A;
    R ← mapM (remap_triple nv np nvm pm) R;
    match st with
    | [] => base_layer (fst <$> nodes) (fst <$> prs) (fst <$> vals) (osort A)
    | _ => child_layer st (fst <$> nodes) (fst <$> prs) (fst <$> vals) (osort A) (osort R)
    end.
  Lemma commit_finish st b : commit nvord prord st b =
    finish st b (noops (nv_count st) (pred_count st) (dedup (osort (b_adds b))) (dedup (osort (b_rems b)))).1
                (noops (nv_count st) (pred_count st) (dedup (osort (b_adds b))) (dedup (osort (b_rems b)))).2.
  Proof.
    unfold commit, finish. by destruct (noops _ _ _ _).
  Qed.

  Lemma base_layer_nonzero nodes prs vals (A A' : list triple) : filter nonzero A = filter nonzero A' →
    base_layer nodes prs vals (osort A) = base_layer nodes prs vals (osort A').
  Proof.
    intros E. unfold base_layer. rewrite (build_tfiles_nonzero _ (osort A)), (build_tfiles_nonzero _ (osort A')).
    by rewrite !filter_osort, E.
  Qed.
  Lemma child_layer_live st nodes prs vals (A A' R R' : list triple) : wf st →
    filter nonzero A = filter nonzero A' →
    filter (λ t, in_view t st) R = filter (λ t, in_view t st) R' →
    child_layer st nodes prs vals (osort A) (osort R) = child_layer st nodes prs vals (osort A') (osort R').
  Proof.
    intros Hw EA ER. unfold child_layer.
    pose proof (triple_exists_ok st (wf_files _ Hw)) as Hex.
    assert (HA : ∀ X, filter_opt (λ t, e ← triple_exists st t; Some (negb e)) X = Some (filter (λ t, ¬ in_view t st) X)).
    { intros X. apply filter_opt_ok. intros t _. rewrite Hex. cbn [mbind option_bind]. f_equal.
      pose proof (view_elem t st). rewrite <-bool_decide_not. apply bool_decide_ext. tauto. }
    assert (HR : ∀ X, filter_opt (triple_exists st) X = Some (filter (λ t, in_view t st) X)).
    { intros X. apply filter_opt_ok. intros t _. rewrite Hex. f_equal. apply bool_decide_ext. by rewrite view_elem. }
    rewrite !HA, !HR. cbn [mbind option_bind]. rewrite !(filter_osort (λ t, in_view t st)), ER.
    rewrite (build_tfiles_nonzero true (filter _ (osort A))), (build_tfiles_nonzero true (filter _ (osort A'))).
    assert (Hc : ∀ X : list triple, filter nonzero (filter (λ t, ¬ in_view t st) (osort X)) =
      filter (λ t, ¬ in_view t st) (osort (filter nonzero X))).
    { intros X. rewrite <-filter_osort, !list_filter_filter. apply list_filter_iff. tauto. }
    by rewrite !Hc, EA.
  Qed.
  Lemma finish_ext st b b' (A A' R R' : list triple) : wf st →
    b_nvs b = b_nvs b' → b_prs b = b_prs b' → b_ncnt b = b_ncnt b' → b_pcnt b = b_pcnt b' → b_vcnt b = b_vcnt b' →
    filter (λ t, out_of_range (nv_count st) (pred_count st) t ∨ nonzero t) A =
    filter (λ t, out_of_range (nv_count st) (pred_count st) t ∨ nonzero t) A' →
    filter (λ t, out_of_range (nv_count st) (pred_count st) t ∨ in_view t st) R =
    filter (λ t, out_of_range (nv_count st) (pred_count st) t ∨ in_view t st) R' →
    finish st b A R = finish st b' A' R'.
  Proof.
    intros Hw E1 E2 E3 E4 E5 EA ER. unfold finish. cbv zeta. rewrite E1, E2, E3, E4, E5.
    assert (existences (nv_count st) (pred_count st) (replicate (b_ncnt b' + b_vcnt b') false)
              (replicate (b_pcnt b') false) (A ++ R) =
            existences (nv_count st) (pred_count st) (replicate (b_ncnt b' + b_vcnt b') false)
              (replicate (b_pcnt b') false) (A' ++ R')) as ->.
    { rewrite existences_filter, (existences_filter _ _ _ _ (A' ++ R')), !filter_app.
      assert (Hsub : ∀ (P Q : triple → Prop) `{!∀ x, Decision (P x)} `{!∀ x, Decision (Q x)} (X X' : list triple),
        filter (λ t, P t ∨ Q t) X = filter (λ t, P t ∨ Q t) X' → filter P X = filter P X').
      { intros P Q ? ? X X' E. 
        assert (Hf : ∀ Y : list triple, filter P (filter (λ t, P t ∨ Q t) Y) = filter P Y).
        { intros Y. rewrite list_filter_filter. apply list_filter_iff. tauto. }
        by rewrite <-(Hf X), <-(Hf X'), E. }
      by rewrite (Hsub _ _ _ _ _ _ EA), (Hsub _ _ _ _ _ _ ER). }
    destruct (existences _ _ _ _ _) as [[nvex pex]|]; [|done]. cbn [mbind option_bind].
    destruct (used _ nvex _) as [nvs|]; [|done]. cbn [mbind option_bind].
    destruct (used _ pex _) as [prs|]; [|done]. cbn [mbind option_bind].
    destruct (fill _ (replicate (b_ncnt b' + b_vcnt b') 0) _ _) as [nvm1|]; [|done]. cbn [mbind option_bind].
    destruct (fill _ nvm1 _ _) as [nvm|]; [|done]. cbn [mbind option_bind].
    destruct (fill _ (replicate (b_pcnt b') 0) _ _) as [pm|]; [|done]. cbn [mbind option_bind].
    pose proof (mapM_filter_ext _ _ _ nvm pm _ _ EA) as HA.
    destruct (mapM _ A) as [YA|], (mapM _ A') as [YA'|]; try done. cbn [mbind option_bind].
    pose proof (mapM_filter_ext _ _ _ nvm pm _ _ ER) as HR.
    destruct (mapM _ R) as [YR|], (mapM _ R') as [YR'|]; try done. cbn [mbind option_bind].
    destruct st as [|l st']; [by apply base_layer_nonzero|]. by apply child_layer_live.
  Qed.
End tail.

Lemma filter_fmap_zero (K Q : triple → Prop) (f : triple → triple) `{!∀ x, Decision (K x)} `{!∀ x, Decision (Q x)} (X : list triple) :
  (∀ x, x ∈ X → Q x → f x = x ∧ K x) → (∀ x, x ∈ X → ¬ Q x → ¬ K (f x)) →
  filter K (f <$> X) = filter Q X.
Proof.
  induction X as [|x X IH]; intros H1 H2; [done|]. rewrite fmap_cons, !filter_cons.
  rewrite IH by (intros y Hy; (apply H1 || apply H2); by right).
  destruct (decide (Q x)) as [Hq|Hq].
  - destruct (H1 x ltac:(left) Hq) as [-> Hk]. by rewrite decide_True.
  - rewrite decide_False; [done|]. apply H2; [left|done].
Qed.

(** Two builders with the same names, of which the second has more triples in its lists, but
    none that matter. *)
Record sim (st : stack) (b b' : builder) : Prop := {
  sim_nvs : b_nvs b = b_nvs b'; sim_prs : b_prs b = b_prs b';
  sim_nvc : b_nvcount b = b_nvcount b'; sim_pc : b_pcount b = b_pcount b';
  sim_n : b_ncnt b = b_ncnt b'; sim_p : b_pcnt b = b_pcnt b'; sim_v : b_vcnt b = b_vcnt b';
  sim_adds : ∀ t, t ∈ b_adds b → t ∈ b_adds b';
  sim_adds' : ∀ t, t ∈ b_adds b' → t ∈ b_adds b ∨
    (¬ nonzero t ∧ ¬ out_of_range (nv_count st) (pred_count st) t);
  sim_rems : ∀ t, t ∈ b_rems b → t ∈ b_rems b' }.

Lemma commit_sim nvord prord st b b' : wf st → sim st b b' →
  (∀ t, t ∈ b_rems b' → t ∈ b_rems b ∨ (¬ in_view t st ∧ t ∉ b_adds b)) →
  commit nvord prord st b = commit nvord prord st b'.
Proof.
  intros Hw Hs HR. rewrite !commit_finish, !noops_ok by apply dedup_osort_ssorted. cbn [fst snd].
  set (A := dedup (osort (b_adds b))). set (A' := dedup (osort (b_adds b'))).
  set (R := dedup (osort (b_rems b))). set (R' := dedup (osort (b_rems b'))).
  assert (eA : ∀ t, t ∈ A ↔ t ∈ b_adds b) by (intros; apply elem_of_dedup_osort).
  assert (eA' : ∀ t, t ∈ A' ↔ t ∈ b_adds b') by (intros; apply elem_of_dedup_osort).
  assert (eR : ∀ t, t ∈ R ↔ t ∈ b_rems b) by (intros; apply elem_of_dedup_osort).
  assert (eR' : ∀ t, t ∈ R' ↔ t ∈ b_rems b') by (intros; apply elem_of_dedup_osort).
  assert (Hnz : ∀ t, in_view t st → nonzero t) by (intros t; apply in_view_nonzero, Hw).
  assert (Z1 : ¬ nonzero zero3) by apply zero3_not_nonzero.
  assert (Z2 : ¬ out_of_range (nv_count st) (pred_count st) zero3) by (unfold out_of_range, zero3, t_s, t_p, t_o; cbn; lia).
  apply finish_ext; [done|apply Hs..| |].
  - rewrite (filter_fmap_zero _ (λ t, (out_of_range (nv_count st) (pred_count st) t ∨ nonzero t) ∧ t ∉ R) _ A).
    2:{ intros t _ [? ?]. by rewrite decide_False. }
    2:{ intros t _ Ht. case_decide as Hd; [tauto|]. tauto. }
    rewrite (filter_fmap_zero _ (λ t, (out_of_range (nv_count st) (pred_count st) t ∨ nonzero t) ∧ t ∉ R') _ A').
    2:{ intros t _ [? ?]. by rewrite decide_False. }
    2:{ intros t _ Ht. case_decide as Hd; [tauto|]. tauto. }
    apply ssorted_ext; [apply ssorted_filter, dedup_osort_ssorted..|].
    intros t. rewrite !elem_of_list_filter, eA, eA', eR, eR'.
    pose proof (sim_adds _ _ _ Hs t). pose proof (sim_adds' _ _ _ Hs t). pose proof (sim_rems _ _ _ Hs t).
    pose proof (HR t). tauto.
  - rewrite (filter_fmap_zero _ (λ t, t ∉ A ∧ ¬ out_of_range (nv_count st) (pred_count st) t ∧ in_view t st) _ R).
    2:{ intros t _ (? & ? & ?). rewrite decide_False by done. unfold clear_range. rewrite decide_False by done. auto. }
    2:{ intros t _ Ht. specialize (Hnz zero3). case_decide as Hd; [tauto|]. unfold clear_range. case_decide; tauto. }
    rewrite (filter_fmap_zero _ (λ t, t ∉ A' ∧ ¬ out_of_range (nv_count st) (pred_count st) t ∧ in_view t st) _ R').
    2:{ intros t _ (? & ? & ?). rewrite decide_False by done. unfold clear_range. rewrite decide_False by done. auto. }
    2:{ intros t _ Ht. specialize (Hnz zero3). case_decide as Hd; [tauto|]. unfold clear_range. case_decide; tauto. }
    apply ssorted_ext; [apply ssorted_filter, dedup_osort_ssorted..|].
    intros t. rewrite !elem_of_list_filter, eA, eA', eR, eR'.
    pose proof (sim_adds _ _ _ Hs t). pose proof (sim_adds' _ _ _ Hs t). pose proof (sim_rems _ _ _ Hs t).
    pose proof (HR t). pose proof (Hnz t). tauto.
Qed.

(** The same calls keep two such builders alike. *)
Definition names_eq (b b' : builder) : Prop :=
  b_nvs b = b_nvs b' ∧ b_prs b = b_prs b' ∧ b_nvcount b = b_nvcount b' ∧ b_pcount b = b_pcount b' ∧
  b_ncnt b = b_ncnt b' ∧ b_pcnt b = b_pcnt b' ∧ b_vcnt b = b_vcnt b'.
Definition lists_eq (b b1 : builder) : Prop := b_adds b1 = b_adds b ∧ b_rems b1 = b_rems b.
Lemma intern_obj_names st b b' x b1 n : names_eq b b' → intern_obj st b x = Some (b1, n) →
  lists_eq b b1 ∧ ∃ b1', intern_obj st b' x = Some (b1', n) ∧ names_eq b1 b1' ∧ lists_eq b' b1'.
Proof.
  intros (E1 & E2 & E3 & E4 & E5 & E6 & E7). unfold intern_obj. rewrite <-E1.
  destruct (assoc (b_nvs b) x) as [m|].
  - intros [= <- <-]. split; [done|]. exists b'. done.
  - destruct (object_id st x) as [[m|]|]; cbn [mbind option_bind]; [| |done].
    + intros [= <- <-]. split; [done|]. eexists. split; [done|]. split; [|done]. unfold names_eq. cbn. by rewrite E2, E3, E4, E5, E6, E7.
    + intros [= <- <-]. split; [done|]. rewrite <-E3. eexists. split; [done|]. split; [|done].
      unfold names_eq. cbn. by rewrite E2, E4, E5, E6, E7.
Qed.
Lemma intern_pred_names st b b' x b1 n : names_eq b b' → intern_pred st b x = Some (b1, n) →
  lists_eq b b1 ∧ ∃ b1', intern_pred st b' x = Some (b1', n) ∧ names_eq b1 b1' ∧ lists_eq b' b1'.
Proof.
  intros (E1 & E2 & E3 & E4 & E5 & E6 & E7). unfold intern_pred. rewrite <-E2.
  destruct (assoc (b_prs b) x) as [m|].
  - intros [= <- <-]. split; [done|]. exists b'. done.
  - destruct (predicate_id st x) as [[m|]|]; cbn [mbind option_bind]; [| |done].
    + intros [= <- <-]. split; [done|]. eexists. split; [done|]. split; [|done]. unfold names_eq. cbn. by rewrite E1, E3, E4, E5, E6, E7.
    + intros [= <- <-]. split; [done|]. rewrite <-E4. eexists. split; [done|]. split; [|done].
      unfold names_eq. cbn. by rewrite E1, E3, E5, E6, E7.
Qed.
Lemma calculate_triple_names st b b' vt b1 t : names_eq b b' → calculate_triple st b vt = Some (b1, t) →
  lists_eq b b1 ∧ ∃ b1', calculate_triple st b' vt = Some (b1', t) ∧ names_eq b1 b1' ∧ lists_eq b' b1'.
Proof.
  intros HE. unfold calculate_triple.
  destruct (intern_obj st b (inl vt.1.1)) as [[c1 s]|] eqn:F1; [|done]. cbn [mbind option_bind].
  destruct (intern_pred st c1 vt.1.2) as [[c2 p]|] eqn:F2; [|done]. cbn [mbind option_bind].
  destruct (intern_obj st c2 vt.2) as [[c3 o]|] eqn:F3; [|done]. cbn [mbind option_bind].
  intros [= <- <-].
  destruct (intern_obj_names _ _ _ _ _ _ HE F1) as ([L1 L1'] & d1 & -> & N1 & [M1 M1']). cbn [mbind option_bind].
  destruct (intern_pred_names _ _ _ _ _ _ N1 F2) as ([L2 L2'] & d2 & -> & N2 & [M2 M2']). cbn [mbind option_bind].
  destruct (intern_obj_names _ _ _ _ _ _ N2 F3) as ([L3 L3'] & d3 & -> & N3 & [M3 M3']). cbn [mbind option_bind].
  split; [unfold lists_eq; split; congruence|]. exists d3. split; [done|]. split; [done|].
  unfold lists_eq; split; congruence.
Qed.
Lemma sim_names st b b' : sim st b b' → names_eq b b'.
Proof. intros []. unfold names_eq. auto 10. Qed.

Section sim.
  Context (st : stack).
  (** the removals of the second builder, given those of the first *)
  Definition more_rems (P : triple → Prop) (b b' : builder) : Prop :=
    ∀ t, t ∈ b_rems b' → t ∈ b_rems b ∨ P t.
  Lemma do_op_sim (P : triple → Prop) b b' c b1 : sim st b b' → more_rems P b b' → do_op st b c = Some b1 →
    ∃ b1', do_op st b' c = Some b1' ∧ sim st b1 b1' ∧ more_rems P b1 b1'.
  Proof.
    intros Hs Hr. pose proof (sim_names _ _ _ Hs) as HN. destruct Hs as [? ? ? ? ? ? ? HA HA' HR].
    destruct c as [vt|vt|t|t]; cbn [do_op].
    - destruct (calculate_triple st b vt) as [[c1 t]|] eqn:F; [|done]. cbn [mbind option_bind]. intros [= <-].
      destruct (calculate_triple_names _ _ _ _ _ _ HN F) as ([L1 L2] & d & -> & (?&?&?&?&?&?&?) & [M1 M2]).
      cbn [mbind option_bind]. eexists. split; [done|]. split.
      + split; cbn; try done; intros u.
        * rewrite !elem_of_app, L1, M1. intros [?|?]; [left; auto|by right].
        * rewrite !elem_of_app, L1, M1. intros [Hu|?]; [|by left; right]. destruct (HA' u Hu); auto.
        * rewrite L2, M2. apply HR.
      + intros u. cbn. rewrite L2, M2. apply Hr.
    - destruct (calculate_triple st b vt) as [[c1 t]|] eqn:F; [|done]. cbn [mbind option_bind]. intros [= <-].
      destruct (calculate_triple_names _ _ _ _ _ _ HN F) as ([L1 L2] & d & -> & (?&?&?&?&?&?&?) & [M1 M2]).
      cbn [mbind option_bind]. eexists. split; [done|]. split.
      + split; cbn; try done; intros u.
        * rewrite L1, M1. apply HA.
        * rewrite L1, M1. apply HA'.
        * rewrite !elem_of_app, L2, M2. intros [?|?]; [left; auto|by right].
      + intros u. cbn. rewrite !elem_of_app, L2, M2. intros [Hu|?]; [|by left; right]. destruct (Hr u Hu); auto.
    - intros [= <-]. eexists. split; [done|]. split; [|done]. split; cbn; try done; intros u; rewrite !elem_of_app.
      + intros [?|?]; [left; auto|by right].
      + intros [Hu|?]; [|by left; right]. destruct (HA' u Hu); auto.
    - intros [= <-]. eexists. split; [done|]. split.
      + split; cbn; try done; intros u. rewrite !elem_of_app. intros [?|?]; [left; auto|by right].
      + intros u. cbn. rewrite !elem_of_app. intros [Hu|?]; [|by left; right]. destruct (Hr u Hu); auto.
  Qed.

  Lemma has_zero_nonzero t : has_zero t → ¬ nonzero t.
  Proof. unfold has_zero, nonzero. lia. Qed.
  Lemma within_oor t : ids_within st t → ¬ out_of_range (nv_count st) (pred_count st) t.
  Proof. unfold ids_within, out_of_range. lia. Qed.

  (** Leaving out the calls with ids that stand for no triple of strings *)
  Lemma do_ops_sim (P : triple → Prop) (cs : list op) : (∀ t, RemoveId t ∈ cs → id_vt st t = None → P t) → Forall (id_call_any st) cs →
    ∀ (b b' b1 : builder), sim st b b' → more_rems P b b' → do_ops st b (filter (op_ok st) cs) = Some b1 →
    ∃ b1', do_ops st b' cs = Some b1' ∧ sim st b1 b1' ∧ more_rems P b1 b1'.
  Proof.
    induction cs as [|c cs IH]; intros HP Hcs b b' b1 Hs Hr Hd.
    { cbn in Hd. injection Hd as <-. exists b'. done. }
    apply Forall_cons in Hcs as [Hc Hcs]. rewrite filter_cons in Hd.
    specialize (IH ltac:(intros t Ht; apply HP; by right) Hcs).
    case_decide as Hok.
    - cbn [do_ops] in Hd. destruct (do_op st b c) as [b2|] eqn:F; [|done]. cbn [mbind option_bind] in Hd.
      destruct (do_op_sim P _ _ _ _ Hs Hr F) as (b2' & F' & Hs2 & Hr2).
      cbn [do_ops]. rewrite F'. cbn [mbind option_bind]. by apply (IH b2 b2').
    - cbn [do_ops]. destruct c as [vt|vt|t|t].
      + exfalso. apply Hok. by exists vt.
      + exfalso. apply Hok. by exists vt.
      + destruct Hc as [?|[Hz Hw]]; [done|]. cbn [do_op mbind option_bind]. apply (IH b); [|done|done].
        destruct Hs as [? ? ? ? ? ? ? HA HA' HR]. split; try done; intros u; cbn; rewrite elem_of_app.
        * auto.
        * intros [?|Hu]; [auto|]. apply elem_of_list_singleton in Hu as ->. right.
          split; [by apply has_zero_nonzero|by apply within_oor].
      + cbn [do_op mbind option_bind]. apply (IH b); [| |done].
        * destruct Hs as [? ? ? ? ? ? ? HA HA' HR]. split; try done; intros u; cbn. rewrite elem_of_app. auto.
        * intros u. cbn. rewrite elem_of_app. intros [?|Hu]; [by apply Hr|]. apply elem_of_list_singleton in Hu as ->.
          right. apply HP; [left|]. destruct (id_vt st t) as [vt|] eqn:E; [|done]. exfalso. apply Hok. by exists vt.
  Qed.
End sim.

Theorem stray_build st cs nvord prord : wf st → Forall (id_call_any st) cs →
  (∀ t, RemoveId t ∈ cs → ids_within st t) ∨ (∀ vt, AddValue vt ∈ cs → strings_known st vt) →
  build nvord prord st cs = build nvord prord st (filter (op_ok st) cs).
Proof.
  intros Hw Hcs Hor. unfold build.
  assert (Hf : Forall (op_ok st) (filter (op_ok st) cs)).
  { apply Forall_forall. intros c [? _]%elem_of_list_filter. done. }
  destruct (do_ops_ok st (wf_dicts _ Hw) _ _ _ _ (builder_new_ok st) Hf) as (b & Eb & Hb). cbn [app] in Hb.
  set (P := λ t, ¬ in_view t st ∧ t ∉ b_adds b).
  destruct (do_ops_sim st P cs) with (b := builder_new st) (b' := builder_new st) (b1 := b) as (b' & Eb' & Hs & Hr); try done.
  { intros t Ht Hn. split.
    - intros (vt & Hvt)%in_view_den; [|done]. unfold id_vt in Hn.
      assert (id_triple_to_string st t = Some (Some vt)) as E; [by apply id_triple_to_string_iff; [apply Hw|]|].
      by rewrite E in Hn.
    - rewrite (bk_adds _ _ _ _ Hb). intros (vt & -> & Hvt)%elem_of_list_fmap.
      pose proof (bk_hasA _ _ _ _ Hb vt Hvt) as Hh.
      assert (den st vt (tenc st b vt)) as Hden.
      { destruct Hor as [Hin|Hkn].
        - apply (tenc_in_range st Hw b _ _ Hb vt Hh). by apply within_oor, Hin.
        - assert (∃ u, id_vt st u = Some vt) as (u & Hu).
          { unfold added in Hvt. apply elem_of_list_omap in Hvt as (c & Hc & Ec).
            apply elem_of_list_filter in Hc as [_ Hc].
            destruct c as [vt'|vt'|u|u]; cbn in Ec; try done.
            - injection Ec as ->. by apply Hkn.
            - by exists u. }
          apply id_vt_den in Hu; [|apply Hw].
          destruct (tenc_den st b vt u (bk_maps _ _ _ _ Hb) Hu) as [-> _]. done. }
      assert (id_triple_to_string st (tenc st b vt) = Some (Some vt)) as E; [by apply id_triple_to_string_iff; [apply Hw|]|].
      unfold id_vt in Hn. by rewrite E in Hn. }
  { split; try done. auto. }
  { intros u. auto. }
  rewrite Eb, Eb'. cbn [mbind option_bind]. rewrite (commit_sim nvord prord st b b' Hw Hs); [done|]. exact Hr.
Qed.
Lemma stray_within st cs nvord prord : wf st → Forall (id_call_within st) cs →
  build nvord prord st cs = build nvord prord st (filter (op_ok st) cs).
Proof.
  intros Hw Hcs. apply stray_build; [done| |left].
  - eapply Forall_impl; [exact Hcs|]. intros []; cbn; auto.
  - intros t Ht. rewrite Forall_forall in Hcs. apply (Hcs _ Ht).
Qed.
Lemma added_filter st cs : added st (filter (op_ok st) cs) = added st cs.
Proof.
  unfold added. induction cs as [|c cs IH]; [done|]. rewrite filter_cons. case_decide as Hok; cbn [omap list_omap].
  - destruct (op_added st c); [f_equal|]; exact IH.
  - unfold op_ok in Hok. assert (op_added st c = None) as ->; [|exact IH].
    unfold op_added. destruct c; try done; (destruct (op_vt _ _) eqn:E; [|done]); exfalso; apply Hok; eauto.
Qed.
Lemma removed_filter st cs : removed st (filter (op_ok st) cs) = removed st cs.
Proof.
  unfold removed. induction cs as [|c cs IH]; [done|]. rewrite filter_cons. case_decide as Hok; cbn [omap list_omap].
  - destruct (op_removed st c); [f_equal|]; exact IH.
  - unfold op_ok in Hok. assert (op_removed st c = None) as ->; [|exact IH].
    unfold op_removed. destruct c; try done; (destruct (op_vt _ _) eqn:E; [|done]); exfalso; apply Hok; eauto.
Qed.
Lemma stray_shown st cs nvord prord L : wf st → Forall (id_call_within st) cs →
  hash_order nvord → hash_order prord → shown st = Some L →
  ∃ st' L', build nvord prord st cs = Some st' ∧ shown st' = Some L' ∧ NoDup L' ∧
    ∀ vt, vt ∈ L' ↔ after_change (added st cs) (removed st cs) L vt.
Proof.
  intros Hw Hcs Hn Hp HL. rewrite (stray_within st cs nvord prord Hw Hcs).
  assert (Hf : Forall (op_ok st) (filter (op_ok st) cs)).
  { apply Forall_forall. intros c [? _]%elem_of_list_filter. done. }
  rewrite <-(added_filter st cs), <-(removed_filter st cs). by apply commit_shown.
Qed.
