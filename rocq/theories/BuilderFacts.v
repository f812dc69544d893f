(** What the layer builder commits: the strings that are new and used, the additions that are
    not removed and not already there, the removals that are not added and are there. *)
From Verif Require Import Prelude ListFacts Succinct SuccinctFacts TripleFiles TripleBuildFacts
  TripleReadFacts Merge MergeFacts Layer StackFacts DictFacts WfFacts Builder InternFacts Spec.

Record committed (st : stack) (A R : list vtriple) (l : layer) : Prop := {
  cm_nvmap : l_nvmap l = None;
  cm_pmap : l_pmap l = None;
  cm_nodes : SSorted (l_nodes l);
  cm_preds : SSorted (l_preds l);
  cm_vals : SSorted (l_vals l);
  cm_objs : ∀ x, x ∈ l_objs l ↔ x ∉ objs st ∧ ∃ vt, vt ∈ A ∧ vt ∉ R ∧ (x = inl vt.1.1 ∨ x = vt.2);
  cm_prs : ∀ p, p ∈ l_preds l ↔ p ∉ preds st ∧ ∃ vt, vt ∈ A ∧ vt ∉ R ∧ p = vt.1.2;
  cm_pos : ∃ T, SSorted T ∧ build_tfiles (bool_decide (st ≠ [])) T = Some (l_pos l) ∧
    ∀ u, u ∈ T ↔ ∃ vt, vt ∈ A ∧ vt ∉ R ∧ den (l :: st) vt u ∧ ¬ in_view u st;
  cm_neg : if decide (st = []) then l_neg l = None
    else ∃ T tf, SSorted T ∧ l_neg l = Some tf ∧ build_tfiles true T = Some tf ∧
      ∀ u, u ∈ T ↔ ∃ vt, vt ∈ R ∧ vt ∉ A ∧ den st vt u ∧ in_view u st }.

(** ** Small facts *)
Lemma preimage {A B} (f : A → B) (P : A → Prop) (l : list B) :
  (∀ y, y ∈ l → ∃ x, P x ∧ f x = y) → ∃ k, f <$> k = l ∧ ∀ x, x ∈ k → P x.
Proof.
  induction l as [|y l IH]; intros Hl.
  { exists []. split; [done|]. by intros x ?%elem_of_nil. }
  destruct IH as (k & Ek & Hk). { intros y' Hy'. apply Hl. by right. }
  destruct (Hl y) as (x & Hx & E); [left|]. exists (x :: k). split; [cbn; by rewrite E, Ek|].
  intros x' [->|?]%elem_of_cons; auto.
Qed.
Lemma mapM_fmap {A B C} (f : A → B) (g : B → option C) (h : A → C) (l : list A) :
  (∀ x, x ∈ l → g (f x) = Some (h x)) → mapM g (f <$> l) = Some (h <$> l).
Proof.
  intros Hl. apply mapM_Some. induction l as [|x l IH]; [constructor|]. constructor.
  - apply Hl. left.
  - apply IH. intros y Hy. apply Hl. by right.
Qed.
Lemma filter_opt_ok {A} (f : A → option bool) (P : A → Prop) `{!∀ x, Decision (P x)} (l : list A) :
  (∀ x, x ∈ l → f x = Some (bool_decide (P x))) → filter_opt f l = Some (filter P l).
Proof.
  induction l as [|x l IH]; intros Hl; [done|]. cbn [filter_opt]. rewrite Hl by left. cbn [mbind option_bind].
  rewrite IH by (intros y Hy; apply Hl; by right). cbn [mbind option_bind]. rewrite filter_cons.
  case_decide as Hd; [by rewrite bool_decide_eq_true_2|by rewrite bool_decide_eq_false_2].
Qed.
Lemma filter_opt_all {A} (f : A → option bool) (l : list A) :
  (∀ x, x ∈ l → f x = Some true) → filter_opt f l = Some l.
Proof.
  intros Hl. rewrite (filter_opt_ok f (λ _, True)).
  - f_equal. by apply filter_all.
  - intros x Hx. rewrite Hl by done. by rewrite bool_decide_eq_true_2.
Qed.
Lemma build_tfiles_nonzero sparse T : build_tfiles sparse T = build_tfiles sparse (filter nonzero T).
Proof.
  unfold build_tfiles. f_equal. generalize (tfb_new sparse) as b.
  induction T as [|t T IH]; intros b; [done|]. cbn [tfb_add_all]. rewrite filter_cons. case_decide as Hd.
  - cbn [tfb_add_all]. destruct (tfb_add b t); [|done]. apply IH.
  - rewrite tfb_add_zero by done. apply IH.
Qed.
Lemma zero3_not_nonzero : ¬ nonzero zero3.
Proof. unfold nonzero. cbn. lia. Qed.

Lemma noops_ok nv np A R : SSorted A → SSorted R →
  noops nv np A R = ((λ a, if decide (a ∈ R) then zero3 else a) <$> A,
                     (λ r, if decide (r ∈ A) then zero3 else clear_range nv np r) <$> R).
Proof.
  assert (Hid : ∀ A : list triple, (λ a : triple, if decide (a ∈ []) then zero3 else a) <$> A = A).
  { intros A'. rewrite <-(list_fmap_id A') at 2. apply list_fmap_ext. intros i x _.
    rewrite decide_False; [done|]. by intros ?%elem_of_nil. }
  revert R. induction A as [|a A IH]; intros R HA HR.
  - destruct R as [|r R]; [done|]. done.
  - pose proof HA as [HA' Ha]%ssorted_cons.
    induction R as [|r R IHR].
    { cbn [noops]. by rewrite Hid. }
    pose proof HR as [HR' Hr]%ssorted_cons. cbn [noops].
    destruct (decide (olt a r)) as [Hlt|Hnlt].
    + rewrite IH by done. cbn [fmap list_fmap]. f_equal.
      * f_equal. rewrite decide_False; [done|]. intros [->|Hin]%elem_of_cons; [ord_absurd|].
        apply Hr in Hin. ord_absurd.
      * assert (Hx : ∀ x, x ∈ r :: R → (x ∈ A ↔ x ∈ a :: A)).
        { intros x Hx. rewrite elem_of_cons. split; [auto|]. intros [->|?]; [|done].
          apply elem_of_cons in Hx as [->|Hx]; [ord_absurd|]. apply Hr in Hx. ord_absurd. }
        assert (∀ x, x ∈ r :: R → (if decide (x ∈ A) then zero3 else clear_range nv np x) =
            (if decide (x ∈ a :: A) then zero3 else clear_range nv np x)) as Hx'.
        { intros x Hx1. do 2 case_decide; try done; exfalso; naive_solver. }
        f_equal; [apply Hx'; left|]. apply list_fmap_ext. intros i x Hi. apply Hx'. right.
        by eapply elem_of_list_lookup_2.
    + destruct (decide (olt r a)) as [Hgt|Hngt].
      * specialize (IHR HR'). cbn [noops] in IHR. rewrite IHR. cbn [fmap list_fmap].
        assert (Hx : ∀ x, x ∈ a :: A → (x ∈ R ↔ x ∈ r :: R)).
        { intros x Hx. rewrite elem_of_cons. split; [auto|]. intros [->|?]; [|done].
          apply elem_of_cons in Hx as [->|Hx]; [ord_absurd|]. apply Ha in Hx. ord_absurd. }
        assert (∀ x, x ∈ a :: A → (if decide (x ∈ R) then zero3 else x) =
            (if decide (x ∈ r :: R) then zero3 else x)) as Hx'.
        { intros x Hx1. do 2 case_decide; try done; exfalso; naive_solver. }
        f_equal.
        -- f_equal; [apply Hx'; left|]. apply list_fmap_ext. intros i x Hi. apply Hx'. right.
           by eapply elem_of_list_lookup_2.
        -- f_equal. rewrite decide_False; [done|]. intros [->|Hin]%elem_of_cons; [ord_absurd|].
           apply Ha in Hin. ord_absurd.
      * assert (a = r) as <- by (destruct (olt_total a r) as [?|[?|?]]; done).
        rewrite IH by done. cbn [fmap list_fmap]. rewrite !(decide_True (P := a ∈ a :: _)) by left.
        f_equal; f_equal.
        -- apply list_fmap_ext. intros i x Hi%elem_of_list_lookup_2.
           assert (x ∈ R ↔ x ∈ a :: R) as Hx.
           { rewrite elem_of_cons. split; [auto|]. intros [->|?]; [|done]. apply Ha in Hi. ord_absurd. }
           do 2 case_decide; try done; exfalso; naive_solver.
        -- apply list_fmap_ext. intros i x Hi%elem_of_list_lookup_2.
           assert (x ∈ A ↔ x ∈ a :: A) as Hx.
           { rewrite elem_of_cons. split; [auto|]. intros [->|?]; [|done]. apply Hr in Hi. ord_absurd. }
           do 2 case_decide; try done; exfalso; naive_solver.
Qed.

(** ** Operations *)
Section builder.
  Context (st : stack) (Hd : dicts_ok st).
  Notation lookO := (object_id st).
  Notation lookP := (predicate_id st).
  Notation nv := (nv_count st).
  Notation np := (pred_count st).
  Lemma lookO_tot k : ∃ r, lookO k = Some r ∧ match r with Some i => 1 ≤ i ≤ nv | None => True end.
  Proof. destruct (object_id_ok st k Hd) as ([i|] & E & Hr); rewrite E; eexists; (split; [done|]); [tauto|done]. Qed.
  Lemma lookP_tot k : ∃ r, lookP k = Some r ∧ match r with Some i => 1 ≤ i ≤ np | None => True end.
  Proof. destruct (predicate_id_ok st k Hd) as ([i|] & E & Hr); rewrite E; eexists; (split; [done|]); [tauto|done]. Qed.

  Record maps_ok (b : builder) : Prop := {
    mk_nv : map_ok lookO nv (b_nvs b) (b_ncnt b + b_vcnt b);
    mk_nvc : b_nvcount b = nv + (b_ncnt b + b_vcnt b);
    mk_p : map_ok lookP np (b_prs b) (b_pcnt b);
    mk_pc : b_pcount b = np + b_pcnt b }.
  Record bext (b b' : builder) : Prop := {
    be_nv : ext lookO (b_nvs b) (b_nvs b');
    be_p : ext lookP (b_prs b) (b_prs b');
    be_adds : b_adds b' = b_adds b;
    be_rems : b_rems b' = b_rems b }.
  Lemma bext_trans b1 b2 b3 : bext b1 b2 → bext b2 b3 → bext b1 b3.
  Proof. intros [????] [????]. split; [by eapply ext_trans|by eapply ext_trans|congruence..]. Qed.
  Lemma intern_obj_ok b x : maps_ok b → ∃ b', intern_obj st b x = Some (b', tid lookO (b_nvs b') x) ∧
    maps_ok b' ∧ bext b b' ∧ has lookO (b_nvs b') x.
  Proof.
    intros [Hm Hc Hp Hpc]. pose proof (intern_ok lookO nv lookO_tot (object_id_inj st Hd) _ _ x Hm) as Hi.
    destruct Hi as (m' & n' & E & Hm' & Hh & He & Hn). unfold intern_obj. unfold intern in E.
    destruct (assoc (b_nvs b) x) as [i|] eqn:Ea.
    { injection E as <- <- E3. exists b. rewrite E3. split; [done|]. by split_and!. }
    destruct (lookO x) as [r|] eqn:El; [|done]. cbn [mbind option_bind] in *. destruct r as [i|].
    - injection E as <- <- E3. eexists. split; [apply f_equal, (f_equal (pair _)), E3|]. by split_and!.
    - injection E as <- <- E3. rewrite Hc. eexists. split; [apply f_equal, (f_equal (pair _)), E3|]. split_and!; try done.
      split; cbn [b_nvs b_ncnt b_vcnt b_nvcount b_prs b_pcnt b_pcount]; try done; destruct x; try done; try lia.
      by replace (b_ncnt b + S (b_vcnt b)) with (S (b_ncnt b + b_vcnt b)) by lia.
  Qed.
  Lemma intern_pred_ok b x : maps_ok b → ∃ b', intern_pred st b x = Some (b', tid lookP (b_prs b') x) ∧
    maps_ok b' ∧ bext b b' ∧ has lookP (b_prs b') x.
  Proof.
    intros [Hm Hc Hp Hpc]. pose proof (intern_ok lookP np lookP_tot (predicate_id_inj st Hd) _ _ x Hp) as Hi.
    destruct Hi as (m' & n' & E & Hm' & Hh & He & Hn). unfold intern_pred. unfold intern in E.
    destruct (assoc (b_prs b) x) as [i|] eqn:Ea.
    { injection E as <- <- E3. exists b. rewrite E3. split; [done|]. by split_and!. }
    destruct (lookP x) as [r|] eqn:El; [|done]. cbn [mbind option_bind] in *. destruct r as [i|].
    - injection E as <- <- E3. eexists. split; [apply f_equal, (f_equal (pair _)), E3|]. by split_and!.
    - injection E as <- <- E3. rewrite Hpc. eexists. split; [apply f_equal, (f_equal (pair _)), E3|]. split_and!; try done.
      split; cbn [b_nvs b_ncnt b_vcnt b_nvcount b_prs b_pcnt b_pcount]; try done; try lia.
  Qed.

  Definition tenc (b : builder) (vt : vtriple) : triple :=
    mkt (tid lookO (b_nvs b) (inl vt.1.1)) (tid lookP (b_prs b) vt.1.2) (tid lookO (b_nvs b) vt.2).
  Definition vhas (b : builder) (vt : vtriple) : Prop :=
    has lookO (b_nvs b) (inl vt.1.1) ∧ has lookP (b_prs b) vt.1.2 ∧ has lookO (b_nvs b) vt.2.
  Record bld_ok (b : builder) (A R : list vtriple) : Prop := {
    bk_maps : maps_ok b;
    bk_adds : b_adds b = tenc b <$> A;
    bk_rems : b_rems b = tenc b <$> R;
    bk_hasA : ∀ vt, vt ∈ A → vhas b vt;
    bk_hasR : ∀ vt, vt ∈ R → vhas b vt }.

  Lemma calculate_triple_ok b vt : maps_ok b → ∃ b', calculate_triple st b vt = Some (b', tenc b' vt) ∧
    maps_ok b' ∧ bext b b' ∧ vhas b' vt.
  Proof.
    intros Hb. unfold calculate_triple.
    destruct (intern_obj_ok b (inl vt.1.1) Hb) as (b1 & -> & H1 & E1 & h1). cbn [mbind option_bind].
    destruct (intern_pred_ok b1 vt.1.2 H1) as (b2 & -> & H2 & E2 & h2). cbn [mbind option_bind].
    destruct (intern_obj_ok b2 vt.2 H2) as (b3 & -> & H3 & E3 & h3). cbn [mbind option_bind].
    pose proof (bext_trans _ _ _ E2 E3) as E23.
    destruct (be_nv _ _ E23 _ h1) as [h1' t1]. destruct (be_p _ _ E3 _ h2) as [h2' t2].
    exists b3. split; [|split; [done|split; [|done]]].
    - unfold tenc. by rewrite t1, t2.
    - eapply bext_trans; [exact E1|done].
  Qed.
  Lemma tenc_ext b b' vt : bext b b' → vhas b vt → tenc b' vt = tenc b vt ∧ vhas b' vt.
  Proof.
    intros He (h1 & h2 & h3). destruct (be_nv _ _ He _ h1) as [h1' t1], (be_p _ _ He _ h2) as [h2' t2],
      (be_nv _ _ He _ h3) as [h3' t3]. unfold tenc. by rewrite t1, t2, t3.
  Qed.
  Lemma tenc_ext_list b b' (L : list vtriple) : bext b b' → (∀ vt, vt ∈ L → vhas b vt) → tenc b' <$> L = tenc b <$> L.
  Proof.
    intros He HL. apply list_fmap_ext. intros i vt Hi%elem_of_list_lookup_2. apply tenc_ext; auto.
  Qed.
  Lemma tenc_den b vt t : maps_ok b → den st vt t → tenc b vt = t ∧ vhas b vt.
  Proof.
    intros [Hm _ Hp _] (H1 & H2 & H3). unfold tenc, vhas, has.
    rewrite (tid_look _ _ _ _ _ _ Hm H1), (tid_look _ _ _ _ _ _ Hp H2), (tid_look _ _ _ _ _ _ Hm H3).
    split; [by destruct t as [[??]?]|]. eauto 10.
  Qed.
  Lemma bld_ok_ext b b' A R : bld_ok b A R → bext b b' → maps_ok b' → bld_ok b' A R.
  Proof.
    intros [Hm HA HR hA hR] He Hm'. split; [done|..].
    - rewrite (be_adds _ _ He), HA. symmetry. by apply tenc_ext_list.
    - rewrite (be_rems _ _ He), HR. symmetry. by apply tenc_ext_list.
    - intros vt Hvt. eapply tenc_ext; eauto.
    - intros vt Hvt. eapply tenc_ext; eauto.
  Qed.
  Lemma push_add_ok b A R vt : bld_ok b A R → vhas b vt → bld_ok (push_add b (tenc b vt)) (A ++ [vt]) R.
  Proof.
    intros [Hm HA HR hA hR] Hv. split; cbn.
    - destruct Hm. by split.
    - rewrite fmap_app, HA. done.
    - done.
    - intros vt'. rewrite elem_of_app, elem_of_list_singleton. intros [?| ->]; [by apply hA|done].
    - done.
  Qed.
  Lemma push_rem_ok b A R vt : bld_ok b A R → vhas b vt → bld_ok (push_rem b (tenc b vt)) A (R ++ [vt]).
  Proof.
    intros [Hm HA HR hA hR] Hv. split; cbn.
    - destruct Hm. by split.
    - done.
    - rewrite fmap_app, HR. done.
    - done.
    - intros vt'. rewrite elem_of_app, elem_of_list_singleton. intros [?| ->]; [by apply hR|done].
  Qed.
  Lemma id_vt_den t vt : id_vt st t = Some vt → den st vt t.
  Proof.
    unfold id_vt. destruct (id_triple_to_string st t) as [[vt'|]|] eqn:E; try done. intros [= ->].
    by apply id_triple_to_string_iff in E.
  Qed.
  Lemma do_op_ok b A R c : bld_ok b A R → op_ok st c → ∃ b', do_op st b c = Some b' ∧
    bld_ok b' (A ++ added st [c]) (R ++ removed st [c]).
  Proof.
    intros Hb [vt Hvt]. unfold added, removed. cbn. destruct c as [vt'|vt'|t|t]; cbn in *.
    - destruct (calculate_triple_ok b vt' (bk_maps _ _ _ Hb)) as (b' & -> & Hm & He & Hh). cbn.
      eexists; split; [done|]. rewrite app_nil_r. apply push_add_ok; [|done]. by eapply bld_ok_ext.
    - destruct (calculate_triple_ok b vt' (bk_maps _ _ _ Hb)) as (b' & -> & Hm & He & Hh). cbn.
      eexists; split; [done|]. rewrite app_nil_r. apply push_rem_ok; [|done]. by eapply bld_ok_ext.
    - rewrite Hvt. eexists; split; [done|]. rewrite app_nil_r.
      destruct (tenc_den b vt t (bk_maps _ _ _ Hb)) as [<- Hh]; [by apply id_vt_den|]. by apply push_add_ok.
    - rewrite Hvt. eexists; split; [done|]. rewrite app_nil_r.
      destruct (tenc_den b vt t (bk_maps _ _ _ Hb)) as [<- Hh]; [by apply id_vt_den|]. by apply push_rem_ok.
  Qed.
  Lemma do_ops_ok b A R cs : bld_ok b A R → Forall (op_ok st) cs → ∃ b', do_ops st b cs = Some b' ∧
    bld_ok b' (A ++ added st cs) (R ++ removed st cs).
  Proof.
    revert b A R. induction cs as [|c cs IH]; intros b A R Hb Hcs.
    { exists b. split; [done|]. unfold added, removed. cbn. by rewrite !app_nil_r. }
    apply Forall_cons in Hcs as [Hc Hcs]. destruct (do_op_ok b A R c Hb Hc) as (b1 & E1 & Hb1).
    cbn [do_ops]. rewrite E1. cbn [mbind option_bind].
    destruct (IH b1 _ _ Hb1 Hcs) as (b2 & E2 & Hb2). exists b2. split; [done|].
    unfold added, removed in *. rewrite <-!app_assoc, <-!omap_app in Hb2. done.
  Qed.
  Lemma builder_new_ok : bld_ok (builder_new st) [] [].
  Proof.
    split; [split|..]; cbn; try done.
    - apply map_ok_nil.
    - apply map_ok_nil.
    - by intros vt ?%elem_of_nil.
    - by intros vt ?%elem_of_nil.
  Qed.
  Lemma tenc_inj b vt vt' : maps_ok b → vhas b vt → vhas b vt' → tenc b vt = tenc b vt' → vt = vt'.
  Proof.
    intros [Hm _ Hp _] (h1 & h2 & h3) (h1' & h2' & h3'). unfold tenc, mkt. intros [= E1 E2 E3].
    apply (tid_inj _ _ lookO_tot (object_id_inj st Hd) _ _ _ _ Hm h1 h1') in E1.
    apply (tid_inj _ _ lookP_tot (predicate_id_inj st Hd) _ _ _ _ Hp h2 h2') in E2.
    apply (tid_inj _ _ lookO_tot (object_id_inj st Hd) _ _ _ _ Hm h3 h3') in E3.
    destruct vt as [[??]?], vt' as [[??]?]; cbn in *. congruence.
  Qed.
End builder.
