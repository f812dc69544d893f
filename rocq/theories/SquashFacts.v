(** A squashed layer is the layer that a commit of its triples would write. *)
From Verif Require Import Prelude ListFacts Succinct SuccinctFacts TripleFiles TripleBuildFacts TripleReadFacts
  Merge MergeFacts Layer StackFacts StackCountFacts DictFacts WfFacts InternFacts SameFacts Builder Rollup RollupFacts RollupSame
  Squash Spec BuilderFacts CommitFacts.

Lemma vset_Some {A} (v : list A) i x : i < length v → vset v i x = Some (<[i := x]> v).
Proof. intros. unfold vset. by rewrite decide_True. Qed.

(** ** Used ids *)
Lemma sq_mark_ok base (ex : list bool) id : id - base < length ex → ∃ ex', sq_mark base ex id = Some ex' ∧
  length ex' = length ex ∧ ∀ i, ex' !! i = Some true ↔ ex !! i = Some true ∨ (base ≤ id ∧ i = id - base).
Proof.
  intros Hlt. unfold sq_mark. case_decide as Hc.
  - rewrite vset_Some by done. eexists. split; [done|]. split; [apply insert_length|]. intros i.
    destruct (decide (i = id - base)) as [->|Hne].
    + rewrite list_lookup_insert by done. naive_solver.
    + rewrite list_lookup_insert_ne by done. naive_solver.
  - exists ex. split; [done|]. split; [done|]. intros i. split; [auto|]. intros [?|[? _]]; [done|lia].
Qed.
Lemma sq_existences_ok b bp ts (nvex pex : list bool) :
  (∀ t, t ∈ ts → t_s t - b < length nvex ∧ t_p t - bp < length pex ∧ t_o t - b < length nvex) →
  ∃ nvex' pex', sq_existences b bp nvex pex ts = Some (nvex', pex') ∧
    length nvex' = length nvex ∧ length pex' = length pex ∧
    (∀ i, nvex' !! i = Some true ↔ nvex !! i = Some true ∨
      ∃ t id, t ∈ ts ∧ (id = t_s t ∨ id = t_o t) ∧ b ≤ id ∧ i = id - b) ∧
    (∀ i, pex' !! i = Some true ↔ pex !! i = Some true ∨ ∃ t, t ∈ ts ∧ bp ≤ t_p t ∧ i = t_p t - bp).
Proof.
  revert nvex pex. induction ts as [|t ts IH]; intros nvex pex Hr.
  { exists nvex, pex. split; [done|]. split; [done|]. split; [done|]. split; intros i; (split; [by left|]).
    - intros [?|(t & id & Ht & _)]; [done|]. by apply elem_of_nil in Ht.
    - intros [?|(t & Ht & _)]; [done|]. by apply elem_of_nil in Ht. }
  destruct (Hr t) as (R1 & R2 & R3); [left|]. cbn [sq_existences].
  destruct (sq_mark_ok b nvex (t_s t) R1) as (n1 & -> & L1 & M1). cbn [mbind option_bind].
  destruct (sq_mark_ok bp pex (t_p t) R2) as (p1 & -> & L2 & M2). cbn [mbind option_bind].
  destruct (sq_mark_ok b n1 (t_o t)) as (n2 & -> & L3 & M3); [by rewrite L1|]. cbn [mbind option_bind].
  destruct (IH n2 p1) as (n' & p' & -> & L4 & L5 & M4 & M5).
  { intros t' Ht'. rewrite L3, L1, L2. apply Hr. by right. }
  exists n', p'. split; [done|]. split; [congruence|]. split; [congruence|]. split; intros i.
  - rewrite M4, M3, M1. split.
    + intros [[[?|[? ?]]|[? ?]]|(t' & id & ? & ? & ? & ?)]; [by left|right; exists t, (t_s t)|right; exists t, (t_o t)|right; exists t', id];
        (split_and!; auto; by constructor || done).
    + intros [?|(t' & id & Ht' & Hid & Hle & ->)]; [auto|]. apply elem_of_cons in Ht' as [->|Ht'].
      * destruct Hid as [->| ->]; auto.
      * right. exists t', id. auto.
  - rewrite M5, M2. split.
    + intros [[?|[? ?]]|(t' & ? & ? & ?)]; [by left|right; exists t|right; exists t']; (split_and!; auto; by constructor || done).
    + intros [?|(t' & Ht' & Hle & ->)]; [auto|]. apply elem_of_cons in Ht' as [->|Ht']; [auto|]. right. exists t'. auto.
Qed.
Lemma sq_used_ok {A} base (ex : list bool) (es : list (nat * A)) : (∀ id x, (id, x) ∈ es → id - base < length ex) →
  sq_used base ex es = Some ((λ e, (e.2, e.1)) <$> filter (λ e, ex !! (e.1 - base) = Some true) es).
Proof.
  induction es as [|[id x] es IH]; intros Hr; [done|]. cbn [sq_used].
  destruct (lookup_lt_is_Some_2 ex (id - base)) as [e E]; [apply (Hr id x); left|]. rewrite E. cbn [mbind option_bind].
  rewrite IH by (intros ?? ?; eapply Hr; by right). cbn [mbind option_bind]. rewrite filter_cons. cbn [fst].
  destruct e.
  - rewrite decide_True by done. done.
  - rewrite decide_False by congruence. done.
Qed.

(** ** New ids *)
Lemma sq_fill_app b v n l1 l2 : sq_fill b v n (l1 ++ l2) = v' ← sq_fill b v n l1; sq_fill b v' (n + length l1) l2.
Proof.
  revert v n. induction l1 as [|o l1 IH]; intros v n; cbn [sq_fill app length].
  - by rewrite Nat.add_0_r.
  - destruct (vset v (o - b) n) as [v'|]; [|done]. cbn [mbind option_bind]. rewrite IH.
    by rewrite Nat.add_succ_r.
Qed.
Lemma sq_fill_ok b v n olds : NoDup olds → (∀ o, o ∈ olds → b ≤ o ∧ o - b < length v) →
  ∃ v', sq_fill b v n olds = Some v' ∧ length v' = length v ∧
    (∀ k o, olds !! k = Some o → v' !! (o - b) = Some (n + k)) ∧
    (∀ j, (∀ o, o ∈ olds → j ≠ o - b) → v' !! j = v !! j).
Proof.
  revert v n. induction olds as [|o olds IH]; intros v n Hnd Hr.
  { exists v. split; [done|]. split; [done|]. split; [done|]. done. }
  apply NoDup_cons in Hnd as [Ho Hnd]. destruct (Hr o) as [H1 H2]; [left|]. cbn [sq_fill].
  rewrite vset_Some by done. cbn [mbind option_bind].
  destruct (IH (<[o - b:=n]> v) (S n) Hnd) as (v' & -> & L & Hk & Hj).
  { intros o' Ho'. rewrite insert_length. apply Hr. by right. }
  rewrite insert_length in L. exists v'. split; [done|]. split; [done|]. split.
  - intros [|k] o' Hk'.
    + injection Hk' as <-. rewrite Hj.
      * rewrite list_lookup_insert by done. f_equal. lia.
      * intros o' Ho' E. apply Ho. assert (o = o') as -> by (destruct (Hr o'); [by right|lia]). done.
    + cbn in Hk'. rewrite (Hk _ _ Hk'). f_equal. lia.
  - intros j Hn. rewrite Hj by (intros o' Ho'; apply Hn; by right).
    rewrite list_lookup_insert_ne; [done|]. intros E. apply (Hn o); [left|done].
Qed.

(** ** Entries of the dictionaries *)
Section entries.
  Context (ls : list layer) (st : stack) (Hd : dicts_ok (reverse ls ++ st)).
  Definition entries_of {A} (dic : layer → list A) (look : stack → A → option (option nat)) (its : list (list (nat * A))) : Prop :=
    snd <$> mjoin its = mjoin (dic <$> ls) ∧ NoDup (mjoin (dic <$> ls)) ∧
    ∀ id x, (id, x) ∈ mjoin its → look (reverse ls ++ st) x = Some (Some id) ∧ look st x = Some None.
  Lemma nodes_entries : ∃ its, entry_iters l_nodes (λ _, 0) l_nv (nv_count st) (zip ls (l_nvmap <$> ls)) = Some its ∧
    entries_of l_nodes (λ s x, object_id s (inl x)) its.
  Proof.
    rewrite zip_map. pose proof (entry_iters_ok l_nodes l_nvmap (λ _, 0) l_nv nv_count (λ s x, object_id s (inl x))) as H.
    destruct (λ a b c d e f, H a b c d e f 0 ls st Hd) as (its & E1 & E2 & E3 & E4).
    - apply nv_count_cons.
    - intros l s i x Hd' Hi. rewrite Nat.add_0_r. apply l_objs_look; [done|].
      unfold l_objs. apply lookup_app_l_Some. rewrite list_lookup_fmap, Hi. done.
    - intros l s i x. apply object_id_stable'.
    - apply ld_nodes.
    - intros l s x (Hd' & _ & Ho & _) Hx. apply object_id_unknown; [done|]. apply Ho. by apply l_objs_inl.
    - intros s x Hs. destruct (object_id_ok s (inl x) Hs) as (r & E & _). eauto.
    - lia.
    - rewrite Nat.sub_0_r in E1. exists its. split; [done|]. split; [by rewrite mjoin_fmap_snd, E2|]. split; [done|].
      intros id x Hx. destruct (E4 id x Hx) as (_ & E & E'). rewrite Nat.add_0_r in E. done.
  Qed.
  Lemma values_entries : ∃ its, entry_iters l_vals (λ l, length (l_nodes l)) l_nv (nv_count st) (zip ls (l_nvmap <$> ls)) = Some its ∧
    entries_of l_vals (λ s x, object_id s (inr x)) its.
  Proof.
    rewrite zip_map. pose proof (entry_iters_ok l_vals l_nvmap (λ l, length (l_nodes l)) l_nv nv_count (λ s x, object_id s (inr x))) as H.
    destruct (λ a b c d e f, H a b c d e f 0 ls st Hd) as (its & E1 & E2 & E3 & E4).
    - apply nv_count_cons.
    - intros l s i x Hd' Hi. apply l_objs_look; [done|].
      unfold l_objs. rewrite lookup_app_r; rewrite fmap_length; [|lia].
      rewrite Nat.add_sub, list_lookup_fmap, Hi. done.
    - intros l s i x. apply object_id_stable'.
    - apply ld_vals.
    - intros l s x (Hd' & _ & Ho & _) Hx. apply object_id_unknown; [done|]. apply Ho. by apply l_objs_inr.
    - intros s x Hs. destruct (object_id_ok s (inr x) Hs) as (r & E & _). eauto.
    - lia.
    - rewrite Nat.sub_0_r in E1. exists its. split; [done|]. split; [by rewrite mjoin_fmap_snd, E2|]. split; [done|].
      intros id x Hx. destruct (E4 id x Hx) as (_ & E & E'). rewrite Nat.add_0_r in E. done.
  Qed.
  Lemma preds_entries : ∃ its, entry_iters l_preds (λ _, 0) (λ l, length (l_preds l)) (pred_count st) (zip ls (l_pmap <$> ls)) = Some its ∧
    entries_of l_preds predicate_id its.
  Proof.
    rewrite zip_map. pose proof (entry_iters_ok l_preds l_pmap (λ _, 0) (λ l, length (l_preds l)) pred_count predicate_id) as H.
    destruct (λ a b c d e f, H a b c d e f 0 ls st Hd) as (its & E1 & E2 & E3 & E4).
    - done.
    - intros l s i x (_ & Hl & _) Hi. rewrite Nat.add_0_r. cbn [predicate_id].
      rewrite (dict_get_id (l_preds l) (S i) x); [|by apply ssorted_nodup, ld_preds|done].
      pose proof (lookup_lt_Some _ _ _ Hi) as Hlt.
      destruct (inner_to_outer_ok _ _ (ld_pmap _ Hl) (S i)) as (j & -> & ? & _); [lia|].
      exists j. split; [done|]. split; [done|lia].
    - intros l s i x H' E. rewrite predicate_id_stable; [done|done|]. apply predicate_id_known; [apply H'|eauto].
    - apply ld_preds.
    - intros l s x (Hd' & _ & _ & Ho) Hx. apply predicate_id_unknown; [done|]. by apply Ho.
    - intros s x Hs. destruct (predicate_id_ok s x Hs) as (r & E & _). eauto.
    - lia.
    - rewrite Nat.sub_0_r in E1. exists its. split; [done|]. split; [by rewrite mjoin_fmap_snd, E2|]. split; [done|].
      intros id x Hx. destruct (E4 id x Hx) as (_ & E & E'). rewrite Nat.add_0_r in E. done.
  Qed.
End entries.

(** ** The dictionaries of the new layer *)
Definition swap_entry {A} (e : nat * A) : A * nat := (e.2, e.1).
Lemma mjoin_fmap_elem {A B} (f : A → list B) (l : list A) x : x ∈ mjoin (f <$> l) ↔ ∃ y, y ∈ l ∧ x ∈ f y.
Proof.
  rewrite elem_of_list_join. split.
  - intros (z & Hx & (y & -> & Hy)%elem_of_list_fmap). eauto.
  - intros (y & Hy & Hx). exists (f y). split; [done|]. by apply elem_of_list_fmap_1.
Qed.
Lemma objs_elem st x : x ∈ objs st ↔ ∃ l, l ∈ st ∧ x ∈ l_objs l.
Proof.
  induction st as [|l st IH].
  - split; [by intros ?%elem_of_nil|]. intros (l & Hl & _). by apply elem_of_nil in Hl.
  - rewrite objs_cons, IH. split.
    + intros [?|(y & ? & ?)]; [exists l; split; [left|done]|exists y; split; [by right|done]].
    + intros (y & [->|?]%elem_of_cons & ?); eauto.
Qed.
Lemma preds_elem st x : x ∈ preds st ↔ ∃ l, l ∈ st ∧ x ∈ l_preds l.
Proof.
  induction st as [|l st IH].
  - split; [by intros ?%elem_of_nil|]. intros (l & Hl & _). by apply elem_of_nil in Hl.
  - rewrite preds_cons, IH. split.
    + intros [?|(y & ? & ?)]; [exists l; split; [left|done]|exists y; split; [by right|done]].
    + intros (y & [->|?]%elem_of_cons & ?); eauto.
Qed.

Lemma nodup_fmap_filter {A B} (f : A → B) (P : A → Prop) `{!∀ x, Decision (P x)} (l : list A) :
  NoDup (f <$> l) → NoDup (f <$> filter P l).
Proof.
  induction l as [|x l IH]; [done|]. rewrite fmap_cons, filter_cons. intros [Hx Hl]%NoDup_cons.
  case_decide; [|by apply IH]. rewrite fmap_cons. apply NoDup_cons. split; [|by apply IH].
  intros (y & E & [_ Hy]%elem_of_list_filter)%elem_of_list_fmap. apply Hx. rewrite E. by apply elem_of_list_fmap_1.
Qed.

Section collect.
  Context {A : Type} `{HA : Ord A}.
  Context (ls : list layer) (dic : layer → list A) (look1 look0 : A → option (option nat)) (b n : nat).
  Context (Hnew : ∀ x id, look0 x = Some None → look1 x = Some (Some id) → b < id ∧ id - b ≤ n).
  Context (Hinj : ∀ x y id, look1 x = Some (Some id) → look1 y = Some (Some id) → x = y).
  Context (its : list (list (nat * A))).
  Context (Hsnd : snd <$> mjoin its = mjoin (dic <$> ls)) (Hnd : NoDup (mjoin (dic <$> ls))).
  Context (Hits : ∀ id x, (id, x) ∈ mjoin its → look1 x = Some (Some id) ∧ look0 x = Some None).
  Context (used : nat → Prop) (ex : list bool) (Hlen : length ex = n + 1).
  Context (Hex : ∀ id, b < id → ex !! (id - b) = Some true ↔ used id).
  Lemma collect_ok : ∃ r, sq_used b ex (mjoin its) = Some r ∧ SSorted (osort r).*1 ∧ NoDup (osort r).*2 ∧
    ∀ x id, (x, id) ∈ osort r ↔ (∃ l, l ∈ ls ∧ x ∈ dic l) ∧ look1 x = Some (Some id) ∧ used id.
  Proof.
    eexists. split.
    { apply sq_used_ok. intros id x Hx. destruct (Hits _ _ Hx) as [E1 E0]. destruct (Hnew _ _ E0 E1). lia. }
    set (F := filter _ _). change (λ e : nat * A, (e.2, e.1)) with (@swap_entry A).
    assert (HF : ∀ x id, (x, id) ∈ osort (swap_entry <$> F) ↔ (∃ l, l ∈ ls ∧ x ∈ dic l) ∧ look1 x = Some (Some id) ∧ used id).
    { intros x id. rewrite elem_of_osort, elem_of_list_fmap. split.
      - intros ([id' x'] & [= -> ->] & Hin). apply elem_of_list_filter in Hin as [He Hin]. cbn [fst] in He.
        destruct (Hits _ _ Hin) as [E1 E0]. destruct (Hnew _ _ E0 E1) as [Hb _]. split.
        + apply mjoin_fmap_elem. rewrite <-Hsnd. apply elem_of_list_fmap. by exists (id', x').
        + split; [done|]. by apply Hex.
      - intros (Hx & E & Hu). apply mjoin_fmap_elem in Hx. rewrite <-Hsnd in Hx.
        apply elem_of_list_fmap in Hx as ([id' x'] & Ex & Hin). cbn [snd] in Ex. subst x'.
        destruct (Hits _ _ Hin) as [E1 E0]. assert (id' = id) as -> by congruence.
        exists (id, x). split; [done|]. apply elem_of_list_filter. split; [|done]. cbn [fst].
        apply Hex; [|done]. by destruct (Hnew _ _ E0 E1). }
    assert (N1 : NoDup (osort (swap_entry <$> F)).*1).
    { rewrite osort_perm. rewrite <-list_fmap_compose.
      replace (fst ∘ swap_entry) with (snd : nat * A → A) by done.
      apply nodup_fmap_filter. by rewrite Hsnd. }
    split; [by apply osort_fst_ssorted|]. split; [|done].
    apply NoDup_fmap_2_strong; [|by eapply NoDup_fmap_1].
    intros [x i] [y j] Hx Hy E. cbn [snd] in E. subst j.
    apply HF in Hx as (_ & E1 & _). apply HF in Hy as (_ & E2 & _). by rewrite (Hinj x y i).
  Qed.
End collect.

Lemma mjoin_app' {A} (l k : list (list A)) : mjoin (l ++ k) = mjoin l ++ mjoin k.
Proof. induction l as [|x l IH]; [done|]. cbn [app]. rewrite !mjoin_cons, IH. by rewrite app_assoc. Qed.
Section dicts.
  Context (ls : list layer) (base : stack) (ts : list triple) (Hd : dicts_ok (reverse ls ++ base)).
  Context (Hts : ∀ t, t ∈ ts → ∃ vt, den (reverse ls ++ base) vt t).
  Notation full := (reverse ls ++ base).
  Notation b := (nv_count base). Notation bp := (pred_count base).
  Notation n := (length (mjoin (l_nodes <$> ls)) + length (mjoin (l_vals <$> ls))).
  Notation np := (length (mjoin (l_preds <$> ls))).

  Lemma sq_total : nv_count full = b + n.
  Proof.
    clear. induction ls as [|l ls' IH] using rev_ind; [cbn; lia|].
    rewrite reverse_app. cbn [app]. change (reverse [l]) with [l]. cbn [app]. rewrite nv_count_cons, IH.
    rewrite !fmap_app, !mjoin_app'. rewrite !app_length. cbn. rewrite !app_nil_r. unfold l_nv. lia.
  Qed.
  Lemma sq_total_preds : pred_count full = bp + np.
  Proof.
    clear. induction ls as [|l ls' IH] using rev_ind; [cbn; lia|].
    rewrite reverse_app. change (reverse [l]) with [l]. cbn [app pred_count]. rewrite IH.
    rewrite !fmap_app, !mjoin_app'. rewrite !app_length. cbn. rewrite !app_nil_r. lia.
  Qed.
  Let Hb : dicts_ok base.
  Proof. clear -Hd. induction (reverse ls) as [|l s IH]; [done|]. apply IH, Hd. Qed.
  Lemma sq_object_new x id : object_id base x = Some None → object_id full x = Some (Some id) → b < id ∧ id - b ≤ n.
  Proof.
    intros E0 E1. pose proof (object_id_range _ Hd _ _ E1) as Hr. rewrite sq_total in Hr.
    assert (x ∉ objs base) as Hx by (intros Hx%object_id_known; [destruct Hx; congruence|done]).
    split; [|lia]. clear Hr. revert E1 Hd. generalize (reverse ls). intros s.
    induction s as [|l s IH]; intros E1 Hd'; [cbn in E1; congruence|]. cbn [app] in *.
    destruct (decide (x ∈ objs (s ++ base))) as [Hin|Hn].
    - rewrite object_id_stable in E1 by done. apply IH; [done|apply Hd'].
    - apply object_id_new in E1; [|done..]. assert (b ≤ nv_count (s ++ base)); [|lia].
      rewrite nv_count_app. lia.
  Qed.
  Lemma sq_predicate_new x id : predicate_id base x = Some None → predicate_id full x = Some (Some id) → bp < id ∧ id - bp ≤ np.
  Proof.
    intros E0 E1. pose proof (predicate_id_range _ Hd _ _ E1) as Hr. rewrite sq_total_preds in Hr.
    assert (x ∉ preds base) as Hx by (intros Hx%predicate_id_known; [destruct Hx; congruence|done]).
    split; [|lia]. clear Hr. revert E1 Hd. generalize (reverse ls). intros s.
    induction s as [|l s IH]; intros E1 Hd'; [cbn in E1; congruence|]. cbn [app] in *.
    destruct (decide (x ∈ preds (s ++ base))) as [Hin|Hn].
    - rewrite predicate_id_stable in E1 by done. apply IH; [done|apply Hd'].
    - apply predicate_id_new in E1; [|done..]. assert (bp ≤ pred_count (s ++ base)); [|lia].
      rewrite pred_count_app. lia.
  Qed.
  Definition used_obj (id : nat) : Prop := ∃ t, t ∈ ts ∧ (id = t_s t ∨ id = t_o t).
  Definition used_pred (id : nat) : Prop := ∃ t, t ∈ ts ∧ id = t_p t.

  Lemma squash_dicts_parts : ∃ d, squash_dicts b bp ls ts = Some d ∧
    SSorted (sq_nodes d).*1 ∧ SSorted (sq_preds d).*1 ∧ SSorted (sq_vals d).*1 ∧
    (∀ x id, (x, id) ∈ sq_nodes d ↔ (∃ l, l ∈ ls ∧ x ∈ l_nodes l) ∧ object_id full (inl x) = Some (Some id) ∧ used_obj id) ∧
    (∀ x id, (x, id) ∈ sq_vals d ↔ (∃ l, l ∈ ls ∧ x ∈ l_vals l) ∧ object_id full (inr x) = Some (Some id) ∧ used_obj id) ∧
    (∀ x id, (x, id) ∈ sq_preds d ↔ (∃ l, l ∈ ls ∧ x ∈ l_preds l) ∧ predicate_id full x = Some (Some id) ∧ used_pred id) ∧
    (∀ k x id, sq_nodes d !! k = Some (x, id) → sq_nvm d !! (id - b) = Some (b + 1 + k)) ∧
    (∀ k x id, sq_vals d !! k = Some (x, id) → sq_nvm d !! (id - b) = Some (b + 1 + length (sq_nodes d) + k)) ∧
    (∀ k x id, sq_preds d !! k = Some (x, id) → sq_pm d !! (id - bp) = Some (bp + 1 + k)).
  Proof.
    unfold squash_dicts.
    destruct (sq_existences_ok b bp ts (replicate (n + 1) false) (replicate (np + 1) false)) as (nvex & pex & E & L1 & L2 & M1 & M2).
    { intros t Ht. rewrite !replicate_length. destruct (Hts t Ht) as [vt Hvt].
      destruct (den_range _ Hd _ _ Hvt) as (R1 & R2 & R3). rewrite sq_total in R1, R3. rewrite sq_total_preds in R2. lia. }
    rewrite replicate_length in L1, L2. rewrite E. cbn [mbind option_bind].
    assert (Hno : ∀ i m, replicate m false !! i ≠ Some true) by (intros i m [? ?]%lookup_replicate; done).
    assert (X1 : ∀ id, b < id → nvex !! (id - b) = Some true ↔ used_obj id).
    { intros id Hid. rewrite M1. split.
      - intros [?|(t & id' & Ht & Ho & Hle & Ei)]; [by destruct (Hno (id - b) (n + 1))|].
        assert (id' = id) as -> by lia. by exists t.
      - intros (t & Ht & Ho). right. exists t, id. split_and!; auto. lia. }
    assert (X2 : ∀ id, bp < id → pex !! (id - bp) = Some true ↔ used_pred id).
    { intros id Hid. rewrite M2. split.
      - intros [?|(t & Ht & Hle & Ei)]; [by destruct (Hno (id - bp) (np + 1))|].
        exists t. split; [done|lia].
      - intros (t & Ht & ->). right. exists t. split_and!; auto. lia. }
    clear E M1 M2 Hno. unfold sq_collect.
    destruct (nodes_entries ls base Hd) as (itn & -> & N1 & N2 & N3). cbn [mbind option_bind].
    destruct (collect_ok ls l_nodes (λ x, object_id full (inl x)) (λ x, object_id base (inl x)) b n
      (λ x id H H', sq_object_new (inl x) id H H')
      (λ x y id H H', f_equal (λ o : obj, match o with inl s => s | inr _ => x end) (object_id_inj _ Hd _ _ _ H H'))
      itn N1 N2 N3 used_obj nvex L1 X1) as (nodes & -> & SN & DN & IN).
    cbn [mbind option_bind]. clear N1 N2 N3 itn.
    destruct (preds_entries ls base Hd) as (itn & -> & N1 & N2 & N3). cbn [mbind option_bind].
    destruct (collect_ok ls l_preds (predicate_id full) (predicate_id base) bp np
      sq_predicate_new (predicate_id_inj _ Hd)
      itn N1 N2 N3 used_pred pex L2 X2) as (prs & -> & SP & DP & IP).
    cbn [mbind option_bind]. clear N1 N2 N3 itn.
    destruct (values_entries ls base Hd) as (itn & -> & N1 & N2 & N3). cbn [mbind option_bind].
    destruct (collect_ok ls l_vals (λ x, object_id full (inr x)) (λ x, object_id base (inr x)) b n
      (λ x id H H', sq_object_new (inr x) id H H')
      (λ x y id H H', f_equal (λ o : obj, match o with inr s => s | inl _ => x end) (object_id_inj _ Hd _ _ _ H H'))
      itn N1 N2 N3 used_obj nvex L1 X1) as (vals & -> & SV & DV & IV).
    cbn [mbind option_bind]. clear N1 N2 N3 itn.
    assert (Hnewn : ∀ l x, l ∈ ls → x ∈ l_objs l → x ∉ objs base).
    { intros l x Hl Hx Hx'. revert Hd. assert (Hl' : l ∈ reverse ls) by (by apply elem_of_reverse).
      revert Hl'. generalize (reverse ls). intros s Hl'. induction s as [|l' s IH]; [by apply elem_of_nil in Hl'|].
      intros Hd'. apply elem_of_cons in Hl' as [->|Hl']; [|by apply IH, Hd'].
      destruct Hd' as (_ & _ & Ho & _). apply (Ho x Hx). apply objs_app. by right. }
    assert (Hnewp : ∀ l x, l ∈ ls → x ∈ l_preds l → x ∉ preds base).
    { intros l x Hl Hx Hx'. revert Hd. assert (Hl' : l ∈ reverse ls) by (by apply elem_of_reverse).
      revert Hl'. generalize (reverse ls). intros s Hl'. induction s as [|l' s IH]; [by apply elem_of_nil in Hl'|].
      intros Hd'. apply elem_of_cons in Hl' as [->|Hl']; [|by apply IH, Hd'].
      destruct Hd' as (_ & _ & _ & Ho). apply (Ho x Hx). apply preds_app. by right. }
    assert (Hrn : ∀ o, o ∈ (osort nodes).*2 → ∃ x, object_id full (inl x) = Some (Some o) ∧ b < o ∧ o - b ≤ n).
    { intros o ([x id] & -> & Hx)%elem_of_list_fmap. apply IN in Hx as ((l & Hl & Hx) & E1 & _). exists x. split; [done|].
      apply (sq_object_new (inl x)); [|done]. apply object_id_unknown; [done|]. eapply Hnewn; [exact Hl|]. by apply l_objs_inl. }
    assert (Hrv : ∀ o, o ∈ (osort vals).*2 → ∃ x, object_id full (inr x) = Some (Some o) ∧ b < o ∧ o - b ≤ n).
    { intros o ([x id] & -> & Hx)%elem_of_list_fmap. apply IV in Hx as ((l & Hl & Hx) & E1 & _). exists x. split; [done|].
      apply (sq_object_new (inr x)); [|done]. apply object_id_unknown; [done|]. eapply Hnewn; [exact Hl|]. by apply l_objs_inr. }
    assert (Hrp : ∀ o, o ∈ (osort prs).*2 → bp < o ∧ o - bp ≤ np).
    { intros o ([x id] & -> & Hx)%elem_of_list_fmap. apply IP in Hx as ((l & Hl & Hx) & E1 & _).
      apply (sq_predicate_new x); [|done]. apply predicate_id_unknown; [done|]. by eapply Hnewp. }
    assert (HND : NoDup ((osort nodes).*2 ++ (osort vals).*2)).
    { apply NoDup_app. split; [done|]. split; [|done]. intros o Ho Hv.
      destruct (Hrn o Ho) as (x & Ex & _), (Hrv o Hv) as (y & Ey & _).
      pose proof (object_id_inj _ Hd _ _ _ Ex Ey). done. }
    destruct (sq_fill_ok b (replicate (n + 1) 0) (b + 1) ((osort nodes).*2 ++ (osort vals).*2) HND) as (nvm & Env & _ & Knv & _).
    { intros o [Ho|Ho]%elem_of_app; rewrite replicate_length; [destruct (Hrn o Ho) as (? & _ & ?)|destruct (Hrv o Ho) as (? & _ & ?)]; lia. }
    rewrite sq_fill_app in Env. rewrite fmap_length in Env.
    destruct (sq_fill b (replicate (n + 1) 0) (b + 1) (osort nodes).*2) as [nvm1|]; [|done]. cbn [mbind option_bind] in *.
    replace (length (osort nodes) + 1 + b) with (b + 1 + length (osort nodes)) by lia. rewrite Env. cbn [mbind option_bind].
    destruct (sq_fill_ok bp (replicate (np + 1) 0) (bp + 1) (osort prs).*2 DP) as (pm & -> & _ & Kp & _).
    { intros o Ho. rewrite replicate_length. specialize (Hrp o Ho). lia. }
    cbn [mbind option_bind]. eexists. split; [done|]. cbn [sq_nodes sq_vals sq_preds sq_nvm sq_pm].
    split_and!; try done.
    - intros k x id Hk. apply Knv. apply lookup_app_l_Some. by rewrite list_lookup_fmap, Hk.
    - intros k x id Hk. rewrite (Knv (length (osort nodes) + k) id); [f_equal; lia|].
      rewrite lookup_app_r; rewrite fmap_length; [|lia]. replace (_ + k - _) with k by lia. by rewrite list_lookup_fmap, Hk.
    - intros k x id Hk. apply Kp. by rewrite list_lookup_fmap, Hk.
  Qed.
End dicts.

Lemma den_stable_app top st vt u : dicts_ok (top ++ st) → den st vt u → den (top ++ st) vt u.
Proof.
  intros Hd Hu. induction top as [|l top IH]; [done|]. cbn [app] in *. apply den_stable; [done|]. by apply IH, Hd.
Qed.
Lemma dicts_ok_drop top st : dicts_ok (top ++ st) → dicts_ok st.
Proof. induction top as [|l top IH]; [done|]. intros Hd. by apply IH, Hd. Qed.

(** What is needed of the new dictionaries: their strings, and that the maps turn the id a
    string had into the id it has. *)
Record squashed (full base : stack) (ts : list triple) (d : sq_parts) (l : layer) : Prop := {
  sd_dicts : dicts_ok (l :: base);
  sd_objs : ∀ x, x ∈ l_objs l ↔ x ∉ objs base ∧ ∃ t vt, t ∈ ts ∧ den full vt t ∧ (x = inl vt.1.1 ∨ x = vt.2);
  sd_preds : ∀ x, x ∈ l_preds l ↔ x ∉ preds base ∧ ∃ t vt, t ∈ ts ∧ den full vt t ∧ x = vt.1.2;
  sd_obj : ∀ x id, object_id full x = Some (Some id) → x ∈ objs (l :: base) →
    ∃ id', object_id (l :: base) x = Some (Some id') ∧ sq_remap (nv_count base) (sq_nvm d) id = Some id';
  sd_pred : ∀ x id, predicate_id full x = Some (Some id) → x ∈ preds (l :: base) →
    ∃ id', predicate_id (l :: base) x = Some (Some id') ∧ sq_remap (pred_count base) (sq_pm d) id = Some id' }.

Lemma squash_dicts_ok ls base ts : dicts_ok (reverse ls ++ base) →
  (∀ t, t ∈ ts → ∃ vt, den (reverse ls ++ base) vt t) →
  ∃ d, squash_dicts (nv_count base) (pred_count base) ls ts = Some d ∧
    SSorted (sq_nodes d).*1 ∧ SSorted (sq_preds d).*1 ∧ SSorted (sq_vals d).*1 ∧
    ∀ pos neg, squashed (reverse ls ++ base) base ts d
      (Layer (sq_nodes d).*1 (sq_preds d).*1 (sq_vals d).*1 None None pos neg).
Proof.
  intros Hd Hts. destruct (squash_dicts_parts ls base ts Hd Hts) as (d & E & SN & SP & SV & IN & IV & IP & KN & KV & KP).
  exists d. split; [done|]. split; [done|]. split; [done|]. split; [done|]. intros pos neg.
  set (full := reverse ls ++ base) in *. set (l := Layer _ _ _ _ _ _ _).
  pose proof (dicts_ok_drop _ _ Hd) as Hb.
  assert (Hfo : ∀ x, x ∈ objs full ↔ (∃ l, l ∈ ls ∧ x ∈ l_objs l) ∨ x ∈ objs base).
  { intros x. unfold full. rewrite (objs_elem (reverse ls ++ base)), (objs_elem base). split.
    - intros (l' & [Hl|Hl]%elem_of_app & Hx); [left|right]; exists l'; (split; [|done]); [by apply elem_of_reverse|done].
    - intros [(l' & Hl & Hx)|(l' & Hl & Hx)]; exists l'; (split; [|done]); apply elem_of_app; [left; by apply elem_of_reverse|by right]. }
  assert (Hfp : ∀ x, x ∈ preds full ↔ (∃ l, l ∈ ls ∧ x ∈ l_preds l) ∨ x ∈ preds base).
  { intros x. unfold full. rewrite (preds_elem (reverse ls ++ base)), (preds_elem base). split.
    - intros (l' & [Hl|Hl]%elem_of_app & Hx); [left|right]; exists l'; (split; [|done]); [by apply elem_of_reverse|done].
    - intros [(l' & Hl & Hx)|(l' & Hl & Hx)]; exists l'; (split; [|done]); apply elem_of_app; [left; by apply elem_of_reverse|by right]. }
  assert (Hno : ∀ x, (∃ l, l ∈ ls ∧ x ∈ l_objs l) → x ∉ objs base).
  { intros x (l' & Hl & Hx) Hx'. revert Hd. unfold full. assert (Hl' : l' ∈ reverse ls) by (by apply elem_of_reverse).
    revert Hl'. generalize (reverse ls). intros s Hl'. induction s as [|l2 s IH]; [by apply elem_of_nil in Hl'|].
    intros Hd'. apply elem_of_cons in Hl' as [->|Hl']; [|by apply IH, Hd'].
    destruct Hd' as (_ & _ & Ho & _). apply (Ho x Hx). apply objs_app. by right. }
  assert (Hnp : ∀ x, (∃ l, l ∈ ls ∧ x ∈ l_preds l) → x ∉ preds base).
  { intros x (l' & Hl & Hx) Hx'. revert Hd. unfold full. assert (Hl' : l' ∈ reverse ls) by (by apply elem_of_reverse).
    revert Hl'. generalize (reverse ls). intros s Hl'. induction s as [|l2 s IH]; [by apply elem_of_nil in Hl'|].
    intros Hd'. apply elem_of_cons in Hl' as [->|Hl']; [|by apply IH, Hd'].
    destruct Hd' as (_ & _ & _ & Ho). apply (Ho x Hx). apply preds_app. by right. }
  (* the strings *)
  assert (Ho : ∀ x, x ∈ l_objs l ↔ x ∉ objs base ∧ ∃ id, object_id full x = Some (Some id) ∧ used_obj ts id).
  { intros x. destruct x as [x|x].
    - rewrite l_objs_inl. cbn [l_nodes l]. rewrite elem_of_list_fmap. split.
      + intros ([x' id] & -> & Hx). apply IN in Hx as ((l' & Hl & Hx) & E1 & Hu). split; [|eauto].
        apply Hno. exists l'. split; [done|]. by apply l_objs_inl.
      + intros (Hx & id & E1 & Hu). exists (x, id). split; [done|]. apply IN. split; [|done].
        destruct (proj1 (Hfo (inl x))) as [(l' & Hl & Hx')|]; [apply object_id_known; eauto| |done].
        exists l'. split; [done|]. by apply l_objs_inl.
    - rewrite l_objs_inr. cbn [l_vals l]. rewrite elem_of_list_fmap. split.
      + intros ([x' id] & -> & Hx). apply IV in Hx as ((l' & Hl & Hx) & E1 & Hu). split; [|eauto].
        apply Hno. exists l'. split; [done|]. by apply l_objs_inr.
      + intros (Hx & id & E1 & Hu). exists (x, id). split; [done|]. apply IV. split; [|done].
        destruct (proj1 (Hfo (inr x))) as [(l' & Hl & Hx')|]; [apply object_id_known; eauto| |done].
        exists l'. split; [done|]. by apply l_objs_inr. }
  assert (Hp : ∀ x, x ∈ l_preds l ↔ x ∉ preds base ∧ ∃ id, predicate_id full x = Some (Some id) ∧ used_pred ts id).
  { intros x. cbn [l_preds l]. rewrite elem_of_list_fmap. split.
    + intros ([x' id] & -> & Hx). apply IP in Hx as (Hx & E1 & Hu). split; [|eauto]. by apply Hnp.
    + intros (Hx & id & E1 & Hu). exists (x, id). split; [done|]. apply IP. split; [|done].
      destruct (proj1 (Hfp x)) as [?|]; [apply predicate_id_known; eauto|done|done]. }
  assert (Hdl : dicts_ok (l :: base)).
  { split; [done|]. split; [by split|]. split; [intros x Hx%Ho; apply Hx|intros x Hx%Hp; apply Hx]. }
  split; [done| | | |].
  - intros x. rewrite Ho. split.
    + intros (Hx & id & E1 & t & Ht & Hid). split; [done|]. destruct (Hts t Ht) as [vt Hvt]. exists t, vt.
      split; [done|]. split; [done|]. destruct Hvt as (V1 & V2 & V3).
      destruct Hid as [-> | ->]; [left; exact (object_id_inj _ Hd _ _ _ E1 V1)|right; exact (object_id_inj _ Hd _ _ _ E1 V3)].
    + intros (Hx & t & vt & Ht & (V1 & V2 & V3) & Hx'). split; [done|].
      destruct Hx' as [-> | ->]; [exists (t_s t)|exists (t_o t)]; (split; [done|]); exists t; auto.
  - intros x. rewrite Hp. split.
    + intros (Hx & id & E1 & t & Ht & ->). split; [done|]. destruct (Hts t Ht) as [vt Hvt]. exists t, vt.
      split; [done|]. split; [done|]. destruct Hvt as (V1 & V2 & V3). exact (predicate_id_inj _ Hd _ _ _ E1 V2).
    + intros (Hx & t & vt & Ht & (V1 & V2 & V3) & ->). split; [done|]. exists (t_p t). split; [done|]. by exists t.
  - intros x id E1 Hx. unfold sq_remap. destruct (decide (x ∈ objs base)) as [Hxb|Hxb].
    + pose proof (object_id_stable_app _ _ _ Hd Hxb) as Es. fold full in Es. rewrite E1 in Es.
      exists id. rewrite object_id_stable by done. split; [done|].
      pose proof (object_id_range _ Hb _ _ (eq_sym Es)). by rewrite decide_True by lia.
    + apply objs_cons in Hx as [Hx|Hx]; [|done].
      pose proof (proj1 (Ho x) Hx) as (_ & id' & E1' & Hu). rewrite E1 in E1'. injection E1' as <-.
      destruct (sq_object_new ls base Hd x id (object_id_unknown _ Hb _ Hxb) E1) as [Hgt _].
      rewrite decide_False by lia.
      assert (Hk : ∃ k, l_objs l !! k = Some x ∧ sq_nvm d !! (id - nv_count base) = Some (nv_count base + 1 + k)).
      { destruct x as [x|x].
        - apply l_objs_inl in Hx. cbn [l_nodes l] in Hx. apply elem_of_list_fmap in Hx as ([x' id'] & Ex & Hx).
          cbn [fst] in Ex. subst x'. pose proof (proj1 (IN x id') Hx) as (_ & E2 & _). rewrite E1 in E2. injection E2 as <-.
          apply elem_of_list_lookup in Hx as [k Hk]. exists k. split; [|by eapply KN].
          unfold l_objs. cbn [l_nodes l_vals l]. apply lookup_app_l_Some. by rewrite !list_lookup_fmap, Hk.
        - apply l_objs_inr in Hx. cbn [l_vals l] in Hx. apply elem_of_list_fmap in Hx as ([x' id'] & Ex & Hx).
          cbn [fst] in Ex. subst x'. pose proof (proj1 (IV x id') Hx) as (_ & E2 & _). rewrite E1 in E2. injection E2 as <-.
          apply elem_of_list_lookup in Hx as [k Hk]. exists (length (sq_nodes d) + k). split.
          + unfold l_objs. cbn [l_nodes l_vals l]. rewrite lookup_app_r; rewrite !fmap_length; [|lia].
            replace (_ + k - _) with k by lia. by rewrite !list_lookup_fmap, Hk.
          + rewrite (KV k x id Hk). f_equal. lia. }
      destruct Hk as (k & Hk1 & Hk2). exists (nv_count base + 1 + k). split; [|done].
      rewrite object_id_cons.
      rewrite (dict_get_id (l_objs l) (S k) x); [|apply l_objs_nodup, Hdl|done].
      cbn [l_nvmap l inner_to_outer mbind option_bind]. do 2 f_equal. lia.
  - intros x id E1 Hx. unfold sq_remap. destruct (decide (x ∈ preds base)) as [Hxb|Hxb].
    + pose proof (predicate_id_stable_app _ _ _ Hd Hxb) as Es. fold full in Es. rewrite E1 in Es.
      exists id. rewrite predicate_id_stable by done. split; [done|].
      pose proof (predicate_id_range _ Hb _ _ (eq_sym Es)). by rewrite decide_True by lia.
    + apply preds_cons in Hx as [Hx|Hx]; [|done].
      pose proof (proj1 (Hp x) Hx) as (_ & id' & E1' & Hu). rewrite E1 in E1'. injection E1' as <-.
      destruct (sq_predicate_new ls base Hd x id (predicate_id_unknown _ Hb _ Hxb) E1) as [Hgt _].
      rewrite decide_False by lia.
      cbn [l_preds l] in Hx. apply elem_of_list_fmap in Hx as ([x' id'] & Ex & Hx).
      cbn [fst] in Ex. subst x'. pose proof (proj1 (IP x id') Hx) as (_ & E2 & _). rewrite E1 in E2. injection E2 as <-.
      apply elem_of_list_lookup in Hx as [k Hk]. exists (pred_count base + 1 + k). split; [|by eapply KP].
      cbn [predicate_id].
      rewrite (dict_get_id (l_preds l) (S k) x); [|by apply ssorted_nodup|cbn; by rewrite list_lookup_fmap, Hk].
      cbn [l_pmap l inner_to_outer mbind option_bind]. do 2 f_equal. lia.
Qed.

(** Triples follow. *)
Lemma squashed_triple full base ts d l vt t : squashed full base ts d l → den full vt t →
  (t ∈ ts ∨ ∃ u, den base vt u) →
  ∃ t', den (l :: base) vt t' ∧ ∀ c, squash_change (nv_count base) (pred_count base) d (c, t) = Some (c, t').
Proof.
  intros [Hd Ho Hp Mo Mp] Hvt Hor.
  assert (inl vt.1.1 ∈ objs (l :: base) ∧ vt.1.2 ∈ preds (l :: base) ∧ vt.2 ∈ objs (l :: base)) as (K1 & K2 & K3).
  { rewrite !objs_cons, preds_cons. destruct Hor as [Ht|Hu].
    - rewrite !Ho, Hp. split_and!.
      + destruct (decide (inl vt.1.1 ∈ objs base)); eauto 10.
      + destruct (decide (vt.1.2 ∈ preds base)); eauto 10.
      + destruct (decide (vt.2 ∈ objs base)); eauto 10.
    - apply den_known in Hu; [|apply Hd]. naive_solver. }
  destruct Hvt as (V1 & V2 & V3).
  destruct (Mo _ _ V1 K1) as (s & S1 & S2), (Mp _ _ V2 K2) as (p & P1 & P2), (Mo _ _ V3 K3) as (o & O1 & O2).
  exists (mkt s p o). split; [done|]. intros c. unfold squash_change. cbn [fst snd]. rewrite S2, P2, O2. done.
Qed.

(** ** The new layer *)
Lemma mapM_rel {A B} (f : A → option B) (P : A → B → Prop) l :
  (∀ x, x ∈ l → ∃ y, f x = Some y ∧ P x y) → ∃ k, mapM f l = Some k ∧ Forall2 P l k.
Proof.
  induction l as [|x l IH]; intros H; [exists []; split; [done|constructor]|].
  destruct (H x) as (y & E & Hy); [left|]. destruct IH as (k & E' & Hk); [intros; apply H; by right|].
  exists (y :: k). split; [|by constructor]. cbn [mapM]. rewrite E. cbn [mbind option_bind]. by rewrite E'.
Qed.
Lemma nodup_rel {A B} (P : A → B → Prop) l k : Forall2 P l k → NoDup l →
  (∀ x y z, P x z → P y z → x = y) → NoDup k.
Proof.
  intros HF Hnd Hinj. induction HF as [|x y l k Hxy HF IH]; [constructor|].
  apply NoDup_cons in Hnd as [Hx Hnd]. apply NoDup_cons. split; [|by apply IH].
  intros Hy. apply elem_of_list_lookup in Hy as [i Hi].
  destruct (Forall2_lookup_r _ _ _ _ _ HF Hi) as (x' & Hx' & Hp). rewrite (Hinj x x' y Hxy Hp) in Hx.
  apply Hx. by eapply elem_of_list_lookup_2.
Qed.
Lemma elem_rel {A B} (P : A → B → Prop) l k y : Forall2 P l k → y ∈ k → ∃ x, x ∈ l ∧ P x y.
Proof.
  intros HF [i Hi]%elem_of_list_lookup. destruct (Forall2_lookup_r _ _ _ _ _ HF Hi) as (x & Hx & Hp).
  exists x. split; [by eapply elem_of_list_lookup_2|done].
Qed.
Lemma elem_rel_l {A B} (P : A → B → Prop) l k x : Forall2 P l k → x ∈ l → ∃ y, y ∈ k ∧ P x y.
Proof.
  intros HF [i Hi]%elem_of_list_lookup. destruct (Forall2_lookup_l _ _ _ _ _ HF Hi) as (y & Hy & Hp).
  exists y. split; [by eapply elem_of_list_lookup_2|done].
Qed.

Theorem squash_committed st V : wf st → (∀ vt, vt ∈ V ↔ holds st vt) →
  ∃ l, squash st = Some l ∧ committed [] V [] l.
Proof.
  intros Hw HV. unfold squash. assert (Hd : dicts_ok st) by apply Hw.
  rewrite (triples_ok st (wf_files _ Hw) (wf_changes _ Hw)). cbn [mbind option_bind].
  destruct (squash_dicts_ok (reverse st) [] (view st)) as (d & E & SN & SP & SV & HS).
  { by rewrite reverse_involutive, app_nil_r. }
  { intros t Ht%view_elem. rewrite reverse_involutive, app_nil_r. by apply in_view_den. }
  change (nv_count []) with 0 in E. change (pred_count []) with 0 in E. rewrite E. cbn [mbind option_bind].
  rewrite reverse_involutive, app_nil_r in HS.
  destruct (build_tfiles_ok false [] (SSorted_nil _)) as (tf0 & _ & _); [by intros u ?%elem_of_nil|].
  set (l0 := Layer (sq_nodes d).*1 (sq_preds d).*1 (sq_vals d).*1 None None tf0 None).
  pose proof (HS tf0 None) as HS0. fold l0 in HS0. pose proof (sd_dicts _ _ _ _ _ HS0) as Hd0.
  set (P := λ t t' : triple, ∃ vt, den st vt t ∧ den [l0] vt t').
  destruct (mapM_rel (squash_triple d) P (view st)) as (T & ET & HF).
  { intros t Ht. destruct (in_view_den st t Hw) as [vt Hvt]; [by apply view_elem|].
    destruct (squashed_triple _ _ _ _ _ vt t HS0 Hvt) as (t' & Ht' & Ec); [by left|].
    exists t'. split; [|by exists vt]. specialize (Ec true). revert Ec. unfold squash_change, squash_triple, sq_remap.
    destruct (den_range _ Hd _ _ Hvt) as (R1 & R2 & R3). cbn [nv_count pred_count fst snd].
    rewrite !decide_False by lia. rewrite !Nat.sub_0_r.
    destruct (sq_nvm d !! t_s t) as [s|]; [|done]. cbn [mbind option_bind].
    destruct (sq_pm d !! t_p t) as [p|]; [|done]. cbn [mbind option_bind].
    destruct (sq_nvm d !! t_o t) as [o|]; [|done]. cbn [mbind option_bind]. intros [= <-]. done. }
  rewrite ET. cbn [mbind option_bind]. unfold base_layer.
  assert (HST : SSorted (osort T)).
  { apply osort_ssorted. eapply nodup_rel; [exact HF|apply ssorted_nodup, view_sorted|].
    intros x y z (vt & A1 & A2) (vt' & B1 & B2). rewrite (den_inj _ Hd0 vt vt' z A2 B2) in A1. by eapply den_fun. }
  assert (HTe : ∀ u, u ∈ osort T ↔ ∃ vt, vt ∈ V ∧ den [l0] vt u).
  { intros u. rewrite elem_of_osort. split.
    - intros Hu. destruct (elem_rel _ _ _ _ HF Hu) as (t & Ht & vt & A1 & A2). exists vt. split; [|done].
      apply HV. exists t. split; [done|]. by apply view_elem.
    - intros (vt & Hvt & Hu). apply HV in Hvt as (t & Ht & Hv). apply view_elem in Hv.
      destruct (elem_rel_l _ _ _ _ HF Hv) as (t' & Ht' & vt' & A1 & A2).
      rewrite (den_inj _ Hd _ _ _ A1 Ht) in A2. by rewrite (den_fun _ _ _ _ Hu A2). }
  destruct (build_tfiles_ok false (osort T) HST) as (tf & Etf & _).
  { intros u (vt & _ & Hu)%HTe. by eapply den_nonzero. }
  rewrite Etf. cbn [mbind option_bind]. eexists. split; [done|].
  assert (Hin : ∀ vt, (∃ t, t ∈ view st ∧ den st vt t) ↔ vt ∈ V).
  { intros vt. rewrite HV. unfold holds. setoid_rewrite view_elem. naive_solver. }
  split; try done.
  - intros x. rewrite (sd_objs _ _ _ _ _ (HS tf None) x). split.
    + intros (Hx & t & vt & Ht & Hvt & Ex). split; [done|]. exists vt. split; [apply Hin; eauto|]. split; [by intros ?%elem_of_nil|done].
    + intros (Hx & vt & Hvt & _ & Ex). split; [done|]. apply Hin in Hvt as (t & Ht & Hvt). eauto 10.
  - intros x. rewrite (sd_preds _ _ _ _ _ (HS tf None) x). split.
    + intros (Hx & t & vt & Ht & Hvt & Ex). split; [done|]. exists vt. split; [apply Hin; eauto|]. split; [by intros ?%elem_of_nil|done].
    + intros (Hx & vt & Hvt & _ & Ex). split; [done|]. apply Hin in Hvt as (t & Ht & Hvt). eauto 10.
  - exists (osort T). split; [done|]. split; [done|]. intros u. rewrite HTe. split.
    + intros (vt & Hvt & Hu). exists vt. split_and!; [done|by intros ?%elem_of_nil|exact Hu|by intros ?%in_view_nil].
    + intros (vt & Hvt & _ & Hu & _). exists vt. split; [done|exact Hu].
Qed.

Lemma filter_fst_ssorted (k : nat) (l : list (nat * triple)) : SSorted l →
  SSorted (snd <$> filter (λ c, c.1 = k) l).
Proof.
  induction l as [|[c t] l IH]; intros Hs; [constructor|]. apply ssorted_cons in Hs as [Hs Hall].
  rewrite filter_cons. cbn [fst]. case_decide as Hc; [|by apply IH]. rewrite fmap_cons. apply ssorted_cons.
  split; [by apply IH|]. intros t' ([c' t2] & -> & Ht)%elem_of_list_fmap. apply elem_of_list_filter in Ht as [Hc' Ht].
  cbn [fst snd] in *. subst c c'. specialize (Hall _ Ht). destruct Hall as [Hlt|[_ Hlt]]; [|done].
  cbn [fst] in Hlt. ord_absurd.
Qed.
Lemma holds_diff top base vt : wf (top ++ base) → wf base →
  (holds (top ++ base) vt ∧ ¬ holds base vt ↔ ∃ t, (true, t) ∈ stack_diff top base ∧ den (top ++ base) vt t) ∧
  (holds base vt ∧ ¬ holds (top ++ base) vt ↔ ∃ t, (false, t) ∈ stack_diff top base ∧ den base vt t).
Proof.
  intros Hw Hb. assert (Hd : dicts_ok (top ++ base)) by apply Hw. assert (Hdb : dicts_ok base) by apply Hb.
  setoid_rewrite stack_diff_elem. split; split.
  - intros [(t & Ht & Hv) Hn]. exists t. split; [|done]. split; [done|]. intros Hvb.
    destruct (in_view_den base t Hb Hvb) as [vt' Hvt']. apply Hn.
    rewrite (den_inj _ Hd vt vt' t Ht); [by exists t|by apply den_stable_app].
  - intros (t & [Hv Hnv] & Ht). split; [by exists t|]. intros (t' & Ht' & Hv'). destruct Hnv.
    rewrite (den_fun (top ++ base) vt t t'); [done|done|by apply den_stable_app].
  - intros [(t & Ht & Hv) Hn]. exists t. split; [|done]. split; [done|]. intros Hvb. apply Hn. exists t. split; [|done].
    by apply den_stable_app.
  - intros (t & [Hv Hnv] & Ht). split; [by exists t|]. intros (t' & Ht' & Hv'). destruct Hnv.
    rewrite (den_fun (top ++ base) vt t t'); [done|by apply den_stable_app|done].
Qed.

Theorem squash_upto_committed top base A R : wf (top ++ base) → wf base → base ≠ [] →
  (∀ vt, vt ∈ A ↔ holds (top ++ base) vt ∧ ¬ holds base vt) →
  (∀ vt, vt ∈ R ↔ holds base vt ∧ ¬ holds (top ++ base) vt) →
  ∃ l, squash_upto top base = Some l ∧ committed base A R l.
Proof.
  intros Hw Hb Hne HA HR. assert (Hd : dicts_ok (top ++ base)) by apply Hw. assert (Hdb : dicts_ok base) by apply Hb.
  assert (HA' : ∀ vt, vt ∈ A ↔ ∃ t, (true, t) ∈ stack_diff top base ∧ den (top ++ base) vt t).
  { intros vt. rewrite HA. by apply holds_diff. }
  assert (HR' : ∀ vt, vt ∈ R ↔ ∃ t, (false, t) ∈ stack_diff top base ∧ den base vt t).
  { intros vt. rewrite HR. by apply holds_diff. }
  unfold squash_upto.
  rewrite (stack_changes_perm (reverse top) top base); [|by rewrite reverse_Permutation| |apply Hw].
  2:{ pose proof (wf_files _ Hw) as Hf. apply Forall_app in Hf. apply Hf. }
  cbn [mbind option_bind]. set (cs := stack_diff top base) in *.
  set (ts := snd <$> filter (λ c : bool * triple, c.1 = true) cs).
  assert (Hts : ∀ t, t ∈ ts ↔ (true, t) ∈ cs).
  { intros t. unfold ts. rewrite elem_of_list_fmap. split.
    - intros ([c t'] & -> & [Hc Ht]%elem_of_list_filter). cbn [fst snd] in *. by subst c.
    - intros Ht. exists (true, t). split; [done|]. by apply elem_of_list_filter. }
  assert (Hcs1 : ∀ t, (true, t) ∈ cs → in_view t (top ++ base) ∧ ¬ in_view t base) by (intros t; apply stack_diff_elem).
  assert (Hcs0 : ∀ t, (false, t) ∈ cs → in_view t base ∧ ¬ in_view t (top ++ base)) by (intros t; apply stack_diff_elem).
  destruct (squash_dicts_ok (reverse top) base ts) as (d & E & SN & SP & SV & HS).
  { by rewrite reverse_involutive. }
  { intros t Ht%Hts. rewrite reverse_involutive. apply in_view_den; [done|]. by apply Hcs1. }
  rewrite E. cbn [mbind option_bind]. rewrite reverse_involutive in HS.
  destruct (build_tfiles_ok false [] (SSorted_nil _)) as (tf0 & _ & _); [by intros u ?%elem_of_nil|].
  set (l0 := Layer (sq_nodes d).*1 (sq_preds d).*1 (sq_vals d).*1 None None tf0 None).
  pose proof (HS tf0 None) as HS0. fold l0 in HS0. pose proof (sd_dicts _ _ _ _ _ HS0) as Hd0.
  set (P := λ c c' : bool * triple, c'.1 = c.1 ∧ ∃ vt, den (top ++ base) vt c.2 ∧ den (l0 :: base) vt c'.2 ∧
    (c.1 = false → den base vt c.2)).
  destruct (mapM_rel (squash_change (nv_count base) (pred_count base) d) P cs) as (cs' & ET & HF).
  { intros [c t] Ht. destruct c.
    - destruct (in_view_den _ t Hw) as [vt Hvt]; [by apply Hcs1|].
      destruct (squashed_triple _ _ _ _ _ vt t HS0 Hvt) as (t' & Ht' & Ec); [left; by apply Hts|].
      exists (true, t'). split; [apply Ec|]. split; [done|]. by exists vt.
    - destruct (in_view_den _ t Hb) as [vt Hvt]; [by apply Hcs0|].
      assert (Hvt' : den (top ++ base) vt t) by (by apply den_stable_app).
      destruct (squashed_triple _ _ _ _ _ vt t HS0 Hvt') as (t' & Ht' & Ec); [right; eauto|].
      exists (false, t'). split; [apply Ec|]. split; [done|]. by exists vt. }
  rewrite ET. cbn [mbind option_bind].
  assert (HSS : SSorted (osort (change_rank <$> cs'))).
  { apply osort_ssorted. apply NoDup_fmap_2_strong.
    - intros [[] t] [[] t'] _ _; unfold change_rank; cbn [fst snd]; congruence.
    - eapply nodup_rel; [exact HF| |].
      + pose proof (ssorted_nodup _ (stack_diff_sorted top base)) as Hnd. by eapply NoDup_fmap_1.
      + intros [c1 t1] [c2 t2] [c3 t3] (A1 & vt & A2 & A3 & _) (B1 & vt' & B2 & B3 & _). cbn [fst snd] in *.
        rewrite (den_inj _ Hd0 vt vt' _ A3 B3) in A2. rewrite (den_fun _ _ _ _ A2 B2). congruence. }
  assert (Hmem : ∀ k t, t ∈ snd <$> filter (λ c, c.1 = (if k : bool then 0 else 1)) (osort (change_rank <$> cs')) ↔ (k, t) ∈ cs').
  { intros k t. rewrite elem_of_list_fmap. split.
    - intros ([r t'] & -> & [Hr Ht]%elem_of_list_filter). rewrite elem_of_osort in Ht.
      apply elem_of_list_fmap in Ht as ([c t2] & Ec & Hc). cbn [fst snd] in *. unfold change_rank in Ec. cbn [fst snd] in Ec.
      injection Ec as -> ->. destruct c, k; done.
    - intros Ht. exists (change_rank (k, t)). split; [done|]. apply elem_of_list_filter. split; [done|].
      rewrite elem_of_osort. by apply elem_of_list_fmap_1. }
  assert (HTp : ∀ u, (true, u) ∈ cs' ↔ ∃ vt, vt ∈ A ∧ den (l0 :: base) vt u).
  { intros u. split.
    - intros Hu. destruct (elem_rel _ _ _ _ HF Hu) as ([c t] & Ht & Ec & vt & A1 & A2 & _). cbn [fst snd] in *. subst c.
      exists vt. split; [|done]. apply HA'. eauto.
    - intros (vt & Hvt & Hu). apply HA' in Hvt as (t & Hc & Ht).
      destruct (elem_rel_l _ _ _ _ HF Hc) as ([c t'] & Ht' & Ec & vt' & A1 & A2 & _). cbn [fst snd] in *. subst c.
      rewrite (den_inj _ Hd _ _ _ A1 Ht) in A2. by rewrite (den_fun _ _ _ _ Hu A2). }
  assert (HTn : ∀ u, (false, u) ∈ cs' ↔ ∃ vt, vt ∈ R ∧ den base vt u).
  { intros u. split.
    - intros Hu. destruct (elem_rel _ _ _ _ HF Hu) as ([c t] & Ht & Ec & vt & A1 & A2 & A3). cbn [fst snd] in *. subst c.
      specialize (A3 eq_refl). pose proof (den_stable _ _ Hd0 _ _ A3) as A4. rewrite (den_fun _ _ _ _ A2 A4).
      exists vt. split; [|done]. apply HR'. eauto.
    - intros (vt & Hvt & Hu). apply HR' in Hvt as (t & Hc & Ht).
      destruct (elem_rel_l _ _ _ _ HF Hc) as ([c t'] & Ht' & Ec & vt' & A1 & A2 & A3). cbn [fst snd] in *. subst c.
      specialize (A3 eq_refl). rewrite (den_inj _ Hdb _ _ _ A3 Ht) in A2.
      rewrite (den_fun _ _ _ _ (den_stable _ _ Hd0 _ _ Hu) A2). done. }
  pose proof (filter_fst_ssorted 0 _ HSS) as S0. pose proof (filter_fst_ssorted 1 _ HSS) as S1.
  pose proof (Hmem true) as M0. pose proof (Hmem false) as M1. cbn beta iota in M0, M1.
  destruct (build_tfiles_ok true _ S0) as (pos & Epos & _).
  { intros u (vt & _ & Hu)%M0%HTp. exact (den_nonzero _ Hd0 _ _ Hu). }
  destruct (build_tfiles_ok true _ S1) as (neg & Eneg & _).
  { intros u (vt & _ & Hu)%M1%HTn. exact (den_nonzero _ Hdb _ _ Hu). }
  rewrite Epos. cbn [mbind option_bind]. rewrite Eneg. cbn [mbind option_bind]. eexists. split; [done|].
  assert (HnR : ∀ vt, vt ∈ A → vt ∉ R) by (intros vt H1%HA H2%HR; tauto).
  assert (Hin : ∀ vt, (∃ t, t ∈ ts ∧ den (top ++ base) vt t) ↔ vt ∈ A).
  { intros vt. rewrite HA'. setoid_rewrite Hts. done. }
  split; try done.
  - intros x. rewrite (sd_objs _ _ _ _ _ (HS pos (Some neg)) x). split.
    + intros (Hx & t & vt & Ht & Hvt & Ex). split; [done|]. assert (vt ∈ A) by (apply Hin; eauto). exists vt. auto.
    + intros (Hx & vt & Hvt & _ & Ex). split; [done|]. apply Hin in Hvt as (t & Ht & Hvt). eauto 10.
  - intros x. rewrite (sd_preds _ _ _ _ _ (HS pos (Some neg)) x). split.
    + intros (Hx & t & vt & Ht & Hvt & Ex). split; [done|]. assert (vt ∈ A) by (apply Hin; eauto). exists vt. auto.
    + intros (Hx & vt & Hvt & _ & Ex). split; [done|]. apply Hin in Hvt as (t & Ht & Hvt). eauto 10.
  - eexists. split; [exact S0|]. rewrite bool_decide_eq_true_2 by done. split; [exact Epos|]. intros u. rewrite M0, HTp. split.
    + intros (vt & Hvt & Hu). exists vt. split; [done|]. split; [auto|]. split; [exact Hu|]. intros Hv.
      destruct (in_view_den base u Hb Hv) as [vt' Hvt']. apply HA in Hvt as [_ Hn]. apply Hn.
      rewrite (den_inj _ Hd0 vt vt' u Hu (den_stable _ _ Hd0 _ _ Hvt')). by exists u.
    + intros (vt & Hvt & _ & Hu & _). exists vt. split; [done|exact Hu].
  - rewrite decide_False by done. eexists _, neg. split; [exact S1|]. split; [done|]. split; [exact Eneg|].
    intros u. rewrite M1, HTn. split.
    + intros (vt & Hvt & Hu). exists vt. split; [done|]. split; [intros H1; by apply (HnR vt)|]. split; [done|].
      apply HR in Hvt as [Hh _]. destruct Hh as (u' & Hu' & Hv). by rewrite (den_fun _ _ _ _ Hu Hu').
    + intros (vt & Hvt & _ & Hu & _). eauto.
Qed.
