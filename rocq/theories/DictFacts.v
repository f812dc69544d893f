(** Strings and ids of a stack of layers: every string has at most one id, every id from 1
    up to the count has exactly one string, and the two directions are inverse. *)
From Verif Require Import Prelude ListFacts Succinct SuccinctFacts TripleFiles TripleReadFacts Merge Layer.

(** ** Dictionaries *)
Section dict.
  Context {A} `{EqDecision A}.
  Implicit Types d : list A.
  Lemma dict_id_cons d x y :
    dict_id (y :: d) x = if decide (x = y) then Some 1 else S <$> dict_id d x.
  Proof. unfold dict_id. cbn. case_decide; [done|]. by destruct (list_find _ d) as [[??]|]. Qed.
  Lemma dict_get_range d i x : dict_get d i = Some x → 1 ≤ i ≤ length d.
  Proof. destruct i as [|i]; [done|]. intros H%lookup_lt_Some. lia. Qed.
  Lemma dict_get_is_Some d i : 1 ≤ i ≤ length d → is_Some (dict_get d i).
  Proof. destruct i as [|i]; [lia|]. intros H. apply lookup_lt_is_Some. lia. Qed.
  Lemma dict_get_elem d i x : dict_get d i = Some x → x ∈ d.
  Proof. destruct i as [|i]; [done|]. apply elem_of_list_lookup_2. Qed.
  Lemma dict_id_None d x : dict_id d x = None ↔ x ∉ d.
  Proof.
    unfold dict_id. destruct (list_find (x =.) d) as [[i y]|] eqn:E; cbn.
    - apply list_find_Some in E as (Hi & -> & _). apply elem_of_list_lookup_2 in Hi. split; done.
    - apply list_find_None in E. split; [|done]. intros _ Hx. rewrite Forall_forall in E. by apply (E x Hx).
  Qed.
  Lemma dict_id_get d i x : dict_id d x = Some i → dict_get d i = Some x.
  Proof.
    unfold dict_id. intros ([j y] & E & ->)%fmap_Some. apply list_find_Some in E as (Hi & -> & _). done.
  Qed.
  Lemma dict_get_id d i x : NoDup d → dict_get d i = Some x → dict_id d x = Some i.
  Proof.
    intros Hnd Hg. destruct (dict_id d x) as [j|] eqn:E.
    - apply dict_id_get in E. destruct i as [|i], j as [|j]; try done. cbn in *.
      f_equal. f_equal. by eapply NoDup_lookup.
    - apply dict_id_None in E. by apply dict_get_elem in Hg.
  Qed.
End dict.

(** ** Id maps *)
Definition idmap_ok (m : option (list nat)) (n : nat) : Prop :=
  match m with None => True | Some w => w ≡ₚ seq 0 n end.

Section idmap.
  Implicit Types (m : option (list nat)) (n : nat).
  Lemma idmap_length m n w : idmap_ok m n → m = Some w → length w = n.
  Proof. intros Hm ->. cbn in Hm. apply Permutation_length in Hm. by rewrite seq_length in Hm. Qed.
  Lemma wt_lookup_one_ok m n w i x :
    idmap_ok m n → m = Some w → w !! i = Some x → wt_lookup_one w x = Some i.
  Proof.
    intros Hm E Hi. subst m. cbn in Hm.
    assert (NoDup w) as Hnd by (rewrite Hm; apply NoDup_seq).
    unfold wt_lookup_one. pose proof (wt_positions_spec w x) as Hp.
    destruct (wt_positions w x) as [|j js] eqn:Ep.
    - apply Hp in Hi. by apply elem_of_nil in Hi.
    - cbn. f_equal. assert (w !! j = Some x) as Hj by (apply Hp; left). by eapply NoDup_lookup.
  Qed.
  Lemma inner_to_outer_ok m n (Hm : idmap_ok m n) i : 1 ≤ i ≤ n →
    ∃ j, inner_to_outer m i = Some j ∧ 1 ≤ j ≤ n ∧ outer_to_inner m j = Some i.
  Proof.
    intros Hi. unfold inner_to_outer, outer_to_inner. destruct m as [w|]; [|eauto].
    pose proof (idmap_length (Some w) n w Hm eq_refl) as Hlen. destruct i as [|i]; [lia|].
    rewrite decide_False by lia. destruct (lookup_lt_is_Some_2 w i) as [x Hx]; [lia|].
    unfold wt_decode_one. rewrite Hx. exists (S x). split; [done|].
    assert (x ∈ seq 0 n) as Hin by (rewrite <-Hm; by eapply elem_of_list_lookup_2).
    apply elem_of_seq in Hin. split; [lia|]. rewrite decide_False by lia.
    by rewrite (wt_lookup_one_ok (Some w) n w i x).
  Qed.
  Lemma outer_to_inner_ok m n (Hm : idmap_ok m n) j : 1 ≤ j ≤ n →
    ∃ i, outer_to_inner m j = Some i ∧ 1 ≤ i ≤ n ∧ inner_to_outer m i = Some j.
  Proof.
    intros Hj. unfold inner_to_outer, outer_to_inner. destruct m as [w|]; [|eauto].
    pose proof (idmap_length (Some w) n w Hm eq_refl) as Hlen. destruct j as [|j]; [lia|].
    rewrite decide_False by lia.
    assert (j ∈ w) as Hin by (rewrite Hm; apply elem_of_seq; lia).
    apply elem_of_list_lookup in Hin as [i Hi]. pose proof (lookup_lt_Some _ _ _ Hi).
    rewrite (wt_lookup_one_ok (Some w) n w i j) by done. exists (S i). split; [done|]. split; [lia|].
    rewrite decide_False by lia. unfold wt_decode_one. by rewrite Hi.
  Qed.
  Lemma outer_to_inner_beyond m n (Hm : idmap_ok m n) j : n < j → outer_to_inner m j = Some j.
  Proof.
    intros Hj. unfold outer_to_inner. destruct m as [w|]; [|done].
    pose proof (idmap_length (Some w) n w Hm eq_refl). by rewrite decide_True by lia.
  Qed.
  Lemma outer_to_inner_inj m n (Hm : idmap_ok m n) j j' i : 1 ≤ j ≤ n → 1 ≤ j' ≤ n →
    outer_to_inner m j = Some i → outer_to_inner m j' = Some i → j = j'.
  Proof.
    intros Hj Hj' E E'. destruct (outer_to_inner_ok m n Hm j Hj) as (? & E1 & _ & F1).
    destruct (outer_to_inner_ok m n Hm j' Hj') as (? & E2 & _ & F2). congruence.
  Qed.
End idmap.

(** ** Objects of one layer *)
Definition l_objs (l : layer) : list obj := (inl <$> l_nodes l) ++ (inr <$> l_vals l).
Lemma l_objs_length l : length (l_objs l) = l_nv l.
Proof. unfold l_objs, l_nv. by rewrite app_length, !fmap_length. Qed.
Lemma l_objs_inl l s : inl s ∈ l_objs l ↔ s ∈ l_nodes l.
Proof.
  unfold l_objs. rewrite elem_of_app, !elem_of_list_fmap. split; [|eauto].
  intros [(?&[= ->]&?)|(?&?&?)]; done.
Qed.
Lemma l_objs_inr l v : inr v ∈ l_objs l ↔ v ∈ l_vals l.
Proof.
  unfold l_objs. rewrite elem_of_app, !elem_of_list_fmap. split; [|eauto].
  intros [(?&?&?)|(?&[= ->]&?)]; done.
Qed.

Record ldict_ok (l : layer) : Prop := {
  ld_nodes : SSorted (l_nodes l);
  ld_preds : SSorted (l_preds l);
  ld_vals : SSorted (l_vals l);
  ld_nvmap : idmap_ok (l_nvmap l) (l_nv l);
  ld_pmap : idmap_ok (l_pmap l) (length (l_preds l)) }.

Lemma l_objs_nodup l : ldict_ok l → NoDup (l_objs l).
Proof.
  intros Hl. apply NoDup_app. split_and!.
  - apply NoDup_fmap_2; [apply _|]. apply ssorted_nodup, Hl.
  - intros x (?&->&_)%elem_of_list_fmap (?&?&_)%elem_of_list_fmap. done.
  - apply NoDup_fmap_2; [apply _|]. apply ssorted_nodup, Hl.
Qed.
(** the entry with inner id [i] *)
Lemma l_objs_get l i : dict_get (l_objs l) i =
  if decide (length (l_nodes l) < i) then inr <$> dict_get (l_vals l) (i - length (l_nodes l))
  else inl <$> dict_get (l_nodes l) i.
Proof.
  destruct i as [|i]; [by rewrite decide_False by lia|]. unfold l_objs, dict_get.
  case_decide as Hd.
  - rewrite lookup_app_r by (rewrite fmap_length; lia). rewrite list_lookup_fmap, fmap_length.
    destruct (S i - length (l_nodes l)) as [|k] eqn:E; [lia|].
    replace (i - length (l_nodes l)) with k by lia. done.
  - rewrite lookup_app_l by (rewrite fmap_length; lia). apply list_lookup_fmap.
Qed.
Lemma l_objs_id l (x : obj) : dict_id (l_objs l) x =
  match x with
  | inl s => dict_id (l_nodes l) s
  | inr v => (λ i, i + length (l_nodes l)) <$> dict_id (l_vals l) v
  end.
Proof.
  unfold l_objs. destruct x as [s|v].
  - induction (l_nodes l) as [|n ns IH]; cbn [fmap list_fmap app].
    + induction (l_vals l) as [|v vs IH]; cbn [fmap list_fmap app] in *; [done|].
      rewrite dict_id_cons, decide_False by done. by rewrite IH.
    + rewrite !dict_id_cons. destruct (decide (s = n)) as [->|Hne]; [by rewrite decide_True by done|].
      rewrite decide_False by congruence. by rewrite IH.
  - induction (l_nodes l) as [|n ns IH]; cbn [fmap list_fmap app length].
    + induction (l_vals l) as [|w vs IH]; cbn [fmap list_fmap app] in *; [done|].
      rewrite !dict_id_cons. destruct (decide (v = w)) as [->|Hne]; [by rewrite decide_True by done|].
      rewrite decide_False by congruence. rewrite IH. by destruct (dict_id vs v).
    + rewrite dict_id_cons, decide_False by done. rewrite IH.
      destruct (dict_id (l_vals l) v); cbn; f_equal; lia.
Qed.

(** ** Objects of a stack *)
Definition objs (st : stack) : list obj := mjoin (l_objs <$> st).
Definition preds (st : stack) : list str := mjoin (l_preds <$> st).
Fixpoint dicts_ok (st : stack) : Prop :=
  match st with
  | [] => True
  | l :: st' =>
      dicts_ok st' ∧ ldict_ok l ∧ (∀ x, x ∈ l_objs l → x ∉ objs st') ∧
      (∀ p, p ∈ l_preds l → p ∉ preds st')
  end.
Lemma nv_count_cons l st : nv_count (l :: st) = nv_count st + l_nv l.
Proof. unfold l_nv. cbn [nv_count]. lia. Qed.

Lemma object_id_cons l st x : object_id (l :: st) x =
  match dict_id (l_objs l) x with
  | Some id => id' ← inner_to_outer (l_nvmap l) id; Some (Some (id' + nv_count st))
  | None => object_id st x
  end.
Proof.
  rewrite l_objs_id. destruct x as [s|v]; cbn; [done|]. by destruct (dict_id (l_vals l) v).
Qed.
Lemma id_object_cons l st id : id ≠ 0 → id_object (l :: st) id =
  if decide (nv_count st < id) then layer_object l (id - nv_count st) else id_object st id.
Proof.
  intros Hid. unfold id_object. rewrite !(decide_False (P := id = 0)) by done. cbn [id_object_loop].
  destruct st as [|l' st].
  - cbn [nv_count]. rewrite decide_True by lia. by rewrite Nat.sub_0_r.
  - replace (nv_count (l :: l' :: st) - length (l_nodes l) - length (l_vals l)) with (nv_count (l' :: st)); [done|].
    change (nv_count (l :: l' :: st)) with (nv_count (l' :: st) + length (l_nodes l) + length (l_vals l)). lia.
Qed.
Lemma layer_object_eq l id : layer_object l id = i ← outer_to_inner (l_nvmap l) id; Some (dict_get (l_objs l) i).
Proof.
  unfold layer_object. destruct (outer_to_inner _ _) as [i|]; [|done]. cbn. rewrite l_objs_get. by case_decide.
Qed.

Section objects.
  Lemma object_id_ok st x : dicts_ok st →
    ∃ r, object_id st x = Some r ∧
      match r with
      | Some i => x ∈ objs st ∧ 1 ≤ i ≤ nv_count st ∧ id_object st i = Some (Some x)
      | None => x ∉ objs st
      end.
  Proof.
    induction st as [|l st IH]; intros Hd.
    { exists None. destruct x; (split; [done|]); by intros ?%elem_of_nil. }
    destruct Hd as (Hd & Hl & Ho & _). rewrite object_id_cons. unfold objs. cbn [fmap list_fmap mjoin list_join].
    destruct (dict_id (l_objs l) x) as [i|] eqn:E.
    - apply dict_id_get in E. pose proof (dict_get_range _ _ _ E) as Hr. rewrite l_objs_length in Hr.
      destruct (inner_to_outer_ok _ _ (ld_nvmap _ Hl) i Hr) as (j & -> & Hj & Ej). cbn [mbind option_bind].
      eexists. split; [done|]. cbn. rewrite elem_of_app. split_and!.
      + left. by eapply dict_get_elem.
      + lia.
      + unfold l_nv in Hj. lia.
      + rewrite id_object_cons, decide_True by lia. rewrite layer_object_eq, Nat.add_sub, Ej.
        cbn. by rewrite E.
    - apply dict_id_None in E. destruct (IH Hd) as (r & -> & Hr). eexists. split; [done|].
      destruct r as [i|]; rewrite elem_of_app.
      + destruct Hr as (? & ? & ?). split_and!; auto; [lia|cbn [nv_count]; lia|].
        rewrite id_object_cons, decide_False by lia. done.
      + tauto.
  Qed.
  Lemma id_object_ok st i : dicts_ok st →
    ∃ r, id_object st i = Some r ∧
      match r with
      | Some x => 1 ≤ i ≤ nv_count st ∧ object_id st x = Some (Some i)
      | None => i = 0 ∨ nv_count st < i
      end.
  Proof.
    intros Hd. destruct (decide (i = 0)) as [->|Hi]; [exists None; auto|].
    induction st as [|l st IH].
    { exists None. unfold id_object. rewrite decide_False by done. split; [done|]. right. cbn. lia. }
    destruct Hd as (Hd & Hl & Ho & _). rewrite id_object_cons by done. case_decide as Hc.
    - rewrite layer_object_eq. destruct (decide (i - nv_count st ≤ l_nv l)) as [Hr|Hr].
      + destruct (outer_to_inner_ok _ _ (ld_nvmap _ Hl) (i - nv_count st)) as (k & -> & Hk & Ek); [lia|].
        cbn [mbind option_bind]. destruct (dict_get_is_Some (l_objs l) k) as [x Hx]; [by rewrite l_objs_length|].
        rewrite Hx. eexists. split; [done|]. cbn. rewrite object_id_cons.
        rewrite (dict_get_id _ _ _ (l_objs_nodup l Hl) Hx), Ek. cbn. unfold l_nv in Hr.
        split; [lia|]. do 2 f_equal. lia.
      + rewrite (outer_to_inner_beyond _ _ (ld_nvmap _ Hl)) by lia. cbn [mbind option_bind].
        destruct (dict_get (l_objs l) _) as [x|] eqn:E.
        { apply dict_get_range in E. rewrite l_objs_length in E. lia. }
        eexists. split; [done|]. right. unfold l_nv in Hr. cbn [nv_count]. lia.
    - destruct (IH Hd) as (r & -> & Hr). eexists. split; [done|]. destruct r as [x|].
      + destruct Hr as [Hr E]. split; [cbn [nv_count]; lia|]. rewrite object_id_cons.
        destruct (dict_id (l_objs l) x) as [k|] eqn:Ek; [|done]. exfalso.
        apply dict_id_get, dict_get_elem in Ek. apply (Ho x Ek).
        destruct (object_id_ok st x Hd) as (r & E' & Hr'). rewrite E' in E. injection E as ->. apply Hr'.
      + lia.
  Qed.
  Theorem object_id_iff st x i : dicts_ok st →
    object_id st x = Some (Some i) ↔ id_object st i = Some (Some x).
  Proof.
    intros Hd. split; intros E.
    - destruct (object_id_ok st x Hd) as (r & E' & Hr). rewrite E in E'. injection E' as <-. apply Hr.
    - destruct (id_object_ok st i Hd) as (r & E' & Hr). rewrite E in E'. injection E' as <-. apply Hr.
  Qed.

  (** subjects and kinds of objects follow the objects *)
  Lemma id_subject_eq st i :
    id_subject st i = r ← id_object st i;
      Some (match r with Some (inl s) => Some s | _ => None end).
  Proof.
    unfold id_subject, id_object. case_decide; [done|].
    generalize (nv_count st) as n. induction st as [|l st IH]; intros n; [done|].
    assert (Hlay : ∀ k, (i ← outer_to_inner (l_nvmap l) k; Some (dict_get (l_nodes l) i)) =
      r ← layer_object l k; Some (match r with Some (inl s) => Some s | _ => None end)).
    { intros k. unfold layer_object. destruct (outer_to_inner _ _) as [j|]; [|done]. cbn.
      case_decide as Hj; cbn.
      - destruct (dict_get (l_nodes l) j) eqn:E; [apply dict_get_range in E; lia|].
        by destruct (dict_get (l_vals l) _).
      - by destruct (dict_get (l_nodes l) j). }
    cbn [id_subject_loop id_object_loop]. destruct st as [|l' st]; [apply Hlay|].
    case_decide; [apply Hlay|]. apply IH.
  Qed.
  Lemma id_object_is_node_eq st i : dicts_ok st →
    id_object_is_node st i = r ← id_object st i;
      Some (match r with Some (inl _) => Some true | Some (inr _) => Some false | None => None end).
  Proof.
    unfold id_object_is_node, id_object. case_decide as Hi; [done|].
    assert (Hgen : ∀ n, dicts_ok st → id_object_is_node_loop st i n = r ← id_object_loop st i n;
      Some (match r with Some (inl _) => Some true | Some (inr _) => Some false | None => None end)).
    2:{ intros. by apply Hgen. }
    induction st as [|l st IH]; intros n Hd; [done|].
    assert (Hlay : ∀ k, k ≠ 0 → layer_is_node l k = r ← layer_object l k;
      Some (match r with Some (inl _) => Some true | Some (inr _) => Some false | None => None end)).
    { intros k Hk. destruct Hd as (_ & Hl & _).
      unfold layer_object, layer_is_node. destruct (outer_to_inner _ _) as [j|] eqn:Ej; [|done]. cbn.
      assert (j ≠ 0) as Hj0.
      { destruct (decide (k ≤ l_nv l)).
        - destruct (outer_to_inner_ok _ _ (ld_nvmap _ Hl) k) as (j' & E & ? & _); [lia|].
          rewrite E in Ej. injection Ej as ->. lia.
        - rewrite (outer_to_inner_beyond _ _ (ld_nvmap _ Hl)) in Ej by lia. congruence. }
      case_decide as H1.
      - rewrite decide_True by lia. cbn.
        destruct (dict_get (l_vals l) _) eqn:E; [apply dict_get_range in E; lia|done].
      - case_decide as H2; cbn.
        + destruct (dict_get_is_Some (l_vals l) (j - length (l_nodes l))) as [x ->]; [lia|done].
        + destruct (dict_get_is_Some (l_nodes l) j) as [x ->]; [lia|done]. }
    cbn [id_object_is_node_loop id_object_loop]. destruct st as [|l' st]; [by apply Hlay|].
    case_decide; [apply Hlay; lia|]. apply IH, Hd.
  Qed.
End objects.

(** ** Predicates of a stack *)
Section predicates.
  Lemma id_predicate_cons l st id : id ≠ 0 → id_predicate (l :: st) id =
    if decide (pred_count st < id) then
      i ← outer_to_inner (l_pmap l) (id - pred_count st); Some (dict_get (l_preds l) i)
    else id_predicate st id.
  Proof.
    intros Hid. unfold id_predicate. rewrite !(decide_False (P := id = 0)) by done. cbn [id_predicate_loop].
    destruct st as [|l' st].
    - cbn [pred_count]. rewrite decide_True by lia. by rewrite Nat.sub_0_r.
    - replace (pred_count (l :: l' :: st) - length (l_preds l)) with (pred_count (l' :: st)); [done|].
      change (pred_count (l :: l' :: st)) with (pred_count (l' :: st) + length (l_preds l)). lia.
  Qed.
  Lemma predicate_id_ok st p : dicts_ok st →
    ∃ r, predicate_id st p = Some r ∧
      match r with
      | Some i => p ∈ preds st ∧ 1 ≤ i ≤ pred_count st ∧ id_predicate st i = Some (Some p)
      | None => p ∉ preds st
      end.
  Proof.
    induction st as [|l st IH]; intros Hd.
    { exists None. split; [done|]. by intros ?%elem_of_nil. }
    destruct Hd as (Hd & Hl & _ & Ho). cbn [predicate_id]. unfold preds. cbn [fmap list_fmap mjoin list_join].
    destruct (dict_id (l_preds l) p) as [i|] eqn:E.
    - apply dict_id_get in E. pose proof (dict_get_range _ _ _ E) as Hr.
      destruct (inner_to_outer_ok _ _ (ld_pmap _ Hl) i Hr) as (j & -> & Hj & Ej). cbn [mbind option_bind].
      eexists. split; [done|]. cbn. rewrite elem_of_app. split_and!.
      + left. by eapply dict_get_elem.
      + lia.
      + lia.
      + rewrite id_predicate_cons, decide_True by lia. rewrite Nat.add_sub, Ej.
        cbn. by rewrite E.
    - apply dict_id_None in E. destruct (IH Hd) as (r & -> & Hr). eexists. split; [done|].
      destruct r as [i|]; rewrite elem_of_app.
      + destruct Hr as (? & ? & ?). split_and!; auto; [lia|cbn [pred_count]; lia|].
        rewrite id_predicate_cons, decide_False by lia. done.
      + tauto.
  Qed.
  Lemma id_predicate_ok st i : dicts_ok st →
    ∃ r, id_predicate st i = Some r ∧
      match r with
      | Some p => 1 ≤ i ≤ pred_count st ∧ predicate_id st p = Some (Some i)
      | None => i = 0 ∨ pred_count st < i
      end.
  Proof.
    intros Hd. destruct (decide (i = 0)) as [->|Hi]; [exists None; auto|].
    induction st as [|l st IH].
    { exists None. unfold id_predicate. rewrite decide_False by done. split; [done|]. right. cbn. lia. }
    destruct Hd as (Hd & Hl & _ & Ho). rewrite id_predicate_cons by done. case_decide as Hc.
    - destruct (decide (i - pred_count st ≤ length (l_preds l))) as [Hr|Hr].
      + destruct (outer_to_inner_ok _ _ (ld_pmap _ Hl) (i - pred_count st)) as (k & -> & Hk & Ek); [lia|].
        cbn [mbind option_bind]. destruct (dict_get_is_Some (l_preds l) k) as [x Hx]; [done|].
        rewrite Hx. eexists. split; [done|]. cbn.
        rewrite (dict_get_id _ _ _ (ssorted_nodup _ (ld_preds _ Hl)) Hx), Ek. cbn.
        split; [lia|]. do 2 f_equal. lia.
      + rewrite (outer_to_inner_beyond _ _ (ld_pmap _ Hl)) by lia. cbn [mbind option_bind].
        destruct (dict_get (l_preds l) _) as [x|] eqn:E.
        { apply dict_get_range in E. lia. }
        eexists. split; [done|]. right. cbn [pred_count]. lia.
    - destruct (IH Hd) as (r & -> & Hr). eexists. split; [done|]. destruct r as [x|].
      + destruct Hr as [Hr E]. split; [cbn [pred_count]; lia|]. cbn [predicate_id].
        destruct (dict_id (l_preds l) x) as [k|] eqn:Ek; [|done]. exfalso.
        apply dict_id_get, dict_get_elem in Ek. apply (Ho x Ek).
        destruct (predicate_id_ok st x Hd) as (r & E' & Hr'). rewrite E' in E. injection E as ->. apply Hr'.
      + lia.
  Qed.
  Theorem predicate_id_iff st p i : dicts_ok st →
    predicate_id st p = Some (Some i) ↔ id_predicate st i = Some (Some p).
  Proof.
    intros Hd. split; intros E.
    - destruct (predicate_id_ok st p Hd) as (r & E' & Hr). rewrite E in E'. injection E' as <-. apply Hr.
    - destruct (id_predicate_ok st i Hd) as (r & E' & Hr). rewrite E in E'. injection E' as <-. apply Hr.
  Qed.
End predicates.
