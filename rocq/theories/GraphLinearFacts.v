(** Calls on named graphs happen one at a time. *)
From Verif Require Import Prelude Names LabelSeq LabelConc LabelSpec LabelTimed SpecLinear LinearFacts Head HeadSpec HeadFacts GraphTimed SpecGraph.

#[global] Instance lev_eq_dec : EqDecision lev.
Proof. solve_decision. Defined.

(** ** the record of calls *)
Definition pos (tr : list nitem) (k : nat) : nat := length (label_items (take k tr)).
Lemma label_items_app tr tr' : label_items (tr ++ tr') = label_items tr ++ label_items tr'.
Proof. unfold label_items. by rewrite omap_app. Qed.
Lemma pos_all tr k : length tr ≤ k → pos tr k = length (label_items tr).
Proof. intros H. unfold pos. by rewrite take_ge. Qed.
Lemma pos_app tr tr' k : k ≤ length tr → pos (tr ++ tr') k = pos tr k.
Proof. intros H. unfold pos. by rewrite take_app_le. Qed.
Lemma pos_mono tr j k : j ≤ k → pos tr j ≤ pos tr k.
Proof.
  intros H. unfold pos. replace k with (j + (k - j)) by lia. rewrite <- take_take_drop, label_items_app, app_length. lia.
Qed.
Lemma pos_le tr k : pos tr k ≤ length (label_items tr).
Proof. destruct (decide (k ≤ length tr)) as [H|H]; [rewrite <- (pos_all tr (length tr)) by done; by apply pos_mono|]. by rewrite pos_all by lia. Qed.
Lemma call_in_app tr tr' x : call_in tr x → call_in (tr ++ tr') x.
Proof.
  destruct x as [[b j] e]. intros (H1 & H2 & (c & H3 & H4) & H5). pose proof (lookup_lt_Some _ _ _ H2).
  split_and!; [done|by rewrite lookup_app_l|exists c; split; [rewrite lookup_app_l by lia; done|done]|].
  intros k Hk c'. rewrite lookup_app_l by lia. by apply H5.
Qed.

Definition started (tr : list nitem) (t : tid) (b : nat) (o : gop) : Prop :=
  tr !! b = Some (Starts t o) ∧ (∀ k o', b < k → tr !! k ≠ Some (Starts t o')) ∧ ∀ k o' r, b < k → tr !! k ≠ Some (Returns t o' r).
Lemma started_lt tr t b o : started tr t b o → b < length tr.
Proof. intros [H _]. by apply lookup_lt_Some in H. Qed.
Lemma started_now tr t o : started (tr ++ [Starts t o]) t (length tr) o.
Proof.
  split; [apply lookup_snoc_Some; by right|]. split.
  - intros k o' Hk H. apply lookup_lt_Some in H. rewrite app_length in H. cbn [length] in H. lia.
  - intros k o' r Hk H. apply lookup_lt_Some in H. rewrite app_length in H. cbn [length] in H. lia.
Qed.
(** items that leave the calls of [t] alone *)
Definition foreign (t : tid) (x : nitem) : Prop := match x with Starts u _ | Returns u _ _ => u ≠ t | OnLabel _ => True end.
Lemma started_more tr t b o more : started tr t b o → (∀ x, x ∈ more → foreign t x) → started (tr ++ more) t b o.
Proof.
  intros Hs Hm. pose proof (started_lt _ _ _ _ Hs) as Hlt. destruct Hs as (H1 & H2 & H3). split; [by rewrite lookup_app_l|]. split.
  - intros k o' Hk [H|[_ H]]%lookup_app_Some; [by apply (H2 k o')|]. apply elem_of_list_lookup_2, Hm in H. done.
  - intros k o' r Hk [H|[_ H]]%lookup_app_Some; [by apply (H3 k o' r)|]. apply elem_of_list_lookup_2, Hm in H. done.
Qed.
Definition no_return (x : nitem) : Prop := match x with Returns _ _ _ => False | _ => True end.
Lemma graph_call_more tr more y : (∀ x, x ∈ more → no_return x) → graph_call_in (tr ++ more) y ↔ graph_call_in tr y.
Proof.
  intros Hm. destruct y as [[b j] [[t o] r]]. unfold graph_call_in. split; intros (H1 & H2 & H3 & H4).
  - apply lookup_app_Some in H3 as [H3|[_ H3]]; [|by apply elem_of_list_lookup_2, Hm in H3]. pose proof (lookup_lt_Some _ _ _ H3).
    split_and!; [done|by rewrite lookup_app_l in H2 by lia|done|]. intros k Hk o'. specialize (H4 k Hk o'). by rewrite lookup_app_l in H4 by lia.
  - pose proof (lookup_lt_Some _ _ _ H3). split_and!; [done|by rewrite lookup_app_l by lia|by rewrite lookup_app_l by lia|].
    intros k Hk o'. rewrite lookup_app_l by lia. by apply H4.
Qed.
Lemma graph_call_returns tr t o r b y : started tr t b o → graph_call_in (tr ++ [Returns t o r]) y ↔ graph_call_in tr y ∨ y = (b, length tr, (t, o, r)).
Proof.
  intros Hs. pose proof (started_lt _ _ _ _ Hs) as Hlt. destruct Hs as (S1 & S2 & S3). destruct y as [[b' j] [[t' o'] r']]. unfold graph_call_in. split.
  - intros (H1 & H2 & H3 & H4). apply lookup_snoc_Some in H3 as [H3|[-> E]].
    + left. pose proof (lookup_lt_Some _ _ _ H3). split_and!; [done|by rewrite lookup_app_l in H2 by lia|done|].
      intros k Hk o2. specialize (H4 k Hk o2). by rewrite lookup_app_l in H4 by lia.
    + right. injection E as -> -> ->. rewrite lookup_app_l in H2 by lia. f_equal. f_equal.
      destruct (Nat.lt_trichotomy b' b) as [H|[H|H]]; [|done|by destruct (S2 b' o H)].
      exfalso. apply (H4 b (conj H Hlt) o). by rewrite lookup_app_l by lia.
  - intros [(H1 & H2 & H3 & H4)|[= -> -> -> -> ->]].
    + pose proof (lookup_lt_Some _ _ _ H3). split_and!; [done|by rewrite lookup_app_l by lia|by rewrite lookup_app_l by lia|].
      intros k Hk o2. rewrite lookup_app_l by lia. by apply H4.
    + split_and!; [done|by rewrite lookup_app_l by lia|apply lookup_snoc_Some; by right|].
      intros k Hk o2. rewrite lookup_app_l by lia. apply S2. lia.
Qed.

(** ** what a call did *)
(** the label was read in a call that began at [b] *)
Definition got (tr : list nitem) (b : nat) (t : tid) (n : bytes) (l : label) (x0 : timed) : Prop :=
  call_in (label_items tr) x0 ∧ (∃ i, x0.2 = EvGet t n i (Ok (Some l))) ∧ pos tr b ≤ x0.1.1.
Definition got_ok (h : hstate) (op : hop) (a : outcome (option label)) (r : hres) : Prop :=
  match a with
  | Ok (Some l) =>
      match r with
      | RHead y v => y = lb_layer l ∧ v = lb_version l ∧ ∃ n, op = HeadVersion n
      | RBool false => (∃ x, op_layer op = Some x ∧ x ∈ h_layers h) ∧ ¬ allowed (ancestor h) l op
      | RPanic => is_Some (op_layer op) ∧ (u64_max ≤ lb_version l)%N ∧ allowed (ancestor h) l op
      | _ => False
      end
  | Ok None | Err _ => r = RErr
  | Panic => False
  end.
Definition set_ok (op : hop) (a : outcome (option label)) (r : hres) : Prop :=
  match a with
  | Ok (Some _) => r = success op
  | Ok None => success op = RBool true ∧ r = RBool false
  | Err _ => r = RErr
  | Panic => False
  end.
Definition did (h : hstate) (tr : list nitem) (b : nat) (t : tid) (o : gop) (r : gres) (x : timed) : Prop :=
  match o with
  | Graph op => ∃ q, r = GHead q ∧
      ((∃ i a, x.2 = EvGet t (op_name op) i a ∧ got_ok h op a q) ∨
       (∃ l lay nl i a x0, x.2 = EvSet t l nl i a ∧ op_layer op = Some lay ∧ with_updated_layer l (Some lay) = Some nl ∧
          allowed (ancestor h) l op ∧ got tr b t (op_name op) l x0 ∧ earlier x0 x ∧ set_ok op a q))
  | _ => ∃ c, direct_call o = Some c ∧ answers c x.2 ∧ r = direct_res x.2
  end.
(** [x] is the call on the label store at which the call [y] can be thought to happen *)
Definition fits (h : hstate) (tr : list nitem) (y : gtimed) (x : timed) : Prop :=
  let '(b, j, (t, o, r)) := y in
  call_in (label_items tr) x ∧ ev_tid x.2 = t ∧ pos tr b ≤ x.1.1 ∧ x.1.2 < pos tr j ∧ did h tr b t o r x.
Definition ev_alters (e : lev) : Prop :=
  match e with EvSet _ _ _ _ (Ok (Some _)) | EvCreate _ _ _ (Ok _) | EvDelete _ _ true => True | _ => False end.
Definition grows (h h' : hstate) : Prop :=
  (∀ a x, ancestor h a x → ancestor h' a x) ∧ (∀ a x, x ∈ h_layers h → ancestor h' a x → ancestor h a x) ∧ ∀ x, x ∈ h_layers h → x ∈ h_layers h'.
Lemma grows_refl h : grows h h.
Proof. done. Qed.
Lemma grows_step h it h' : hdom h → hstep h it h' → grows h h'.
Proof.
  intros Hd Hst. split_and!.
  - intros a x. apply (ancestor_step _ _ _ _ _ Hst). intros u v Huv. by apply (Hd u v).
  - intros a x Hx. by apply (ancestor_back _ _ _ _ _ Hst).
  - intros x Hx. by apply (hstep_old _ _ _ _ Hst).
Qed.
Lemma allowed_grows h h' l op : grows h h' → allowed (ancestor h) l op → allowed (ancestor h') l op.
Proof. intros (G & _ & _). destruct op; try done. cbn [allowed]. destruct (lb_layer l); [apply G|done]. Qed.
Lemma allowed_back h h' l op x : grows h h' → op_layer op = Some x → x ∈ h_layers h → allowed (ancestor h') l op → allowed (ancestor h) l op.
Proof. intros (_ & G & _) E Hx. destruct op; try done. cbn [allowed op_layer] in *. injection E as ->. destruct (lb_layer l); [by apply G|done]. Qed.
Lemma got_more tr more b t n l x0 : b ≤ length tr → got tr b t n l x0 → got (tr ++ more) b t n l x0.
Proof. intros Hb (H1 & H2 & H3). split_and!; [rewrite label_items_app; by apply call_in_app|done|by rewrite pos_app]. Qed.
Lemma fits_more h h' tr more y x : grows h h' → graph_call_in tr y → fits h tr y x → fits h' (tr ++ more) y x.
Proof.
  destruct y as [[b j] [[t o] r]]. intros G (Hb & Hs & Hr & _) (F1 & F2 & F3 & F4 & F5).
  pose proof (lookup_lt_Some _ _ _ Hs). pose proof (lookup_lt_Some _ _ _ Hr).
  unfold fits. rewrite !pos_app by lia. split_and!; [rewrite label_items_app; by apply call_in_app|done|done|done|].
  destruct o as [op| | |]; [|done..]. destruct F5 as (q & -> & F5). exists q. split; [done|].
  destruct F5 as [(i & a & E & Hok)|(l & lay & nl & i & a & x0 & E & E1 & E2 & E3 & E4 & E5 & E6)]; [left|right].
  - exists i, a. split; [done|]. destruct a as [[l|]| |]; [|done..]. destruct q as [[]| | | |]; try done; cbn [got_ok] in *.
    + destruct Hok as [(x' & Hop & Hx) Hna]. split; [exists x'; split; [done|by apply G]|]. intros Ha. apply Hna. by apply (allowed_back h h' l op x').
    + destruct Hok as (? & ? & Ha). split_and!; [done|done|]. by apply (allowed_grows h).
  - exists l, lay, nl, i, a, x0. split_and!; try done; [by apply (allowed_grows h)|]. apply got_more; [lia|done].
Qed.

Record pairs_ok (h : hstate) (tr : list nitem) (P : list (gtimed * timed)) (ex : option timed) : Prop := {
  pairs_calls : NoDup P.*1;
  pairs_labels : NoDup P.*2;
  pairs_all y : graph_call_in tr y ↔ y ∈ P.*1;
  pairs_fit y x : (y, x) ∈ P → fits h tr y x;
  pairs_alter x : call_in (label_items tr) x → ev_alters x.2 → x ∈ P.*2 ∨ ex = Some x;
  pairs_rets j t o r : tr !! j = Some (Returns t o r) → ∃ b, (b, j, (t, o, r)) ∈ P.*1 }.
Lemma pairs_in h tr P ex y x : pairs_ok h tr P ex → (y, x) ∈ P → graph_call_in tr y.
Proof. intros HP Hyx. apply (pairs_all _ _ _ _ HP). by apply (elem_of_list_fmap_1 fst) in Hyx. Qed.
Lemma fits_silent h h' tr y x : grows h h' → graph_call_in tr y → fits h tr y x → fits h' tr y x.
Proof. intros G Hy H. rewrite <- (app_nil_r tr). by apply (fits_more h). Qed.
Lemma pairs_silent h h' tr P ex : grows h h' → pairs_ok h tr P ex → pairs_ok h' tr P ex.
Proof.
  intros G HP. destruct HP as [H1 H2 H3 H4 H5 H6]. constructor; try done.
  intros y x Hyx. apply (fits_silent h); [done| |by apply H4]. apply H3. by apply (elem_of_list_fmap_1 fst) in Hyx.
Qed.
Lemma pairs_item h tr P i : no_return i → (∀ e, i ≠ OnLabel (Ends e)) → pairs_ok h tr P None → pairs_ok h (tr ++ [i]) P None.
Proof.
  intros Hn He HP. pose proof (λ y x, pairs_in _ _ _ _ y x HP) as Hin. destruct HP as [H1 H2 H3 H4 H5 H6]. constructor; try done.
  - intros y. rewrite graph_call_more; [done|]. intros x ->%elem_of_list_singleton. done.
  - intros y x Hyx. apply (fits_more h); [by apply grows_refl|by apply (Hin y x)|by apply H4].
  - intros x Hx. apply H5. rewrite label_items_app in Hx. destruct i as [t o|[t c|e]|t o r]; cbn [label_items omap list_omap] in Hx; [by rewrite app_nil_r in Hx|by apply call_in_begins in Hx|by destruct (He e)|done].
  - intros j t o r [Hj|[_ E]]%lookup_snoc_Some; [by apply H6|]. by rewrite <- E in Hn.
Qed.
Lemma pairs_end h tr P e b c : begun (label_items tr) (ev_tid e) b c → answers c e → pairs_ok h tr P None →
  pairs_ok h (tr ++ [OnLabel (Ends e)]) P (Some (b, length (label_items tr), e)).
Proof.
  intros Hb Ha HP. pose proof (λ y x, pairs_in _ _ _ _ y x HP) as Hin. destruct HP as [H1 H2 H3 H4 H5 H6]. constructor; try done.
  - intros y. rewrite graph_call_more; [done|]. intros x ->%elem_of_list_singleton. done.
  - intros y x Hyx. apply (fits_more h); [by apply grows_refl|by apply (Hin y x)|by apply H4].
  - intros x Hx Hal. rewrite label_items_app in Hx. change (label_items [OnLabel (Ends e)]) with [Ends e] in Hx.
    apply (call_in_ends _ _ b c) in Hx as [Hx|Hx]; [|by right; rewrite Hx|done|done]. destruct (H5 x Hx Hal) as [?|?]; [by left|done].
  - intros j t o r [Hj|[_ E]]%lookup_snoc_Some; [by apply H6|done].
Qed.
Lemma pairs_drop h tr P x : ¬ ev_alters x.2 → pairs_ok h tr P (Some x) → pairs_ok h tr P None.
Proof. intros Hx [H1 H2 H3 H4 H5 H6]. constructor; try done. intros z Hz Ha. destruct (H5 z Hz Ha) as [?|[= ->]]; [by left|done]. Qed.
Lemma pairs_return h tr P ex t o r b x : started tr t b o → x ∉ P.*2 → ex = None ∨ ex = Some x →
  call_in (label_items tr) x → ev_tid x.2 = t → pos tr b ≤ x.1.1 → did h tr b t o r x →
  pairs_ok h tr P ex → pairs_ok h (tr ++ [Returns t o r]) (P ++ [((b, length tr, (t, o, r)), x)]) None.
Proof.
  intros Hs Hx Hex Hc Ht Hp Hd HP. pose proof (λ y x, pairs_in _ _ _ _ y x HP) as Hin. destruct HP as [H1 H2 H3 H4 H5 H6].
  pose proof (started_lt _ _ _ _ Hs) as Hlt.
  assert (∀ y, graph_call_in tr y → y.1.2 < length tr) as Hend.
  { intros [[b' j'] [[t' o'] r']] (_ & _ & E & _). by apply lookup_lt_Some in E. }
  constructor.
  - rewrite fmap_app. apply NoDup_app. split_and!; [done| |by apply NoDup_singleton].
    intros y Hy%H3%Hend Hy2. apply elem_of_list_singleton in Hy2. rewrite Hy2 in Hy. cbn [fst snd] in Hy. lia.
  - rewrite fmap_app. apply NoDup_app. split_and!; [done| |by apply NoDup_singleton].
    intros y Hy Hy2. apply elem_of_list_singleton in Hy2. rewrite Hy2 in Hy. done.
  - intros y. rewrite (graph_call_returns tr t o r b y Hs), fmap_app, elem_of_app, H3. cbn [fmap list_fmap fst]. by rewrite elem_of_list_singleton.
  - intros y z [Hyz|Hyz]%elem_of_app.
    + apply (fits_more h); [by apply grows_refl|by apply (Hin y z)|by apply H4].
    + apply elem_of_list_singleton in Hyz. apply pair_equal_spec in Hyz as [-> ->]. unfold fits.
      rewrite label_items_app. change (label_items [Returns t o r]) with (@nil titem). rewrite app_nil_r, !pos_app by lia.
      split_and!; try done; [rewrite pos_all by lia; by apply call_in_lt in Hc as [_ ?]|].
      destruct o as [op| | |]; [|done..]. destruct Hd as (q & -> & Hd). exists q. split; [done|].
      destruct Hd as [?|(l & lay & nl & i & a & x0 & E & E1 & E2 & E3 & E4 & E5 & E6)]; [by left|right].
      exists l, lay, nl, i, a, x0. split_and!; try done. apply got_more; [lia|done].
  - intros z Hz Ha. rewrite label_items_app in Hz. change (label_items [Returns t o r]) with (@nil titem) in Hz. rewrite app_nil_r in Hz.
    left. rewrite fmap_app, elem_of_app. destruct (H5 z Hz Ha) as [?|E]; [by left|]. right. destruct Hex as [->|Hex]; [done|].
    rewrite Hex in E. injection E as <-. by apply elem_of_list_singleton.
  - intros j t' o' r' [Hj|[-> E]]%lookup_snoc_Some.
    + destruct (H6 j t' o' r' Hj) as [b' Hb']. exists b'. rewrite fmap_app, elem_of_app. by left.
    + injection E as -> -> ->. exists b. rewrite fmap_app, elem_of_app. right. by apply elem_of_list_singleton.
Qed.

(** ** the callers *)
Definition pend_ok (tr : list nitem) (p : gmap tid lcall) (t : tid) (c : lcall) (lo : nat) : Prop :=
  ∀ c', p !! t = Some c' → c' = c ∧ ∃ lb, begun (label_items tr) t lb c ∧ lo ≤ lb.
Definition layer_in (h : hstate) (op : hop) : Prop := ∀ x, op_layer op = Some x → x ∈ h_layers h.
Definition caller_ok (tr : list nitem) (h : hstate) (p : gmap tid lcall) (t : tid) (b : nat) (q : hpc) : Prop :=
  match q with
  | HGet op => started tr t b (Graph op) ∧ layer_in h op ∧ pend_ok tr p t (CGet (op_name op)) (pos tr b)
  | HWalk op l a cur => started tr t b (Graph op) ∧ p !! t = None ∧
      (∃ n x, op = SetHead n x ∧ lb_layer l = Some a ∧ x ∈ h_layers h ∧ cur ∈ h_layers h ∧ (ancestor h a x ↔ ancestor h a cur)) ∧
      ∃ x0, got tr b t (op_name op) l x0
  | HSet op l => started tr t b (Graph op) ∧ layer_in h op ∧ is_Some (op_layer op) ∧ allowed (ancestor h) l op ∧
      ∃ x0, got tr b t (op_name op) l x0 ∧ pend_ok tr p t (CSet l (op_layer op)) (S x0.1.2)
  end.
Definition quiet (t : tid) (x : nitem) : Prop := match x with OnLabel (Begins u _) => u ≠ t | _ => True end.
Lemma begun_more tr more t b c : begun tr t b c → (∀ c', Begins t c' ∉ more) → begun (tr ++ more) t b c.
Proof.
  intros [H1 H2] Hm. split; [rewrite lookup_app_l; [done|by apply lookup_lt_Some in H1]|].
  intros k c' Hk [H|[_ H]]%lookup_app_Some; [by apply (H2 k c')|]. by apply elem_of_list_lookup_2, Hm in H.
Qed.
Lemma quiet_begins t more : (∀ x, x ∈ more → quiet t x) → ∀ c', Begins t c' ∉ label_items more.
Proof. intros Hq c' (x & Hx & E)%elem_of_list_omap. apply Hq in Hx. destruct x as [|[]|]; try done. injection E as -> ->. done. Qed.
Lemma pend_more tr more p p' t c lo : (∀ x, x ∈ more → quiet t x) → p' !! t = p !! t → pend_ok tr p t c lo → pend_ok (tr ++ more) p' t c lo.
Proof.
  intros Hq E H c' Hc. rewrite E in Hc. apply H in Hc as (-> & lb & Hb & Hlo). split; [done|]. exists lb. split; [|done].
  rewrite label_items_app. apply begun_more; [done|]. by apply quiet_begins.
Qed.
Lemma caller_more tr more h h' p p' t b q : grows h h' → (∀ x, x ∈ more → foreign t x ∧ quiet t x) → p' !! t = p !! t →
  caller_ok tr h p t b q → caller_ok (tr ++ more) h' p' t b q.
Proof.
  intros G Hm E. assert (∀ x, x ∈ more → foreign t x) as Hf by (intros x Hx; by apply Hm). assert (∀ x, x ∈ more → quiet t x) as Hq by (intros x Hx; by apply Hm).
  destruct q as [op|op l a cur|op l]; cbn [caller_ok].
  - intros (Hs & Hl & Hp). pose proof (started_lt _ _ _ _ Hs). split_and!; [by apply started_more|intros x Hx; by apply G, Hl|].
    rewrite pos_app by lia. by apply (pend_more tr more p).
  - intros (Hs & Hp & (n & x & -> & Hl & Hx & Hc & Ha) & x0 & Hg). pose proof (started_lt _ _ _ _ Hs). split_and!; [by apply started_more|by rewrite E| |].
    + exists n, x. split_and!; [done|done|by apply G|by apply G|]. destruct G as (G1 & G2 & G3).
      split; intros H'; [by apply G1, Ha, G2|by apply G1, Ha, G2].
    + exists x0. apply got_more; [lia|done].
  - intros (Hs & Hl & Ho & Ha & x0 & Hg & Hp). pose proof (started_lt _ _ _ _ Hs).
    split_and!; [by apply started_more|intros x Hx; by apply G, Hl|done|by apply (allowed_grows h)|].
    exists x0. split; [apply got_more; [lia|done]|]. by apply (pend_more tr more p).
Qed.
Record ginv (tr : list nitem) (h : hstate) (d : gmap tid gop) (p : gmap tid lcall) (P : list (gtimed * timed)) : Prop := {
  gi_dom : hdom h;
  gi_heads t q : h_threads h !! t = Some q → ∃ b, caller_ok tr h p t b q;
  gi_direct t o : d !! t = Some o → h_threads h !! t = None ∧ ∃ b c, direct_call o = Some c ∧ started tr t b o ∧ pend_ok tr p t c (pos tr b);
  gi_idle t : h_threads h !! t = None → d !! t = None → p !! t = None;
  gi_pairs : pairs_ok h tr P None }.
(** only the caller [t] does something *)
Lemma ginv_one tr h d p P more h' d' p' P' t : ginv tr h d p P → grows h h' → hdom h' →
  (∀ u x, u ≠ t → x ∈ more → foreign u x ∧ quiet u x) →
  (∀ u, u ≠ t → h_threads h' !! u = h_threads h !! u ∧ d' !! u = d !! u ∧ p' !! u = p !! u) →
  (∀ q, h_threads h' !! t = Some q → ∃ b, caller_ok (tr ++ more) h' p' t b q) →
  (∀ o, d' !! t = Some o → h_threads h' !! t = None ∧ ∃ b c, direct_call o = Some c ∧ started (tr ++ more) t b o ∧ pend_ok (tr ++ more) p' t c (pos (tr ++ more) b)) →
  (h_threads h' !! t = None → d' !! t = None → p' !! t = None) →
  pairs_ok h' (tr ++ more) P' None → ginv (tr ++ more) h' d' p' P'.
Proof.
  intros I G D Hm Hu H1 H2 H3 H4. constructor; [done| | | |done].
  - intros u q Hq. destruct (decide (u = t)) as [->|Hne]; [by apply H1|]. destruct (Hu u Hne) as (E1 & E2 & E3). rewrite E1 in Hq.
    destruct (gi_heads _ _ _ _ _ I u q Hq) as [b Hb]. exists b. apply (caller_more tr more h h' p p'); [done| |done|done]. intros x Hx. by apply Hm.
  - intros u o Ho. destruct (decide (u = t)) as [->|Hne]; [by apply H2|]. destruct (Hu u Hne) as (E1 & E2 & E3). rewrite E2 in Ho.
    destruct (gi_direct _ _ _ _ _ I u o Ho) as (Hn & b & c & Hc & Hs & Hp). split; [by rewrite E1|]. exists b, c.
    pose proof (started_lt _ _ _ _ Hs). rewrite pos_app by lia. split_and!; [done|apply started_more; [done|]|apply (pend_more tr more p); [|done|done]].
    + intros x Hx. by apply (Hm u x).
    + intros x Hx. by apply (Hm u x).
  - intros u. destruct (decide (u = t)) as [->|Hne]; [done|]. destruct (Hu u Hne) as (E1 & E2 & E3). rewrite E1, E2, E3. apply (gi_idle _ _ _ _ _ I u).
Qed.
Lemma goto_grows h t q : grows h (hgoto h t q).
Proof. done. Qed.
Lemma leave_grows h t : grows h (hleave h t).
Proof. done. Qed.
Lemma label_new h d p P tr e lb c : ginv tr h d p P → begun (label_items tr) (ev_tid e) lb c → answers c e →
  call_in (label_items (tr ++ [OnLabel (Ends e)])) (lb, length (label_items tr), e) ∧ (lb, length (label_items tr), e) ∉ P.*2.
Proof.
  intros I Hb Ha. split.
  - rewrite label_items_app. change (label_items [OnLabel (Ends e)]) with [Ends e]. apply (call_in_ends _ _ lb c); [done|done|by right].
  - intros ([y x] & E & Hyx)%elem_of_list_fmap. cbn [snd] in E. rewrite <- E in Hyx.
    pose proof (pairs_fit _ _ _ _ (gi_pairs _ _ _ _ _ I) y _ Hyx) as Hf. destruct y as [[b j] [[t o] r]]. destruct Hf as (Hc & _).
    apply call_in_lt in Hc. cbn [fst snd] in Hc. lia.
Qed.
(** the call at which the label was read is no other call's *)
Lemma got_new h d p P tr t b o n l x0 : ginv tr h d p P → started tr t b o → got tr b t n l x0 → x0 ∉ P.*2.
Proof.
  intros I Hs (Hc & (i & Ei) & Hp). intros ([y x] & E & Hyx)%elem_of_list_fmap. cbn [snd] in E. rewrite <- E in Hyx.
  pose proof (pairs_fit _ _ _ _ (gi_pairs _ _ _ _ _ I) y _ Hyx) as Hf. pose proof (pairs_in _ _ _ _ _ _ (gi_pairs _ _ _ _ _ I) Hyx) as Hy.
  destruct y as [[b' j] [[t' o'] r]]. destruct Hf as (_ & Ht & _ & Hj & _). rewrite Ei in Ht. cbn [ev_tid] in Ht. subst t'.
  destruct Hy as (_ & _ & Hr & _). destruct Hs as (S1 & S2 & S3).
  assert (j ≤ b) as Hjb. { destruct (decide (j ≤ b)) as [?|?]; [done|]. exfalso. apply (S3 j o' r); [lia|done]. }
  pose proof (pos_mono tr j b Hjb). apply call_in_lt in Hc. lia.
Qed.

Lemma ret_items_quiet t u op q x : u ≠ t → x ∈ ret_items (Some (t, op, q)) → foreign u x ∧ quiet u x.
Proof. intros Hne Hx. cbn [ret_items] in Hx. apply elem_of_list_singleton in Hx as ->. cbn [foreign quiet]. done. Qed.
Lemma end_quiet (u : tid) (e : lev) r x : (∀ t' op q, r = Some (t', op, q) → t' = ev_tid e) → u ≠ ev_tid e → x ∈ OnLabel (Ends e) :: ret_items r → foreign u x ∧ quiet u x.
Proof.
  intros Hr Hne [->|Hx]%elem_of_cons; [done|]. destruct r as [[[t' op] q]|]; [|by apply elem_of_nil in Hx].
  pose proof (Hr _ _ _ eq_refl) as ->. by apply (ret_items_quiet (ev_tid e) u op q).
Qed.
(** a call on the label store returns *)
Lemma ginv_end tr h d p P c e r h' q : ginv tr h d p P → p !! ev_tid e = Some c → answers c e → h_threads h !! ev_tid e = Some q →
  hstep h (HItem (Some e) r) h' → (∀ u, u ≠ ev_tid e → h_threads h' !! u = h_threads h !! u) → h_threads h' !! ev_tid e ≠ Some q →
  ∃ P', ginv (tr ++ OnLabel (Ends e) :: ret_items r) h' d (delete (ev_tid e) p) P'.
Proof.
  intros I Hp Ha Hq Hst Hoth Hchg. destruct (gi_heads _ _ _ _ _ I _ _ Hq) as [b Hb].
  pose proof (grows_step _ _ _ (gi_dom _ _ _ _ _ I) Hst) as G. pose proof (hstep_dom _ _ _ Hst (gi_dom _ _ _ _ _ I)) as D.
  assert (d !! ev_tid e = None) as Hd.
  { destruct (d !! ev_tid e) as [o|] eqn:E; [|done]. apply (gi_direct _ _ _ _ _ I) in E as [E _]. by rewrite E in Hq. }
  set (t := ev_tid e) in *.
  assert (∀ o, started tr t b o → b < length tr) as Hlt by (intros o; by apply started_lt).
  (* the call begun, and the pair *)
  assert (∃ lb, begun (label_items tr) t lb c ∧ pos tr b ≤ lb ∧
    (match q with HGet op => c = CGet (op_name op) | HWalk _ _ _ _ => False
     | HSet op l => c = CSet l (op_layer op) ∧ ∃ x0, got tr b t (op_name op) l x0 ∧ x0.1.2 < lb end)) as (lb & Hlb & Hpos & Hq').
  { destruct q as [op|op l a cur|op l]; cbn [caller_ok] in Hb.
    - destruct Hb as (_ & _ & Hpe). destruct (Hpe c Hp) as (-> & lb & ? & ?). by exists lb.
    - destruct Hb as (_ & E & _). by rewrite E in Hp.
    - destruct Hb as (_ & _ & _ & _ & x0 & Hg & Hpe). destruct (Hpe c Hp) as (-> & lb & ? & ?). exists lb. split; [done|].
      split; [|split; [done|exists x0; split; [done|lia]]]. destruct Hg as (Hc0 & _ & Hp0). apply call_in_lt in Hc0. lia. }
  destruct (label_new h d p P tr e lb c I Hlb Ha) as [Hnew Hfresh].
  pose proof (pairs_silent h h' tr P None G (gi_pairs _ _ _ _ _ I)) as HP1.
  pose proof (pairs_end h' tr P e lb c Hlb Ha HP1) as HP2. set (x := (lb, length (label_items tr), e)) in *.
  set (tr1 := tr ++ [OnLabel (Ends e)]) in *.
  assert (started tr t b (Graph (match q with HGet op | HWalk op _ _ _ | HSet op _ => op end))) as Hs.
  { destruct q; cbn [caller_ok] in Hb; by destruct Hb. }
  pose proof (started_lt _ _ _ _ Hs) as Hblt.
  assert (started tr1 t b (Graph (match q with HGet op | HWalk op _ _ _ | HSet op _ => op end))) as Hs1.
  { apply started_more; [done|]. intros y ->%elem_of_list_singleton. done. }
  assert (pos tr1 b ≤ x.1.1) as Hpos1. { unfold tr1. rewrite pos_app by lia. done. }
  assert (delete t p !! t = None) as Hpd by apply lookup_delete.
  assert (∀ more' , tr ++ OnLabel (Ends e) :: more' = tr1 ++ more') as Etr. { intros m. unfold tr1. by rewrite <- app_assoc. }
  (* goes on *)
  assert (∀ q', h_threads h' !! t = Some q' → r = None → caller_ok tr1 h' (delete t p) t b q' → ¬ ev_alters e →
    ∃ P', ginv (tr ++ OnLabel (Ends e) :: ret_items r) h' d (delete t p) P') as Hon.
  { intros q' Hq1 -> Hok Hna. cbn [ret_items]. fold tr1. exists P.
    apply (ginv_one tr h d p P [OnLabel (Ends e)] h' d (delete t p) P t); try done.
    - intros u y Hne ->%elem_of_list_singleton. done.
    - intros u Hne. split_and!; [by apply Hoth|done|by rewrite lookup_delete_ne].
    - intros q2 E. rewrite E in Hq1. injection Hq1 as ->. by exists b.
    - intros o E. by rewrite E in Hd.
    - apply (pairs_drop h' _ P x); [exact Hna|exact HP2]. }
  (* returns *)
  assert (∀ op res, h_threads h' !! t = None → r = Some (t, op, res) → started tr1 t b (Graph op) → did h' tr1 b t (Graph op) (GHead res) x →
    ∃ P', ginv (tr ++ OnLabel (Ends e) :: ret_items r) h' d (delete t p) P') as Hret.
  { intros op res Hq1 -> Hso Hdid. exists (P ++ [((b, length tr1, (t, Graph op, GHead res)), x)]).
    apply (ginv_one tr h d p P (OnLabel (Ends e) :: ret_items (Some (t, op, res))) h' d (delete t p) _ t); try done.
    - intros u y Hne Hy. apply (end_quiet u e (Some (t, op, res))); [|done|done]. by intros t' op' q1 [= <- _ _].
    - intros u Hne. split_and!; [by apply Hoth|done|by rewrite lookup_delete_ne].
    - intros q2 E. by rewrite E in Hq1.
    - intros o E. by rewrite E in Hd.
    - rewrite Etr. cbn [ret_items]. by apply (pairs_return h' tr1 P (Some x)); try done; right. }
  destruct q as [op|op l a cur|op l]; [|done|].
  - destruct Hb as (_ & Hli & _). subst c.
    inversion Hst as [|s0 e0 Hno|s0|s0 t0 op0 i l0 Ht0|s0 t0 op0 i Ht0|s0 t0 op0 i k Ht0|s0|s0|s0|s0 t0 op0 l0 lay nl i rr Ht0|s0 t0 op0 l0 lay nl i k Ht0|s0|s0]; subst.
    + by destruct Hchg.
    + (* h_get *) cbn [ev_tid] in *. subst t. rewrite Ht0 in Hq. injection Hq as ->.
      destruct (after_get op l0) as [q'|res] eqn:Eag.
      * apply (Hon q'); [by cbn [continue hgoto h_threads]; rewrite lookup_insert|done| |by intros []].
        assert (got tr1 b t0 (op_name op) l0 x) as Hg by (split_and!; [done|by exists i|done]).
        destruct op as [n y|n y|n y v|n]; cbn [after_get] in Eag; try done.
        -- destruct (lb_layer l0) as [a|] eqn:El; injection Eag as <-; cbn [caller_ok].
           ++ split_and!; [done|done| |by exists x]. exists n, y. pose proof (Hli y eq_refl). split_and!; done.
           ++ split_and!; [done|done|done|cbn [allowed]; by rewrite El|]. exists x. split; [done|]. intros c' E'. by rewrite Hpd in E'.
        -- injection Eag as <-. cbn [caller_ok]. split_and!; [done|done|done|done|]. exists x. split; [done|]. intros c' E'. by rewrite Hpd in E'.
        -- destruct (lb_version l0 =? v)%N eqn:Ev; [|done]. injection Eag as <-. apply N.eqb_eq in Ev. cbn [caller_ok].
           split_and!; [done|done|done|done|]. exists x. split; [done|]. intros c' E'. by rewrite Hpd in E'.
      * apply (Hret op res); [by cbn [continue hleave h_threads]; rewrite lookup_delete|done|done|].
        exists res. split; [done|]. left. exists i, (Ok (Some l0)). split; [done|].
        destruct op as [n y|n y|n y v|n]; cbn [after_get] in Eag; try done.
        -- by destruct (lb_layer l0).
        -- destruct (lb_version l0 =? v)%N eqn:Ev; [done|]. injection Eag as <-. apply N.eqb_neq in Ev. cbn [got_ok allowed].
           split; [exists y; split; [done|by apply G, Hli]|done].
        -- injection Eag as <-. cbn [got_ok]. split_and!; [done|done|by exists n].
    + cbn [ev_tid] in *. subst t. rewrite Ht0 in Hq. injection Hq as ->. apply (Hret op RErr); [by cbn [hleave h_threads]; rewrite lookup_delete|done|done|].
      exists RErr. split; [done|]. left. by exists i, (Ok None).
    + cbn [ev_tid] in *. subst t. rewrite Ht0 in Hq. injection Hq as ->. apply (Hret op RErr); [by cbn [hleave h_threads]; rewrite lookup_delete|done|done|].
      exists RErr. split; [done|]. left. by exists i, (Err k).
    + cbn [ev_tid] in *. subst t. by rewrite Ht0 in Hq.
    + cbn [ev_tid] in *. subst t. by rewrite Ht0 in Hq.
  - destruct Hb as (_ & Hli & Hop & Hal & _). destruct Hq' as (-> & x0 & Hg0 & Hlt0).
    assert (∀ i lay nl a res, e = EvSet t l nl i a → op_layer op = Some lay → with_updated_layer l (Some lay) = Some nl → set_ok op a res →
      did h' tr1 b t (Graph op) (GHead res) x) as Hdid.
    { intros i lay nl a res Ee E1 E2 E3. exists res. split; [done|]. right. exists l, lay, nl, i, a, x0.
      split_and!; try done; [by apply (allowed_grows h)|]. unfold tr1. apply got_more; [lia|done]. }
    inversion Hst as [|s0 e0 Hno|s0|s0 t0 op0 i l0 Ht0|s0 t0 op0 i Ht0|s0 t0 op0 i k Ht0|s0|s0|s0|s0 t0 op0 l0 lay nl i rr Ht0 Hlay Hw|s0 t0 op0 l0 lay nl i k Ht0 Hlay Hw|s0|s0]; subst.
    + by destruct Hchg.
    + cbn [ev_tid] in *. subst t. by rewrite Ht0 in Hq.
    + cbn [ev_tid] in *. subst t. by rewrite Ht0 in Hq.
    + cbn [ev_tid] in *. subst t. by rewrite Ht0 in Hq.
    + cbn [ev_tid] in *. subst t. rewrite Ht0 in Hq. injection Hq as -> ->.
      destruct (after_set op (bool_decide (is_Some rr))) as [q'|res] eqn:Eas.
      * destruct op as [n y|n y|n y v|n]; cbn [after_set] in Eas; try done. destruct rr as [rl|]; [by rewrite bool_decide_true in Eas|].
        rewrite bool_decide_false in Eas by (by intros [? ?]). injection Eas as <-.
        apply (Hon (HGet (ForceHead n y))); [by cbn [continue hgoto h_threads]; rewrite lookup_insert|done| |by intros []].
        cbn [caller_ok]. split_and!; [done|done|]. intros c' E'. by rewrite Hpd in E'.
      * apply (Hret op res); [by cbn [continue hleave h_threads]; rewrite lookup_delete|done|done|].
        apply (Hdid i lay nl (Ok rr)); [done|done|done|].
        destruct rr as [rl|]; [rewrite bool_decide_true in Eas by done|rewrite bool_decide_false in Eas by (by intros [? ?])]; cbn [set_ok].
        -- destruct op; cbn [after_set] in Eas; by injection Eas as <-.
        -- destruct op; cbn [after_set] in Eas; try done; by injection Eas as <-.
    + cbn [ev_tid] in *. subst t. rewrite Ht0 in Hq. injection Hq as -> ->.
      apply (Hret op RErr); [by cbn [hleave h_threads]; rewrite lookup_delete|done|done|]. by apply (Hdid i lay nl (Err k)).
Qed.
Lemma ginv_grow tr h d p P h' : ginv tr h d p P → grows h h' → hdom h' → (∀ t q, h_threads h' !! t = Some q → h_threads h !! t = Some q) →
  (∀ t, is_Some (p !! t) → h_threads h' !! t = h_threads h !! t) → ginv tr h' d p P.
Proof.
  intros I G D H1 H2. constructor; [done| | | |by apply (pairs_silent h), (gi_pairs _ _ _ _ _ I)].
  - intros t q Hq%H1. destruct (gi_heads _ _ _ _ _ I _ _ Hq) as [b Hb]. exists b. rewrite <- (app_nil_r tr).
    apply (caller_more tr [] h h' p p); [done| |done|done]. intros x Hx. by apply elem_of_nil in Hx.
  - intros t o Ho. destruct (gi_direct _ _ _ _ _ I t o Ho) as [Hn Hr]. split; [|done].
    destruct (h_threads h' !! t) as [q|] eqn:E; [|done]. apply H1 in E. by rewrite E in Hn.
  - intros t Hn Hd. destruct (p !! t) as [c|] eqn:E; [|done]. rewrite H2 in Hn by (by exists c). by rewrite (gi_idle _ _ _ _ _ I t Hn Hd) in E.
Qed.
(** a caller goes on without a call on the label store *)
Lemma ginv_on tr h d p P t b q q' it : ginv tr h d p P → h_threads h !! t = Some q → p !! t = None → hstep h it (hgoto h t q') →
  caller_ok tr h p t b q' → ginv tr (hgoto h t q') d p P.
Proof.
  intros I Hq Hp Hst Hok. pose proof (grows_step _ _ _ (gi_dom _ _ _ _ _ I) Hst) as G. pose proof (hstep_dom _ _ _ Hst (gi_dom _ _ _ _ _ I)) as D.
  rewrite <- (app_nil_r tr). apply (ginv_one tr h d p P [] _ d p P t); try done.
  - intros u x _ Hx. by apply elem_of_nil in Hx.
  - intros u Hne. split_and!; [|done|done]. cbn [hgoto h_threads]. by rewrite lookup_insert_ne.
  - intros q2. cbn [hgoto h_threads]. rewrite lookup_insert. intros [= <-]. exists b. apply (caller_more tr [] h _ p p); [done| |done|done].
    intros x Hx. by apply elem_of_nil in Hx.
  - intros o Ho. apply (gi_direct _ _ _ _ _ I) in Ho as [Hn _]. by rewrite Hn in Hq.
  - rewrite app_nil_r. by apply (pairs_silent h), (gi_pairs _ _ _ _ _ I).
Qed.
Lemma ginv_back tr h d p P t b q op l res it x0 : ginv tr h d p P → h_threads h !! t = Some q → p !! t = None → hstep h it (hleave h t) →
  started tr t b (Graph op) → got tr b t (op_name op) l x0 → got_ok h op (Ok (Some l)) res →
  ∃ P', ginv (tr ++ [Returns t (Graph op) (GHead res)]) (hleave h t) d p P'.
Proof.
  intros I Hq Hp Hst Hs Hg Hok. pose proof (grows_step _ _ _ (gi_dom _ _ _ _ _ I) Hst) as G. pose proof (hstep_dom _ _ _ Hst (gi_dom _ _ _ _ _ I)) as D.
  exists (P ++ [((b, length tr, (t, Graph op, GHead res)), x0)]). apply (ginv_one tr h d p P _ _ d p _ t); try done.
  - intros u x Hne ->%elem_of_list_singleton. done.
  - intros u Hne. split_and!; [|done|done]. cbn [hleave h_threads]. by rewrite lookup_delete_ne.
  - intros q2. cbn [hleave h_threads]. by rewrite lookup_delete.
  - intros o Ho. apply (gi_direct _ _ _ _ _ I) in Ho as [Hn _]. by rewrite Hn in Hq.
  - pose proof (got_new _ _ _ _ _ _ _ _ _ _ _ I Hs Hg) as Hfresh. destruct Hg as (Hc & (i & Ei) & Hpos).
    apply (pairs_return _ tr P None); [done|done|by left|done|by rewrite Ei|done| |by apply (pairs_silent h), (gi_pairs _ _ _ _ _ I)].
    exists res. split; [done|]. left. by exists i, (Ok (Some l)).
Qed.
Lemma ancestor_self h a : ancestor h a a.
Proof. apply rtc_refl. Qed.
Lemma ginv_silent tr h d p P r h' : ginv tr h d p P → hstep h (HItem None r) h' → (∀ t, h_threads h !! t = None → h_threads h' !! t = None) →
  (∀ t, is_Some (p !! t) → h_threads h' !! t = h_threads h !! t) → ∃ P', ginv (tr ++ ret_items r) h' d p P'.
Proof.
  intros I Hst Hno Hsame. pose proof (grows_step _ _ _ (gi_dom _ _ _ _ _ I) Hst) as G. pose proof (hstep_dom _ _ _ Hst (gi_dom _ _ _ _ _ I)) as D.
  inversion Hst as [s0 y par Hy Hpar| |s0 t op Hn|s0 t op i l0 Ht0|s0 t op i Ht0|s0 t op i k Ht0|s0 t op l a Ht|s0 t op l a cur par Ht Hne Hpar|s0 t op l a cur Ht Hne Hpar|s0|s0|s0 t op l lay Ht Hlay Hw|s0]; subst; cbn [ret_items] in *; rewrite ?app_nil_r.
  - exists P. by apply (ginv_grow tr h).
  - exfalso. specialize (Hno t Hn). cbn [hgoto h_threads] in Hno. by rewrite lookup_insert in Hno.
  - exists P. destruct (gi_heads _ _ _ _ _ I _ _ Ht) as [b Hb]. cbn [caller_ok] in Hb.
    destruct Hb as (Hs & Hp & (n & x & -> & Hl & Hx & Hc & Ha) & x0 & Hg).
    apply (ginv_on tr h d p P t b (HWalk (SetHead n x) l a a) _ (HItem None None)); [done|done|done|done|]. cbn [caller_ok].
    split_and!; [done|intros y [= <-]; done|done| |exists x0; split; [done|]; intros c' E; by rewrite E in Hp].
    cbn [allowed]. rewrite Hl. apply Ha, ancestor_self.
  - exists P. destruct (gi_heads _ _ _ _ _ I _ _ Ht) as [b Hb]. cbn [caller_ok] in Hb.
    destruct Hb as (Hs & Hp & (n & x & -> & Hl & Hx & Hc & Ha) & x0 & Hg).
    apply (ginv_on tr h d p P t b (HWalk (SetHead n x) l a cur) _ (HItem None None)); [done|done|done|done|]. cbn [caller_ok].
    split_and!; [done|done| |by exists x0]. exists n, x. split_and!; [done|done|done|by apply (gi_dom _ _ _ _ _ I cur par)|].
    rewrite Ha. split.
    + intros Hanc. inversion Hanc as [|? z ? Hz Hrest]; subst; [done|]. rewrite Hpar in Hz. by injection Hz as <-.
    + intros Hanc. by apply (rtc_l _ cur par).
  - destruct (gi_heads _ _ _ _ _ I _ _ Ht) as [b Hb]. cbn [caller_ok] in Hb.
    destruct Hb as (Hs & Hp & (n & x & -> & Hl & Hx & Hc & Ha) & x0 & Hg).
    apply (ginv_back tr h d p P t b (HWalk (SetHead n x) l a cur) (SetHead n x) l (RBool false) (HItem None (Some (t, SetHead n x, RBool false))) x0); try done.
    cbn [got_ok]. split; [by exists x|]. cbn [allowed]. rewrite Hl, Ha. intros Hanc. inversion Hanc as [|? z ? Hz Hrest]; subst; [done|]. by rewrite Hpar in Hz.
  - destruct (gi_heads _ _ _ _ _ I _ _ Ht) as [b Hb]. cbn [caller_ok] in Hb. destruct Hb as (Hs & Hli & Hop & Hal & x0 & Hg & _).
    assert (p !! t = None) as Hp.
    { destruct (p !! t) as [c|] eqn:E; [|done]. exfalso. specialize (Hsame t (ex_intro _ c E)). cbn [hleave h_threads] in Hsame. rewrite lookup_delete, Ht in Hsame. done. }
    apply (ginv_back tr h d p P t b (HSet op l) op l RPanic (HItem None (Some (t, op, RPanic))) x0); try done.
    cbn [got_ok]. split_and!; [done| |done]. unfold with_updated_layer in Hw. destruct (u64_max <=? lb_version l)%N eqn:E; [|done]. by apply N.leb_le in E.
  - exists P. apply (ginv_grow tr h); try done.
Qed.
Lemma gexec_inv tr g : gexec tr g → ∃ P, ginv tr (g_heads g) (g_direct g) (g_pend g) P.
Proof.
  induction 1 as [|tr h d p t op Hex [P I] Hd Ht Hst|tr h d p t o c Hex [P I] Hd Ht Hc|tr h d p t c Hex [P I] Hnx Hp|tr h d p c e r h' q Hex [P I] Hp Ha Hq Hst Hoth Hchg|tr h d p c e o Hex [P I] Hp Ha Ho|tr h d p r h' Hex [P I] Hst Hno Hsame]; cbn [g_heads g_direct g_pend] in *.
  - exists []. constructor.
    + intros x y Hx. cbn [gstate_init g_heads hstate_init h_parents] in Hx. by rewrite lookup_empty in Hx.
    + intros t q Hq. cbn [gstate_init g_heads hstate_init h_threads] in Hq. by rewrite lookup_empty in Hq.
    + intros t o Ho. cbn [gstate_init g_direct] in Ho. by rewrite lookup_empty in Ho.
    + intros t _ _. apply lookup_empty.
    + constructor; [by apply NoDup_nil|by apply NoDup_nil| | | |done].
      * intros [[b j] [[t o] r]]. split; [|intros H; by apply elem_of_nil in H]. intros (_ & E & _). done.
      * intros y x Hyx. by apply elem_of_nil in Hyx.
      * intros x Hx. apply call_in_lt in Hx as [_ Hx]. cbn [label_items omap list_omap length] in Hx. lia.
  - exists P. pose proof (gi_idle _ _ _ _ _ I t Ht Hd) as Hp. pose proof (gi_dom _ _ _ _ _ I) as D.
    apply (ginv_one tr h d p P _ _ d p P t); try done.
    + intros u x Hne ->%elem_of_list_singleton. done.
    + intros u Hne. split_and!; [|done|done]. cbn [hgoto h_threads]. by rewrite lookup_insert_ne.
    + intros q. cbn [hgoto h_threads]. rewrite lookup_insert. intros [= <-]. exists (length tr). cbn [caller_ok].
      split_and!; [by apply started_now| |intros c' E; by rewrite E in Hp]. intros x Hx. cbn [hgoto h_layers].
      by rewrite Hx in Hst.
    + intros o Ho. by rewrite Ho in Hd.
    + apply pairs_item; [done|done|]. by apply (pairs_silent h), (gi_pairs _ _ _ _ _ I).
  - exists P. pose proof (gi_idle _ _ _ _ _ I t Ht Hd) as Hp. pose proof (gi_dom _ _ _ _ _ I) as D.
    apply (ginv_one tr h d p P _ h _ p P t); try done.
    + intros u x Hne ->%elem_of_list_singleton. done.
    + intros u Hne. split_and!; [done|by rewrite lookup_insert_ne|done].
    + intros q Hq. by rewrite Hq in Ht.
    + intros o'. rewrite lookup_insert. intros [= <-]. split; [done|]. exists (length tr), c. split_and!; [done|by apply started_now|].
      intros c' E. by rewrite E in Hp.
    + apply pairs_item; [done|done|]. apply (gi_pairs _ _ _ _ _ I).
  - exists P. pose proof (gi_dom _ _ _ _ _ I) as D.
    assert (∀ lo, lo ≤ length (label_items tr) → pend_ok (tr ++ [OnLabel (Begins t c)]) (<[t:=c]> p) t c lo) as Hpe.
    { intros lo Hlo c'. rewrite lookup_insert. intros [= <-]. split; [done|]. exists (length (label_items tr)). split; [|done].
      rewrite label_items_app. apply begun_now. }
    apply (ginv_one tr h d p P _ h d _ P t); try done.
    + intros u x Hne ->%elem_of_list_singleton. done.
    + intros u Hne. split_and!; [done|done|by rewrite lookup_insert_ne].
    + intros q Hq. unfold next_call in Hnx. cbn [g_heads g_direct] in Hnx. rewrite Hq in Hnx.
      destruct (gi_heads _ _ _ _ _ I _ _ Hq) as [b Hb]. exists b.
      assert (∀ o, started tr t b o → started (tr ++ [OnLabel (Begins t c)]) t b o) as Hst.
      { intros o Hs. apply started_more; [done|]. intros x ->%elem_of_list_singleton. done. }
      destruct q as [op|op l a cur|op l]; [| |]; cbn [caller_ok] in *.
      * injection Hnx as <-. destruct Hb as (Hs & Hli & _). pose proof (started_lt _ _ _ _ Hs). split_and!; [by apply Hst|done|]. apply Hpe. rewrite pos_app by lia. apply pos_le.
      * done.
      * injection Hnx as <-. destruct Hb as (Hs & Hli & Hop & Hal & x0 & Hg & _). pose proof (started_lt _ _ _ _ Hs). split_and!; [by apply Hst|done|done|done|].
        exists x0. split; [apply got_more; [lia|done]|]. apply Hpe. destruct Hg as (Hc0 & _). apply call_in_lt in Hc0. lia.
    + intros o Ho. destruct (gi_direct _ _ _ _ _ I t o Ho) as (Hn & b & c' & Hc & Hs & _). split; [done|]. exists b, c'.
      pose proof (started_lt _ _ _ _ Hs). unfold next_call in Hnx. cbn [g_heads g_direct] in Hnx. rewrite Hn, Ho in Hnx. cbn [mbind option_bind] in Hnx. rewrite Hc in Hnx. injection Hnx as ->.
      split_and!; [done|apply started_more; [done|]; intros x ->%elem_of_list_singleton; done|]. apply Hpe. rewrite pos_app by lia. apply pos_le.
    + intros Hn Hd. unfold next_call in Hnx. cbn [g_heads g_direct] in Hnx. by rewrite Hn, Hd in Hnx.
    + apply pairs_item; [done|done|]. apply (gi_pairs _ _ _ _ _ I).
  - by apply (ginv_end tr h d p P c e r h' q).
  - destruct (gi_direct _ _ _ _ _ I _ _ Ho) as (Hn & b & c' & Hc & Hs & Hpe). destruct (Hpe c Hp) as (-> & lb & Hlb & Hlo). pose proof (gi_dom _ _ _ _ _ I) as D.
    destruct (label_new h d p P tr e lb c' I Hlb Ha) as [Hnew Hfresh]. pose proof (started_lt _ _ _ _ Hs).
    exists (P ++ [((b, length (tr ++ [OnLabel (Ends e)]), (ev_tid e, o, direct_res e)), (lb, length (label_items tr), e))]).
    apply (ginv_one tr h d p P _ h _ _ _ (ev_tid e)); try done.
    + intros u x Hne [->|Hx]%elem_of_cons; [done|]. by apply elem_of_list_singleton in Hx as ->.
    + intros u Hne. split_and!; [done|by rewrite lookup_delete_ne|by rewrite lookup_delete_ne].
    + intros q Hq. by rewrite Hq in Hn.
    + intros o'. by rewrite lookup_delete.
    + intros _ _. apply lookup_delete.
    + change [OnLabel (Ends e); Returns (ev_tid e) o (direct_res e)] with ([OnLabel (Ends e)] ++ [Returns (ev_tid e) o (direct_res e)]). rewrite app_assoc.
      apply (pairs_return h _ P (Some (lb, length (label_items tr), e))); [|done|by right|done|done| | |].
      * apply started_more; [done|]. intros x ->%elem_of_list_singleton. done.
      * rewrite pos_app by lia. done.
      * destruct o as [op| | |]; [done| | |]; (exists c'; split_and!; [done|done|done]).
      * apply (pairs_end h tr P e lb c'); [done|done|]. apply (gi_pairs _ _ _ _ _ I).
  - by apply (ginv_silent tr h d p P r h').
Qed.

(** ** the order *)
Definition pick (P : list (gtimed * timed)) (x : timed) : option (gtimed * timed) := head (filter (λ yx : gtimed * timed, yx.2 = x) P).
Lemma pick_some P x yx : pick P x = Some yx → yx ∈ P ∧ yx.2 = x.
Proof.
  unfold pick. intros H. assert (yx ∈ filter (λ yx : gtimed * timed, yx.2 = x) P) as Hin by (destruct (filter _ P); [done|]; injection H as ->; left).
  apply elem_of_list_filter in Hin. tauto.
Qed.
Lemma pick_none P x : pick P x = None → x ∉ P.*2.
Proof.
  unfold pick. intros H ([y x'] & E & Hyx)%elem_of_list_fmap. assert ((y, x') ∈ filter (λ yx : gtimed * timed, yx.2 = x) P) as Hin by (apply elem_of_list_filter; done).
  destruct (filter _ P); [by apply elem_of_nil in Hin|done].
Qed.
Lemma pick_in P yx : NoDup P.*2 → yx ∈ P → pick P yx.2 = Some yx.
Proof.
  intros Hnd Hin. destruct (pick P yx.2) as [zx|] eqn:E.
  - apply pick_some in E as [Hz Ez]. f_equal. destruct yx as [y x], zx as [z x']. cbn [snd] in Ez. subst x'.
    apply elem_of_list_lookup in Hin as [i Hi]. apply elem_of_list_lookup in Hz as [j Hj].
    assert (i = j) as ->; [|rewrite Hi in Hj; by injection Hj as ->].
    apply (NoDup_lookup P.*2 i j x Hnd); rewrite list_lookup_fmap; [by rewrite Hi|by rewrite Hj].
  - apply pick_none in E. destruct E. by apply (elem_of_list_fmap_1 snd) in Hin.
Qed.
Lemma picks_in P (xs : list timed) yx : NoDup P.*2 → (∀ x, x ∈ P.*2 → x ∈ xs) → yx ∈ omap (pick P) xs ↔ yx ∈ P.
Proof.
  intros Hnd Hall. rewrite elem_of_list_omap. split.
  - intros (x & _ & E). by apply pick_some in E as [? _].
  - intros Hin. exists yx.2. split; [apply Hall; by apply (elem_of_list_fmap_1 snd) in Hin|by apply pick_in].
Qed.
Lemma picks_sorted (P : list (gtimed * timed)) (R : timed → timed → Prop) (Q : gtimed * timed → gtimed * timed → Prop) (xs : list timed) :
  (∀ y x y' x', (y, x) ∈ P → (y', x') ∈ P → R x x' → Q (y, x) (y', x')) → StronglySorted R xs → StronglySorted Q (omap (pick P) xs).
Proof.
  intros HRQ. induction 1 as [|x xs Hs IH Hf]; [constructor|]. cbn [omap list_omap]. destruct (pick P x) as [[y x']|] eqn:E; [|done].
  apply pick_some in E as [Hin Ex]. cbn [snd] in Ex. subst x'. constructor; [done|]. apply Forall_forall. intros [y' x'] (x2 & Hx2 & E2)%elem_of_list_omap.
  apply pick_some in E2 as [Hin2 Ex2]. cbn [snd] in Ex2. subst x'. apply HRQ; [done|done|]. rewrite Forall_forall in Hf. by apply Hf.
Qed.
Lemma sorted_lookup {X : Type} (R : X → X → Prop) (l : list X) : (∀ i j x y, i < j → l !! i = Some x → l !! j = Some y → R x y) ↔ StronglySorted R l.
Proof.
  split.
  - induction l as [|x l IH]; intros H; [constructor|]. constructor.
    + apply IH. intros i j u v Hij Hi Hj. apply (H (S i) (S j)); [lia|done|done].
    + apply Forall_forall. intros y [j Hj]%elem_of_list_lookup. apply (H 0 (S j)); [lia|done|done].
  - induction 1 as [|x l Hs IH Hf]; [done|]. intros i j u v Hij Hi Hj. destruct j as [|j]; [lia|]. cbn [lookup list_lookup] in Hj. destruct i as [|i].
    + injection Hi as <-. rewrite Forall_forall in Hf. apply Hf. by apply elem_of_list_lookup_2 in Hj.
    + cbn [lookup list_lookup] in Hi. apply (IH i j); [lia|done|done].
Qed.
Lemma calls_on_cons c e es c' : calls_on c (e :: es) c' → ∃ c1 c2, (c1 = c ∨ c = Absent ∧ c1 = Making) ∧ call_on c1 e c2 ∧ calls_on c2 es c'.
Proof.
  intros H. inversion H as [|? ? Hm|? ? c2 ? ? Hc Hr]; subst.
  - inversion Hm as [|? ? Hm2|? ? c2 ? ? Hc Hr]; subst. exists Making, c2. split_and!; [by right|done|done].
  - exists c, c2. split_and!; [by left|done|done].
Qed.
Lemma calls_on_app c es es' c' : calls_on c (es ++ es') c' → ∃ d, calls_on c es d ∧ calls_on d es' c'.
Proof.
  revert c. induction es as [|e es IH]; intros c H; [exists c; split; [constructor|done]|].
  cbn [app] in H. apply calls_on_cons in H as (c1 & c2 & Hc & H1 & H2). apply IH in H2 as (d & Hd & H2). exists d. split; [|done].
  assert (calls_on c1 (e :: es) d) as Hx by (by apply (calls_cons c1 e c2)). destruct Hc as [->|[-> ->]]; [done|by apply calls_begin].
Qed.
Lemma call_keeps c e c' : call_on c e c' → ¬ ev_alters e → c' = c.
Proof. destruct 1; cbn [ev_alters]; try done; intros H; by destruct H. Qed.
Lemma calls_keep l es c' : calls_on (Holding l) es c' → (∀ e, e ∈ es → ¬ ev_alters e) → c' = Holding l.
Proof.
  revert l. induction es as [|e es IH]; intros l H Hn; [by inversion H|]. apply calls_on_cons in H as (c1 & c2 & [->|[? _]] & H1 & H2); [|done].
  apply call_keeps in H1 as ->; [|apply Hn; left]. apply IH; [done|]. intros e' He'. apply Hn. by right.
Qed.
Lemma named_app n (xs ys : list timed) : named n (xs ++ ys) = named n xs ++ named n ys.
Proof. unfold named, on_name. by rewrite fmap_app, filter_app. Qed.
Lemma named_cons n (x : timed) (xs : list timed) : named n (x :: xs) = (if decide (ev_name x.2 = n) then [x.2] else []) ++ named n xs.
Proof. unfold named, on_name. rewrite fmap_cons, filter_cons. by case_decide. Qed.
Lemma label_read_name n t i l (x : timed) (xs : list timed) c : x ∈ xs → x.2 = EvGet t n i (Ok (Some l)) → calls_on Absent (named n xs) c → lb_name l = n.
Proof.
  intros (pre & post & ->)%elem_of_list_split Ex Hc. rewrite named_app, named_cons, Ex in Hc. cbn [ev_name] in Hc. rewrite decide_True in Hc by done.
  apply calls_on_app in Hc as (d & _ & Hc). cbn [app] in Hc. apply calls_on_cons in Hc as (c1 & c2 & _ & H1 & _). by inversion H1.
Qed.

Section order.
Context (h : hstate) (tr : list nitem) (P : list (gtimed * timed)) (xs : list timed).
Context (HP : pairs_ok h tr P None) (Hnd : NoDup xs) (Hxs : ∀ x, x ∈ xs ↔ call_in (label_items tr) x)
  (Hord : StronglySorted (λ x y, ¬ earlier y x) xs) (Hcalls : ∀ n, ∃ c, calls_on Absent (named n xs) c).
Lemma pair_call y x : (y, x) ∈ P → x ∈ xs ∧ fits h tr y x.
Proof.
  intros Hyx. pose proof (pairs_fit _ _ _ _ HP y x Hyx) as Hf. split; [|done]. apply Hxs. destruct y as [[b j] [[t o] r]]. by destruct Hf.
Qed.
Lemma pair_name y x : (y, x) ∈ P → gname y = ev_name x.2.
Proof.
  intros Hyx. destruct (pair_call y x Hyx) as [Hx Hf]. destruct y as [[b j] [[t o] r]], x as [[lb lj] e]. destruct Hf as (_ & _ & _ & _ & Hd).
  unfold gname. cbn [fst snd] in *. destruct o as [op|n|n|n]; cbn [did gop_name direct_call fst snd] in *.
  - destruct Hd as (q & _ & [(i & a & E & _)|(l & lay & nl & i & a & x0 & E & _ & _ & _ & (Hc0 & (i0 & E0) & _) & _ & _)]); rewrite E; cbn [ev_name]; [done|].
    destruct (Hcalls (op_name op)) as [c Hc]. symmetry. apply (label_read_name _ t i0 l x0 xs c); [by apply Hxs|done|done].
  - destruct Hd as (c & [= <-] & Ha & _). by destruct e.
  - destruct Hd as (c & [= <-] & Ha & _). by destruct e.
  - destruct Hd as (c & [= <-] & Ha & _). by destruct e.
Qed.
Lemma pair_alters y x : (y, x) ∈ P → ev_alters x.2 → alters y.
Proof.
  intros Hyx Ha. destruct (pair_call y x Hyx) as [Hx Hf]. destruct y as [[b j] [[t o] r]], x as [[lb lj] e]. destruct Hf as (_ & _ & _ & _ & Hd).
  cbn [fst snd] in *. unfold alters. cbn [snd]. destruct o as [op|n|n|n]; cbn [did direct_call fst snd] in *.
  - destruct Hd as (q & -> & [(i & a & -> & _)|(l & lay & nl & i & a & x0 & -> & _ & _ & _ & _ & _ & Hs)]); [done|].
    cbn [ev_alters] in Ha. destruct a as [[?|]| |]; try done. cbn [set_ok] in Hs. subst q. by destruct op.
  - destruct Hd as (c & [= <-] & Hans & ->). destruct e as [| |? ? ? []|]; done.
  - destruct Hd as (c & [= <-] & Hans & ->). by destruct e.
  - destruct Hd as (c & [= <-] & Hans & ->). destruct e as [| | |? ? []]; done.
Qed.
Lemma pair_before y x y' x' : (y, x) ∈ P → (y', x') ∈ P → graph_earlier y y' → earlier x x'.
Proof.
  intros H1 H2 He. destruct (pair_call _ _ H1) as [_ F1]. destruct (pair_call _ _ H2) as [_ F2].
  destruct y as [[b j] [[t o] r]], y' as [[b' j'] [[t' o'] r']]. destruct F1 as (_ & _ & _ & F1 & _). destruct F2 as (_ & _ & F2 & _).
  unfold graph_earlier in He. cbn [fst snd] in He. unfold earlier. assert (pos tr j ≤ pos tr b') by (apply pos_mono; lia). lia.
Qed.
Definition gs : list (gtimed * timed) := omap (pick P) xs.
Lemma gs_in yx : yx ∈ gs ↔ yx ∈ P.
Proof.
  apply picks_in; [by apply (pairs_labels _ _ _ _ HP)|]. intros x ([y x'] & -> & Hyx)%elem_of_list_fmap. by apply pair_call in Hyx as [? _].
Qed.
(** the calls that altered the graph between reading the label and updating it overlap *)
Lemma lost_contended n pre x suf y x0 l c1 m i0 : xs = pre ++ x :: suf → (y, x) ∈ P → gname y = n →
  call_in (label_items tr) x0 → (x0.2 = EvGet (ev_tid x.2) n i0 (Ok (Some l))) → earlier x0 x → pos tr y.1.1 ≤ x0.1.1 →
  calls_on Absent (named n pre) c1 → c1 = Holding m → m ≠ l → contended gs.*1 y.
Proof.
  intros Exs Hyx Hn Hc0 E0 He0 Hp0 Hc Ec Hml. assert (x0 ∈ pre) as Hin.
  { apply Hxs in Hc0. rewrite Exs in Hc0. apply elem_of_app in Hc0 as [?|[->|Hin]%elem_of_cons]; [done| |].
    - unfold earlier in He0. destruct (pair_call _ _ Hyx) as [Hx _]. apply Hxs, call_in_lt in Hx. lia.
    - exfalso. rewrite Exs in Hord. assert (∀ a b : list timed, StronglySorted (λ x y, ¬ earlier y x) (a ++ b) → StronglySorted (λ x y, ¬ earlier y x) b) as Htail.
      { intros a b. induction a as [|u a IH]; [done|]. cbn [app]. intros Hs. inversion Hs; subst. by apply IH. }
      apply Htail in Hord. inversion Hord as [|? ? _ Hf]; subst. rewrite Forall_forall in Hf. by apply (Hf x0). }
  apply elem_of_list_split in Hin as (pa & pb & ->). rewrite named_app, named_cons, E0 in Hc. cbn [ev_name] in Hc. rewrite decide_True in Hc by done.
  apply calls_on_app in Hc as (d & _ & Hc). cbn [app] in Hc. apply calls_on_cons in Hc as (d1 & d2 & _ & H1 & H2).
  assert (d2 = Holding l) as -> by (by inversion H1). 
  assert (¬ ∀ e, e ∈ named n pb → ¬ ev_alters e) as Hch.
  { intros Hno. pose proof (calls_keep l _ _ H2 Hno) as E. rewrite Ec in E. injection E as E. done. }
  assert (∃ z, z ∈ pb ∧ ev_name z.2 = n ∧ ev_alters z.2) as (z & Hz & Hzn & Hza).
  { clear -Hch. induction pb as [|u pb IH]; [destruct Hch; intros e He; by apply elem_of_nil in He|].
    assert ({ev_name u.2 = n ∧ ev_alters u.2} + {¬ (ev_name u.2 = n ∧ ev_alters u.2)}) as [[? ?]|Hu].
    { destruct (decide (ev_name u.2 = n)) as [?|?]; [|right; tauto]. destruct u.2 as [| ? ? ? ? [[?|]| |]|? ? ? []|? ? []]; cbn [ev_alters]; try (left; tauto); right; tauto. }
    - exists u. split_and!; [left|done|done].
    - destruct IH as (z & ? & ? & ?).
      + intros Hno. apply Hch. intros e He. rewrite named_cons in He. apply elem_of_app in He as [He|He]; [|by apply Hno].
        destruct (decide (ev_name u.2 = n)) as [En|]; [|by apply elem_of_nil in He]. apply elem_of_list_singleton in He as ->. intros Ha. by apply Hu.
      + exists z. split_and!; [by right|done|done]. }
  assert (z ∈ P.*2) as Hzp.
  { destruct (pairs_alter _ _ _ _ HP z) as [?|?]; [apply Hxs; rewrite Exs; apply elem_of_app; left; apply elem_of_app; right; by right|done|done|done]. }
  apply elem_of_list_fmap in Hzp as ([w z'] & Ez & Hw). cbn [snd] in Ez. subst z'.
  exists w. split_and!.
  - apply elem_of_list_fmap. exists (w, z). split; [done|]. by apply gs_in.
  - rewrite (pair_name w z Hw), Hn. done.
  - by apply (pair_alters w z).
  - intros Hbad. assert (earlier z x0) as Hez.
    { unfold graph_earlier in Hbad. destruct (pair_call _ _ Hw) as [_ F]. destruct w as [[b j] [[t o] r]]. destruct F as (_ & _ & _ & F & _). cbn [fst snd] in Hbad.
      unfold earlier. assert (pos tr j ≤ pos tr y.1.1) by (apply pos_mono; lia). lia. }
    rewrite Exs in Hord. apply elem_of_list_split in Hz as (pb1 & pb2 & ->). clear -Hord Hez.
    induction pa as [|u pa IH]; cbn [app] in Hord; inversion Hord as [|? ? Hs Hf]; subst; [|by apply IH].
    rewrite Forall_forall in Hf. apply (Hf z); [|done]. apply elem_of_app. left. apply elem_of_app. right. left.
  - intros Hbad. pose proof (pair_before _ _ _ _ Hyx Hw Hbad) as Hez. rewrite Exs in Hord. apply elem_of_list_split in Hz as (pb1 & pb2 & ->). clear -Hord Hez.
    induction pa as [|u pa IH]; cbn [app] in Hord; inversion Hord as [|? ? Hs Hf]; subst; [|by apply IH].
    clear Hord Hf. induction pb1 as [|v pb1 IH]; cbn [app] in Hs; inversion Hs as [|? ? Hs' Hf]; subst; [|by apply IH].
    rewrite Forall_forall in Hf. apply (Hf x); [|done]. apply elem_of_app. right. left.
Qed.
Lemma one_call n pre x suf b j t o r c1 c2 : xs = pre ++ x :: suf → ((b, j, (t, o, r)), x) ∈ P → ev_name x.2 = n →
  calls_on Absent (named n pre) c1 → call_on c1 x.2 c2 → graph_on (ancestor h) (contended gs.*1 (b, j, (t, o, r))) c1 o r c2.
Proof.
  intros Exs Hyx Hn Hpre Hcall. pose proof (pair_name _ _ Hyx) as Hgn. rewrite Hn in Hgn. destruct (pair_call _ _ Hyx) as [Hx Hf].
  pose proof (lost_contended n pre x suf (b, j, (t, o, r))) as Hlost.
  destruct Hf as (Hc & Ht & Hb & Hj & Hd). destruct o as [op|m|m|m]; cbn [did direct_call] in Hd.
  - destruct Hd as (q & -> & [(i & a & E & Hok)|(l & lay & nl & i & a & x0 & E & E1 & E2 & E3 & (Hc0 & (i0 & E0) & Hp0) & E5 & E6)]).
    + rewrite E in Hcall. cbn [gname gop_name fst snd] in Hgn. inversion Hcall; subst; cbn [got_ok] in Hok.
      * destruct q as [[]| | | |]; try done.
        -- destruct Hok as [(x' & Hop & _) Hna]. by apply (graph_refuse _ _ _ _ x').
        -- destruct Hok as (-> & -> & n' & ->). apply graph_head.
        -- destruct Hok as ([x' Hop] & Hmax & Hal). by apply (graph_full _ _ _ _ x').
      * subst q. by apply graph_gone.
      * subst q. by apply graph_gone.
    + rewrite E in Hcall. inversion Hcall; subst; cbn [set_ok] in E6.
      * subst q. unfold with_updated_layer in E2. destruct (u64_max <=? lb_version l)%N eqn:Ev; [done|]. injection E2 as <-. apply N.leb_gt in Ev.
        by apply graph_update.
      * destruct E6 as [Hsu ->]. apply (graph_lost _ _ _ _ lay); [done|done|].
        apply (Hlost x0 l (Holding m) m i0); try done. rewrite E0. f_equal. exact Hgn.
      * subst q. by apply graph_gone.
      * subst q. by apply graph_gone.
  - destruct Hd as (c & [= <-] & Hans & ->). destruct x as [[lb lj] e]. cbn [snd] in *. destruct e as [| |t' m' i a|]; try done. cbn [answers] in Hans. subst m'.
    inversion Hcall; subst; cbn [direct_res]; [apply graph_create|by apply graph_create_taken].
  - destruct Hd as (c & [= <-] & Hans & ->). destruct x as [[lb lj] e]. cbn [snd] in *. destruct e as [t' m' i a| | |]; try done. cbn [answers] in Hans. subst m'.
    inversion Hcall; subst; cbn [direct_res]; [apply graph_open|apply graph_open_absent|apply graph_open_making].
  - destruct Hd as (c & [= <-] & Hans & ->). destruct x as [[lb lj] e]. cbn [snd] in *. destruct e as [| | |t' m' a]; try done. cbn [answers] in Hans. subst m'.
    inversion Hcall; subst; cbn [direct_res]; [by apply graph_delete|apply graph_delete_absent].
Qed.
End order.
Lemma calls_graph h tr P (xs : list timed) n : pairs_ok h tr P None → NoDup xs → (∀ x, x ∈ xs ↔ call_in (label_items tr) x) →
  StronglySorted (λ x y, ¬ earlier y x) xs → (∀ n, ∃ c, calls_on Absent (named n xs) c) →
  ∃ c, graph_calls (ancestor h) (gs P xs).*1 Absent (filter (λ y : gtimed, gname y = n) (gs P xs).*1) c.
Proof.
  intros HP Hnd Hxs Hord Hcalls. destruct (Hcalls n) as [c Hc]. exists c.
  assert (∀ suf pre d, xs = pre ++ suf → calls_on Absent (named n pre) d → calls_on d (named n suf) c →
    graph_calls (ancestor h) (gs P xs).*1 d (filter (λ y : gtimed, gname y = n) (omap (pick P) suf).*1) c) as Hgen; [|apply (Hgen xs []); [done|constructor|done]].
  induction suf as [|x suf IH]; intros pre d Exs Hpre Hsuf.
  - change (named n []) with (@nil lev) in Hsuf. cbn [omap list_omap fmap list_fmap filter list_filter].
    inversion Hsuf as [|? ? Hm|]; subst; [constructor|]. inversion Hm; subst. apply graph_begin. constructor.
  - assert (xs = (pre ++ [x]) ++ suf) as Exs' by (by rewrite <- app_assoc). rewrite named_cons in Hsuf.
    destruct (decide (ev_name x.2 = n)) as [Hn|Hn].
    + cbn [app] in Hsuf. apply calls_on_cons in Hsuf as (c1 & c2 & Hd & H1 & H2).
      assert (calls_on Absent (named n pre) c1) as Hpre1.
      { destruct Hd as [->|[-> ->]]; [done|]. rewrite <- (app_nil_r (named n pre)). apply (calls_app _ _ Absent); [done|]. apply calls_begin. constructor. }
      assert (calls_on Absent (named n (pre ++ [x])) c2) as Hpre2.
      { rewrite named_app, named_cons, decide_True by done. apply (calls_app _ _ c1); [done|]. apply (calls_cons c1 _ c2); [done|constructor]. }
      specialize (IH (pre ++ [x]) c2 Exs' Hpre2 H2).
      assert (graph_calls (ancestor h) (gs P xs).*1 c1 (filter (λ y : gtimed, gname y = n) (omap (pick P) (x :: suf)).*1) c) as Hgoal.
      { cbn [omap list_omap]. destruct (pick P x) as [[y x']|] eqn:E.
        - apply pick_some in E as [Hyx Ex]. cbn [snd] in Ex. subst x'. rewrite fmap_cons, filter_cons. cbn [fst].
          rewrite (pair_name h tr P xs HP Hxs Hcalls y x Hyx), decide_True by done.
          destruct y as [[b j] [[t o] r]]. apply (graph_cons _ _ _ _ _ _ _ _ c2); [|exact IH].
          by apply (one_call h tr P xs HP Hnd Hxs Hord Hcalls n pre x suf).
        - apply pick_none in E. assert (c2 = c1) as ->; [|exact IH]. apply (call_keeps c1 x.2); [done|]. intros Ha.
          destruct (pairs_alter _ _ _ _ HP x) as [?|?]; [|done|done|done]. apply Hxs. rewrite Exs. apply elem_of_app. right. left. }
      destruct Hd as [->|[-> ->]]; [done|]. by apply graph_begin.
    + assert (calls_on Absent (named n (pre ++ [x])) d) as Hpre2.
      { rewrite named_app, named_cons, decide_False by done. by rewrite app_nil_r. }
      specialize (IH (pre ++ [x]) d Exs' Hpre2 Hsuf). cbn [omap list_omap]. destruct (pick P x) as [[y x']|] eqn:E; [|exact IH].
      apply pick_some in E as [Hyx Ex]. cbn [snd] in Ex. subst x'. rewrite fmap_cons, filter_cons. cbn [fst].
      rewrite (pair_name h tr P xs HP Hxs Hcalls y x Hyx), decide_False by done. exact IH.
Qed.
Lemma gexec_linearizable tr g : gexec tr g → linearizable (label_items tr) → graph_linearizable (g_heads g) tr.
Proof.
  intros Hex (xs & Hnd & Hxs & Hord & Hcalls). destruct (gexec_inv tr g Hex) as [P I]. pose proof (gi_pairs _ _ _ _ _ I) as HP.
  apply sorted_lookup in Hord. exists (gs P xs).*1.
  assert (StronglySorted (λ p q, ¬ graph_earlier q.1 p.1) (gs P xs)) as Hs.
  { apply (picks_sorted P (λ x y, ¬ earlier y x)); [|done]. intros y x y' x' H1 H2 Hne Hbad. apply Hne. cbn [fst] in Hbad.
    by apply (pair_before (g_heads g) tr P xs HP Hxs y' x' y x). }
  assert (∀ yx, yx ∈ gs P xs ↔ yx ∈ P) as Hin by (intros yx; by apply (gs_in (g_heads g) tr P xs HP Hxs)).
  assert (NoDup (gs P xs).*1) as Hnd1.
  { assert (NoDup (gs P xs)) as Hnd2.
    { unfold gs. clear -Hnd. induction Hnd as [|x xs Hx _ IH]; [constructor|]. cbn [omap list_omap]. destruct (pick P x) as [yx|] eqn:E; [|done].
      constructor; [|done]. intros (x2 & Hx2 & E2)%elem_of_list_omap. apply pick_some in E as [_ <-]. apply pick_some in E2 as [_ E2]. by rewrite E2 in Hx. }
    apply NoDup_fmap_2_strong; [|done]. intros [y x] [y' x'] H1%Hin H2%Hin E. cbn [fst] in E. subst y'.
    pose proof (pairs_calls _ _ _ _ HP) as Hc. apply elem_of_list_lookup in H1 as [i Hi]. apply elem_of_list_lookup in H2 as [j Hj].
    assert (i = j) as ->; [|rewrite Hi in Hj; by injection Hj as ->].
    apply (NoDup_lookup P.*1 i j y Hc); rewrite list_lookup_fmap; [by rewrite Hi|by rewrite Hj]. }
  split_and!; [done| | |].
  - intros y. rewrite (pairs_all _ _ _ _ HP y), !elem_of_list_fmap. split; intros (yx & E & H); exists yx; (split; [done|]); by apply Hin.
  - intros i j x y Hij Hi Hj. apply list_lookup_fmap_Some in Hi as (p & Hp & ->). apply list_lookup_fmap_Some in Hj as (q & Hq & ->).
    rewrite <- sorted_lookup in Hs. by apply (Hs i j p q).
  - intros n. by apply (calls_graph (g_heads g) tr P xs n).
Qed.
Lemma gexec_answers tr g : gexec tr g → ∀ j t o r, tr !! j = Some (Returns t o r) → ∃ b, graph_call_in tr (b, j, (t, o, r)).
Proof.
  intros Hex j t o r Hj. destruct (gexec_inv tr g Hex) as [P I]. destruct (pairs_rets _ _ _ _ (gi_pairs _ _ _ _ _ I) j t o r Hj) as [b Hb].
  exists b. by apply (pairs_all _ _ _ _ (gi_pairs _ _ _ _ _ I)).
Qed.
