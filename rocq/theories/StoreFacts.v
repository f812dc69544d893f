(** Facts about the layer store by names. *)
From Verif Require Import Prelude ListFacts Succinct TripleFiles Merge Layer StackFacts WfFacts SameFacts Builder Rollup RollupSame
  Squash MergeBase Names Spec BuilderFacts HistoryFacts MergeBaseFacts ReachFacts ApiFacts Store SpecStore.

(** ** Lookups *)
Lemma set_dent_lookup s x f y : set_dent s x f !! y = if decide (x = y) then f <$> s !! x else s !! y.
Proof.
  unfold set_dent. destruct (decide (x = y)) as [->|Hn].
  - destruct (s !! y) eqn:E; [by rewrite lookup_insert|by rewrite E].
  - destruct (s !! x); [by rewrite lookup_insert_ne|done].
Qed.
Lemma base_files_iff s x l : base_files s x = Some l ↔ s_files s x = Some l ∧ l_neg l = None.
Proof.
  unfold base_files. destruct (s_files s x) as [k|]; cbn [mbind option_bind].
  - destruct (l_neg k) eqn:E; split; [intros [= <-]; by eauto|intros [[= <-] H]|intros [= <-]; by eauto|intros [[= <-] H]]; congruence || done.
  - naive_solver.
Qed.
Lemma child_files_iff s x l : child_files s x = Some l ↔ s_files s x = Some l ∧ is_Some (l_neg l).
Proof.
  unfold child_files. destruct (s_files s x) as [k|]; cbn [mbind option_bind].
  - destruct (l_neg k) eqn:E; split; try done; [intros [= <-]; rewrite E; by eauto|by intros [[= <-] H]|intros [[= <-] H]].
    rewrite E in H. by destruct H.
  - naive_solver.
Qed.

(** ** Stored layers *)
Lemma stored_ne s x c : stored s x c → ∃ l c', c = (x, l) :: c'.
Proof. destruct 1; eauto. Qed.
Lemma stored_unique s x c c' : stored s x c → stored s x c' → c = c'.
Proof.
  intros H. revert c'. induction H as [x l Hl Hn Hp|x l p c Hl Hn Hp Hc IH]; intros c' H'; inversion H'; subst; try congruence.
  assert (p0 = p) as -> by congruence. f_equal; [congruence|auto].
Qed.
Lemma stored_suffix s x c1 y l c2 : stored s x (c1 ++ (y, l) :: c2) → stored s y ((y, l) :: c2).
Proof.
  intros H. remember (c1 ++ (y, l) :: c2) as c eqn:E. revert c1 E.
  induction H as [x l0 Hl Hn Hp|x l0 p c Hl Hn Hp Hc IH]; intros [|e c1] E; cbn in E; injection E.
  - intros <- <- <-. by constructor.
  - intros E1. by destruct c1.
  - intros <- <- <-. by econstructor.
  - intros -> _. by eapply IH.
Qed.
Lemma stored_parent s x e c : stored s x (e :: c) → s_parent s x = fst <$> head c.
Proof.
  inversion 1; subst; [done|].
  match goal with H : stored s _ c |- _ => destruct (stored_ne _ _ _ H) as (? & ? & ->) end. done.
Qed.
Lemma stored_second s x c : stored s x c → s_parent s x = fst <$> c !! 1.
Proof. intros H. destruct (stored_ne _ _ _ H) as (l & c' & ->). rewrite (stored_parent _ _ _ _ H). by destruct c'. Qed.
Lemma stored_tail s x e c p : stored s x (e :: c) → s_parent s x = Some p → stored s p c.
Proof. inversion 1; subst; intros; [congruence|]. by match goal with H1 : s_parent s x = Some ?q, H2 : s_parent s x = Some p |- _ => rewrite H1 in H2; injection H2 as -> end. Qed.
Lemma stored_head s x e c : stored s x (e :: c) → e.1 = x ∧ s_files s x = Some e.2.
Proof. by inversion 1. Qed.
Lemma stored_dom s x c : stored s x c → Forall (λ e, is_Some (s !! e.1)) c.
Proof.
  induction 1 as [x l Hl Hn Hp|x l p c Hl Hn Hp Hc IH]; (apply Forall_cons; split; [|done || constructor]); cbn;
    unfold s_files in Hl; destruct (s !! x); done.
Qed.
Lemma stored_nodup s x c : stored s x c → NoDup c.*1.
Proof.
  induction 1 as [x l Hl Hn Hp|x l p c Hl Hn Hp Hc IH]; [repeat constructor; by intros ?%elem_of_nil|].
  cbn. constructor; [|done]. intros (e & Ex & He)%elem_of_list_fmap. destruct e as [y k]. cbn in Ex. subst y.
  apply elem_of_list_split in He as (c1 & c2 & ->).
  pose proof (stored_suffix _ _ _ _ _ _ Hc) as H1.
  assert (stored s x ((x, l) :: c1 ++ (x, k) :: c2)) as H2 by by econstructor.
  pose proof (stored_unique _ _ _ _ H1 H2) as E. apply (f_equal length) in E. cbn in E. rewrite app_length in E. cbn in E. lia.
Qed.
Lemma stored_length s x c : stored s x c → length c ≤ size s.
Proof.
  intros H. pose proof (stored_nodup _ _ _ H) as Hnd. pose proof (stored_dom _ _ _ H) as Hd.
  rewrite <-(fmap_length fst c), <-(size_list_to_set (C:=gset (list N)) c.*1) by done.
  rewrite <-(size_dom (D:=gset (list N)) s). apply subseteq_size. intros y.
  rewrite elem_of_list_to_set, elem_of_list_fmap. intros (e & -> & He). apply elem_of_dom.
  rewrite Forall_forall in Hd. by apply Hd.
Qed.

(** ** How stores change *)
Record ext (O : gset lname) (s s' : store) : Prop := {
  ext_dom : ∀ x, is_Some (s !! x) → is_Some (s' !! x);
  ext_parent : ∀ x p, s_parent s x = Some p → s_parent s' x = Some p;
  ext_files : ∀ x l, s_files s x = Some l → s_files s' x = Some l;
  ext_base : ∀ x l, s_files s x = Some l → l_neg l = None → s_parent s x = None → s_parent s' x = None;
  ext_stands : ∀ x, s_stands s x = true → s_stands s' x = true;
  ext_rollup : ∀ x, is_Some (s_rollup s x) → is_Some (s_rollup s' x);
  ext_own : ∀ n, n ∈ O → s_files s' n = s_files s n ∧ s_parent s' n = s_parent s n }.
Lemma ext_refl O s : ext O s s.
Proof. by split. Qed.
Lemma ext_trans O s s' s'' : ext O s s' → ext O s' s'' → ext O s s''.
Proof.
  intros [] []. split; try by eauto. intros n Hn.
  destruct (ext_own0 n Hn), (ext_own1 n Hn). split; congruence.
Qed.
Lemma ext_sub O O' s s' : O ⊆ O' → ext O' s s' → ext O s s'.
Proof. intros Hs []. split; auto. Qed.
Lemma ext_empty O s s' : ext O s s' → ext ∅ s s'.
Proof. apply ext_sub. set_solver. Qed.
Lemma ext_stored O s s' x c : ext O s s' → stored s x c → stored s' x c.
Proof. intros He. induction 1; econstructor; eauto using ext_parent, ext_files, ext_base. Qed.

(** a rollup has fewer layers, and those below its top are layers of what it stands for *)
Definition shorter (cr cx : list (lname * layer)) : Prop := length cr < length cx ∧ ∃ c1, cx = c1 ++ tail cr.
Record good (s : store) : Prop := {
  g_wf : ∀ x c, stored s x c → wf c.*2;
  g_roll : ∀ x r, s_rollup s x = Some r → ∃ cx cr, stored s x cx ∧ stored s r cr ∧ same_layer cr.*2 cx.*2 ∧
    shorter cr cx ∧ s_stands s r = true;
  g_stand : ∀ r, s_stands s r = true → s_rollup s r = None;
  g_par : ∀ x p, s_parent s x = Some p → ∃ c, stored s p c;
  g_basepar : ∀ x l, s_files s x = Some l → l_neg l = None → s_parent s x = None;
  g_based : ∀ x l, stored s x [(x, l)] → l_nvmap l = None → l_pmap l = None → base_of l }.

(** Loaded layers *)
Fixpoint valid (s : store) (L : loaded) : Prop :=
  match L with
  | [] => True
  | e :: L' =>
      (∃ c, stored s (n_name e) c ∧ wf (layers (e :: L')) ∧ same_layer (layers (e :: L')) c.*2 ∧ n_parent e = fst <$> c !! 1 ∧
        (n_rollup e = false → s_files s (n_name e) = Some (n_layer e) ∧ l_name L' = n_parent e) ∧
        (n_rollup e = true → is_Some (s_rollup s (n_name e)))) ∧ valid s L'
  end.
Definition cgood (s : store) (c : lcache) : Prop := ∀ x L, c !! x = Some L → l_name L = Some x ∧ valid s L.
Lemma valid_ext O s s' L : ext O s s' → valid s L → valid s' L.
Proof.
  intros He. induction L as [|e L IH]; [done|]. intros [(c & H1 & H2 & H3 & H4 & H5 & H6) HL]. split; [|by apply IH].
  exists c. split_and!; try done; [by eapply ext_stored| |intros E; apply (ext_rollup _ _ _ He); auto].
  intros E. destruct (H5 E). split; [by eapply ext_files|done].
Qed.
Lemma cgood_ext O s s' c : ext O s s' → cgood s c → cgood s' c.
Proof. intros He Hc x L E. destruct (Hc x L E). split; [done|by eapply valid_ext]. Qed.
Lemma valid_tl s e L : valid s (e :: L) → valid s L.
Proof. by intros [_ H]. Qed.
Lemma valid_app s L1 L2 : valid s (L1 ++ L2) → valid s L2.
Proof. induction L1; [done|]. intros [_ H]. auto. Qed.
Lemma valid_top s L x : valid s L → l_name L = Some x →
  ∃ c, stored s x c ∧ wf (layers L) ∧ same_layer (layers L) c.*2 ∧ l_parent L = fst <$> c !! 1 ∧ L ≠ [].
Proof.
  destruct L as [|e L]; [done|]. intros [(c & H1 & H2 & H3 & H4 & H5) _] E. injection E as <-. by exists c.
Qed.

(** ** Which writes are allowed *)
Definition write_ok (O : gset lname) (s : store) (w : write) : Prop :=
  match w with
  | WParent n p => n ∈ O ∧ is_Some (s !! n) ∧ s_parent s n = None ∧ (∃ c, stored s p c) ∧
      (∀ l, s_files s n = Some l → is_Some (l_neg l) ∧ ∀ c, stored s p c → wf (l :: c.*2))
  | WFiles n l => n ∈ O ∧ is_Some (s !! n) ∧ s_files s n = None ∧
      match s_parent s n with
      | Some p => is_Some (l_neg l) ∧ ∀ c, stored s p c → wf (l :: c.*2)
      | None => l_neg l = None → wf [l] ∧ (l_nvmap l = None → l_pmap l = None → base_of l)
      end
  | WRollup x r => ∃ cx cr, stored s x cx ∧ stored s r cr ∧ same_layer cr.*2 cx.*2 ∧ shorter cr cx
  | WCache L => valid s L
  | WInvalidate _ => True
  end.
Definition written (w : write) : list lname :=
  match w with WParent n _ | WFiles n _ => [n] | _ => [] end.

Lemma s_files_set s x f y : s_files (set_dent s x f) y = if decide (x = y) then s !! x ≫= (λ d, d_files (f d)) else s_files s y.
Proof. unfold s_files. rewrite set_dent_lookup. destruct (decide (x = y)); [|done]. by destruct (s !! x). Qed.
Lemma s_parent_set s x f y : s_parent (set_dent s x f) y = if decide (x = y) then s !! x ≫= (λ d, d_parent (f d)) else s_parent s y.
Proof. unfold s_parent. rewrite set_dent_lookup. destruct (decide (x = y)); [|done]. by destruct (s !! x). Qed.
Lemma s_rollup_set s x f y : s_rollup (set_dent s x f) y = if decide (x = y) then s !! x ≫= (λ d, d_rollup (f d)) else s_rollup s y.
Proof. unfold s_rollup. rewrite set_dent_lookup. destruct (decide (x = y)); [|done]. by destruct (s !! x). Qed.
Lemma s_stands_set s x f y : s_stands (set_dent s x f) y = if decide (x = y) then from_option (λ d, d_stands (f d)) false (s !! x) else s_stands s y.
Proof. unfold s_stands. rewrite set_dent_lookup. destruct (decide (x = y)); [|done]. by destruct (s !! x). Qed.

(** What each write does *)
Lemma write_parent_eq s n p : is_Some (s !! n) →
  let s' := write_store (WParent n p) s in
  (∀ x, s_files s' x = s_files s x) ∧ (∀ x, s_rollup s' x = s_rollup s x) ∧ (∀ x, s_stands s' x = s_stands s x) ∧
  (∀ x, s_parent s' x = if decide (n = x) then Some p else s_parent s x).
Proof.
  intros [d Ed]. cbn [write_store]. split_and!; intros x;
    rewrite ?s_files_set, ?s_parent_set, ?s_rollup_set, ?s_stands_set; unfold s_files, s_rollup, s_stands;
    (destruct (decide (n = x)) as [<-|]; [rewrite Ed; done|done]).
Qed.
Lemma write_files_eq s n l : is_Some (s !! n) →
  let s' := write_store (WFiles n l) s in
  (∀ x, s_parent s' x = s_parent s x) ∧ (∀ x, s_rollup s' x = s_rollup s x) ∧ (∀ x, s_stands s' x = s_stands s x) ∧
  (∀ x, s_files s' x = if decide (n = x) then Some l else s_files s x).
Proof.
  intros [d Ed]. cbn [write_store]. split_and!; intros x;
    rewrite ?s_files_set, ?s_parent_set, ?s_rollup_set, ?s_stands_set; unfold s_parent, s_rollup, s_stands;
    (destruct (decide (n = x)) as [<-|]; [rewrite Ed; done|done]).
Qed.
Lemma write_rollup_eq s x r : is_Some (s !! x) → is_Some (s !! r) →
  let s' := write_store (WRollup x r) s in
  (∀ y, s_parent s' y = s_parent s y) ∧ (∀ y, s_files s' y = s_files s y) ∧
  (∀ y, s_rollup s' y = if decide (x = y) then Some r else s_rollup s y) ∧
  (∀ y, s_stands s' y = if decide (r = y) then true else s_stands s y).
Proof.
  intros [d Ed] [d' Er]. cbn [write_store]. split_and!; intros y;
    rewrite ?s_files_set, ?s_parent_set, ?s_rollup_set, ?s_stands_set, ?set_dent_lookup; unfold s_files, s_parent, s_rollup, s_stands;
    (destruct (decide (x = y)) as [<-|]; destruct (decide (r = x)) as [<-|]; try destruct (decide (r = y)) as [<-|]; try done);
    rewrite ?decide_True by done; try (rewrite Ed; done); try (rewrite Er; done); try congruence; rewrite ?Ed, ?Er; cbn; try congruence; done.
Qed.
Lemma write_dom w s x : is_Some (s !! x) → is_Some (write_store w s !! x).
Proof.
  intros Hx. assert (∀ (s : store) y f, is_Some (s !! x) → is_Some (set_dent s y f !! x)) as Hs.
  { intros s0 y f H. rewrite set_dent_lookup. destruct (decide (y = x)) as [->|]; [by apply fmap_is_Some|done]. }
  destruct w; cbn [write_store]; auto.
Qed.

Lemma write_ext O O' s w : write_ok O s w → (∀ n, n ∈ written w → n ∉ O') → ext O' s (write_store w s).
Proof.
  intros Hw HO. destruct w as [n p|n l|x r|L|x]; cbn in Hw, HO; try by split.
  - destruct Hw as (Hn & Hd & Hp & _ & Hf). destruct (write_parent_eq s n p Hd) as (E1 & E2 & E3 & E4).
    split; [by intros; apply write_dom| | | | | |]; intros; rewrite ?E1, ?E2, ?E3, ?E4; try done.
    + rewrite decide_False; [done|]. intros ->. congruence.
    + rewrite decide_False; [done|]. intros ->. destruct (Hf l) as [[? ?] _]; [done|]. congruence.
    + rewrite decide_False; [done|]. intros ->. by eapply HO; [apply elem_of_list_singleton|].
  - destruct Hw as (Hn & Hd & Hp & _). destruct (write_files_eq s n l Hd) as (E1 & E2 & E3 & E4).
    split; [by intros; apply write_dom| | | | | |]; intros; rewrite ?E1, ?E2, ?E3, ?E4; try done.
    + rewrite decide_False; [done|]. intros ->. congruence.
    + rewrite decide_False; [done|]. intros ->. by eapply HO; [apply elem_of_list_singleton|].
  - destruct Hw as (cx & cr & Hx & Hr & _).
    assert (∀ y c, stored s y c → is_Some (s !! y)) as Hd.
    { intros y c Hc. pose proof (stored_dom _ _ _ Hc) as Hf. destruct (stored_ne _ _ _ Hc) as (? & ? & ->). by apply Forall_cons in Hf as [??]. }
    destruct (write_rollup_eq s x r) as (E1 & E2 & E3 & E4); [by eapply Hd|by eapply Hd|].
    split; [by intros; apply write_dom| | | | | |]; intros; rewrite ?E1, ?E2, ?E3, ?E4; try done.
    + by case_decide.
    + case_decide; [by eauto|done].
Qed.

Lemma stored_is_dom s x c : stored s x c → is_Some (s !! x).
Proof. intros Hc. pose proof (stored_dom _ _ _ Hc) as Hf. destruct (stored_ne _ _ _ Hc) as (? & ? & ->). by apply Forall_cons in Hf as [??]. Qed.
Lemma stored_parent_inv s s' n p : good s → is_Some (s !! n) → s_parent s n = None →
  (∀ l, s_files s n = Some l → is_Some (l_neg l)) → (∃ c, stored s p c) → s' = write_store (WParent n p) s →
  ∀ x c, stored s' x c → stored s x c ∨ (x = n ∧ ∃ l c', c = (n, l) :: c' ∧ s_files s n = Some l ∧ is_Some (l_neg l) ∧ stored s p c').
Proof.
  intros Hg Hd Hp Hf Hc -> x c H. destruct (write_parent_eq s n p Hd) as (E1 & E2 & E3 & E4).
  assert (∀ c, ¬ stored s n c) as Hno.
  { intros c0 H0. inversion H0; subst; try congruence. match goal with H : s_files s n = Some _ |- _ => destruct (Hf _ H) end. congruence. }
  induction H as [x l Hl Hn Hpx|x l q c Hl Hn Hpx Hcq IH]; rewrite E1 in Hl; rewrite E4 in Hpx; destruct (decide (n = x)) as [<-|Hne]; try done.
  - left. by constructor.
  - injection Hpx as <-. destruct IH as [IH|(-> & _)].
    + right. split; [done|]. by exists l, c.
    + destruct Hc as [c0 Hc0]. by edestruct Hno.
  - destruct IH as [IH|(-> & _)].
    + left. by econstructor.
    + destruct (g_par s Hg _ _ Hpx) as [c0 Hc0]. by edestruct Hno.
Qed.
Lemma stored_files_inv s s' n l : good s → is_Some (s !! n) → s_files s n = None → s' = write_store (WFiles n l) s →
  ∀ x c, stored s' x c → stored s x c ∨ (x = n ∧ ∃ c', c = (n, l) :: c' ∧
    match s_parent s n with None => c' = [] ∧ l_neg l = None | Some p => stored s p c' end).
Proof.
  intros Hg Hd Hf -> x c H. destruct (write_files_eq s n l Hd) as (E1 & E2 & E3 & E4).
  assert (∀ c, ¬ stored s n c) as Hno by (intros c0 H0; inversion H0; congruence).
  induction H as [x k Hl Hn Hpx|x k q c Hl Hn Hpx Hcq IH]; rewrite E4 in Hl; rewrite E1 in Hpx; destruct (decide (n = x)) as [<-|Hne]; try done.
  - injection Hl as <-. right. split; [done|]. exists []. rewrite Hpx. done.
  - left. by constructor.
  - injection Hl as <-. destruct IH as [IH|(-> & _)].
    + right. split; [done|]. exists c. by rewrite Hpx.
    + destruct (g_par s Hg _ _ Hpx) as [c0 Hc0]. by edestruct Hno.
  - destruct IH as [IH|(-> & _)].
    + left. by econstructor.
    + destruct (g_par s Hg _ _ Hpx) as [c0 Hc0]. by edestruct Hno.
Qed.

Lemma write_good O s w : good s → write_ok O s w → no_nesting s w → good (write_store w s).
Proof.
  intros Hg Hw Hnn. assert (ext ∅ s (write_store w s)) as He by (eapply write_ext; [done|set_solver]).
  destruct w as [n p|n l|x r|L|x]; cbn in Hw, Hnn; try done.
  - destruct Hw as (_ & Hd & Hp & Hc & Hf). destruct (write_parent_eq s n p Hd) as (E1 & E2 & E3 & E4).
    pose proof (stored_parent_inv s _ n p Hg Hd Hp (λ l H, proj1 (Hf l H)) Hc eq_refl) as Hinv.
    set (s' := write_store (WParent n p) s) in *. clearbody s'. split.
    + intros x c H. destruct (Hinv x c H) as [H'|(-> & l & c' & -> & Hl & _ & Hc')]; [by eapply g_wf|]. cbn. by apply (Hf l Hl).
    + intros x r. rewrite E2. intros Hr. destruct (g_roll s Hg x r Hr) as (cx & cr & H1 & H2 & H3 & H4 & H5).
      exists cx, cr. rewrite E3. split_and!; try done; by eapply ext_stored.
    + intros r. rewrite E2, E3. apply Hg.
    + intros x q. rewrite E4. case_decide; [intros [= <-]|].
      * destruct Hc as [c Hc]. exists c. by eapply ext_stored.
      * intros Hq. destruct (g_par s Hg _ _ Hq) as [c' Hc']. exists c'. by eapply ext_stored.
    + intros x l. rewrite E1, E4. intros Hl Hneg. rewrite decide_False; [by eapply g_basepar|].
      intros ->. destruct (Hf l Hl) as [[??] _]. congruence.
    + intros x l H. destruct (Hinv x _ H) as [H'|(-> & l' & c' & [= <- <-] & Hl & _ & Hc')]; [by eapply g_based|].
      by inversion Hc'.
  - destruct Hw as (_ & Hd & Hf & Hm). destruct (write_files_eq s n l Hd) as (E1 & E2 & E3 & E4).
    pose proof (stored_files_inv s _ n l Hg Hd Hf eq_refl) as Hinv.
    set (s' := write_store (WFiles n l) s) in *. clearbody s'. split.
    + intros x c H. destruct (Hinv x c H) as [H'|(-> & c' & -> & Hc')]; [by eapply g_wf|]. cbn.
      destruct (s_parent s n); [by apply Hm|]. destruct Hc' as [-> Hneg]. by apply Hm.
    + intros x r. rewrite E2. intros Hr. destruct (g_roll s Hg x r Hr) as (cx & cr & H1 & H2 & H3 & H4 & H5).
      exists cx, cr. rewrite E3. split_and!; try done; by eapply ext_stored.
    + intros r. rewrite E2, E3. apply Hg.
    + intros x q. rewrite E1. intros Hq. destruct (g_par s Hg _ _ Hq) as [c' Hc']. exists c'. by eapply ext_stored.
    + intros x k. rewrite E4, E1. case_decide as En; [|apply Hg]. subst x. intros [= <-] Hneg.
      destruct (s_parent s n); [|done]. destruct Hm as [[??] _]. congruence.
    + intros x k H. destruct (Hinv x _ H) as [H'|(-> & c' & [= <- <-] & Hc')]; [by eapply g_based|].
      destruct (s_parent s n); [by inversion Hc'|]. by apply Hm, Hc'.
  - destruct Hw as (cx & cr & Hx & Hr & Hs & Hlen).
    destruct (write_rollup_eq s x r) as (E1 & E2 & E3 & E4); [by eapply stored_is_dom..|].
    set (s' := write_store (WRollup x r) s) in *. clearbody s'.
    assert (∀ y c, stored s' y c → stored s y c) as Hinv.
    { induction 1 as [y l H1 H2 H3|y l p c H1 H2 H3 H4 IH]; rewrite E1 in H3; rewrite E2 in H1; by econstructor. }
    split.
    + intros y c Hy%Hinv. by eapply g_wf.
    + intros y q. rewrite E3. case_decide as Ey; [intros [= <-]; subst y|intros Hq].
      * exists cx, cr. rewrite E4, decide_True by done. split_and!; try done; by eapply ext_stored.
      * destruct (g_roll s Hg y q Hq) as (cy & cq & H1 & H2 & H3 & H4 & H5). exists cy, cq.
        split_and!; try done; [by eapply ext_stored..|]. rewrite E4. by case_decide.
    + intros y. rewrite E3, E4. destruct Hnn as [N1 N2]. case_decide as E; [subst y|].
      * intros _. rewrite decide_False; [done|]. intros ->. pose proof (stored_unique _ _ _ _ Hx Hr) as ->. destruct Hlen. lia.
      * intros Hy. rewrite decide_False; [by apply Hg|]. intros ->. congruence.
    + intros y q. rewrite E1. intros Hq. destruct (g_par s Hg _ _ Hq) as [c' Hc']. exists c'. by eapply ext_stored.
    + intros y l. rewrite E1, E2. apply Hg.
    + intros y l H%Hinv. by eapply g_based.
Qed.
Lemma write_cgood O s c w : cgood s c → write_ok O s w → cgood (write_store w s) (write_cache w c).
Proof.
  intros Hc Hw. assert (ext ∅ s (write_store w s)) as He by (eapply write_ext; [done|set_solver]).
  pose proof (cgood_ext _ _ _ _ He Hc) as Hc'. destruct w as [| | |[|e L]|x]; cbn [write_store write_cache] in *; try done.
  - intros x L' [[<- <-]|[Hne E]]%lookup_insert_Some; [done|by apply Hc].
  - intros y L' [_ E]%lookup_delete_Some. by apply Hc.
Qed.

Lemma new_dir_eq n s : s !! n = None → let s' := new_dir n s in
  (∀ x, s_files s' x = s_files s x) ∧ (∀ x, s_parent s' x = s_parent s x) ∧ (∀ x, s_rollup s' x = s_rollup s x) ∧
  (∀ x, s_stands s' x = s_stands s x).
Proof.
  intros Hn. split_and!; intros x; unfold s_files, s_parent, s_rollup, s_stands, new_dir;
    (destruct (decide (n = x)) as [<-|]; [rewrite lookup_insert, Hn; done|rewrite lookup_insert_ne; done]).
Qed.
Lemma new_dir_ext O n s : s !! n = None → ext O s (new_dir n s).
Proof.
  intros Hn. destruct (new_dir_eq n s Hn) as (E1 & E2 & E3 & E4). split; intros; rewrite ?E1, ?E2, ?E3, ?E4; try done.
  unfold new_dir. destruct (decide (n = x)) as [<-|]; [rewrite lookup_insert; by eauto|by rewrite lookup_insert_ne].
Qed.
Lemma new_dir_stored n s x c : s !! n = None → stored (new_dir n s) x c → stored s x c.
Proof.
  intros Hn. destruct (new_dir_eq n s Hn) as (E1 & E2 & E3 & E4). 
  induction 1 as [y l H1 H2 H3|y l p c H1 H2 H3 H4 IH]; rewrite E2 in H3; rewrite E1 in H1; by econstructor.
Qed.
Lemma new_dir_good n s : s !! n = None → good s → good (new_dir n s).
Proof.
  intros Hn Hg. destruct (new_dir_eq n s Hn) as (E1 & E2 & E3 & E4). pose proof (new_dir_ext ∅ n s Hn) as He.
  pose proof (λ x c, new_dir_stored n s x c Hn) as Hi. split.
  - intros x c H%Hi. by eapply g_wf.
  - intros x r. rewrite E3. intros Hr. destruct (g_roll s Hg x r Hr) as (cx & cr & H1 & H2 & H3 & H4 & H5).
    exists cx, cr. rewrite E4. split_and!; try done; by eapply ext_stored.
  - intros r. rewrite E3, E4. apply Hg.
  - intros x q. rewrite E2. intros Hq. destruct (g_par s Hg _ _ Hq) as [c' Hc']. exists c'. by eapply ext_stored.
  - intros x l. rewrite E1, E2. apply Hg.
  - intros x l H%Hi. by eapply g_based.
Qed.

(** ** Programs that leave the store in order, whatever other threads do meanwhile *)
Fixpoint safe {A} (p : prog A) (O : gset lname) (s : store) (Q : gset lname → store → outcome A → Prop) : Prop :=
  match p with
  | Ret r => ∀ s', ext O s s' → good s' → Q O s' r
  | Look k => ∀ s' c, ext O s s' → good s' → cgood s' c → safe (k s' c) O s' Q
  | Alloc k => ∀ s' n, ext O s s' → good s' → s' !! n = None → safe (k n) ({[n]} ∪ O) (new_dir n s') Q
  | Put w p => ∀ s', ext O s s' → good s' → no_nesting s' w → write_ok O s' w ∧ safe p O (write_store w s') Q
  | Assume b p => b = true → safe p O s Q
  end.
Lemma safe_ext {A : Type} (p : prog A) O s s' Q : safe p O s Q → ext O s s' → safe p O s' Q.
Proof.
  induction p as [r|k IH|k IH|w p IH|b p IH]; cbn; intros H He; intros;
    try (apply H; eauto using ext_trans; done); eauto using ext_trans.
Qed.
Lemma safe_open {A : Type} (p : prog A) O s Q : (∀ s', ext O s s' → good s' → safe p O s' Q) → safe p O s Q.
Proof.
  induction p as [r|k IH|k IH|w p IH|b p IH]; cbn; intros H; intros.
  - eapply H; eauto using ext_refl.
  - eapply H; eauto using ext_refl.
  - eapply H; eauto using ext_refl.
  - eapply H; eauto using ext_refl.
  - apply IH. intros. by apply H.
Qed.
Lemma safe_mono {A : Type} (p : prog A) (O : gset lname) (s : store) (Q Q' : gset lname → store → outcome A → Prop) :
  safe p O s Q → (∀ O' s' r, O ⊆ O' → ext ∅ s s' → good s' → Q O' s' r → Q' O' s' r) → safe p O s Q'.
Proof.
  revert O s. induction p as [r|k IH|k IH|w p IH|b p IH]; cbn; intros O s H HQ; intros.
  - apply HQ; eauto using ext_empty.
  - eapply IH; [by apply H|]. intros O' s'' r HO He Hg. apply HQ; try done. eapply ext_trans; [by eapply ext_empty|done].
  - eapply IH; [by apply H|]. intros O' s'' r HO He Hg. apply HQ; [set_solver| |done].
    eapply ext_trans; [by eapply ext_empty|]. eapply ext_trans; [by apply new_dir_ext|done].
  - destruct (H s') as [Hw Hp]; try done. split; [done|]. eapply IH; [done|]. intros O' s'' r HO He Hg. apply HQ; try done.
    eapply ext_trans; [by eapply ext_empty|]. eapply ext_trans; [|done]. eapply write_ext; [done|set_solver].
  - eapply IH; eauto.
Qed.
Lemma safe_bind {A B : Type} (p : prog A) (f : A → prog B) (O : gset lname) (s : store) (Q : gset lname → store → outcome A → Prop) (Q' : gset lname → store → outcome B → Prop) :
  safe p O s Q →
  (∀ O' s' r, O ⊆ O' → ext ∅ s s' → good s' → Q O' s' r →
    match r with Ok a => safe (f a) O' s' Q' | Err k => Q' O' s' (Err k) | Panic => Q' O' s' Panic end) →
  safe (pbind p f) O s Q'.
Proof.
  revert O s. induction p as [r|k IH|k IH|w p IH|b p IH]; cbn; intros O s H HQ.
  - destruct r as [a|k|]; cbn.
    + apply safe_open. intros s' He Hg. apply (HQ O s' (Ok a)); eauto using ext_empty.
    + intros s' He Hg. apply (HQ O s' (Err k)); eauto using ext_empty.
    + intros s' He Hg. apply (HQ O s' Panic); eauto using ext_empty.
  - intros s' c He Hg Hc. eapply IH; [by apply H|]. intros O' s'' r HO He' Hg'. apply HQ; try done.
    eapply ext_trans; [by eapply ext_empty|done].
  - intros s' n He Hg Hn. eapply IH; [by apply H|]. intros O' s'' r HO He' Hg'. apply HQ; [set_solver| |done].
    eapply ext_trans; [by eapply ext_empty|]. eapply ext_trans; [by apply new_dir_ext|done].
  - intros s' He Hg Hn. destruct (H s') as [Hw Hp]; try done. split; [done|]. eapply IH; [done|].
    intros O' s'' r HO He' Hg'. apply HQ; try done.
    eapply ext_trans; [by eapply ext_empty|]. eapply ext_trans; [|done]. eapply write_ext; [done|set_solver].
  - intros Hb. eapply IH; eauto.
Qed.
