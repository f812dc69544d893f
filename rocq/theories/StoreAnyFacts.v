(** Files are written once, whatever the calls *)
From Verif Require Import Prelude Succinct TripleFiles Merge Layer Builder Rollup Squash MergeBase Names Spec Store SpecStore StoreAny
  StoreFacts StoreExecFacts StoreApi.

(** ** What a program may write: [F] the directories that it made and that have no files yet, [P] those that have no
    parent file and may get one *)
Fixpoint owns {A : Type} (strict : bool) (p : prog A) (F P : gset lname) (Q : A → gset lname → gset lname → Prop) : Prop :=
  match p with
  | Ret (Ok a) => Q a F P
  | Ret _ => True
  | Look k => ∀ s c, owns strict (k s c) F P Q
  | Alloc k => ∀ n, owns strict (k n) ({[n]} ∪ F) ({[n]} ∪ P) Q
  | Put w p =>
      match w with
      | WFiles n l => n ∈ F ∧ owns strict p (F ∖ {[n]}) (match l_neg l with None => P ∖ {[n]} | Some _ => P end) Q
      | WParent n _ => n ∈ P ∧ owns strict p F (P ∖ {[n]}) Q
      | _ => owns strict p F P Q
      end
  | Assume b p => (strict = true → b = true) → owns strict p F P Q
  end.
Lemma owns_bind {A B : Type} (strict : bool) (p : prog A) (f : A → prog B) (F P : gset lname) (Q : A → gset lname → gset lname → Prop) (Q' : B → gset lname → gset lname → Prop) :
  owns strict p F P Q → (∀ a F' P', Q a F' P' → owns strict (f a) F' P' Q') → owns strict (pbind p f) F P Q'.
Proof.
  intros Hp Hf. revert F P Hp. induction p as [r|k IH|k IH|w p IH|b p IH]; intros F P Hp; cbn [pbind owns] in *.
  - destruct r; [by apply Hf|done..].
  - intros s c. by apply IH.
  - intros n. by apply IH.
  - destruct w; cbn [owns] in *; [destruct Hp; split; [done|by apply IH]..|by apply IH|by apply IH|by apply IH].
  - intros Hb. apply IH. by apply Hp.
Qed.
Lemma owns_mono {A : Type} (strict : bool) (p : prog A) (F P : gset lname) (Q Q' : A → gset lname → gset lname → Prop) :
  (∀ a F' P', Q a F' P' → Q' a F' P') → owns strict p F P Q → owns strict p F P Q'.
Proof.
  intros HQ. revert F P. induction p as [r|k IH|k IH|w p IH|b p IH]; intros F P Hp; cbn [owns] in *.
  - destruct r; [by apply HQ|done..].
  - intros s c. by apply IH.
  - intros n. by apply IH.
  - destruct w; cbn [owns] in *; [destruct Hp; split; [done|by apply IH]..|by apply IH|by apply IH|by apply IH].
  - intros Hb. apply IH. by apply Hp.
Qed.
Lemma quiet_owns {A : Type} (strict : bool) (p : prog A) (F P : gset lname) : quiet p → owns strict p F P (λ _ F' P', F' = F ∧ P' = P).
Proof.
  intros Hq. induction p as [r|k IH|k IH|w p IH|b p IH]; cbn [owns quiet] in *; try done.
  - by destruct r.
  - intros s c. by apply IH.
  - destruct Hq as [Hw Hq]. destruct w; try done; by apply IH.
Qed.
Lemma quiet_ret {A : Type} (r : outcome A) : quiet (Ret r).
Proof. done. Qed.
Lemma get_existing_quiet cached x : quiet (get_existing cached x).
Proof. apply quiet_bind; [apply get_layer_quiet|]. by intros [L|]. Qed.
Notation any := (λ _ _ _, True).
Lemma owns_quiet_bind {A B : Type} (strict : bool) (p : prog A) (f : A → prog B) (F P : gset lname) (Q : B → gset lname → gset lname → Prop) :
  quiet p → (∀ a, owns strict (f a) F P Q) → owns strict (pbind p f) F P Q.
Proof. intros Hq Hf. eapply owns_bind; [by apply quiet_owns|]. intros a F' P' [-> ->]. apply Hf. Qed.
Lemma owns_ret_bind {A B : Type} (strict : bool) (r : outcome A) (f : A → prog B) (F P : gset lname) (Q : B → gset lname → gset lname → Prop) :
  (∀ a, r = Ok a → owns strict (f a) F P Q) → owns strict (pbind (Ret r) f) F P Q.
Proof. intros Hf. destruct r; cbn [pbind]; [by apply Hf|done..]. Qed.

Lemma create_child_owns (strict : bool) cached p F P : owns strict (create_child cached p) F P (λ '(n, _) F' P', n ∈ F').
Proof.
  unfold create_child. apply owns_quiet_bind; [apply get_existing_quiet|]. intros L n. cbn [owns]. split; set_solver.
Qed.
Lemma build_on_owns (strict : bool) nvord prord st cs n F P : n ∈ F → owns strict (build_on nvord prord st cs n) F P any.
Proof.
  intros Hn. unfold build_on. cbn [owns]. intros _. destruct (build nvord prord st cs) as [[|l r]|]; [done| |done]. by split.
Qed.
Lemma register_owns (strict : bool) cached x r F P : owns strict (register_rollup cached x r) F P any.
Proof. unfold register_rollup. case_decide; destruct cached; done. Qed.
Lemma perform_rollup_owns (strict : bool) L F P : owns strict (perform_rollup L) F P any.
Proof.
  unfold perform_rollup. destruct (l_parent L); [|done]. cbn [owns]. intros s c.
  assert (owns strict (Alloc (λ n, match rollup (layers L) with Some l => Put (WFiles n l) (Ret (Ok n)) | None => Ret Panic end)) F P any) as H.
  { cbn [owns]. intros n. destruct (rollup (layers L)); [|done]. cbn [owns]. split; [set_solver|done]. }
  destruct (s_rollup s (name_of L)) as [r|]; [|done]. destruct (s_parent s r); done.
Qed.
Lemma shortcut_owns (strict : bool) L upto (make : prog lname) F P : owns strict make F P any → owns strict (upto_shortcut L upto (λ r, Ret (Ok r)) make) F P any.
Proof.
  intros H. unfold upto_shortcut. case_decide; [done|]. case_decide; [done|]. cbn [owns]. intros s c.
  destruct (s_rollup s (name_of L)) as [r|]; [|done]. destruct (s_parent s r) as [q|]; [|done]. by case_decide.
Qed.
Lemma perform_rollup_upto_owns (strict : bool) cached L upto F P : owns strict (perform_rollup_upto cached L upto) F P any.
Proof.
  apply shortcut_owns. eapply owns_bind; [apply create_child_owns|]. intros [n L'] F' P' Hn. cbn [owns]. intros s c.
  apply owns_ret_bind. intros ns _. cbn [owns]. intros s' c'. apply owns_ret_bind. intros disk _. apply owns_ret_bind. intros mem _.
  cbn [owns]. intros _. destruct (rollup_upto (layers mem) disk); [|done]. by split.
Qed.
Lemma perform_imprecise_owns (strict : bool) cached L upto F P : owns strict (perform_imprecise cached L upto) F P any.
Proof.
  apply shortcut_owns. eapply owns_bind; [apply create_child_owns|]. intros [n L'] F' P' Hn. cbn [owns]. intros s c.
  apply owns_ret_bind. intros ns _. cbn [owns]. intros _. apply owns_ret_bind. intros mem _.
  destruct (imprecise_rollup_upto (layers mem)); [|done]. by split.
Qed.
Lemma squash_upto_neg disk base l : squash_upto disk base = Some l → is_Some (l_neg l).
Proof.
  unfold squash_upto. intros (cs & _ & H)%bind_Some. apply bind_Some in H as (d & _ & H). apply bind_Some in H as (cs' & _ & H).
  apply bind_Some in H as (pos & _ & H). apply bind_Some in H as (neg & _ & H). injection H as <-. by eexists.
Qed.
Lemma write_pack_owns ns pk F P : NoDup (omap head pk).*1 → (∀ n, n ∈ (omap head pk).*1 → n ∈ ns → n ∈ F ∧ n ∈ P) →
  owns true (write_pack ns pk) F P any.
Proof.
  revert F P. induction pk as [|[|[n l] anc] pk IH]; intros F P Hd Ho; cbn [write_pack]; [done|by apply IH|].
  cbn [omap list_omap head fmap list_fmap fst] in Hd, Ho. apply NoDup_cons in Hd as [Hn Hd].
  case_decide as E; [|apply IH; [done|]; intros m Hm; apply Ho; by apply elem_of_cons; right].
  destruct (Ho n) as [HF HP]; [by apply elem_of_cons; left|done|].
  assert (∀ P', (∀ m, m ≠ n → m ∈ P → m ∈ P') → owns true (Put (WFiles n l) (write_pack ns pk)) F P' any) as H.
  { intros P' HP'. cbn [owns]. split; [done|]. apply IH; [done|]. intros m Hm Hmn.
    destruct (Ho m) as [HmF HmP]; [by apply elem_of_cons; right|done|].
    assert (m ≠ n) as Hne by (by intros ->). split; [set_solver|]. specialize (HP' m Hne HmP). destruct (l_neg l); set_solver. }
  cbn [owns]. intros s c _. destruct anc as [|[p lp] anc].
  - apply H. done.
  - cbn [owns]. split; [done|]. apply H. set_solver.
Qed.
Lemma make_dirs_owns {A : Type} ns (p : prog A) F P Q :
  (∀ F' P', F ⊆ F' → P ⊆ P' → (∀ n, n ∈ ns → n ∈ F' ∧ n ∈ P') → owns true p F' P' Q) → owns true (make_dirs ns p) F P Q.
Proof.
  revert F P. induction ns as [|n ns IH]; intros F P H; cbn [make_dirs].
  - apply H; [done..|]. intros n Hn. by apply elem_of_nil in Hn.
  - cbn [owns]. intros m Hm. specialize (Hm eq_refl). apply bool_decide_eq_true_1 in Hm as ->. apply IH. intros F' P' HF HP Hns. apply H; [set_solver..|].
    intros m [->|Hm]%elem_of_cons; [set_solver|by apply Hns].
Qed.
Lemma owns_pmap {A : Type} (strict : bool) (f : A → sres) (p : prog A) F P : owns strict p F P any → owns strict (pmap f p) F P any.
Proof. intros H. unfold pmap. by eapply owns_bind; [exact H|]. Qed.
Lemma program_owns cached k F P : call_ok k → owns (is_import k) (program cached k) F P any.
Proof.
  intros Hk. destruct k as [x|nvord prord cs|nvord prord x cs|x|x upto|x upto|x|x upto|xs|pk ns]; cbn [program is_import]; apply owns_pmap.
  - eapply owns_mono; [|apply quiet_owns, get_layer_quiet]. done.
  - cbn [new_base owns]. unfold new_base. cbn [owns]. intros n. apply build_on_owns. set_solver.
  - unfold new_child. eapply owns_bind; [apply create_child_owns|]. intros [n L] F' P' Hn. by apply build_on_owns.
  - apply owns_quiet_bind; [apply get_existing_quiet|]. intros L. eapply owns_bind; [apply perform_rollup_owns|]. intros r F' P' _. apply register_owns.
  - apply owns_quiet_bind; [apply get_existing_quiet|]. intros L. eapply owns_bind; [apply perform_rollup_upto_owns|]. intros r F' P' _. apply register_owns.
  - apply owns_quiet_bind; [apply get_existing_quiet|]. intros L. eapply owns_bind; [apply perform_imprecise_owns|]. intros r F' P' _. apply register_owns.
  - apply owns_quiet_bind; [apply get_existing_quiet|]. intros L. cbn [owns]. intros n. destruct (squash (layers L)); [|done]. cbn [owns]. split; [set_solver|done].
  - apply owns_quiet_bind; [apply get_existing_quiet|]. intros L. cbn [owns]. intros s c. destruct (s !! upto); [|done].
    apply owns_ret_bind. intros bs _. apply owns_ret_bind. intros base _. apply owns_ret_bind. intros top _. cbn [owns]. intros n.
    destruct (squash_upto top base) as [l|] eqn:El; [|done]. apply squash_upto_neg in El as [neg El]. cbn [owns]. rewrite El. set_solver.
  - unfold do_merge. cbn [owns]. intros s c. apply owns_ret_bind. intros ls _. cbn [owns]. intros _ n. destruct (merge_base_layers ls); [|done].
    cbn [owns]. split; [set_solver|done].
  - destruct Hk as [_ Hd]. apply make_dirs_owns. intros F' P' _ _ Hns. apply write_pack_owns; [done|]. intros n _. apply Hns.
Qed.

(** ** All threads *)
Lemma kept_refl s : kept s s.
Proof. by split. Qed.
Lemma kept_trans s s' s'' : kept s s' → kept s' s'' → kept s s''.
Proof. intros [A B C] [A' B' C']. split; eauto. Qed.
Lemma kept_stored s s' x c : kept s s' → stored s x c → stored s' x c.
Proof. intros He. induction 1; econstructor; eauto using kept_files, kept_parent, kept_base. Qed.
Record apool (g : gstate) (Fs Ps : nat → gset lname) : Prop := {
  ap_owns : ∀ t k p, g_threads g !! t = Some (k, p) → owns (is_import k) p (Fs t) (Ps t) any;
  ap_files : ∀ t n, n ∈ Fs t → is_Some (g_store g !! n) ∧ s_files (g_store g) n = None;
  ap_parent : ∀ t n, n ∈ Ps t → is_Some (g_store g !! n) ∧ s_parent (g_store g) n = None ∧
    (∀ l, s_files (g_store g) n = Some l → is_Some (l_neg l));
  ap_disj : ∀ t t' n, t ≠ t' → n ∈ Fs t ∪ Ps t → n ∉ Fs t' ∪ Ps t' }.
Lemma apool_init : apool gstate_init (λ _, ∅) (λ _, ∅).
Proof. split; cbn; [intros t k p H; by rewrite lookup_empty in H|set_solver..]. Qed.
(** the store does not change, nor what the others own *)
Lemma apool_same s c c' th t k p p' Fs Ps : apool (GState s c th) Fs Ps → th !! t = Some (k, p) →
  owns (is_import k) p' (Fs t) (Ps t) any → apool (GState s c' (<[t := (k, p')]> th)) Fs Ps.
Proof.
  intros [A B C D] Ht Hp. split; cbn in *; [|done..]. intros t' k' q H. apply lookup_insert_Some in H as [[<- [= <- <-]]|[Hne H]]; [done|by eapply A].
Qed.
Lemma apool_gone s c c' th th' t Fs Ps : apool (GState s c th) Fs Ps → (∀ t' kp, th' !! t' = Some kp → t' ≠ t ∧ th !! t' = Some kp) →
  apool (GState s c' th') (fset Fs t ∅) (fset Ps t ∅).
Proof.
  intros [A B C D] Hth. split; cbn in *.
  - intros t' k p H. destruct (Hth _ _ H) as [Hne H']. rewrite !fset_ne by done. by eapply A.
  - intros t' n. destruct (decide (t' = t)) as [->|Hne]; [rewrite fset_eq; set_solver|rewrite fset_ne by done; apply B].
  - intros t' n. destruct (decide (t' = t)) as [->|Hne]; [rewrite fset_eq; set_solver|rewrite fset_ne by done; apply C].
  - intros t1 t2 n Hne. specialize (D t1 t2 n Hne). unfold fset. case_decide; case_decide; set_solver.
Qed.
Lemma write_rollup_keeps s x r : let s' := write_store (WRollup x r) s in
  (∀ y, s_files s' y = s_files s y) ∧ (∀ y, s_parent s' y = s_parent s y).
Proof.
  cbn [write_store]. assert (∀ (s : store) z f, (∀ d, d_files (f d) = d_files d) → ∀ y, s_files (set_dent s z f) y = s_files s y) as Hf.
  { intros s0 z f Hf y. rewrite s_files_set. destruct (decide (z = y)) as [<-|]; [|done]. unfold s_files. destruct (s0 !! z); cbn; [by rewrite Hf|done]. }
  assert (∀ (s : store) z f, (∀ d, d_parent (f d) = d_parent d) → ∀ y, s_parent (set_dent s z f) y = s_parent s y) as Hp.
  { intros s0 z f Hp y. rewrite s_parent_set. destruct (decide (z = y)) as [<-|]; [|done]. unfold s_parent. destruct (s0 !! z); cbn; [by rewrite Hp|done]. }
  split; intros y; [rewrite !Hf by done|rewrite !Hp by done]; done.
Qed.
(** a step of a thread that leaves files and parents alone *)
Lemma apool_quiet s s' c c' th t k p p' Fs Ps : apool (GState s c th) Fs Ps → th !! t = Some (k, p) →
  owns (is_import k) p' (Fs t) (Ps t) any → (∀ x, is_Some (s !! x) → is_Some (s' !! x)) →
  (∀ y, s_files s' y = s_files s y) → (∀ y, s_parent s' y = s_parent s y) →
  apool (GState s' c' (<[t := (k, p')]> th)) Fs Ps ∧ kept s s'.
Proof.
  intros H Ht Hp Hd Hf Hpa. split; [|split; intros *; rewrite ?Hf, ?Hpa; done].
  destruct (apool_same _ _ c' _ _ _ _ _ _ _ H Ht Hp) as [A B C D]. split; [exact A| | |exact D]; cbn in *.
  - intros t' n Hn. destruct (B t' n Hn). rewrite Hf. auto.
  - intros t' n Hn. destruct (C t' n Hn) as (? & ? & ?). rewrite Hf, Hpa. auto.
Qed.
Lemma astep_pool cached g e g' Fs Ps : astep cached g e g' → apool g Fs Ps →
  ∃ Fs' Ps', apool g' Fs' Ps' ∧ kept (g_store g) (g_store g').
Proof.
  intros Hs Hp. destruct Hs as [s c th t k Ht Hk|s c th t k f Ht|s c th t k f n Ht Hn|s c th t k w p Ht|s c th t k b p Ht Hb|s c th t k r Ht|s c th x|s c th]; cbn [g_store].
  - exists (fset Fs t ∅), (fset Ps t ∅). split; [|apply kept_refl].
    destruct (apool_gone _ _ c _ th t _ _ Hp) as [A B C D].
    { intros t' kp H. split; [|done]. intros ->. congruence. }
    split; [|exact B|exact C|exact D]. cbn in *. intros t' k' q H. apply lookup_insert_Some in H as [[<- [= <- <-]]|[Hne H]]; [|by apply A].
    by apply program_owns.
  - exists Fs, Ps. split; [|apply kept_refl]. eapply apool_same; [done..|]. pose proof (ap_owns _ _ _ Hp t _ _ Ht) as H. cbn [owns] in H. apply H.
  - destruct (new_dir_eq n s Hn) as (E1 & E2 & _ & _). destruct Hp as [A B C D]; cbn in *.
    assert (∀ t' m, m ∈ Fs t' ∪ Ps t' → m ≠ n) as Hfr.
    { intros t' m [Hm|Hm]%elem_of_union ->; [destruct (B _ _ Hm) as [[??] _]|destruct (C _ _ Hm) as [[??] _]]; congruence. }
    assert (∀ x, is_Some (s !! x) → is_Some (new_dir n s !! x)) as Hdom.
    { intros x Hx. unfold new_dir. destruct (decide (n = x)) as [<-|]; [rewrite lookup_insert; by eauto|by rewrite lookup_insert_ne]. }
    assert (s_files s n = None ∧ s_parent s n = None ∧ is_Some (new_dir n s !! n)) as (Nf & Np & Nd).
    { unfold s_files, s_parent, new_dir. rewrite Hn, lookup_insert. split_and!; [done..|by eexists]. }
    exists (fset Fs t ({[n]} ∪ Fs t)), (fset Ps t ({[n]} ∪ Ps t)). split; [split; cbn|split; intros *; rewrite ?E1, ?E2; done].
    + intros t' k' q H. apply lookup_insert_Some in H as [[<- [= <- <-]]|[Hne H]].
      * rewrite !fset_eq. specialize (A _ _ _ Ht). cbn [owns] in A. apply A.
      * rewrite !fset_ne by done. by apply A.
    + intros t' m. destruct (decide (t' = t)) as [->|Hne].
      * rewrite fset_eq, E1. intros [->%elem_of_singleton|Hm]%elem_of_union; [done|]. destruct (B _ _ Hm). auto.
      * rewrite fset_ne, E1 by done. intros Hm. destruct (B _ _ Hm). auto.
    + intros t' m. destruct (decide (t' = t)) as [->|Hne].
      * rewrite fset_eq, E1, E2. intros [->%elem_of_singleton|Hm]%elem_of_union; [split_and!; [done..|congruence]|]. destruct (C _ _ Hm) as (? & ? & ?). auto.
      * rewrite fset_ne, E1, E2 by done. intros Hm. destruct (C _ _ Hm) as (? & ? & ?). auto.
    + intros t1 t2 m Hne. pose proof (D t1 t2 m Hne). pose proof (Hfr t1 m). pose proof (Hfr t2 m). unfold fset. case_decide; case_decide; set_solver.
  - pose proof (ap_owns _ _ _ Hp t _ _ Ht) as Ho. cbn [owns] in Ho. destruct w as [n q|n l|x r|L|x].
    + destruct Ho as [Hn Ho]. destruct Hp as [A B C D]; cbn [g_threads g_store] in *. destruct (C _ _ Hn) as (Hd & Hnp & Hneg).
      destruct (write_parent_eq s n q Hd) as (E1 & _ & _ & E2). exists Fs, (fset Ps t (Ps t ∖ {[n]})). split; [split; cbn [g_threads g_store]|split].
      * intros t' k' q' H. apply lookup_insert_Some in H as [[<- [= <- <-]]|[Hne H]]; [by rewrite fset_eq|rewrite fset_ne by done; by apply A].
      * intros t' m Hm. destruct (B _ _ Hm). rewrite E1. split; [by apply write_dom|done].
      * intros t' m. rewrite E1, E2. intros Hm. assert (m ∈ Ps t' ∧ m ≠ n) as [Hm' Hmn].
        { destruct (decide (t' = t)) as [->|Hne]; [rewrite fset_eq in Hm; set_solver|]. rewrite fset_ne in Hm by done. split; [done|]. intros ->.
          apply (D t t' n); [done|set_solver..]. }
        destruct (C _ _ Hm') as (? & ? & ?). rewrite decide_False by done. split; [by apply write_dom|done].
      * intros t1 t2 m Hne. pose proof (D t1 t2 m Hne). unfold fset. case_decide; case_decide; set_solver.
      * intros x l. by rewrite E1.
      * intros x p' Hx. rewrite E2. case_decide as Ex; [subst; congruence|done].
      * intros x l Hx Hl Hxp. rewrite E2. case_decide as Ex; [|done]. subst. destruct (Hneg _ Hx) as [? ?]. congruence.
    + destruct Ho as [Hn Ho]. destruct Hp as [A B C D]; cbn [g_threads g_store] in *. destruct (B _ _ Hn) as (Hd & Hnf).
      destruct (write_files_eq s n l Hd) as (E1 & _ & _ & E2).
      exists (fset Fs t (Fs t ∖ {[n]})), (fset Ps t (match l_neg l with None => Ps t ∖ {[n]} | Some _ => Ps t end)). split; [split; cbn [g_threads g_store]|split].
      * intros t' k' q' H. apply lookup_insert_Some in H as [[<- [= <- <-]]|[Hne H]]; [by rewrite !fset_eq|rewrite !fset_ne by done; by apply A].
      * intros t' m. rewrite E2. intros Hm. assert (m ∈ Fs t' ∧ m ≠ n) as [Hm' Hmn].
        { destruct (decide (t' = t)) as [->|Hne]; [rewrite fset_eq in Hm; set_solver|]. rewrite fset_ne in Hm by done. split; [done|]. intros ->.
          apply (D t t' n); [done|set_solver..]. }
        destruct (B _ _ Hm'). rewrite decide_False by done. split; [by apply write_dom|done].
      * intros t' m. rewrite E1, E2. intros Hm. assert (m ∈ Ps t' ∧ (m = n → is_Some (l_neg l))) as [Hm' Hmn].
        { destruct (decide (t' = t)) as [->|Hne]; [rewrite fset_eq in Hm; destruct (l_neg l); [split; [done|by eexists]|apply elem_of_difference in Hm as [Hm Hmn]; split; [done|intros ->; destruct Hmn; by apply elem_of_singleton]]|]. rewrite fset_ne in Hm by done. split; [done|]. intros ->.
          exfalso. apply (D t t' n); [done|by apply elem_of_union; left|by apply elem_of_union; right]. }
        destruct (C _ _ Hm') as (? & ? & ?). split; [by apply write_dom|]. split; [done|]. case_decide as En; [|done]. intros l' [= <-]. auto.
      * intros t1 t2 m Hne. pose proof (D t1 t2 m Hne) as Hd12. clear -Hd12 Hne. unfold fset. case_decide; case_decide; destruct (l_neg l); set_solver.
      * intros x l' Hx. rewrite E2. case_decide as Ex; [subst; congruence|done].
      * intros x p' Hx. by rewrite E1.
      * intros x l' Hx Hl Hxp. by rewrite E1.
    + exists Fs, Ps. destruct (write_rollup_keeps s x r). eapply apool_quiet; [done..| |done|done]. intros y. apply write_dom.
    + exists Fs, Ps. by eapply apool_quiet.
    + exists Fs, Ps. by eapply apool_quiet.
  - exists Fs, Ps. split; [|apply kept_refl]. eapply apool_same; [done..|]. pose proof (ap_owns _ _ _ Hp t _ _ Ht) as H. cbn [owns] in H. by apply H.
  - exists (fset Fs t ∅), (fset Ps t ∅). split; [|apply kept_refl]. eapply apool_gone; [exact Hp|]. intros t' kp H. by apply lookup_delete_Some in H as [? ?].
  - exists Fs, Ps. split; [|apply kept_refl]. destruct Hp as [A B C D]. by split.
  - exists (λ _, ∅), (λ _, ∅). split; [|apply kept_refl]. split; cbn; [intros t k p H; by rewrite lookup_empty in H|set_solver..].
Qed.
Lemma aexec_pool cached g tr g' Fs Ps : aexec cached g tr g' → apool g Fs Ps →
  ∃ Fs' Ps', apool g' Fs' Ps' ∧ kept (g_store g) (g_store g').
Proof.
  intros He Hp. induction He as [g|g tr g1 e g2 He IH Hs]; [exists Fs, Ps; split; [done|apply kept_refl]|].
  destruct (IH Hp) as (F1 & P1 & H1 & K1). destruct (astep_pool _ _ _ _ _ _ Hs H1) as (F2 & P2 & H2 & K2).
  exists F2, P2. split; [done|by eapply kept_trans].
Qed.
Lemma aexec_kept cached tr g tr' g' : aexec cached gstate_init tr g → aexec cached g tr' g' → kept (g_store g) (g_store g').
Proof.
  intros H H'. destruct (aexec_pool _ _ _ _ _ _ H apool_init) as (F & P & Hp & _). by destruct (aexec_pool _ _ _ _ _ _ H' Hp) as (_ & _ & _ & K).
Qed.
Lemma gstep_astep cached g e g' : gstep cached g e g' → astep cached g e g'.
Proof. destruct 1; by econstructor. Qed.
Lemma gexec_aexec cached g tr g' : gexec cached g tr g' → aexec cached g tr g'.
Proof. induction 1; econstructor; eauto using gstep_astep. Qed.

(** ** Loading without rollups *)
Lemma find_start_plain s fuel x c td : stored s x c → Forall (λ e, s_rollup s e.1 = None) c → length c ≤ fuel →
  run [] s ∅ (find_start false fuel ((x, None) :: td)) = Some (Ok (None, ((λ y, (y, None)) <$> reverse c.*1) ++ td), s, ∅).
Proof.
  intros Hst. revert fuel td. induction Hst as [x l Hf Hl Hp|x l p c Hf Hl Hp Hst IH]; intros fuel td Hr Hlen; (destruct fuel as [|f]; [cbn in Hlen; lia|]);
    cbn [find_start run cache_get]; apply Forall_cons in Hr as [Hr0 Hr]; cbn [fst] in Hr0; rewrite Hr0, Hp.
  - done.
  - rewrite IH; [|done|cbn in Hlen; lia]. cbn [fmap list_fmap fst]. rewrite reverse_cons, fmap_app, <-app_assoc. done.
Qed.
Definition plain (c : list (lname * layer)) : loaded :=
  (fix go c := match c with [] => [] | (x, l) :: c' => Lent x (fst <$> head c') false l :: go c' end) c.
Lemma plain_cons x l c : plain ((x, l) :: c) = Lent x (fst <$> head c) false l :: plain c.
Proof. done. Qed.
Lemma plain_names c : n_name <$> plain c = c.*1.
Proof. induction c as [|[x l] c IH]; [done|]. rewrite plain_cons. cbn. by rewrite IH. Qed.
Lemma plain_layers c : layers (plain c) = c.*2.
Proof. unfold layers. induction c as [|[x l] c IH]; [done|]. rewrite plain_cons. cbn. by rewrite IH. Qed.
Lemma plain_head c : l_name (plain c) = fst <$> head c.
Proof. by destruct c as [|[x l] c]. Qed.
Lemma run_bind {A B : Type} (p : prog A) (f : A → prog B) s c r s' c' : run [] s c p = Some (Ok r, s', c') →
  run [] s c (pbind p f) = run [] s' c' (f r).
Proof.
  revert s c. induction p as [q|k IH|k IH|w p IH|b p IH]; intros s c H; cbn [run pbind] in *.
  - by injection H as -> -> ->.
  - by apply IH.
  - done.
  - case_decide; [by apply IH|done].
  - destruct b; [by apply IH|done].
Qed.
Lemma load_children_plain s c1 c2 x : stored s x (c1 ++ c2) → c2 ≠ [] →
  run [] s ∅ (load_children false (plain c2) ((λ y, (y, None)) <$> reverse c1.*1)) = Some (Ok (plain (c1 ++ c2)), s, ∅).
Proof.
  revert c2. induction c1 as [|[y l] c1 IH] using rev_ind; intros c2 Hst Hc2; [done|].
  rewrite fmap_app, reverse_app. change (reverse [(y, l)].*1) with [y]. cbn [fmap list_fmap app load_children run].
  rewrite <-app_assoc in Hst |- *. cbn [app] in *.
  assert (child_files s y = Some l) as ->.
  { apply stored_suffix in Hst. apply child_files_iff. inversion Hst as [|? ? p ? Hf Hl]; subst; done. }
  cbn [cache_put]. rewrite plain_head. rewrite <-(IH ((y, l) :: c2) Hst); done.
Qed.
Lemma plain_load s x c : stored s x c → Forall (λ e, s_rollup s e.1 = None) c →
  run [] s ∅ (get_layer false x) = Some (Ok (Some (plain c)), s, ∅).
Proof.
  intros Hst Hr. unfold get_layer. cbn [run cache_get]. destruct (stored_is_dom _ _ _ Hst) as [d ->].
  erewrite run_bind; [|apply find_start_plain; [exact Hst|exact Hr|apply stored_length in Hst; lia]]. rewrite app_nil_r.
  destruct (exists_last (l := c)) as [c1 [[y l] Ec]]; [by inversion Hst|]. subst c. rewrite fmap_app, reverse_app. change (reverse [(y, l)].*1) with [y].
  cbn [fmap list_fmap app]. pose proof (stored_suffix _ _ _ _ _ _ Hst) as Hy.
  assert (base_files s y = Some l) as Hb by (apply base_files_iff; inversion Hy as [|? ? ? ? ? ? ? Hq]; subst; [done|inversion Hq]).
  assert (run [] s ∅ (load_base false y None) = Some (Ok (plain [(y, l)]), s, ∅)) as H1 by (cbn [load_base run]; rewrite Hb; done).
  erewrite run_bind; [|exact H1]. erewrite run_bind; [|by apply (load_children_plain s c1 [(y, l)] x)]. done.
Qed.
Lemma any_loads cached tr g tr' g' x c : aexec cached gstate_init tr g → stored (g_store g) x c → aexec cached g tr' g' →
  Forall (λ e, s_rollup (g_store g') e.1 = None) c →
  ∃ L, run [] (g_store g') ∅ (get_layer false x) = Some (Ok (Some L), g_store g', ∅) ∧ n_name <$> L = c.*1 ∧ layers L = c.*2.
Proof.
  intros H Hst H' Hr. exists (plain c). split; [|split; [apply plain_names|apply plain_layers]]. apply plain_load; [|done].
  eapply kept_stored; [by eapply aexec_kept|done].
Qed.

(** ** One call after another, for examples *)
Lemma aexec_trans cached g tr g' tr' g'' : aexec cached g tr g' → aexec cached g' tr' g'' → aexec cached g (tr ++ tr') g''.
Proof.
  intros H H'. induction H' as [g0|g0 tr' g1 e g2 H' IH Hs]; [by rewrite app_nil_r|]. rewrite app_assoc. eapply aexec_step; [by apply IH|done].
Qed.
Lemma aexec_one cached g e g' : astep cached g e g' → aexec cached g (option_list e) g'.
Proof. intros H. rewrite <-(app_nil_l (option_list e)). eapply aexec_step; [constructor|done]. Qed.
Lemma run_aexec cached ns s c k p r s' c' th : is_import k = false → run_any ns s c p = Some (r, s', c') → th !! 0 = Some (k, p) →
  aexec cached (GState s c th) [GDone 0 k r] (GState s' c' (delete 0 th)).
Proof.
  intros Hk. revert ns s c th. induction p as [q|f IH|f IH|w p IH|b p IH]; cbn [run_any]; intros ns s c th Hr Ht.
  - injection Hr as <- <- <-. eapply (aexec_one _ _ (Some _)). by constructor.
  - eapply (aexec_trans _ _ []); [eapply (aexec_one _ _ None); by apply (a_look _ s c th 0 k f)|].
    rewrite <-(delete_insert_delete th 0 (k, f s c)). eapply IH; [done|apply lookup_insert].
  - destruct ns as [|n ns]; [done|]. destruct (s !! n) eqn:En; [done|].
    eapply (aexec_trans _ _ []); [eapply (aexec_one _ _ None); by apply (a_alloc _ s c th 0 k f n)|].
    rewrite <-(delete_insert_delete th 0 (k, f n)). eapply IH; [done|apply lookup_insert].
  - eapply (aexec_trans _ _ []); [eapply (aexec_one _ _ None); by apply (a_put _ s c th 0 k w p)|].
    rewrite <-(delete_insert_delete th 0 (k, p)). eapply IH; [done|apply lookup_insert].
  - eapply (aexec_trans _ _ []); [eapply (aexec_one _ _ None); eapply (a_assume _ s c th 0 k b p); [done|congruence]|].
    rewrite <-(delete_insert_delete th 0 (k, p)). eapply IH; [done|apply lookup_insert].
Qed.
Lemma script_aexec cached ks s c rs s' c' : Forall (λ nk, call_ok nk.2 ∧ is_import nk.2 = false) ks → script_any cached ks s c = Some (rs, s', c') →
  aexec cached (GState s c ∅) (script_trace ks rs) (GState s' c' ∅).
Proof.
  intros Hok. revert s c rs. induction Hok as [|[ns k] ks Hk Hok IH]; cbn [script_any]; intros s c rs E.
  - injection E as <- <- <-. constructor.
  - destruct (run_any ns s c (program cached k)) as [[[r s1] c1]|] eqn:Er; [|done]. cbn [mbind option_bind] in E.
    destruct (script_any cached ks s1 c1) as [[[rs1 s2] c2]|] eqn:Es; [|done]. cbn [mbind option_bind] in E. injection E as <- <- <-.
    cbn [script_trace]. change (?a :: ?b :: ?l) with ([a] ++ [b] ++ l). destruct Hk as [Hk Hi].
    eapply aexec_trans; [eapply (aexec_one _ _ (Some _)); by apply (a_start _ s c ∅ 0 k)|].
    eapply aexec_trans; [eapply run_aexec; [exact Hi|exact Er|apply lookup_insert]|]. rewrite delete_insert by apply lookup_empty. by apply IH.
Qed.
