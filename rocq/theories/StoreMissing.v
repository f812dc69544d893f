(** Calls on layers that are not there. *)
From Verif Require Import Prelude ListFacts Succinct TripleFiles Merge Layer Builder Rollup
  Squash MergeBase Names Spec Store SpecStore StoreFacts StoreLoadFacts StoreCallFacts StoreImportFacts StoreExecFacts StoreApi StoreHeadFacts.

Fixpoint rets_in {A : Type} (I : store → lcache → Prop) (p : prog A) (P : outcome A → Prop) : Prop :=
  match p with
  | Ret r => P r
  | Look k => ∀ s c, I s c → rets_in I (k s c) P
  | Alloc k => ∀ n, rets_in I (k n) P
  | Put _ p | Assume _ p => rets_in I p P
  end.
Definition absent (x : lname) (s : store) (c : lcache) : Prop := s !! x = None ∧ c !! x = None.
Lemma get_layer_absent cached x s c : absent x s c → ∃ f, get_layer cached x = Look f ∧ f s c = Ret (Ok None).
Proof.
  intros [Hs Hc]. unfold get_layer. eexists. split; [done|]. cbn beta. unfold cache_get. destruct cached; by rewrite ?Hc, Hs.
Qed.
Lemma existing_absent {B : Type} cached x (f : loaded → prog B) (P : outcome B → Prop) : P (Err NotFound) → rets_in (absent x) (pbind (get_existing cached x) f) P.
Proof.
  intros HP. unfold get_existing. destruct (get_layer cached x) as [| k | | |] eqn:E; try (unfold get_layer in E; done).
  cbn. intros s c Ha. destruct (get_layer_absent cached x s c Ha) as (k' & E' & Ek). rewrite E in E'. injection E' as <-. rewrite Ek. cbn. done.
Qed.
Lemma pmap_absent {A : Type} (f : A → sres) (p : prog A) (x : lname) (P : outcome sres → Prop) : rets_in (absent x) p (λ r, r = Err NotFound) → P (Err NotFound) →
  rets_in (absent x) (Store.pmap f p) P.
Proof.
  intros H HP. unfold Store.pmap. induction p as [r|k IH|k IH|w p IH|b p IH]; cbn in *; auto. by subst.
Qed.
Lemma program_absent cached k x : call_target k = Some x → rets_in (absent x) (program cached k) (not_there k).
Proof.
  intros Hx. destruct k; cbn in Hx; simplify_eq; cbn [program].
  - unfold Store.pmap. destruct (get_layer cached x) as [| k | | |] eqn:E; try (unfold get_layer in E; done).
    cbn. intros s c Ha. destruct (get_layer_absent cached x s c Ha) as (k' & E' & Ek). rewrite E in E'. injection E' as <-. by rewrite Ek.
  - apply pmap_absent; [|done]. unfold new_child, create_child.
    assert (∀ {A B : Type} (p : prog A) (f : A → prog B), rets_in (absent x) p (λ r, r = Err NotFound) → rets_in (absent x) (pbind p f) (λ r, r = Err NotFound)) as K.
    { intros A B p f. induction p as [r|k IH|k IH|w p IH|b p IH]; cbn; auto. by intros ->. }
    apply K. by apply existing_absent.
  - apply pmap_absent; [|done]. by apply existing_absent.
  - apply pmap_absent; [|done]. by apply existing_absent.
  - apply pmap_absent; [|done]. by apply existing_absent.
  - apply pmap_absent; [|done]. by apply existing_absent.
  - apply pmap_absent; [|done]. by apply existing_absent.
Qed.
Lemma cgood_absent s c x : cgood s c → s !! x = None → c !! x = None.
Proof.
  intros Hc Hs. destruct (c !! x) as [L|] eqn:E; [|done]. exfalso. destruct (Hc _ _ E) as [Hn HL].
  destruct (valid_top _ _ _ HL Hn) as (cx & Hx & _). destruct (stored_is_dom _ _ _ Hx). congruence.
Qed.
Lemma missing_calls cached tr g x : reached cached tr g → g_store g !! x = None →
  (∀ t k p, g_threads g !! t = Some (k, p) → call_target k = Some x → rets_in (absent x) p (not_there k)) ∧
  ∀ t k r, GDone t k r ∈ tr → call_target k = Some x → not_there k r.
Proof.
  unfold reached. remember gstate_init as g0 eqn:E0. intros H. induction H as [g|g tr g1 e g2 Hex IH Hs]; intros Hn; subst.
  { split; [intros t k p Hp; cbn in Hp; by rewrite lookup_empty in Hp|by intros ? ? ? ?%elem_of_nil]. }
  assert (g_store g1 !! x = None) as Hn1.
  { destruct (g_store g1 !! x) as [d|] eqn:E; [|done]. exfalso.
    pose proof (ext_dom _ _ _ (gexec_ext cached tr g1 _ g2 Hex (gexec_one _ _ _ _ Hs)) x) as Hd. rewrite E, Hn in Hd. destruct Hd as [? ?]; [by eexists|done]. }
  destruct (IH eq_refl Hn1) as [IH1 IH2]. clear IH.
  assert (absent x (g_store g1) (g_cache g1)) as Ha.
  { split; [done|]. destruct (reached_good cached tr g1 Hex) as [_ Hc]. by eapply cgood_absent. }
  split.
  - intros t k p Et Hk. destruct Hs as [s c th t0 k0 Ht Hk0|s c th t0 k0 f Ht|s c th t0 k0 f n Ht Hnn|s c th t0 k0 w q Ht Hnn|s c th t0 k0 q Ht|s c th t0 k0 r Ht|s c th y|s c th];
      cbn [g_store g_cache g_threads] in *; try (by rewrite lookup_empty in Et); try (by eapply IH1).
    + apply lookup_insert_Some in Et as [[<- [= <- <-]]|[_ Et]]; [by apply program_absent|by eapply IH1].
    + apply lookup_insert_Some in Et as [[<- [= <- <-]]|[_ Et]]; [|by eapply IH1]. by apply (IH1 _ _ _ Ht Hk).
    + apply lookup_insert_Some in Et as [[<- [= <- <-]]|[_ Et]]; [|by eapply IH1]. apply (IH1 _ _ _ Ht Hk).
    + apply lookup_insert_Some in Et as [[<- [= <- <-]]|[_ Et]]; [|by eapply IH1]. apply (IH1 _ _ _ Ht Hk).
    + apply lookup_insert_Some in Et as [[<- [= <- <-]]|[_ Et]]; [|by eapply IH1]. apply (IH1 _ _ _ Ht Hk).
    + apply lookup_delete_Some in Et as [_ Et]. by eapply IH1.
  - intros t k r [Hin|Hin]%elem_of_app Hk; [by eapply IH2|].
    destruct e as [e|]; [|by apply elem_of_nil in Hin]. change (option_list (Some e)) with [e] in Hin.
    apply elem_of_list_singleton in Hin as <-. inversion Hs; subst. cbn [g_threads] in *.
    match goal with H : _ !! t = Some (k, Ret r) |- _ => exact (IH1 _ _ _ H Hk) end.
Qed.
Lemma missing_done cached tr g t k r x : reached cached tr g → g_store g !! x = None → GDone t k r ∈ tr → call_target k = Some x → not_there k r.
Proof. intros H Hx. by apply (missing_calls cached tr g x H Hx). Qed.
