(** Executions of several calls on a layer store. *)
From Verif Require Import Prelude ListFacts Succinct TripleFiles Merge Layer StackFacts WfFacts SameFacts Builder Rollup RollupSame
  Squash MergeBase Names Spec BuilderFacts HistoryFacts SquashFacts MergeBaseFacts ReachFacts ApiFacts SquashApi Store SpecStore StoreFacts StoreLoadFacts
  StoreCallFacts StoreImportFacts.

(** ** What a finished call has done *)
Definition as_name (P : outcome lname → Prop) (r : outcome sres) : Prop :=
  match r with Ok (RName n) => P (Ok n) | Ok (RLayer _) | Ok RDone => False | Err k => P (Err k) | Panic => P Panic end.
Definition as_done (P : outcome unit → Prop) (r : outcome sres) : Prop :=
  match r with Ok RDone => P (Ok tt) | Ok (RLayer _) | Ok (RName _) => False | Err k => P (Err k) | Panic => P Panic end.
Definition get_post (x : lname) (s0 s : store) (r : outcome sres) : Prop :=
  match r with
  | Ok (RLayer (Some L)) => l_name L = Some x ∧ valid s L
  | Ok (RName _) | Ok RDone => False
  | _ => ¬ live x s0
  end.
Definition call_post (k : scall) (s0 s : store) (r : outcome sres) : Prop :=
  match k with
  | SGet x => get_post x s0 s r
  | SBase nvord prord cs => as_name (base_post nvord prord cs s0 s) r
  | SChild nvord prord x cs => as_name (child_post nvord prord x cs s0 s) r
  | SRollup x => as_name (λ q, match q with Ok n => stands_for s x n ∧ (∃ l, stored s n [(n, l)]) | _ => ¬ live x s0 end) r
  | SRollupUpto x upto | SImprecise x upto => as_name (upto_post x upto s0 s) r
  | SSquash x => as_name (squash_post x s0 s) r
  | SSquashUpto x upto => as_name (squash_upto_post x upto s0 s) r
  | SMerge xs => as_name (merge_post xs s0 s) r
  | SImport pk ns => as_done (import_post pk ns s0 s) r
  end.
Lemma call_post_ext k s0 s s' r : ext ∅ s s' → call_post k s0 s r → call_post k s0 s' r.
Proof.
  intros He. pose proof (λ x c, ext_stored _ _ _ x c He) as Hst.
  destruct k; cbn [call_post]; destruct r as [[[L|]|n|]|k|]; cbn [as_name as_done get_post]; try done.
  - intros [??]. split; [done|by eapply valid_ext].
  - intros (? & l & ? & ?). split; [done|]. exists l. auto.
  - intros (? & l & cx & ? & ? & ? & ?). split; [done|]. exists l, cx. auto.
  - intros (? & l & ?). split; [by eapply stands_for_ext|]. exists l. auto.
  - by eapply upto_ok_ext.
  - intros H Ha. apply (ext_rollup _ _ _ He). auto.
  - intros H Ha. apply (ext_rollup _ _ _ He). auto.
  - by eapply upto_ok_ext.
  - intros H Ha. apply (ext_rollup _ _ _ He). auto.
  - intros H Ha. apply (ext_rollup _ _ _ He). auto.
  - intros (? & cx & l & ? & ? & ?). split; [done|]. exists cx, l. auto.
  - intros (? & top & cu & l & ? & ? & ? & ? & ?). split; [done|]. exists top, cu, l. auto 6.
  - intros (? & ls & l & Hf & ? & ? & ?). split; [done|]. exists ls, l. split; [|auto]. eapply Forall2_impl; [exact Hf|]. auto.
  - intros (? & Hd & H). split; [done|]. split; [|by auto]. intros n Hn. destruct (Hd n Hn). split; [done|]. by apply (ext_dom _ _ _ He).
  - by intros (? & _).
  - by intros (? & _).
Qed.
Lemma safe_pmap {A : Type} (f : A → sres) (p : prog A) (O : gset lname) (s : store) (Q : gset lname → store → outcome A → Prop)
    (Q' : gset lname → store → outcome sres → Prop) :
  (∀ O s s' r, ext ∅ s s' → Q' O s r → Q' O s' r) →
  safe p O s Q → (∀ O s r, Q O s r → Q' O s (match r with Ok a => Ok (f a) | Err k => Err k | Panic => Panic end)) →
  safe (Store.pmap f p) O s Q'.
Proof.
  intros Hext Hp HQ. unfold Store.pmap. eapply safe_bind; [exact Hp|]. intros O' s' r HO He Hg Hr. apply HQ in Hr.
  destruct r as [a|k|]; [|done|done]. cbn. intros s'' He' Hg'. eapply Hext; [by eapply ext_empty|done].
Qed.
Lemma program_safe cached k O s : call_ok k → safe (program cached k) O s (λ _ s' r, call_post k s s' r).
Proof.
  intros Hk. assert (∀ (O : gset lname) s1 s2 r, ext ∅ s1 s2 → call_post k s s1 r → call_post k s s2 r) as Hext.
  { intros _ s1 s2 r He. by apply call_post_ext. }
  destruct k; cbn [program].
  - eapply safe_pmap; [done|apply get_layer_safe|]. intros ? ? [[L|]|?|]; done.
  - destruct Hk. eapply safe_pmap; [done|by apply new_base_safe|]. intros ? ? [?|?|]; done.
  - destruct Hk. eapply safe_pmap; [done|by apply new_child_safe|]. intros ? ? [?|?|]; done.
  - eapply safe_pmap; [done|by apply do_rollup_safe|]. intros ? ? [?|?|]; done.
  - eapply safe_pmap; [done|by apply do_rollup_upto_safe|]. intros ? ? [?|?|]; done.
  - eapply safe_pmap; [done|by apply do_imprecise_safe|]. intros ? ? [?|?|]; done.
  - eapply safe_pmap; [done|by apply do_squash_safe|]. intros ? ? [?|?|]; done.
  - eapply safe_pmap; [done|by apply do_squash_upto_safe|]. intros ? ? [?|?|]; done.
  - eapply safe_pmap; [done|by apply do_merge_safe|]. intros ? ? [?|?|]; done.
  - eapply safe_pmap; [done|by apply do_import_safe|]. intros ? ? [[]|?|]; done.
Qed.

(** ** Threads *)
Record pool (g : gstate) (Ow : nat → gset lname) (S0 : nat → store) : Prop := {
  p_good : good (g_store g);
  p_cgood : cgood (g_store g) (g_cache g);
  p_safe : ∀ t k p, g_threads g !! t = Some (k, p) → safe p (Ow t) (g_store g) (λ _ s' r, call_post k (S0 t) s' r);
  p_disj : ∀ t t', t ≠ t' → Ow t ## Ow t';
  p_dom : ∀ t n, n ∈ Ow t → is_Some (g_store g !! n) }.
Lemma good_empty : good ∅.
Proof.
  split; intros x; unfold s_rollup, s_stands, s_parent, s_files.
  - inversion 1; subst; unfold s_files in *; by rewrite lookup_empty in *.
  - by rewrite lookup_empty.
  - by rewrite lookup_empty.
  - by rewrite lookup_empty.
  - by rewrite lookup_empty.
  - inversion 1; subst; unfold s_files in *; by rewrite lookup_empty in *.
Qed.
Lemma pool_init : pool gstate_init (λ _, ∅) (λ _, ∅).
Proof. split; try done; apply good_empty. Qed.

Definition fset {A} (f : nat → A) (t : nat) (a : A) : nat → A := λ t', if decide (t' = t) then a else f t'.
Lemma fset_eq {A} (f : nat → A) t a : fset f t a t = a.
Proof. unfold fset. by rewrite decide_True. Qed.
Lemma fset_ne {A} (f : nat → A) t a t' : t' ≠ t → fset f t a t' = f t'.
Proof. intros. unfold fset. by rewrite decide_False. Qed.

Lemma gstep_pool cached g e g' Ow S0 : gstep cached g e g' → pool g Ow S0 →
  ∃ Ow' S0', pool g' Ow' S0' ∧ ext ∅ (g_store g) (g_store g') ∧
    (∀ t, (∀ k, e ≠ Some (GStart t k)) → S0' t = S0 t) ∧ (∀ t k, e = Some (GStart t k) → S0' t = g_store g) ∧
    (∀ t, is_Some (g_threads g' !! t) → is_Some (g_threads g !! t) ∨ ∃ k, e = Some (GStart t k)) ∧
    (∀ t k r, e = Some (GDone t k r) → is_Some (g_threads g !! t) ∧ call_post k (S0 t) (g_store g') r).
Proof.
  intros Hstep [Hg Hc Hs Hd Hdom]. destruct Hstep as [s c th t k Ht Hk|s c th t k f Ht|s c th t k f n Ht Hn|s c th t k w p Ht Hnn|s c th t k p Ht|s c th t k r Ht|s c th x|s c th]; cbn [g_store g_cache g_threads] in *.
  - exists Ow, (fset S0 t s). split; [|split_and!].
    + split; try done. cbn. intros t' k' p'. destruct (decide (t' = t)) as [->|Hne].
      * rewrite lookup_insert, fset_eq. intros [= <- <-]. by apply program_safe.
      * rewrite lookup_insert_ne, fset_ne by done. apply Hs.
    + apply ext_refl.
    + intros t' Hne. apply fset_ne. intros ->. by eapply Hne.
    + intros t' k' [= <- <-]. by rewrite fset_eq.
    + intros t'. destruct (decide (t' = t)) as [->|]; [intros _; right; by eauto|]. rewrite lookup_insert_ne by done. by left.
    + done.
  - exists Ow, S0. split; [|split; [apply ext_refl|split_and!; try done]].
    + split; try done. cbn. intros t' k' p'. destruct (decide (t' = t)) as [->|Hne].
      * rewrite lookup_insert. intros [= <- <-]. apply (Hs t k _ Ht); [apply ext_refl|done|done].
      * rewrite lookup_insert_ne by done. apply Hs.
    + intros t'. destruct (decide (t' = t)) as [->|]; [intros _; left; by eauto|]. rewrite lookup_insert_ne by done. by left.
  - exists (fset Ow t ({[n]} ∪ Ow t)), S0. pose proof (λ O, new_dir_ext O n s Hn) as He. split; [|split_and!]; try done.
    + split; cbn.
      * by apply new_dir_good.
      * by apply (cgood_ext ∅ s).
      * intros t' k' p'. destruct (decide (t' = t)) as [->|Hne].
        -- rewrite lookup_insert, fset_eq. intros [= <- <-]. apply (Hs t k _ Ht); [apply ext_refl|done|done].
        -- rewrite lookup_insert_ne, fset_ne by done. intros Ht'. eapply safe_ext; [by apply Hs|done].
      * assert (∀ t', n ∉ Ow t') as Hno by (intros t' Hn'; destruct (Hdom _ _ Hn'); congruence).
        intros t1 t2 Hne. unfold fset. pose proof (Hd t1 t2 Hne) as D. pose proof (Hno t1). pose proof (Hno t2).
        destruct (decide (t1 = t)) as [->|], (decide (t2 = t)) as [->|]; try done; set_solver.
      * intros t' m. unfold fset. destruct (decide (t' = t)) as [->|].
        -- rewrite elem_of_union, elem_of_singleton. intros [->|Hm]; [unfold new_dir; rewrite lookup_insert; by eauto|].
           apply (ext_dom _ _ _ (He ∅)). by eapply Hdom.
        -- intros Hm. apply (ext_dom _ _ _ (He ∅)). by eapply Hdom.
    + intros t'. destruct (decide (t' = t)) as [->|]; [intros _; left; by eauto|]. rewrite lookup_insert_ne by done. by left.
  - destruct (Hs t k _ Ht s) as [Hwo Hp]; [apply ext_refl|done|done|]. exists Ow, S0.
    assert (ext ∅ s (write_store w s)) as He by (eapply write_ext; [done|set_solver]). split; [|split_and!]; try done.
    + split; cbn.
      * by eapply write_good.
      * by eapply write_cgood.
      * intros t' k' p'. destruct (decide (t' = t)) as [->|Hne].
        -- rewrite lookup_insert. intros [= <- <-]. done.
        -- rewrite lookup_insert_ne by done. intros Ht'. eapply safe_ext; [by apply Hs|]. eapply write_ext; [done|].
           intros m Hm Hm'. pose proof (Hd t' t Hne) as D.
           assert (m ∈ Ow t); [|set_solver]. destruct w; cbn in Hm; try (by apply elem_of_nil in Hm);
             apply elem_of_list_singleton in Hm as ->; apply Hwo.
      * done.
      * intros t' m Hm. apply (ext_dom _ _ _ He). by eapply Hdom.
    + intros t'. destruct (decide (t' = t)) as [->|]; [intros _; left; by eauto|]. rewrite lookup_insert_ne by done. by left.
  - exists Ow, S0. split; [|split; [apply ext_refl|split_and!; try done]].
    + split; try done. cbn. intros t' k' p'. destruct (decide (t' = t)) as [->|Hne].
      * rewrite lookup_insert. intros [= <- <-]. by apply (Hs t k _ Ht).
      * rewrite lookup_insert_ne by done. apply Hs.
    + intros t'. destruct (decide (t' = t)) as [->|]; [intros _; left; by eauto|]. rewrite lookup_insert_ne by done. by left.
  - exists Ow, S0. split; [|split; [apply ext_refl|split_and!; try done]].
    + split; try done. cbn. intros t' k' p' [_ Ht']%lookup_delete_Some. by apply Hs.
    + intros t' [? [_ ?]%lookup_delete_Some]. left. by eauto.
    + intros t' k' r' [= <- <- <-]. split; [by eauto|]. apply (Hs t k _ Ht); [apply ext_refl|done].
  - exists Ow, S0. split; [|split; [apply ext_refl|split_and!; try done; by left]]. split; try done. cbn.
    intros y L [_ ?]%lookup_delete_Some. by apply Hc.
  - exists Ow, S0. split; [|split; [apply ext_refl|split_and!; try done]].
    + by split.
    + intros t'. rewrite lookup_empty. by intros [??].
Qed.
Lemma gexec_pool (cached : bool) (g : gstate) (tr : list gev) (g' : gstate) (Ow : nat → gset lname) (S0 : nat → store) (P : store → Prop) : gexec cached g tr g' → pool g Ow S0 →
  (∀ s s', ext ∅ s s' → P s → P s') → P (g_store g) →
  ∃ Ow' S0', pool g' Ow' S0' ∧ ext ∅ (g_store g) (g_store g') ∧
    (∀ t k r, GDone t k r ∈ tr → ∃ s0, call_post k s0 (g_store g') r ∧ (g_threads g !! t = None → P s0)) ∧
    (∀ t, g_threads g !! t = None → is_Some (g_threads g' !! t) → P (S0' t)).
Proof.
  intros Hex Hp HP HPg. induction Hex as [g|g tr g1 e g2 Hex IH Hstep].
  - exists Ow, S0. split; [done|]. split; [apply ext_refl|]. split; [by intros ? ? ? ?%elem_of_nil|]. intros t E [? H]. congruence.
  - destruct (IH Hp HPg) as (Ow1 & S1 & Hp1 & He1 & Hd1 & Hl1). clear IH.
    destruct (gstep_pool _ _ _ _ _ _ Hstep Hp1) as (Ow2 & S2 & Hp2 & He2 & HS & HS' & Hth & Hdone).
    exists Ow2, S2. split; [done|]. split; [by eapply ext_trans|]. split.
    + intros t k r [Hin|Hin]%elem_of_app.
      * destruct (Hd1 t k r Hin) as (s0 & H1 & H2). exists s0. split; [by eapply call_post_ext|done].
      * assert (e = Some (GDone t k r)) as ->.
        { destruct e as [e|]; [|by apply elem_of_nil in Hin]. change (option_list (Some e)) with [e] in Hin.
          by apply elem_of_list_singleton in Hin as ->. }
        destruct (Hdone t k r eq_refl) as [Ht Hpost]. exists (S1 t). split; [done|]. intros Hn. by apply Hl1.
    + intros t Hn Ht. destruct (Hth t Ht) as [Ht1|[k ->]].
      * destruct e as [[t' k| |]|].
        -- destruct (decide (t' = t)) as [->|Hne]; [|rewrite HS by congruence; by apply Hl1].
           rewrite (HS' t k eq_refl). eapply HP; [exact He1|done].
        -- rewrite HS by congruence. by apply Hl1.
        -- rewrite HS by congruence. by apply Hl1.
        -- rewrite HS by congruence. by apply Hl1.
      * rewrite (HS' t k eq_refl). eapply HP; [exact He1|done].
Qed.
Lemma reached_pool cached tr g : reached cached tr g → ∃ Ow S0, pool g Ow S0 ∧
  ∀ t k r, GDone t k r ∈ tr → ∃ s0, call_post k s0 (g_store g) r.
Proof.
  intros H. destruct (gexec_pool cached _ tr g _ _ (λ _, True) H pool_init) as (Ow & S0 & Hp & _ & Hd & _); [done|done|].
  exists Ow, S0. split; [done|]. intros t k r Hin. destruct (Hd t k r Hin) as (s0 & ? & _). by exists s0.
Qed.
Lemma gexec_stored cached tr g tr' g' x c : reached cached tr g → gexec cached g tr' g' → stored (g_store g) x c → stored (g_store g') x c.
Proof.
  intros H H' Hst. destruct (reached_pool _ _ _ H) as (Ow & S0 & Hp & _).
  destruct (gexec_pool cached _ tr' g' _ _ (λ _, True) H' Hp) as (_ & _ & _ & He & _); [done|done|]. by eapply ext_stored.
Qed.

(** ** A program by itself *)
Lemma run_safe {A : Type} (p : prog A) (O : gset lname) (ns : list lname) (s : store) (c : lcache) (Q : gset lname → store → outcome A → Prop) (r : outcome A) (s' : store) (c' : lcache) :
  safe p O s Q → good s → cgood s c → run ns s c p = Some (r, s', c') →
  ∃ O', Q O' s' r ∧ good s' ∧ cgood s' c' ∧ ext ∅ s s'.
Proof.
  revert O ns s c. induction p as [q|k IH|k IH|w p IH|b p IH]; cbn [run safe]; intros O ns s c Hs Hg Hc Hr.
  - injection Hr as <- <- <-. exists O. split; [|split; [done|split; [done|apply ext_refl]]]. apply Hs; [apply ext_refl|done].
  - eapply IH; [|done|done|done]. apply Hs; [apply ext_refl|done|done].
  - destruct ns as [|n ns]; [done|]. destruct (s !! n) eqn:En; [done|].
    destruct (IH n ({[n]} ∪ O) ns (new_dir n s) c) as (O' & H1 & H2 & H3 & H4); [|by apply new_dir_good| |done|].
    + apply Hs; [apply ext_refl|done|done].
    + eapply (cgood_ext ∅); [by apply new_dir_ext|done].
    + exists O'. split_and!; try done. eapply ext_trans; [by apply new_dir_ext|done].
  - destruct (decide (no_nesting s w)) as [Hnn|]; [|done]. destruct (Hs s) as [Hw Hp]; [apply ext_refl|done|done|].
    destruct (IH O ns (write_store w s) (write_cache w c)) as (O' & H1 & H2 & H3 & H4);
      [done|by eapply write_good|by eapply write_cgood|done|].
    exists O'. split_and!; try done. eapply ext_trans; [|done]. eapply write_ext; [done|set_solver].
  - destruct b; [|done]. eapply IH; eauto.
Qed.
(** programs that only read and cache *)
Fixpoint quiet {A : Type} (p : prog A) : Prop :=
  match p with
  | Ret _ => True
  | Look k => ∀ s c, quiet (k s c)
  | Put w p => match w with WCache _ | WInvalidate _ => True | _ => False end ∧ quiet p
  | Alloc _ | Assume _ _ => False
  end.
Lemma quiet_bind {A B : Type} (p : prog A) (f : A → prog B) : quiet p → (∀ a, quiet (f a)) → quiet (pbind p f).
Proof.
  intros Hp Hf. induction p as [r|k IH|k IH|w p IH|b p IH]; cbn in *; try done; try naive_solver.
  destruct r; cbn; auto.
Qed.
Lemma quiet_put {A : Type} cached L (p : prog A) : quiet p → quiet (cache_put cached L p).
Proof. by destruct cached. Qed.
Lemma find_start_quiet cached fuel td : quiet (find_start cached fuel td).
Proof.
  revert td. induction fuel as [|f IH]; intros [|[x r] rest]; [done..|]. cbn [find_start quiet]. intros s c.
  destruct (cache_get _ _ _); [repeat case_match; done|]. repeat case_match; first [done|apply IH].
Qed.
Lemma load_children_quiet cached anc td : quiet (load_children cached anc td).
Proof.
  revert anc. induction td as [|[x [[rl [p|]]|]] rest IH]; intros anc; cbn [load_children]; try done; cbn [quiet]; intros s c; case_match; try done;
    repeat apply quiet_put; apply IH.
Qed.
Lemma load_base_quiet cached x r : quiet (load_base cached x r).
Proof. destruct r as [[rl op]|]; cbn [load_base quiet]; intros s c; case_match; try done; repeat apply quiet_put; done. Qed.
Lemma get_layer_quiet cached x : quiet (get_layer cached x).
Proof.
  unfold get_layer. cbn [quiet]. intros s c. destruct (cache_get _ _ _); [done|]. destruct (s !! x); [|done].
  apply quiet_bind; [apply find_start_quiet|]. intros [[anc|] td].
  - apply quiet_bind; [apply load_children_quiet|done].
  - destruct td as [|[y r] td]; [done|]. apply quiet_bind; [apply load_base_quiet|]. intros L. apply quiet_bind; [apply load_children_quiet|done].
Qed.
Lemma quiet_run {A : Type} (p : prog A) s c : quiet p → ∃ r c', run [] s c p = Some (r, s, c').
Proof.
  revert c. induction p as [r|k IH|k IH|w p IH|b p IH]; intros c Hq; cbn [run]; try done; [by eauto|by apply IH|].
  destruct Hq as [Hw Hq]. destruct w; try done; (rewrite decide_True by done); cbn [write_store]; by apply IH.
Qed.
