(** Label calls on a pool of threads: with at most as many callers as threads they end, with more they may not. *)
From Verif Require Import Prelude Names SpecText NamesFacts LabelConc LabelSpec LabelConcFacts LabelPool SpecProgress LabelProgress.

(** ** a run on the pool is a run *)
Lemma pstep_labels cap x e x' : pstep cap x e x' → (lstep (p_labels x) e (p_labels x')) ∨ (e = None ∧ p_labels x' = p_labels x).
Proof. intros H. destruct H as [? ? ? ? ? [? ?]|? ? ? ? ? ? ? ? [? ?]|? ? ? ? ? ? ? ? ? ? [? ?]|? ? ? ? ? ? ? ? ? ? [? ?]| | |? ? ? ? ? ? ? ? ? ? [? ?]]; by auto. Qed.
Lemma pexec_lexec cap tr x : pexec cap tr x → lexec tr (p_labels x).
Proof.
  intros H. induction H as [|tr x e x' _ IH Hst]; [constructor|].
  destruct (pstep_labels cap x e x' Hst) as [H|[-> ->]]; [by apply (lexec_step tr (p_labels x))|]. cbn [option_list]. by rewrite app_nil_r.
Qed.
(** only those who come to a lock have asked for one *)
Definition asked (x : pstate) : Prop :=
  ∀ t r, p_requests x !! t = Some r → ∃ p i, s_threads (p_labels x) !! t = Some p ∧ locking p = Some i.
Lemma asked_step cap x e x' : asked x → pstep cap x e x' → asked x'.
Proof.
  intros Ha Hst u r Hu.
  destruct Hst as [s w t s' Ht (_ & _ & Ho)|s w t p e s' Ht Hp (_ & _ & Ho)|s w t p e s' Ht Hp _ _ (_ & _ & Ho)|s w t p i e s' Ht Hp Hw (_ & _ & Ho)
    |s w t p i Ht Hp Hw _|s w t Hw _|s w t p i e s' Ht Hp Hw (_ & _ & Ho)]; cbn [p_labels p_requests] in *.
  - destruct (Ha u r Hu) as (q & j & Hq & Hj). cbn [p_labels] in Hq. exists q, j. rewrite Ho; [done|]. intros ->. by rewrite Ht in Hq.
  - destruct (Ha u r Hu) as (q & j & Hq & Hj). cbn [p_labels] in Hq. exists q, j. rewrite Ho; [done|]. intros ->. rewrite Ht in Hq. injection Hq as <-. by destruct p.
  - destruct (Ha u r Hu) as (q & j & Hq & Hj). cbn [p_labels] in Hq. exists q, j. rewrite Ho; [done|]. intros ->. rewrite Ht in Hq. injection Hq as <-. by rewrite Hp in Hj.
  - destruct (Ha u r Hu) as (q & j & Hq & Hj). cbn [p_labels] in Hq. exists q, j. rewrite Ho; [done|]. intros ->. by rewrite Hw in Hu.
  - destruct (decide (u = t)) as [->|Hne]; [by exists p, i|]. rewrite lookup_insert_ne in Hu by done. by apply (Ha u r).
  - destruct (decide (u = t)) as [->|Hne]; [by apply (Ha t Queued)|]. rewrite lookup_insert_ne in Hu by done. by apply (Ha u r).
  - apply lookup_delete_Some in Hu as [Hne Hu]. destruct (Ha u r Hu) as (q & j & Hq & Hj). exists q, j. by rewrite Ho.
Qed.
Lemma asked_exec cap tr x : pexec cap tr x → asked x.
Proof. intros H. induction H as [|tr x e x' _ IH Hst]; [intros t r; cbn; by rewrite lookup_empty|by apply (asked_step cap x e)]. Qed.

(** ** with enough threads some call can go on *)
Lemma busy_below x t p : asked x → s_threads (p_labels x) !! t = Some p → locking p = None → busy (p_requests x) < size (s_threads (p_labels x)).
Proof.
  intros Ha Ht Hp. unfold busy.
  rewrite <- (insert_delete (s_threads (p_labels x)) t p Ht), map_size_insert_None by apply lookup_delete.
  apply Nat.lt_succ_r. rewrite <- !(size_dom (D := gset nat)). apply subseteq_size. intros u Hu.
  apply elem_of_dom in Hu as [r Hr]. apply map_filter_lookup_Some in Hr as [Hr _]. destruct (Ha u r Hr) as (q & i & Hq & Hi).
  apply elem_of_dom. exists q. rewrite lookup_delete_ne; [done|]. intros <-. rewrite Ht in Hq. injection Hq as <-. by rewrite Hp in Hi.
Qed.
Lemma busy_zero w : (∀ t, w !! t ≠ Some Running) → busy w = 0.
Proof.
  intros H. unfold busy. apply map_size_empty_iff, map_eq. intros t. rewrite lookup_empty. apply eq_None_not_Some. intros [r Hr].
  apply map_filter_lookup_Some in Hr as [Hr E]. cbn in E. subst r. by apply (H t).
Qed.
Lemma keeps t s e s' p : step_of t s e s' → s_threads s !! t = Some p → ∀ u, s_threads s !! u = None → s_threads s' !! u = None.
Proof. intros (_ & _ & Ho) Ht u Hu. rewrite Ho; [done|]. intros ->. by rewrite Ht in Hu. Qed.
Lemma steps_of s t : steps s t → ∃ e s', step_of t s e s'.
Proof. intros (s' & ([e He] & _) & H1 & H2). exists e, s'. done. Qed.
Lemma pool_steps cap s w t p : steps s t → s_threads s !! t = Some p → locking p = None → busy w < cap →
  ∃ y, pool_goes_on cap (PState s w) y.
Proof.
  intros Hs Ht Hp Hb. destruct (steps_of s t Hs) as (e & s' & Hst). exists (PState s' w).
  split; [|exact (keeps t s e s' p Hst Ht)]. exists e.
  destruct (without_pool p) eqn:Ew; [by apply (pool_without cap s w t p)|by apply (pool_work cap s w t p)].
Qed.
Lemma pool_go_on cap tr x : pexec cap tr x → s_threads (p_labels x) ≠ ∅ → size (s_threads (p_labels x)) ≤ cap → ∃ y, pool_goes_on cap x y.
Proof.
  intros Hx Hne Hcap. pose proof (asked_exec cap tr x Hx) as Ha. apply pexec_lexec in Hx as He.
  destruct (lexec_inv tr _ He) as (ms & Hl & Ho & _). pose proof (readers_exec tr _ He) as Hr. destruct x as [s w]. cbn [p_labels p_requests] in *.
  assert (∀ u q, s_threads s !! u = Some q → locking q = None → ∃ y, pool_goes_on cap (PState s w) y) as Hfree.
  { intros u q Hu Hq. apply (pool_steps cap s w u q); [|done|done|].
    - apply (goes_unlocked ms s u q Hl Hu). by rewrite Hq.
    - pose proof (busy_below (PState s w) u q Ha Hu Hq). cbn [p_labels p_requests] in *. lia. }
  (* nobody waits, or all wait *)
  destruct (decide (map_Forall (λ _ q, locking q ≠ None) (s_threads s))) as [Hall|Hex].
  2: { apply map_not_Forall in Hex as (u & q & Hu & Hq); [|apply _]. apply (Hfree u q Hu). destruct (locking q) as [j|]; [|done]. by destruct Hq. }
  assert (∀ i nd, s_inodes s !! i = Some nd → i_excl nd = None ∧ i_shared nd = []) as Hunl.
  { intros i nd Hi. split.
    - destruct (i_excl nd) as [u|] eqn:E; [|done]. destruct (Ho i nd Hi) as [_ Hh]. specialize (Hh u E). unfold holding in Hh.
      destruct (s_threads s !! u) as [q|] eqn:Eu; [|done]. exfalso. apply (Hall u q Eu). by destruct q.
    - destruct (i_shared nd) as [|u us] eqn:E; [done|]. destruct (Hr i nd u Hi) as (q & Hq & Hrq); [rewrite E; by left|].
      exfalso. apply (Hall u q Hq). by destruct q. }
  assert (∀ u q, s_threads s !! u = Some q → steps s u) as Hany.
  { intros u q Hu. apply (goes_unlocked ms s u q Hl Hu). destruct (locking q) as [i|]; [|done]. apply Hunl. }
  destruct (decide (map_Forall (λ _ r, r ≠ Running) w)) as [Hno|Hru].
  - apply map_choose in Hne as (t & p & Ht). destruct (locking p) as [i|] eqn:Ep; [|by apply (Hfree t p)].
    destruct (w !! t) as [[]|] eqn:Ew.
    + exists (PState s (<[t := Running]> w)). split; [|done]. exists None. apply pool_start; [done|].
      rewrite busy_zero; [|intros u Hu; by apply (Hno u Running)]. enough (size (s_threads s) ≠ 0) by lia. intros E. apply map_size_empty_inv in E. by rewrite E in Ht.
    + by destruct (Hno t Running).
    + destruct (steps_of s t (Hany t p Ht)) as (e & s' & Hst). exists (PState s' w). split; [|exact (keeps t s e s' p Hst Ht)].
      exists e. by apply (pool_try cap s w t p i).
  - apply map_not_Forall in Hru as (t & r & Hw & Hr'); [|apply _]. destruct r; [by destruct Hr'|].
    destruct (Ha t Running Hw) as (p & i & Ht & Hp). cbn [p_labels] in Ht. destruct (steps_of s t (Hany t p Ht)) as (e & s' & Hst).
    exists (PState s' (delete t w)). split; [|exact (keeps t s e s' p Hst Ht)]. exists e. by apply (pool_lock cap s w t p i).
Qed.

(** ** they end *)
Definition rank (r : request) : nat := match r with Queued => 1 | Running => 2 end.
Lemma sum_low {A} (f : A → nat) l : (∀ x, 1 ≤ f x) → length l ≤ sum_list (f <$> l).
Proof. intros Hf. induction l as [|x l IH]; [done|]. rewrite fmap_cons. cbn [length]. change (sum_list (f x :: (f <$> l))) with (f x + sum_list (f <$> l)). specialize (Hf x). lia. Qed.
Lemma sum_high {A} (f : A → nat) b l : (∀ x, f x ≤ b) → sum_list (f <$> l) ≤ b * length l.
Proof. intros Hf. induction l as [|x l IH]; [cbn; lia|]. rewrite fmap_cons. cbn [length]. change (sum_list (f x :: (f <$> l))) with (f x + sum_list (f <$> l)). specialize (Hf x). lia. Qed.
Lemma msum_low {A} (f : A → nat) (m : gmap nat A) : (∀ x, 1 ≤ f x) → size m ≤ msum f m.
Proof. intros Hf. pose proof (sum_low f (map_to_list m).*2 Hf) as H. by rewrite fmap_length in H. Qed.
Lemma msum_high {A} (f : A → nat) (m : gmap nat A) b : (∀ x, f x ≤ b) → msum f m ≤ b * size m.
Proof. intros Hf. pose proof (sum_high f b (map_to_list m).*2 Hf) as H. by rewrite fmap_length in H. Qed.
Lemma requests_few x : asked x → msum rank (p_requests x) ≤ 2 * msum cost (s_threads (p_labels x)).
Proof.
  intros Ha. pose proof (msum_high rank (p_requests x) 2 ltac:(by intros []; cbn; lia)) as H1.
  pose proof (msum_low cost (s_threads (p_labels x)) cost_pos) as H2.
  enough (size (p_requests x) ≤ size (s_threads (p_labels x))) by lia.
  rewrite <- !(size_dom (D := gset nat)). apply subseteq_size. intros u Hu. apply elem_of_dom in Hu as [r Hr].
  destruct (Ha u r Hr) as (q & i & Hq & _). apply elem_of_dom. by exists q.
Qed.
Definition left (x : pstate) : nat := 3 * msum cost (s_threads (p_labels x)) - msum rank (p_requests x).
Lemma step_of_cost t s e s' p : step_of t s e s' → s_threads s !! t = Some p → msum cost (s_threads s') < msum cost (s_threads s).
Proof.
  intros Hst Ht. apply goes_on_cost. pose proof (keeps t s e s' p Hst Ht) as Hk. destruct Hst as (H1 & H2 & _).
  split; [by exists e|]. split; [by intros ->|done].
Qed.
Lemma left_step cap x y : asked x → pool_goes_on cap x y → left y < left x.
Proof.
  intros Ha [[e Hst] Hk]. pose proof (requests_few x Ha) as Hx. pose proof (requests_few y (asked_step cap x e y Ha Hst)) as Hy. unfold left.
  destruct Hst as [s w t s' Ht (H1 & H2 & Ho)|s w t p e s' Ht Hp Hs|s w t p e s' Ht Hp _ _ Hs|s w t p i e s' Ht Hp Hw Hs
    |s w t p i Ht Hp Hw _|s w t Hw _|s w t p i e s' Ht Hp Hw Hs]; cbn [p_labels p_requests] in *.
  - destruct H2. by rewrite Ht, Hk.
  - pose proof (step_of_cost t s e s' p Hs Ht). lia.
  - pose proof (step_of_cost t s e s' p Hs Ht). lia.
  - pose proof (step_of_cost t s e s' p Hs Ht). lia.
  - rewrite (msum_insert rank w t Queued Hw) in *. cbn [rank] in *. lia.
  - pose proof (msum_over rank w t Queued Running Hw) as E. cbn [rank] in E. lia.
  - pose proof (step_of_cost t s e s' p Hs Ht). pose proof (msum_delete rank w t Running Hw) as E. cbn [rank] in E. lia.
Qed.
Lemma goes_on_pexec cap tr x y : pexec cap tr x → pool_goes_on cap x y → ∃ tr', pexec cap tr' y.
Proof. intros Hx [[e Hst] _]. exists (tr ++ option_list e). by apply (pexec_step cap tr x). Qed.
Lemma pool_end cap tr x k y : pexec cap tr x → nsteps (pool_goes_on cap) k x y → k ≤ left x.
Proof.
  intros Hx H. revert tr Hx. induction H as [x|k x y z H1 _ IH]; intros tr Hx; [lia|].
  pose proof (left_step cap x y (asked_exec cap tr x Hx) H1). destruct (goes_on_pexec cap tr x y Hx H1) as (tr' & Hy).
  specialize (IH tr' Hy). lia.
Qed.
Lemma pool_ends cap tr x : pexec cap tr x → ∃ b, ∀ k y, nsteps (pool_goes_on cap) k x y → k ≤ b.
Proof. intros H. exists (left x). intros k y. by apply (pool_end cap tr). Qed.
Lemma goes_on_size cap x y : pool_goes_on cap x y → size (s_threads (p_labels y)) ≤ size (s_threads (p_labels x)).
Proof.
  intros [_ Hk]. rewrite <- !(size_dom (D := gset nat)). apply subseteq_size. intros t Ht. apply elem_of_dom in Ht as [p Hp].
  apply elem_of_dom. destruct (s_threads (p_labels x) !! t) as [q|] eqn:E; [done|]. by rewrite (Hk t E) in Hp.
Qed.
Lemma pool_finish cap tr x : pexec cap tr x → size (s_threads (p_labels x)) ≤ cap →
  ∃ y, rtc (pool_goes_on cap) x y ∧ s_threads (p_labels y) = ∅.
Proof.
  remember (left x) as m eqn:Em. revert tr x Em. induction (lt_wf m) as [m _ IH]. intros tr x -> Hx Hcap.
  destruct (decide (s_threads (p_labels x) = ∅)) as [Hz|Hnz]; [by exists x|].
  destruct (pool_go_on cap tr x Hx Hnz Hcap) as (y & Hy). destruct (goes_on_pexec cap tr x y Hx Hy) as (tr1 & H1).
  pose proof (goes_on_size cap x y Hy) as Hsz.
  destruct (IH _ (left_step cap x y (asked_exec cap tr x Hx) Hy) tr1 y eq_refl H1 ltac:(lia)) as (z & Hz & Hn).
  exists z. split; [by eapply rtc_l|done].
Qed.

(** ** with more callers than threads *)
Lemma lock_step t s e s' p i : step_of t s e s' → s_threads s !! t = Some p → locking p = Some i →
  ∃ nd, s_inodes s !! i = Some nd ∧ i_excl nd = None.
Proof.
  intros (Hst & Hch & _) Ht Hp. inversion Hst; subst; clear Hst; cbn [goto leave put s_threads] in Hch;
  match goal with H : s_threads ?s !! ?u = _, Hc : ?m !! t ≠ _ |- _ =>
    destruct (decide (u = t)) as [->|Hne]; [|exfalso; apply Hc; rewrite ?lookup_insert_ne, ?lookup_delete_ne by done; reflexivity] end;
  rewrite Ht in *; try (match goal with H : Some p = Some _ |- _ => injection H as -> end); cbn [locking] in Hp; try discriminate;
  injection Hp as <-; eauto.
Qed.
Definition stuck (cap : nat) (i : ino) (x : pstate) : Prop :=
  (∃ nd u, s_inodes (p_labels x) !! i = Some nd ∧ i_excl nd = Some u) ∧ cap ≤ busy (p_requests x) ∧
  (∀ t, p_requests x !! t ≠ Some Queued) ∧ asked x ∧
  ∀ t p, s_threads (p_labels x) !! t = Some p → without_pool p = false ∧ (∀ j, locking p = Some j → j = i ∧ p_requests x !! t = Some Running).
Lemma stuck_step cap i x e y : stuck cap i x → pstep cap x e y →
  stuck cap i y ∧ ∀ t p, s_threads (p_labels x) !! t = Some p → s_threads (p_labels y) !! t = Some p.
Proof.
  intros (Hl & Hb & Hq & Ha & Hall) Hst. pose proof (asked_step cap x e y Ha Hst) as Hay. destruct Hl as (nd & u & Hi & Hu).
  destruct Hst as [s w t s' Ht Hs|s w t p e s' Ht Hp Hs|s w t p e s' Ht Hp _ Hlt Hs|s w t p j e s' Ht Hp Hw Hs
    |s w t p j Ht Hp Hw _|s w t Hw _|s w t p j e s' Ht Hp Hw Hs]; cbn [p_labels p_requests] in *.
  - assert (∃ q, s' = goto s t q ∧ without_pool q = false ∧ locking q = None) as (q & -> & Hq1 & Hq2).
    { destruct Hs as (Hst & Hch & _). inversion Hst; subst; clear Hst; cbn [goto leave put s_threads] in Hch;
      match goal with H : s_threads ?s !! ?u = _, Hc : ?m !! t ≠ _ |- _ =>
        destruct (decide (u = t)) as [->|Hne]; [|exfalso; apply Hc; rewrite ?lookup_insert_ne, ?lookup_delete_ne by done; reflexivity] end;
      try (rewrite Ht in *; discriminate); by eexists. }
    split.
    + split; [by exists nd, u|]. split; [done|]. split; [done|]. split; [done|]. cbn [goto p_labels p_requests s_threads].
      intros v p Hv. apply lookup_insert_Some in Hv as [[<- <-]|[Hne Hv]]; [|by apply Hall]. split; [done|]. by rewrite Hq2.
    + intros v p Hv. cbn [goto p_labels s_threads]. rewrite lookup_insert_ne; [done|]. intros ->. by rewrite Ht in Hv.
  - destruct (Hall t p Ht) as [E _]. by rewrite E in Hp.
  - lia.
  - destruct (Hall t p Ht) as [_ E]. destruct (E j Hp) as [_ E']. by rewrite E' in Hw.
  - destruct (Hall t p Ht) as [_ E]. destruct (E j Hp) as [_ E']. by rewrite E' in Hw.
  - by destruct (Hq t).
  - destruct (Hall t p Ht) as [_ E]. destruct (E j Hp) as [-> _]. destruct (lock_step t s e s' p i Hs Ht Hp) as (nd' & Hi' & He).
    rewrite Hi in Hi'. injection Hi' as <-. by rewrite Hu in He.
Qed.
Lemma stuck_forever cap i x y : stuck cap i x → rtc (λ x y, ∃ e, pstep cap x e y) x y →
  ∀ t p, s_threads (p_labels x) !! t = Some p → s_threads (p_labels y) !! t = Some p.
Proof.
  intros Hs H. induction H as [x|x y z [e H1] _ IH]; [done|]. destruct (stuck_step cap i x e y Hs H1) as [Hy Hk].
  intros t p Ht. by apply IH, Hk.
Qed.

(** *** one caller has locked a label, and as many as there are threads wait for it *)
Fixpoint crowd (p : pc) (m : gmap tid pc) (k : nat) : gmap tid pc := match k with 0 => m | S j => <[S j := p]> (crowd p m j) end.
Fixpoint requests (k : nat) : gmap tid request := match k with 0 => ∅ | S j => <[S j := Running]> (requests j) end.
Lemma crowd_above p m k t : k < t → crowd p m k !! t = m !! t.
Proof. intros H. induction k as [|k IH]; [done|]. cbn [crowd]. rewrite lookup_insert_ne by lia. apply IH. lia. Qed.
Lemma crowd_in p m k t q : crowd p m k !! t = Some q → m !! t = Some q ∨ (q = p ∧ requests k !! t = Some Running).
Proof.
  induction k as [|k IH]; [by left|]. cbn [crowd requests]. destruct (decide (t = S k)) as [->|Hne].
  - rewrite !lookup_insert. intros [= <-]. by right.
  - by rewrite !lookup_insert_ne by done.
Qed.
Lemma requests_in k t r : requests k !! t = Some r → r = Running ∧ t ≠ 0 ∧ t ≤ k.
Proof.
  induction k as [|k IH]; cbn [requests]; [by rewrite lookup_empty|]. intros H. apply lookup_insert_Some in H as [[<- <-]|[_ H]]; [split; [done|lia]|].
  destruct (IH H) as (-> & ? & ?). split; [done|lia].
Qed.
Lemma requests_above k : requests k !! S k = None.
Proof. apply eq_None_not_Some. intros [r H]. apply requests_in in H. lia. Qed.
Lemma crowd_at p m k t : t ≠ 0 → t ≤ k → crowd p m k !! t = Some p.
Proof.
  intros H0 H. induction k as [|k IH]; [lia|]. cbn [crowd]. destruct (decide (t = S k)) as [->|Hne]; [by rewrite lookup_insert|].
  rewrite lookup_insert_ne by done. apply IH. lia.
Qed.
Lemma busy_requests k : busy (requests k) = k.
Proof.
  unfold busy. replace (filter _ (requests k)) with (requests k).
  - induction k as [|k IH]; [done|]. cbn [requests]. rewrite map_size_insert_None by apply requests_above. by rewrite IH.
  - symmetry. apply map_filter_id. intros t r H. by apply requests_in in H as [-> _].
Qed.
Section crowd.
  Context (cap : nat) (s : lstate) (l nl : label) (layer : option lname) (i : ino) (nd : inode) (t0 : tid).
  Context (Hone : ∀ t p, s_threads s !! t = Some p → t = 0 ∧ p = PSetRead l nl i) (Hin : is_Some (s_threads s !! 0)).
  Context (Hdir : s_dir s !! lb_name l = Some i) (Hi : s_inodes s !! i = Some nd) (Hex : i_excl nd = Some t0).
  Context (Hl : label_ok l) (Hlayer : layer_ok layer) (Hnl : with_updated_layer l layer = Some nl).
  Definition state (k : nat) : pstate := PState (LState (s_dir s) (s_inodes s) (crowd (PSetLock l nl i) (s_threads s) k)) (requests k).
  Lemma nobody t : t ≠ 0 → s_threads s !! t = None.
  Proof. intros Ht. apply eq_None_not_Some. intros [p Hp]. by destruct (Hone t p Hp). Qed.
  Lemma state_next k tr : k < cap → pexec cap tr (state k) → pexec cap tr (state (S k)).
  Proof.
    intros Hk H. unfold state in *. cbn [crowd requests].
    set (T := crowd (PSetLock l nl i) (s_threads s) k) in *. set (W := requests k) in *.
    assert (T !! S k = None) as HT by (unfold T; rewrite crowd_above by lia; by apply nobody).
    assert (W !! S k = None) as HW by apply requests_above.
    pose proof (busy_requests k) as Hb. fold W in Hb.
    set (s1 := LState (s_dir s) (s_inodes s) (<[S k := PSetOpen l nl]> T)).
    set (s2 := LState (s_dir s) (s_inodes s) (<[S k := PSetLock l nl i]> T)).
    apply (pexec_step cap _ _ None (PState s1 W)) in H.
    2: { apply (pool_begin cap _ W (S k)); [done|]. split; [exact (start_set (LState (s_dir s) (s_inodes s) T) (S k) l layer nl HT Hl Hlayer Hnl)|]. cbn [s1 s_threads].
         split; [by rewrite lookup_insert, HT|]. intros u Hu. by rewrite lookup_insert_ne. }
    apply (pexec_step cap _ _ None (PState s2 W)) in H.
    2: { apply (pool_work cap _ W (S k) (PSetOpen l nl)); [apply lookup_insert|done|done|lia|].
         split; [|split].
         - unfold s2. rewrite <- (insert_insert T (S k) _ (PSetOpen l nl)). by apply (set_open s1 (S k) l nl i); [apply lookup_insert|].
         - cbn [s1 s2 s_threads]. by rewrite !lookup_insert.
         - intros u Hu. cbn [s1 s2 s_threads]. by rewrite !lookup_insert_ne. }
    apply (pexec_step cap _ _ None (PState s2 (<[S k := Queued]> W))) in H.
    2: { apply (pool_wait cap s2 W (S k) (PSetLock l nl i) i); [apply lookup_insert|done|done|]. exists nd. split; [done|]. left. by rewrite Hex. }
    apply (pexec_step cap _ _ None (PState s2 (<[S k := Running]> (<[S k := Queued]> W)))) in H.
    2: { apply pool_start; [apply lookup_insert|]. unfold busy. rewrite map_filter_insert_False by done.
         fold (busy (delete (S k) W)). rewrite delete_notin by done. lia. }
    rewrite insert_insert in H. cbn [option_list] in H. by rewrite !app_nil_r in H.
  Qed.
  Lemma state_all tr k : k ≤ cap → pexec cap tr (state 0) → pexec cap tr (state k).
  Proof. induction k as [|k IH]; intros Hk H; [done|]. apply state_next; [lia|]. apply IH; [lia|done]. Qed.
  Lemma state_stuck : stuck cap i (state cap).
  Proof.
    split; [by exists nd, t0|]. split; [cbn [state p_requests]; by rewrite busy_requests|]. split; [|split].
    - intros t H. by apply requests_in in H as [? _].
    - intros t r H. apply requests_in in H as (_ & H0 & H). exists (PSetLock l nl i), i. split; [|done]. cbn [state p_labels s_threads]. by apply crowd_at.
    - intros t p H. cbn [state p_labels p_requests s_threads] in *. apply crowd_in in H as [H|[-> H]].
      + apply Hone in H as [_ ->]. done.
      + split; [done|]. by intros j [= <-].
  Qed.
  Lemma state_size k : size (s_threads (p_labels (state k))) = S k.
  Proof.
    cbn [state p_labels s_threads]. induction k as [|k IH]; cbn [crowd].
    - destruct Hin as [p Hp]. rewrite <- (insert_delete _ 0 p Hp), map_size_insert_None by apply lookup_delete. f_equal.
      apply map_size_empty_iff, map_eq. intros t. rewrite lookup_empty. destruct (decide (t = 0)) as [->|Hne]; [apply lookup_delete|].
      rewrite lookup_delete_ne by done. by apply nobody.
    - rewrite map_size_insert_None; [by rewrite IH|]. rewrite crowd_above by lia. by apply nobody.
  Qed.
End crowd.

(** ** for concrete runs *)
Lemma step_begin t s q : s_threads s !! t = None → lstep s None (goto s t q) → step_of t s None (goto s t q).
Proof.
  intros Ht H. split; [done|]. cbn [goto s_threads]. split; [by rewrite lookup_insert, Ht|]. intros u Hu. by rewrite lookup_insert_ne.
Qed.
Lemma step_goto t s e s' p q : s_threads s !! t = Some p → lstep s e s' → s_threads s' = <[t := q]> (s_threads s) → q ≠ p → step_of t s e s'.
Proof.
  intros Ht H Hs Hne. unfold step_of. rewrite Hs. split; [done|]. split; [rewrite lookup_insert, Ht; intros E; by injection E|]. intros u Hu. by rewrite lookup_insert_ne.
Qed.
Lemma step_leave t s e s' p : s_threads s !! t = Some p → lstep s e s' → s_threads s' = delete t (s_threads s) → step_of t s e s'.
Proof.
  intros Ht H Hs. unfold step_of. rewrite Hs. split; [done|]. split; [by rewrite lookup_delete, Ht|]. intros u Hu. by rewrite lookup_delete_ne.
Qed.
Lemma run_begin cap tr s w t q : lstep s None (goto s t q) → s_threads s !! t = None →
  pexec cap tr (PState s w) → pexec cap tr (PState (goto s t q) w).
Proof.
  intros H Ht He. apply (pexec_step cap tr _ None (PState (goto s t q) w)) in He; [by rewrite app_nil_r in He|].
  apply (pool_begin cap s w t); [done|]. by apply step_begin.
Qed.
Lemma run_goto cap tr s w t s' p q : lstep s None s' → s_threads s !! t = Some p → s_threads s' = <[t := q]> (s_threads s) → q ≠ p →
  without_pool p = false → busy w < cap → w !! t = None →
  pexec cap tr (PState s w) → pexec cap tr (PState s' w).
Proof.
  intros H Ht Hs Hne Hp Hb Hw He. apply (pexec_step cap tr _ None (PState s' w)) in He; [by rewrite app_nil_r in He|].
  pose proof (step_goto t s None s' p q Ht H Hs Hne) as Hst. destruct (locking p) as [i|] eqn:E.
  - by apply (pool_try cap s w t p i).
  - by apply (pool_work cap s w t p).
Qed.
Lemma run_leave cap tr s w t e s' p : lstep s e s' → s_threads s !! t = Some p → s_threads s' = delete t (s_threads s) →
  locking p = None → busy w < cap →
  pexec cap tr (PState s w) → pexec cap (tr ++ option_list e) (PState s' w).
Proof.
  intros H Ht Hs Hp Hb He. apply (pexec_step cap tr (PState s w)); [done|].
  pose proof (step_leave t s e s' p Ht H Hs) as Hst. destruct (without_pool p) eqn:E.
  - by apply (pool_without cap s w t p).
  - by apply (pool_work cap s w t p).
Qed.

(** ** who waits on a thread of the pool *)
Lemma pool_waits cap tr x t p i alone : pexec cap tr x → s_threads (p_labels x) !! t = Some p → wants_lock p i alone →
  p_requests x !! t = None →
  ((∃ e y, pstep cap x e y ∧ p_requests y !! t = Some Queued) ↔ in_the_way (p_labels x) t i alone).
Proof.
  intros Hx Ht Hp Hq. apply pexec_lexec in Hx as He. destruct (lexec_inv tr _ He) as (ms & Hl & Ho & _).
  pose proof (readers_exec tr _ He) as Hr. destruct x as [s w]. cbn [p_labels p_requests] in *.
  assert (Hlk : locking p = Some i) by (destruct p; cbn in Hp |- *; try done; destruct Hp as [-> _]; done). split.
  - intros (e & y & Hst & Hy).
    assert (Htk : taken s p i).
    { inversion Hst; subst; cbn [p_requests] in Hy; try congruence.
      - destruct (decide (t0 = t)) as [->|Hne]; [|rewrite lookup_insert_ne in Hy by done; congruence]. congruence.
      - destruct (decide (t0 = t)) as [->|Hne]; [rewrite lookup_insert in Hy; congruence|rewrite lookup_insert_ne in Hy by done; congruence].
      - apply lookup_delete_Some in Hy as [_ Hy]. congruence. }
    destruct Htk as (nd & Hnd & [Hex|[Hsh Hne]]).
    + destruct (i_excl nd) as [u|] eqn:E; [|done]. destruct (Ho i nd Hnd) as [_ Hh]. specialize (Hh u E). unfold holding in Hh.
      destruct (s_threads s !! u) as [q|] eqn:Eu; [|done]. exists u, q, true. split; [|split; [done|]].
      * intros ->. rewrite Ht in Eu. injection Eu as <-. by destruct p.
      * split; [|done]. destruct q; cbn in Hh |- *; try done; injection Hh as ->; done.
    + destruct (i_shared nd) as [|u us] eqn:E; [done|]. destruct (Hr i nd u Hnd) as (q & Hu & Hrq); [rewrite E; left|].
      exists u, q, false. split; [|split; [done|]].
      * intros ->. rewrite Ht in Hu. injection Hu as <-. by destruct p.
      * split; [destruct q; cbn in Hrq |- *; done|]. destruct p; cbn in Hp, Hne |- *; try done; by destruct Hp as [_ ->].
  - intros (u & q & a & Hne & Hu & Ha & Hor). exists None, (PState s (<[t := Queued]> w)). split; [|cbn [p_requests]; by rewrite lookup_insert].
    apply (pool_wait cap s w t p i); [done..|]. pose proof (linv_thread _ _ _ Hl u q Hu) as Hok.
    destruct q; cbn in Ha; try done; destruct Ha as [-> ->]; cbn [thread_ok] in Hok;
      try (destruct Hok as [_ Hok]); destruct Hok as (nd & Hnd & _ & Hn); exists nd; (split; [done|]).
    + right. split; [by intros E; rewrite E in Hn; apply elem_of_nil in Hn|]. destruct p; cbn in Hp; try done. by destruct Hp as [_ ->].
    + right. destruct Hn as [Hn _]. split; [by intros E; rewrite E in Hn; apply elem_of_nil in Hn|].
      destruct p; cbn in Hp; try done. by destruct Hp as [_ ->].
    + left. destruct Hn as [-> _]. done.
    + left. destruct Hn as [-> _]. done.
    + left. destruct Hn as [-> _]. done.
    + left. destruct Hn as (_ & _ & -> & _). done.
Qed.
(** ** who needs no thread *)
Lemma pool_answers cap tr x t p : pexec cap tr x → s_threads (p_labels x) !! t = Some p →
  match p with
  | PGetDone _ _ _ => True
  | PSetGot l _ _ d => ∀ l', get_label_from_data (lb_name l) d ≠ Ok l'
  | _ => False
  end → ∃ ev y, pstep cap x (Some ev) y ∧ s_threads (p_labels y) !! t = None.
Proof.
  intros Hx Ht Hp. apply pexec_lexec in Hx as He. destruct (lexec_inv tr _ He) as (ms & Hl & Ho & _).
  destruct x as [s w]. cbn [p_labels] in *. pose proof (linv_thread _ _ _ Hl t p Ht) as Hok.
  assert (Hgo : ∀ s', s_threads (leave s' t) = delete t (s_threads s) →
    s_threads (leave s' t) !! t ≠ s_threads s !! t ∧ ∀ u, u ≠ t → s_threads (leave s' t) !! u = s_threads s !! u).
  { intros s' ->. split; [by rewrite lookup_delete, Ht|]. intros u Hu. by rewrite lookup_delete_ne. }
  destruct p; try done; cbn [thread_ok] in Hok.
  - destruct Hok as (nd & Hnd & _). eexists _, (PState _ w). split.
    + eapply (pool_without cap s w t _ _ _ Ht eq_refl). split; [by eapply get_done|]. by apply Hgo.
    + cbn. by rewrite lookup_delete.
  - destruct Hok as (_ & nd & Hnd & _). destruct (get_label_from_data (lb_name l) d) as [l'|k|] eqn:E.
    + by destruct (Hp l').
    + eexists _, (PState _ w). split.
      * eapply (pool_without cap s w t _ _ _ Ht); [cbn; by rewrite E|]. split; [eapply (set_bad s t l nl i d nd (Err k) Ht Hnd); by rewrite E|]. by apply Hgo.
      * cbn. by rewrite lookup_delete.
    + eexists _, (PState _ w). split.
      * eapply (pool_without cap s w t _ _ _ Ht); [cbn; by rewrite E|]. split; [eapply (set_bad s t l nl i d nd Panic Ht Hnd); by rewrite E|]. by apply Hgo.
      * cbn. by rewrite lookup_delete.
Qed.
