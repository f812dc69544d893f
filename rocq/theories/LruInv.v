(** The invariant of the archive cache when the origin stores archives in one step.  [strict]: no task
    is cancelled. *)
From Verif Require Import Prelude ListFacts Names FileNames Archive ArchiveFacts ArchiveStore Lru SpecLru LruFacts.

Section inv.
Context (c : codec) (limit current : nat) (Hlim : current ≤ limit) (d0 : gmap lname bytes) (strict : Prop).

Definition good (tr : list levent) (d : gmap lname bytes) (n : lname) (r : outcome bytes) : Prop :=
  (∃ x, r = Ok x ∧ d !! n = Some x) ∨ r = Err NotFound ∨ load_error tr n r.
Definition resolves (p : lpc) (n : lname) (b : nat) : Prop := (∃ k, p = PLoad n b k) ∨ ∃ r k, p = PFill n b r k.
Definition pc_ok (tr : list levent) (s : lstate) (t : nat) (o : lop) (p : lpc) : Prop :=
  match p with
  | PFits n k | PGet n k | POrigin n k | PAgain n k | PSlice n k => o = LRead n k
  | PWait n b k => o = LRead n k ∧ ∃ h v, l_barriers s !! b = Some (Barrier n h v)
  | PLoad n b k => o = LRead n k ∧ l_barriers s !! b = Some (Barrier n true None) ∧ cpeek (l_cache s) n = Some (Resolving b)
  | PFill n b r k => o = LRead n k ∧ l_barriers s !! b = Some (Barrier n true (Some r)) ∧ cpeek (l_cache s) n = Some (Resolving b)
  | PQuery n q => o = LQuery n q
  | PStore n x pos => o = LStore n x ∧ l_disk s !! n = None ∧ LCall t (LStore n x) ∈ tr ∧ pos = 0
  | PInsert n x => o = LStore n x ∧ l_disk s !! n = Some x
  | PFail n e => op_layer o = n ∧ LIoError n e ∈ tr
  end.
Record inv (tr : list levent) (s : lstate) : Prop := Inv {
  i_nodup : NoDup (l_cache s).*1;
  i_resolved : ∀ n x, cpeek (l_cache s) n = Some (Resolved x) → l_disk s !! n = Some x;
  i_entry : ∀ n b, cpeek (l_cache s) n = Some (Resolving b) → ∃ h v, l_barriers s !! b = Some (Barrier n h v);
  i_resolving : strict → ∀ n b, cpeek (l_cache s) n = Some (Resolving b) → ∃ t o p, l_tasks s !! t = Some (o, p) ∧ resolves p n b;
  i_barrier : ∀ b m h v, l_barriers s !! b = Some (Barrier m h v) →
    match v with None => strict → h = true | Some r => good tr (l_disk s) m r end;
  i_held : ∀ b m v, l_barriers s !! b = Some (Barrier m true v) → ∃ t o p, l_tasks s !! t = Some (o, p) ∧ resolves p m b;
  i_task : ∀ t o p, l_tasks s !! t = Some (o, p) → pc_ok tr s t o p;
  i_unique : ∀ t o p t' o' p' n n' b, l_tasks s !! t = Some (o, p) → l_tasks s !! t' = Some (o', p') →
    resolves p n b → resolves p' n' b → t = t';
  i_disk : ∀ n x, l_disk s !! n = Some x → d0 !! n = Some x ∨ ∃ t, LCall t (LStore n x) ∈ tr }.

Lemma inv_new : inv [] (lru_new d0).
Proof.
  split; cbn [lru_new l_cache l_barriers l_tasks l_disk].
  - constructor.
  - done.
  - done.
  - done.
  - intros b m h v. by rewrite lookup_empty.
  - intros b m v. by rewrite lookup_empty.
  - intros t o p. by rewrite lookup_empty.
  - intros t o p t' o' p' n n' b. by rewrite lookup_empty.
  - by left.
Qed.

(** more events and more stored layers *)
Lemma good_mono tr tr' d d' n r : good tr d n r → (∀ e, e ∈ tr → e ∈ tr') → (∀ n x, d !! n = Some x → d' !! n = Some x) → good tr' d' n r.
Proof.
  intros [(x & -> & H)|[->|(k & -> & H)]] Ht Hd; [left; eauto|by right; left|right; right; exists k; eauto].
Qed.
Lemma elem_snoc (e e' : levent) tr : e ∈ tr → e ∈ tr ++ [e'].
Proof. intros H. apply elem_of_app. by left. Qed.
Lemma elem_last (e : levent) tr : e ∈ tr ++ [e].
Proof. apply elem_of_app. right. by apply elem_of_list_singleton. Qed.

(** the invariant only grows with the trace *)
Lemma inv_trace tr tr' s : inv tr s → (∀ e, e ∈ tr → e ∈ tr') → inv tr' s.
Proof.
  intros [] Ht. split; try done.
  - intros b m h v Hb. specialize (i_barrier0 _ _ _ _ Hb). destruct v; [|done]. by eapply good_mono.
  - intros t o p Hp. specialize (i_task0 _ _ _ Hp). destruct p; try done; cbn [pc_ok] in *; destruct i_task0 as (? & H); [|split; eauto].
    destruct H as (? & ? & ?). split_and!; eauto.
  - intros n x Hd. destruct (i_disk0 _ _ Hd) as [|[t ?]]; [by left|right; eauto].
Qed.

(** a task goes from one place to another, or away, without anything else *)
Lemma resolves_det p n b n' b' : resolves p n b → resolves p n' b' → n = n' ∧ b = b'.
Proof. intros [(k & ->)|(r & k & ->)] [(k' & H)|(r' & k' & H)]; by inversion H. Qed.
Lemma inv_run tr s t o p' : inv tr s → (∀ o' p, l_tasks s !! t = Some (o', p) → ∀ n b, ¬ resolves p n b) →
  (∀ n b, ¬ resolves p' n b) → pc_ok tr (run s t o p') t o p' → inv tr (run s t o p').
Proof.
  intros [] Hp Hp' Hok. split; cbn [run l_cache l_disk l_barriers l_tasks]; try done.
  - intros Hstr n b Hb. destruct (i_resolving0 Hstr _ _ Hb) as (t' & o' & q & Ht' & Hr).
    exists t', o', q. split; [|done]. rewrite lookup_insert_ne; [done|]. intros ->. by eapply Hp.
  - intros b m v Hb. destruct (i_held0 _ _ _ Hb) as (t' & o' & q & Ht' & Hr).
    exists t', o', q. split; [|done]. rewrite lookup_insert_ne; [done|]. intros ->. by eapply Hp.
  - intros t' o' q. destruct (decide (t' = t)) as [->|Hne]; [rewrite lookup_insert; by intros [= <- <-]|].
    rewrite lookup_insert_ne by done. intros Hq. specialize (i_task0 _ _ _ Hq). by destruct q.
  - intros t1 o1 p1 t2 o2 p2 n n' b H1 H2 R1 R2.
    destruct (decide (t1 = t)) as [->|N1]; [rewrite lookup_insert in H1; injection H1 as <- <-; by destruct (Hp' _ _ R1)|].
    destruct (decide (t2 = t)) as [->|N2]; [rewrite lookup_insert in H2; injection H2 as <- <-; by destruct (Hp' _ _ R2)|].
    rewrite lookup_insert_ne in H1, H2 by done. by eapply i_unique0.
Qed.
Lemma inv_finish tr s t : inv tr s → (∀ o' p, l_tasks s !! t = Some (o', p) → ∀ n b, ¬ resolves p n b) → inv tr (finish s t).
Proof.
  intros [] Hp. split; cbn [finish l_cache l_disk l_barriers l_tasks]; try done.
  - intros Hstr n b Hb. destruct (i_resolving0 Hstr _ _ Hb) as (t' & o' & q & Ht' & Hr).
    exists t', o', q. split; [|done]. rewrite lookup_delete_ne; [done|]. intros ->. by eapply Hp.
  - intros b m v Hb. destruct (i_held0 _ _ _ Hb) as (t' & o' & q & Ht' & Hr).
    exists t', o', q. split; [|done]. rewrite lookup_delete_ne; [done|]. intros ->. by eapply Hp.
  - intros t' o' q [_ Hq]%lookup_delete_Some. specialize (i_task0 _ _ _ Hq). by destruct q.
  - intros t1 o1 p1 t2 o2 p2 n n' b [_ H1]%lookup_delete_Some [_ H2]%lookup_delete_Some. by eapply i_unique0.
Qed.
(** the cache changes in a way that matters to nobody *)
Lemma inv_cache tr s ca : inv tr s → NoDup ca.*1 → (∀ n, cpeek ca n = cpeek (l_cache s) n) → inv tr (with_cache s ca).
Proof.
  intros [] Hn He. split; cbn [with_cache l_cache l_disk l_barriers l_tasks]; try done.
  - intros n x. rewrite He. apply i_resolved0.
  - intros n b. rewrite He. apply i_entry0.
  - intros Hstr n b. rewrite He. by apply i_resolving0.
  - intros t o p Hp. specialize (i_task0 _ _ _ Hp). destruct p; try done; cbn [pc_ok with_cache l_cache l_barriers] in *; by rewrite He.
Qed.
Lemma inv_loaded tr s t o n b r k : inv tr s → l_tasks s !! t = Some (o, PLoad n b k) → good tr (l_disk s) n r →
  inv tr (run (with_barrier s b (Barrier n true (Some r))) t o (PFill n b r k)).
Proof.
  intros Hi Ht Hr. destruct (i_task _ _ Hi _ _ _ Ht) as (-> & Hbar & Hpeek).
  assert (resolves (PLoad n b k) n b) as HR by (left; eauto).
  assert (resolves (PFill n b r k) n b) as HR' by (right; eauto).
  pose proof Hi as []. split; cbn [run with_barrier l_cache l_disk l_barriers l_tasks]; try done.
  - intros n' b' H. destruct (decide (b' = b)) as [->|].
    + destruct (i_entry0 _ _ H) as (h & v & Hv). rewrite Hbar in Hv. injection Hv as <- <- <-. rewrite lookup_insert. eauto.
    + rewrite lookup_insert_ne by done. by apply i_entry0.
  - intros Hstr n' b' H. destruct (i_resolving0 Hstr _ _ H) as (t' & o' & q & Ht' & Hr'). destruct (decide (t' = t)) as [->|].
    + rewrite Ht in Ht'. injection Ht' as <- <-. destruct (resolves_det _ _ _ _ _ Hr' HR) as [-> ->].
      do 3 eexists. rewrite lookup_insert. by split.
    + exists t', o', q. by rewrite lookup_insert_ne.
  - intros b' m h v. destruct (decide (b' = b)) as [->|]; [rewrite lookup_insert; by intros [= <- <- <-]|].
    rewrite lookup_insert_ne by done. apply i_barrier0.
  - intros b' m v. destruct (decide (b' = b)) as [->|].
    + rewrite lookup_insert. intros [= <- <-]. do 3 eexists. rewrite lookup_insert. by split.
    + rewrite lookup_insert_ne by done. intros H. destruct (i_held0 _ _ _ H) as (t' & o' & q & Ht' & Hr').
      destruct (decide (t' = t)) as [->|].
      * rewrite Ht in Ht'. injection Ht' as <- <-. by destruct (resolves_det _ _ _ _ _ Hr' HR) as [-> ->].
      * exists t', o', q. by rewrite lookup_insert_ne.
  - intros t' o' q. destruct (decide (t' = t)) as [->|Hn].
    + rewrite lookup_insert. intros [= <- <-]. cbn [pc_ok run with_barrier l_barriers l_cache]. by rewrite lookup_insert.
    + rewrite lookup_insert_ne by done. intros Hq. pose proof (i_task0 _ _ _ Hq) as Hok.
      assert (∀ n', resolves q n' b → False) as Hne by (intros n' Hx; apply Hn; by eapply i_unique0).
      destruct q as [| |n' b' k'|n' b' k'|n' b' r' k'| | | | | | |]; try done; cbn [pc_ok] in *; cbn [run with_barrier l_barriers l_cache].
      * destruct Hok as (? & h & v & Hv). split; [done|]. destruct (decide (b' = b)) as [->|].
        -- rewrite Hbar in Hv. injection Hv as <- <- <-. rewrite lookup_insert. eauto.
        -- rewrite lookup_insert_ne by done. eauto.
      * rewrite lookup_insert_ne; [done|]. intros <-. apply (Hne n'). left; eauto.
      * rewrite lookup_insert_ne; [done|]. intros <-. apply (Hne n'). right; eauto.
  - intros t1 o1 p1 t2 o2 p2 n1 n2 b' H1 H2 R1 R2.
    assert (∀ t' o' p' n', l_tasks s !! t' = Some (o', p') → resolves p' n' b → t' = t) as Hu by (intros; by eapply i_unique0).
    destruct (decide (t1 = t)) as [->|N1]; destruct (decide (t2 = t)) as [->|N2]; [done| | |].
    + rewrite lookup_insert in H1. injection H1 as <- <-. rewrite lookup_insert_ne in H2 by done.
      destruct (resolves_det _ _ _ _ _ R1 HR') as [_ ->]. symmetry. by eapply Hu.
    + rewrite lookup_insert in H2. injection H2 as <- <-. rewrite lookup_insert_ne in H1 by done.
      destruct (resolves_det _ _ _ _ _ R2 HR') as [_ ->]. by eapply Hu.
    + rewrite lookup_insert_ne in H1, H2 by done. by eapply i_unique0.
Qed.

Lemma asks_layer tr s t o p n : pc_ok tr s t o p → asks_origin limit s p = Some n → op_layer o = n.
Proof.
  destruct p; cbn [pc_ok asks_origin]; try done.
  - intros ->. destruct (decide _); [done|]. destruct (cpeek _ _) as [[]|]; by intros [= <-].
  - intros -> [= <-]. done.
  - intros ->. destruct (cpeek _ _) as [[]|]; by intros [= <-].
  - intros (-> & _) [= <-]. done.
  - intros ->. destruct (decide _); [done|]. destruct (cpeek _ _) as [[]|]; by intros [= <-].
  - intros -> [= <-]. done.
Qed.
Lemma inv_tstep tr s t o p e s' : inv tr s → l_tasks s !! t = Some (o, p) → tstep c limit current false s t o p e s' →
  (∀ n k, e = Some (LIoError n k) → LIoError n k ∈ tr) →
  (∀ n x t1 x1, LCall t (LStore n x) ∈ tr → LCall t1 (LStore n x1) ∈ tr → t1 = t) →
  inv tr s'.
Proof.
  intros Hi Ht Hst Hio Huniq. pose proof (i_task _ _ Hi _ _ _ Ht) as Hpc.
  assert ((∀ n b, ¬ resolves p n b) → ∀ o' p', l_tasks s !! t = Some (o', p') → ∀ n b, ¬ resolves p' n b) as Hnr
    by (intros Hr o' p' Hp'; rewrite Ht in Hp'; by injection Hp' as <- <-).
  destruct Hst as [n k Hf|n k Hf|n k e Hf|n k|n k x Hx|n k b Hb|n k b Hp Hb|n k b m v Hb|n k b|n k b e|n k b r ca ok Hf|n q|n x|n x pos k Hpi|n x Hpi|n x|n k Hf|n k Hf|n k e Hf|n k|p n e Hf|n e];
    cbn [pc_ok] in Hpc.
  - apply inv_run; [done|apply Hnr|..]; try (by destruct k); [by intros n' b [(k' & ?)|(r & k' & ?)]|].
    intros n' b [(k' & ?)|(r & k' & ?)]; by destruct k.
  - apply inv_run; [done|apply Hnr|..]; try done; by intros n' b [(k' & ?)|(r & k' & ?)].
  - apply inv_finish; [done|apply Hnr]. by intros n' b [(k' & ?)|(r & k' & ?)].
  - apply inv_finish; [done|apply Hnr]. by intros n' b [(k' & ?)|(r & k' & ?)].
  - apply inv_finish; [|apply Hnr; by intros n' b [(k' & ?)|(r & k' & ?)]].
    apply inv_cache; [done|apply ctouch_nodup, Hi|apply ctouch_peek].
  - apply inv_run; [|apply Hnr|..].
    + apply inv_cache; [done|apply ctouch_nodup, Hi|apply ctouch_peek].
    + by intros n' b' [(k' & ?)|(r & k' & ?)].
    + by intros n' b' [(k' & ?)|(r & k' & ?)].
    + cbn [pc_ok]. split; [done|]. exact (i_entry _ _ Hi _ _ Hb).
  - (* the task starts to load *)
    assert (∀ t' o' q, l_tasks s !! t' = Some (o', q) → t' ≠ t → pc_ok tr (run (with_barrier (with_cache s (cinsert (l_cache s) n (Resolving b))) b
      (Barrier n true None)) t o (PLoad n b k)) t' o' q) as Hoth.
    { intros t' o' q Hq Hne. pose proof (i_task _ _ Hi _ _ _ Hq) as Hok.
      destruct q as [| |n' b' k'|n' b' k'|n' b' r k'| | | | | | |]; try done; cbn [pc_ok] in *;
        cbn [run with_barrier with_cache l_barriers l_cache].
      - destruct Hok as (? & h & v & Hv). split; [done|]. exists h, v. rewrite lookup_insert_ne; [done|]. by intros ->; rewrite Hb in Hv.
      - destruct Hok as (? & Hv & Hc). split; [done|]. rewrite lookup_insert_ne by (by intros ->; rewrite Hb in Hv).
        split; [done|]. rewrite cinsert_peek. by rewrite decide_False by (by intros ->; rewrite Hp in Hc).
      - destruct Hok as (? & Hv & Hc). split; [done|]. rewrite lookup_insert_ne by (by intros ->; rewrite Hb in Hv).
        split; [done|]. rewrite cinsert_peek. by rewrite decide_False by (by intros ->; rewrite Hp in Hc). }
    assert (∀ t' o' q n' , l_tasks s !! t' = Some (o', q) → ¬ resolves q n' b) as Hfresh.
    { intros t' o' q n' Hq Hr. pose proof (i_task _ _ Hi _ _ _ Hq) as Hok.
      destruct Hr as [(k' & ->)|(r & k' & ->)]; cbn [pc_ok] in Hok; destruct Hok as (_ & Hv & _); by rewrite Hb in Hv. }
    assert (∀ t' o' q n' b', l_tasks s !! t' = Some (o', q) → resolves q n' b' → t' ≠ t) as Hnt.
    { intros t' o' q n' b' Hq Hr ->. rewrite Ht in Hq. injection Hq as <- <-. by destruct Hr as [(k' & ?)|(r & k' & ?)]. }
    destruct Hi. split; cbn [run with_barrier with_cache l_cache l_disk l_barriers l_tasks]; try done.
    + by apply cinsert_nodup.
    + intros n' x. rewrite cinsert_peek, Hp. destruct (decide _) as [->|]; [done|]. apply i_resolved0.
    + intros n' b'. rewrite cinsert_peek, Hp. destruct (decide _) as [->|].
      * intros [= <-]. rewrite lookup_insert. eauto.
      * intros H. destruct (i_entry0 _ _ H) as (h & v & Hv). rewrite lookup_insert_ne; [eauto|]. intros <-. by rewrite Hb in Hv.
    + intros Hstr n' b'. rewrite cinsert_peek, Hp. destruct (decide _) as [->|].
      * intros [= <-]. exists t, o, (PLoad n b k). rewrite lookup_insert. split; [done|]. left. eauto.
      * intros H. destruct (i_resolving0 Hstr _ _ H) as (t' & o' & q & Ht' & Hr). exists t', o', q. split; [|done].
        rewrite lookup_insert_ne; [done|]. intros <-. by eapply Hnt.
    + intros b' m h v. destruct (decide (b' = b)) as [->|]; [rewrite lookup_insert; by intros [= <- <- <-]|].
      rewrite lookup_insert_ne by done. apply i_barrier0.
    + intros b' m v. destruct (decide (b' = b)) as [->|].
      * rewrite lookup_insert. intros [= <- <-]. exists t, o, (PLoad n b k). rewrite lookup_insert. split; [done|]. left. eauto.
      * rewrite lookup_insert_ne by done. intros H. destruct (i_held0 _ _ _ H) as (t' & o' & q & Ht' & Hr). exists t', o', q.
        split; [|done]. rewrite lookup_insert_ne; [done|]. intros <-. by eapply Hnt.
    + intros t' o' q. destruct (decide (t' = t)) as [->|].
      * rewrite lookup_insert. intros [= <- <-]. cbn [pc_ok run with_barrier with_cache l_barriers l_cache].
        rewrite lookup_insert, cinsert_peek, decide_True, Hp by done. done.
      * rewrite lookup_insert_ne by done. intros Hq. by apply Hoth.
    + intros t1 o1 p1 t2 o2 p2 n1 n2 b' H1 H2 R1 R2.
      destruct (decide (t1 = t)) as [->|N1]; destruct (decide (t2 = t)) as [->|N2]; [done| | |].
      * rewrite lookup_insert in H1. injection H1 as <- <-. rewrite lookup_insert_ne in H2 by done.
        destruct (resolves_det _ _ _ _ _ R1 (or_introl (ex_intro _ k eq_refl))) as [_ ->]. by destruct (Hfresh _ _ _ _ H2 R2).
      * rewrite lookup_insert in H2. injection H2 as <- <-. rewrite lookup_insert_ne in H1 by done.
        destruct (resolves_det _ _ _ _ _ R2 (or_introl (ex_intro _ k eq_refl))) as [_ ->]. by destruct (Hfresh _ _ _ _ H1 R1).
      * rewrite lookup_insert_ne in H1, H2 by done. by eapply i_unique0.
  - apply inv_finish; [done|apply Hnr]. by intros n' b' [(k' & ?)|(r & k' & ?)].
  - eapply inv_loaded; [done|done|]. unfold good, layer_bytes, open_file. destruct (l_disk s !! n) as [x|]; eauto.
  - eapply inv_loaded; [done|done|]. right; right. exists e. split; [done|]. by apply Hio.
  - (* the loading task returns *)
    destruct Hpc as (-> & Hbar & Hpeek). pose proof (i_barrier _ _ Hi _ _ _ _ Hbar) as Hgood. cbv beta iota in Hgood.
    destruct (fill_spec limit current (l_cache s) n b r ca ok (i_nodup _ _ Hi) Hlim Hpeek Hf) as (_ & Hnd & Hsub & Hres & Hown).
    assert (∀ t' o' q n' b', l_tasks s !! t' = Some (o', q) → resolves q n' b' → t' ≠ t → b' ≠ b ∧ n' ≠ n) as Hne.
    { intros t' o' q n' b' Hq Hr Hn. split.
      - intros ->. apply Hn. eapply (i_unique _ _ Hi); [exact Hq|exact Ht|exact Hr|right; eauto].
      - intros ->. apply Hn. eapply (i_unique _ _ Hi _ _ _ _ _ _ n n b); [exact Hq|exact Ht| |right; eauto].
        pose proof (i_task _ _ Hi _ _ _ Hq) as Hok. destruct Hr as [(k' & ->)|(r' & k' & ->)]; cbn [pc_ok] in Hok;
        destruct Hok as (_ & _ & Hok); rewrite Hpeek in Hok; injection Hok as <-; [left; eauto|right; eauto]. }
    pose proof Hi as [].
    split; cbn [finish with_barrier with_cache l_cache l_disk l_barriers l_tasks]; try done.
    + intros n' x Hx. destruct (decide (n' = n)) as [->|Hn].
      * destruct (Hown _ Hx) as (y & -> & [= <-]). destruct Hgood as [(z & [= <-] & ?)|[?|(e & ? & _)]]; done.
      * apply i_resolved0. by apply Hsub.
    + intros n' b' Hx. destruct (decide (n' = n)) as [->|Hn]; [by destruct (Hown _ Hx) as (y & _ & ?)|].
      destruct (i_entry0 _ _ (Hsub _ _ Hn Hx)) as (h & v & Hv). rewrite lookup_insert_ne; [eauto|]. intros <-.
      rewrite Hbar in Hv. by injection Hv as <- <- <-.
    + intros Hstr n' b' Hx. destruct (decide (n' = n)) as [->|Hn]; [by destruct (Hown _ Hx) as (y & _ & ?)|].
      destruct (i_resolving0 Hstr _ _ (Hsub _ _ Hn Hx)) as (t' & o' & q & Ht' & Hr). exists t', o', q. split; [|done].
      rewrite lookup_delete_ne; [done|]. intros <-. rewrite Ht in Ht'. injection Ht' as <- <-.
      destruct Hr as [(k' & ?)|(r' & k' & [= <- <- <- <-])]; done.
    + intros b' m h v. destruct (decide (b' = b)) as [->|]; [rewrite lookup_insert; by intros [= <- <- <-]|].
      rewrite lookup_insert_ne by done. apply i_barrier0.
    + intros b' m v. destruct (decide (b' = b)) as [->|]; [by rewrite lookup_insert|].
      rewrite lookup_insert_ne by done. intros H. destruct (i_held0 _ _ _ H) as (t' & o' & q & Ht' & Hr). exists t', o', q.
      split; [|done]. rewrite lookup_delete_ne; [done|]. intros <-. rewrite Ht in Ht'. injection Ht' as <- <-.
      destruct Hr as [(k' & ?)|(r' & k' & [= <- <- <- <-])]; done.
    + intros t' o' q [Hn Hq]%lookup_delete_Some. pose proof (i_task0 _ _ _ Hq) as Hok.
      destruct q as [| |n' b' k'|n' b' k'|n' b' r' k'| | | | | | |]; try done; cbn [pc_ok] in *;
        cbn [finish with_barrier with_cache l_barriers l_cache].
      * destruct Hok as (? & h & v & Hv). split; [done|]. destruct (decide (b' = b)) as [->|].
        -- rewrite Hbar in Hv. injection Hv as <- <- <-. rewrite lookup_insert. eauto.
        -- rewrite lookup_insert_ne by done. eauto.
      * destruct (Hne _ _ _ n' b' Hq ltac:(left; eauto) ltac:(done)) as [Hb' Hn']. rewrite lookup_insert_ne by done.
        destruct Hok as (? & ? & ?). split_and!; [done|done|by apply Hres].
      * destruct (Hne _ _ _ n' b' Hq ltac:(right; eauto) ltac:(done)) as [Hb' Hn']. rewrite lookup_insert_ne by done.
        destruct Hok as (? & ? & ?). split_and!; [done|done|by apply Hres].
    + intros t1 o1 p1 t2 o2 p2 n1 n2 b' [_ H1]%lookup_delete_Some [_ H2]%lookup_delete_Some. by eapply i_unique0.
  - apply inv_finish; [done|apply Hnr]. by intros n' b' [(k' & ?)|(r & k' & ?)].
  - (* the layer is stored *)
    destruct Hpc as (-> & Hnone & Hcall & _).
    assert (∀ n' x', l_disk s !! n' = Some x' → <[n := x]> (l_disk s) !! n' = Some x') as Hext.
    { intros n' x' H. rewrite lookup_insert_ne; [done|]. by intros <-; rewrite Hnone in H. }
    destruct Hi. split; cbn [run with_disk l_cache l_disk l_barriers l_tasks]; try done.
    + intros n' x' H. apply Hext. by apply i_resolved0.
    + intros Hstr n' b' H. destruct (i_resolving0 Hstr _ _ H) as (t' & o' & q & Ht' & Hr). exists t', o', q. split; [|done].
      rewrite lookup_insert_ne; [done|]. intros <-. rewrite Ht in Ht'. injection Ht' as <- <-. by destruct Hr as [(k' & ?)|(r' & k' & ?)].
    + intros b m h v H. specialize (i_barrier0 _ _ _ _ H). destruct v; [|done]. by eapply good_mono.
    + intros b m v H. destruct (i_held0 _ _ _ H) as (t' & o' & q & Ht' & Hr). exists t', o', q. split; [|done].
      rewrite lookup_insert_ne; [done|]. intros <-. rewrite Ht in Ht'. injection Ht' as <- <-. by destruct Hr as [(k' & ?)|(r' & k' & ?)].
    + intros t' o' q. destruct (decide (t' = t)) as [->|Hn].
      * rewrite lookup_insert. intros [= <- <-]. cbn [pc_ok run with_disk l_disk]. by rewrite lookup_insert.
      * rewrite lookup_insert_ne by done. intros Hq. pose proof (i_task0 _ _ _ Hq) as Hok.
        destruct q as [| | | | | | |n' x' pos'|n' x'| | |]; try done; cbn [pc_ok run with_disk l_disk] in *.
        -- destruct Hok as (? & Hd & Hc & ?). split_and!; try done. rewrite lookup_insert_ne; [done|]. intros <-.
           apply Hn. by apply (Huniq n x t' x').
        -- destruct Hok as (? & Hd). split; [done|]. by apply Hext.
    + intros t1 o1 p1 t2 o2 p2 n1 n2 b' H1 H2 R1 R2.
      destruct (decide (t1 = t)) as [->|N1]; [rewrite lookup_insert in H1; injection H1 as <- <-; by destruct R1 as [(k' & ?)|(r' & k' & ?)]|].
      destruct (decide (t2 = t)) as [->|N2]; [rewrite lookup_insert in H2; injection H2 as <- <-; by destruct R2 as [(k' & ?)|(r' & k' & ?)]|].
      rewrite lookup_insert_ne in H1, H2 by done. by eapply i_unique0.
    + intros n' x'. destruct (decide (n' = n)) as [->|]; [rewrite lookup_insert; intros [= <-]; right; by exists t|].
      rewrite lookup_insert_ne by done. apply i_disk0.
  - done.
  - done.
  - destruct Hpc as (-> & Hd). apply inv_finish; [|apply Hnr; by intros n' b [(k' & ?)|(r & k' & ?)]].
    destruct (cpeek (l_cache s) n) as [e'|] eqn:E.
    + apply inv_cache; [done|apply cinsert_nodup, Hi|]. intros m. rewrite cinsert_peek, E. by destruct (decide _) as [->|].
    + destruct Hi. split; cbn [with_cache l_cache l_disk l_barriers l_tasks]; try done.
      * by apply cinsert_nodup.
      * intros n' x'. rewrite cinsert_peek, E. destruct (decide _) as [->|]; [by intros [= <-]|]. apply i_resolved0.
      * intros n' b'. rewrite cinsert_peek, E. destruct (decide _) as [->|]; [done|]. apply i_entry0.
      * intros Hstr n' b'. rewrite cinsert_peek, E. destruct (decide _) as [->|]; [done|]. by apply i_resolving0.
      * intros t' o' q Hq. specialize (i_task0 _ _ _ Hq). destruct q; try done; cbn [pc_ok with_cache l_cache] in *;
          destruct i_task0 as (? & ? & Hx); split_and!; try done; rewrite cinsert_peek, decide_False; try done; intros ->; by rewrite E in Hx.
  - apply inv_run; [done|apply Hnr|..]; try done; by intros n' b [(k' & ?)|(r & k' & ?)].
  - apply inv_run; [done|apply Hnr|..]; try done; by intros n' b [(k' & ?)|(r & k' & ?)].
  - apply inv_finish; [done|apply Hnr]. by intros n' b [(k' & ?)|(r & k' & ?)].
  - apply inv_finish; [done|apply Hnr]. by intros n' b [(k' & ?)|(r & k' & ?)].
  - apply inv_run; [done|apply Hnr|..].
    + intros n' b [(k' & ->)|(r & k' & ->)]; done.
    + by intros n' b [(k' & ?)|(r & k' & ?)].
    + cbn [pc_ok]. split; [|by apply Hio]. eapply asks_layer; [exact Hpc|exact Hf].
  - apply inv_finish; [done|apply Hnr]. by intros n' b [(k' & ?)|(r & k' & ?)].
Qed.

(** a task is cancelled *)
Lemma inv_cancel tr s t o p : inv tr s → ¬ strict → l_tasks s !! t = Some (o, p) → inv tr (finish (release s p) t).
Proof.
  intros Hi Hns Ht. pose proof (i_task _ _ Hi _ _ _ Ht) as Hpc.
  assert (∀ n b v v0, resolves p n b → l_barriers s !! b = Some (Barrier n true v0) → (∀ r, v = Some r → good tr (l_disk s) n r) →
    inv tr (finish (with_barrier s b (Barrier n false v)) t)) as Hrel.
  { intros n b v v0 Hr Hbar Hv. pose proof Hi as []. split; cbn [finish with_barrier l_cache l_disk l_barriers l_tasks]; try done.
    - intros n' b' H. destruct (i_entry0 _ _ H) as (h' & v' & Hv'). destruct (decide (b' = b)) as [->|].
      + rewrite Hbar in Hv'. injection Hv' as <- <- <-. rewrite lookup_insert. eauto.
      + rewrite lookup_insert_ne by done. eauto.
    - intros b' m h' v'. destruct (decide (b' = b)) as [->|]; [rewrite lookup_insert; intros [= <- <- <-]|rewrite lookup_insert_ne by done; apply i_barrier0].
      destruct v; [by apply Hv|done].
    - intros b' m v'. destruct (decide (b' = b)) as [->|Hne]; [rewrite lookup_insert; by intros [= _ ]|].
      rewrite lookup_insert_ne by done. intros H. destruct (i_held0 _ _ _ H) as (t' & o' & q & Ht' & Hr'). exists t', o', q.
      split; [|done]. rewrite lookup_delete_ne; [done|]. intros <-. rewrite Ht in Ht'. injection Ht' as <- <-.
      by destruct (resolves_det _ _ _ _ _ Hr Hr') as [_ ->].
    - intros t' o' q [Hn Hq]%lookup_delete_Some. pose proof (i_task0 _ _ _ Hq) as Hok.
      assert (∀ n', resolves q n' b → False) as Hne by (intros n' Hx; apply Hn; by eapply i_unique0).
      destruct q as [| |n' b' k'|n' b' k'|n' b' r' k'| | | | | | |]; try done; cbn [pc_ok] in *; cbn [finish with_barrier l_barriers l_cache].
      + destruct Hok as (? & h' & v' & Hv'). split; [done|]. destruct (decide (b' = b)) as [->|].
        * rewrite Hbar in Hv'. injection Hv' as <- <- <-. rewrite lookup_insert. eauto.
        * rewrite lookup_insert_ne by done. eauto.
      + rewrite lookup_insert_ne; [done|]. intros <-. apply (Hne n'). left; eauto.
      + rewrite lookup_insert_ne; [done|]. intros <-. apply (Hne n'). right; eauto.
    - intros t1 o1 p1 t2 o2 p2 n1 n2 b' [_ H1]%lookup_delete_Some [_ H2]%lookup_delete_Some. by eapply i_unique0. }
  destruct p as [| |n b k|n b k|n b r k| | | | | | |]; cbn [release].
  4:{ destruct Hpc as (_ & Hb & _). by apply (Hrel n b None None); [left; eauto| |]. }
  4:{ destruct Hpc as (_ & Hb & _). apply (Hrel n b (Some r) (Some r)); [right; eauto|done|]. intros r' [= <-].
      exact (i_barrier _ _ Hi _ _ _ _ Hb). }
  all: apply inv_finish; [done|]; intros o' p' Hp'; rewrite Ht in Hp'; injection Hp' as <- <-; by intros n' b' [(k' & ?)|(r' & k' & ?)].
Qed.
End inv.
