(** The properties of the archive cache *)
From Verif Require Import Prelude ListFacts Names FileNames Archive ArchiveFacts ArchiveStore Lru SpecLru LruFacts LruInv LruExec.

Section api.
Context (c : codec).

(** ** The calls that are running *)
Lemma open_snoc tr e : open_calls (tr ++ [e]) = open_step (open_calls tr) e.
Proof. unfold open_calls. by rewrite foldl_app. Qed.
Lemma open_tasks limit current pieces d tr s : lexec c limit current pieces (lru_new d) tr s → open_calls tr = fst <$> l_tasks s.
Proof.
  intros He. induction He as [|tr s1 s2 He IH Hst|tr s1 e s2 He IH Hst].
  - cbn [lru_new l_tasks]. by rewrite fmap_empty.
  - inversion Hst as [|t0 o0 p0 e0 s0 Ht0 Hs0| |]; subst.
    assert (∀ p, fst <$> <[t0 := (o0, p)]> (l_tasks s1) = fst <$> l_tasks s1) as Hk.
    { intros p. rewrite fmap_insert. cbn [fst]. apply insert_id. by rewrite lookup_fmap, Ht0. }
    rewrite IH. inversion Hs0; subst; cbn [run with_barrier with_cache with_disk l_tasks]; by rewrite Hk.
  - rewrite open_snoc, IH. inversion Hst as [t0 o0 Ht0|t0 o0 p0 e0 s0 Ht0 Hs0|t0 o0 p0 Ht0|]; subst.
    + cbn [run l_tasks open_step]. by rewrite fmap_insert.
    + assert (∀ p, fst <$> <[t0 := (o0, p)]> (l_tasks s1) = fst <$> l_tasks s1) as Hk.
      { intros p. rewrite fmap_insert. cbn [fst]. apply insert_id. by rewrite lookup_fmap, Ht0. }
      inversion Hs0; subst; cbn [run finish with_barrier with_cache with_disk l_tasks open_step]; rewrite ?fmap_delete; try done.
    + cbn [finish l_tasks open_step]. rewrite fmap_delete. by destruct p0.
    + cbn. by rewrite fmap_empty.
Qed.
Lemma lexec_trans limit current pieces s tr s1 tr' s2 : lexec c limit current pieces s tr s1 → lexec c limit current pieces s1 tr' s2 →
  lexec c limit current pieces s (tr ++ tr') s2.
Proof.
  intros H1 H2. induction H2 as [|tr' s1' s2 _ IH Hst|tr' s1' i s2 _ IH Hst].
  - by rewrite app_nil_r.
  - by eapply le_tau.
  - rewrite app_assoc. by eapply le_event.
Qed.

(** ** C31 *)
Lemma lru_reads limit current d tr s t n k r : codec_ok c → current ≤ limit →
  lexec c limit current false (lru_new d) tr s → calls_ok c d tr → no_cancel tr → LDone t (LRead n k) r ∈ tr →
  (∃ x, l_disk s !! n = Some x ∧ r = origin_read c (Some x) k) ∨ r = origin_read c None k ∨ load_error tr n r.
Proof.
  intros Hc Hl He Hok Hnc Hd. destruct (lexec_inv c Hc limit current Hl d True tr s He Hok (λ _, Hnc)) as [_ H].
  destruct (H _ _ _ Hd) as [?|[->|[?|[Hs _]]]]; [by left|right; left; by rewrite origin_read_none|by right; right|by destruct Hs].
Qed.
Lemma lru_queries limit current d tr s t n q r : codec_ok c → current ≤ limit →
  lexec c limit current false (lru_new d) tr s → calls_ok c d tr → LDone t (LQuery n q) r ∈ tr →
  (∃ x, l_disk s !! n = Some x ∧ r = origin_query c (Some x) q) ∨ r = origin_query c None q ∨ load_error tr n r.
Proof.
  intros Hc Hl He Hok Hd. destruct (lexec_inv c Hc limit current Hl d False tr s He Hok ltac:(done)) as [_ H].
  exact (H _ _ _ Hd).
Qed.
Lemma lru_cancelled limit current d tr s t n k r : codec_ok c → current ≤ limit →
  lexec c limit current false (lru_new d) tr s → calls_ok c d tr → LDone t (LRead n k) r ∈ tr →
  (∃ x, l_disk s !! n = Some x ∧ r = origin_read c (Some x) k) ∨ r = origin_read c None k ∨ load_error tr n r ∨ r = Panic.
Proof.
  intros Hc Hl He Hok Hd. destruct (lexec_inv c Hc limit current Hl d False tr s He Hok ltac:(done)) as [_ H].
  destruct (H _ _ _ Hd) as [?|[->|[?|[_ ->]]]]; [by left|right; left; by rewrite origin_read_none|by right; right; left|by right; right; right].
Qed.
Lemma lru_stores limit current d tr s t n x r : codec_ok c → current ≤ limit →
  lexec c limit current false (lru_new d) tr s → calls_ok c d tr → LDone t (LStore n x) r ∈ tr →
  (r = Ok RStored ∧ l_disk s !! n = Some x) ∨ load_error tr n r.
Proof.
  intros Hc Hl He Hok Hd. destruct (lexec_inv c Hc limit current Hl d False tr s He Hok ltac:(done)) as [_ H].
  exact (H _ _ _ Hd).
Qed.
Lemma calls_prefix_app d tr tr' : calls_ok c d (tr ++ tr') → calls_ok c d tr.
Proof.
  revert tr; induction tr' as [|e tr' IH]; intros tr; [by rewrite app_nil_r|]. intros H.
  apply (calls_prefix c d tr e). apply IH. by rewrite <- app_assoc.
Qed.
Lemma lru_after_store limit current d tr1 s1 tr2 s2 n x : codec_ok c → current ≤ limit →
  lexec c limit current false (lru_new d) tr1 s1 → lexec c limit current false s1 tr2 s2 →
  calls_ok c d (tr1 ++ tr2) → no_cancel (tr1 ++ tr2) → l_disk s1 !! n = Some x →
  (∀ t o, open_calls tr1 !! t = Some o → op_layer o ≠ n) →
  (∀ t k r, LDone t (LRead n k) r ∈ tr2 → r = origin_read c (Some x) k ∨ load_error tr2 n r) ∧
  (∀ t q r, LDone t (LQuery n q) r ∈ tr2 → r = origin_query c (Some x) q ∨ load_error tr2 n r).
Proof.
  intros Hc Hl He1 He2 Hok Hnc Hx Hidle.
  assert (inv d True tr1 s1) as Hi1.
  { apply (lexec_inv c Hc limit current Hl d True tr1 s1 He1); [by eapply calls_prefix_app|].
    intros _ t Ht. apply (Hnc t). apply elem_of_app. by left. }
  assert (settled [] s1 n x) as Hs1.
  { apply (settled_idle d True tr1); [done|done|done|].
    intros t o p Ht. apply (Hidle t). by rewrite (open_tasks _ _ _ _ _ _ He1), lookup_fmap, Ht. }
  assert (∀ tr s, lexec c limit current false s1 tr s → calls_ok c d (tr1 ++ tr) → no_cancel (tr1 ++ tr) → inv d True (tr1 ++ tr) s) as Hinv.
  { intros tr s He Ho Hn. apply (lexec_inv c Hc limit current Hl d True (tr1 ++ tr) s); [by eapply lexec_trans|done|done]. }
  enough (settled tr2 s2 n x ∧ (∀ t k r, LDone t (LRead n k) r ∈ tr2 → r = origin_read c (Some x) k ∨ load_error tr2 n r) ∧
    (∀ t q r, LDone t (LQuery n q) r ∈ tr2 → r = origin_query c (Some x) q ∨ load_error tr2 n r)) as [_ ?] by done.
  revert Hok Hnc. induction He2 as [|tr sa sb He2 IH Hst|tr sa e sb He2 IH Hst]; intros Hok Hnc.
  - split; [done|]. split; intros ? ? ? []%elem_of_nil.
  - destruct (IH Hok Hnc) as (Hs & H1 & H2). split; [|done].
    inversion Hst as [|t0 o0 p0 e0 s0 Ht0 Hs0| |]; subst.
    by eapply (settled_tstep c limit current Hl d True (tr1 ++ tr) tr sa t0 o0 p0 None); [apply Hok|apply Hinv| | | |].
  - assert (calls_ok c d (tr1 ++ tr)) as Hok'. { eapply calls_prefix_app. by rewrite <- app_assoc. }
    assert (no_cancel (tr1 ++ tr)) as Hnc'. { intros t Ht. apply (Hnc t). rewrite app_assoc. by apply elem_snoc. }
    destruct (IH Hok' Hnc') as (Hs & H1 & H2). specialize (Hinv _ _ He2 Hok' Hnc').
    assert (settled (tr ++ [e]) sa n x) as Hs'. { eapply settled_mono; [done|]. intros e'. apply elem_snoc. }
    assert (inv d True (tr1 ++ tr ++ [e]) sa) as Hinv'. { eapply inv_trace; [done|]. intros e'. rewrite app_assoc. apply elem_snoc. }
    assert ((∀ t k r, LDone t (LRead n k) r ∈ tr → r = origin_read c (Some x) k ∨ load_error (tr ++ [e]) n r)) as H1'.
    { intros t k r Hd. destruct (H1 _ _ _ Hd) as [?|(e' & -> & ?)]; [by left|right; exists e'; split; [done|by apply elem_snoc]]. }
    assert ((∀ t q r, LDone t (LQuery n q) r ∈ tr → r = origin_query c (Some x) q ∨ load_error (tr ++ [e]) n r)) as H2'.
    { intros t k r Hd. destruct (H2 _ _ _ Hd) as [?|(e' & -> & ?)]; [by left|right; exists e'; split; [done|by apply elem_snoc]]. }
    inversion Hst as [t0 o0 Ht0|t0 o0 p0 e0 s0 Ht0 Hs0|t0 o0 p0 Ht0|]; subst.
    + split_and!.
      * destruct Hs' as (Hd & Hb & Hf). split_and!; [done| |].
        -- intros b h v [Hr|(k & Hr)]%refs_run; [by eapply Hb|by destruct o0 as [? []| |]].
        -- intros t o e. cbn [run l_tasks]. intros [[_ H]|[_ H]]%lookup_insert_Some; [by destruct o0 as [? []| |]|exact (Hf _ _ _ H)].
      * intros t k r [Hd|Hd%elem_of_list_singleton]%elem_of_app; [by eapply H1'|done].
      * intros t q r [Hd|Hd%elem_of_list_singleton]%elem_of_app; [by eapply H2'|done].
    + split.
      * eapply (settled_tstep c limit current Hl d True (tr1 ++ tr ++ [e]) (tr ++ [e]) sa t0 o0 p0 (Some e)); try done.
        intros n' k' [= ->]. apply elem_last.
      * assert (op_ok o0) as Hop. { destruct Hok as (_ & Hok & _). apply (Hok t0). rewrite app_assoc. apply elem_snoc.
          eapply (task_called c limit current d false); [by eapply lexec_trans|done]. }
        pose proof (λ k r, settled_done c Hc limit current Hl d True (tr1 ++ tr ++ [e]) (tr ++ [e]) sa t0 o0 p0 sb n x k r I Hok Hinv' Hs' Ht0 Hop) as Hd0.
        split.
        -- intros t k r [Hd|Hd%elem_of_list_singleton]%elem_of_app; [by eapply H1'|]. subst e.
           assert (t = t0 ∧ o0 = LRead n k) as [-> ->]. { inversion Hs0; subst; done. }
           by apply (Hd0 k r Hs0).
        -- intros t q r [Hd|Hd%elem_of_list_singleton]%elem_of_app; [by eapply H2'|]. subst e.
           assert (t = t0 ∧ o0 = LQuery n q) as [-> ->]. { inversion Hs0; subst; done. }
           by apply (Hd0 KBytes r Hs0).
    + exfalso. apply (Hnc t0). rewrite app_assoc. apply elem_last.
    + split_and!.
      * destruct Hs as [Hd _]. split_and!; [done| |].
        -- intros b h v _ Hb. cbn in Hb. by rewrite lookup_empty in Hb.
        -- intros t o e H. cbn in H. by rewrite lookup_empty in H.
      * intros t k r [Hd|Hd%elem_of_list_singleton]%elem_of_app; [by eapply H1'|done].
      * intros t q r [Hd|Hd%elem_of_list_singleton]%elem_of_app; [by eapply H2'|done].
Qed.

(** ** C43: every call ends *)
Definition weight (p : lpc) : nat :=
  match p with
  | PFits _ _ => 5 | PAgain _ _ => 4 | PGet _ _ => 3
  | PLoad _ _ _ | PStore _ _ _ | POrigin _ _ | PSlice _ _ | PQuery _ _ => 2
  | _ => 1
  end.
Definition work (s : lstate) : nat := sum_list ((λ x : nat * (lop * lpc), weight x.2.2) <$> map_to_list (l_tasks s)).
Global Instance sum_list_perm : Proper ((≡ₚ) ==> (=)) sum_list.
Proof. induction 1; cbn [sum_list]; lia. Qed.
Lemma work_insert (m : gmap nat (lop * lpc)) t o p : m !! t = None →
  sum_list ((λ x : nat * (lop * lpc), weight x.2.2) <$> map_to_list (<[t := (o, p)]> m)) =
  weight p + sum_list ((λ x : nat * (lop * lpc), weight x.2.2) <$> map_to_list m).
Proof. intros H. rewrite map_to_list_insert by done. done. Qed.
Lemma work_split s t o p : l_tasks s !! t = Some (o, p) → work s = weight p + work (finish s t).
Proof.
  intros H. unfold work. cbn [finish l_tasks].
  rewrite <- (work_insert _ t o p) by apply lookup_delete. by rewrite insert_delete.
Qed.
Lemma work_run s t o p : work (run s t o p) = weight p + work (finish s t).
Proof.
  rewrite (work_split _ t o p) by (cbn [run l_tasks]; apply lookup_insert). f_equal. unfold work. cbn [run finish l_tasks].
  by rewrite delete_insert_delete.
Qed.
(** one step of one of the calls *)
Definition call_step (limit current : nat) (s s' : lstate) : Prop :=
  ∃ t o p e, l_tasks s !! t = Some (o, p) ∧ tstep c limit current false s t o p e s'.
Lemma call_step_work limit current s s' : call_step limit current s s' → work s' < work s.
Proof.
  intros (t & o & p & e & Ht & Hst). rewrite (work_split _ _ _ _ Ht).
  assert (1 ≤ weight p) by (destruct p; cbn [weight]; lia).
  assert (∀ s1 n e, asks_origin limit s1 p = Some n → weight (PFail n e) < weight p) as Hask by (intros s1 n e1; destruct p; cbn [asks_origin weight]; try done; lia).
  destruct Hst; try discriminate; rewrite ?work_run; cbn [weight] in *; unfold work; cbn [finish run with_cache with_disk with_barrier l_tasks]; try lia.
  - destruct k; cbn [when_fits weight]; lia.
  - specialize (Hask s n e H0). lia.
Qed.
Lemma work_le s : work s ≤ 5 * size (l_tasks s).
Proof.
  unfold work, size, map_size. induction (map_to_list (l_tasks s)) as [|[t [o p]] l IH]; [done|].
  rewrite fmap_cons. cbn [sum_list sum_list_with id length snd]. assert (weight p ≤ 5) by (destruct p; cbn [weight]; lia). lia.
Qed.
Lemma calls_end limit current s k s' : nsteps (call_step limit current) k s s' → k ≤ 5 * size (l_tasks s).
Proof.
  intros H. etrans; [|apply work_le].
  induction H as [|k x y z Hxy _ IH]; [lia|]. apply call_step_work in Hxy. lia.
Qed.
(** some call can go on, also after cancellations *)
Lemma calls_go_on limit d tr s : codec_ok c →
  lexec c limit 0 false (lru_new d) tr s → calls_ok c d tr → l_tasks s ≠ ∅ → ∃ s', call_step limit 0 s s'.
Proof.
  intros Hc He Hok Hne. destruct (lexec_inv c Hc limit 0 ltac:(lia) d False tr s He Hok ltac:(done)) as [Hi _].
  assert (∀ t o p e s', l_tasks s !! t = Some (o, p) → tstep c limit 0 false s t o p e s' → ∃ s', call_step limit 0 s s') as Hgo.
  { intros t o p e s' Ht Hst. exists s', t, o, p, e. done. }
  assert (∀ n, fits limit s n ≠ Panic) as Hfits.
  { intros n. unfold fits, layer_size. destruct (decide _); [done|]. destruct (cpeek (l_cache s) n) as [[]|], (l_disk s !! n); done. }
  assert (∀ t o p n b, l_tasks s !! t = Some (o, p) → resolves p n b → ∃ s', call_step limit 0 s s') as Hres.
  { intros t o p n b Ht Hr. pose proof (i_task _ _ _ _ Hi _ _ _ Ht) as Hpc. destruct Hr as [(k & ->)|(r & k & ->)]; cbn [pc_ok] in Hpc.
    - eapply (Hgo t); [done|]. apply t_load.
    - destruct Hpc as (_ & _ & Hp). destruct (fill_total limit (l_cache s) n b r (i_nodup _ _ _ _ Hi) Hp) as [[ca ok] Hf].
      eapply (Hgo t); [done|]. by eapply t_fill. }
  apply map_choose in Hne as (t & [o p] & Ht). pose proof (i_task _ _ _ _ Hi _ _ _ Ht) as Hpc.
  destruct p as [n k|n k|n b k|n b k|n b r k|n k|n q|n x pos|n x|n k|n k|n e]; cbn [pc_ok] in Hpc.
  - pose proof (Hfits n) as Hf.
    destruct (fits limit s n) as [[]|e|] eqn:E; [| | |done]; (eapply (Hgo t); [done|]).
    + by apply t_fits_yes.
    + by apply t_fits_no.
    + by apply t_fits_err.
  - destruct (cpeek (l_cache s) n) as [[b|x]|] eqn:E; (eapply (Hgo t); [done|]).
    + by apply t_resolving.
    + by apply t_hit.
    + eapply (t_miss _ _ _ _ _ _ _ _ _ (fresh (dom (l_barriers s)))); [done|]. apply not_elem_of_dom, is_fresh.
  - destruct Hpc as (_ & [] & v & Hb).
    + destruct (i_held _ _ _ _ Hi _ _ _ Hb) as (t' & o' & p' & Ht' & Hr'). by eapply Hres.
    + eapply (Hgo t); [done|]. by eapply t_wait.
  - apply (Hres _ _ _ n b Ht). left. by eexists.
  - apply (Hres _ _ _ n b Ht). right. by do 2 eexists.
  - eapply (Hgo t); [done|]. apply t_origin.
  - eapply (Hgo t); [done|]. apply t_query.
  - destruct Hpc as (_ & _ & _ & ->). eapply (Hgo t); [done|]. apply t_store.
  - eapply (Hgo t); [done|]. apply t_insert.
  - pose proof (Hfits n) as Hf. destruct (fits limit s n) as [[]|e|] eqn:E; [| | |done]; (eapply (Hgo t); [done|]).
    + by apply t_again_yes.
    + by apply t_again_no.
    + by apply t_again_err.
  - eapply (Hgo t); [done|]. apply t_slice.
  - eapply (Hgo t); [done|]. apply t_failed.
Qed.

(** ** A cancelled load *)
(** nobody loads the layer, but its entry says that somebody does *)
Definition jammed (s : lstate) (n : lname) (b : nat) (v : option (outcome bytes)) : Prop :=
  cpeek (l_cache s) n = Some (Resolving b) ∧ l_barriers s !! b = Some (Barrier n false v).
Lemma fill_keeps limit current ca n b r ca' ok m b' : NoDup (ca.*1) → current ≤ limit → cpeek ca n = Some (Resolving b) →
  fill limit current ca n r = Some (ca', ok) → b' ≠ b → cpeek ca m = Some (Resolving b') → cpeek ca' m = Some (Resolving b').
Proof.
  intros Hn Hl Hb Hf Hne Hm. destruct (fill_spec _ _ _ _ _ _ _ _ Hn Hl Hb Hf) as (_ & _ & _ & Hk & _).
  apply Hk; [|done]. intros ->. congruence.
Qed.
Lemma jammed_step limit current d tr s e s' n b v : current ≤ limit → inv d False tr s → jammed s n b v →
  lstep c limit current false s e s' → e ≠ Some LCrash → jammed s' n b v.
Proof.
  intros Hl Hi [Hp Hb] Hst Hnc.
  assert (∀ t o p n' b', l_tasks s !! t = Some (o, p) → resolves p n' b' → b' ≠ b) as Hne.
  { intros t o p n' b' Ht Hr ->. pose proof (i_task _ _ _ _ Hi _ _ _ Ht) as Hpc.
    destruct Hr as [(k & ->)|(r & k & ->)]; cbn [pc_ok] in Hpc; destruct Hpc as (_ & Hb' & _); congruence. }
  destruct Hst as [t o Ht|t o p e s' Ht Hst|t o p Ht|]; [done| | |done].
  - destruct Hst as [n0 k Hf|n0 k Hf|n0 k e Hf|n0 k|n0 k x0 Hx|n0 k b0 Hb0|n0 k b0 Hp0 Hb0|n0 k b0 m v0 Hb0|n0 k b0|n0 k b0 e|n0 k b0 r ca ok Hf|n0 q|n0 x0|n0 x0 pos k Hpi|n0 x0 Hpi|n0 x0|n0 k Hf|n0 k Hf|n0 k e Hf|n0 k|p n0 e Hf|n0 e];
      try done; unfold jammed; cbn [run finish with_barrier with_cache with_disk l_cache l_barriers]; rewrite ?ctouch_peek; try done.
    + rewrite cinsert_peek, lookup_insert_ne by congruence. split; [|done]. by rewrite decide_False by congruence.
    + rewrite lookup_insert_ne; [done|]. apply (Hne _ _ _ n0 _ Ht). left. eauto.
    + rewrite lookup_insert_ne; [done|]. apply (Hne _ _ _ n0 _ Ht). left. eauto.
    + assert (b0 ≠ b) as Hbb. { apply (Hne _ _ _ n0 _ Ht). right. eauto. }
      rewrite lookup_insert_ne by done. split; [|done].
      pose proof (i_task _ _ _ _ Hi _ _ _ Ht) as (_ & _ & Hp').
      by eapply (fill_keeps limit current (l_cache s) n0 b0); [apply Hi| | | | |].
    + rewrite cinsert_peek. split; [|done]. destruct (decide (n = n0)) as [<-|]; [by rewrite Hp|done].
  - assert (∀ n' b' v', b' ≠ b → jammed (finish (with_barrier s b' (Barrier n' false v')) t) n b v) as Hrel.
    { intros n' b' v' Hbb. split; [done|]. cbn [finish with_barrier l_barriers]. by rewrite lookup_insert_ne. }
    destruct p as [| |n0 b0 k|n0 b0 k|n0 b0 r k| | | | | | |]; cbn [release]; try done; apply Hrel, (Hne _ _ _ n0 _ Ht).
    + left. eauto.
    + right. eauto.
Qed.
Definition jam_readers (s : lstate) (n : lname) (b : nat) : Prop :=
  ∀ t p, l_tasks s !! t = Some (LRead n KBytes, p) → p = PGet n KBytes ∨ p = PWait n b KBytes.
Lemma jam_readers_step limit current s e s' n b v : jammed s n b v → jam_readers s n b → lstep c limit current false s e s' → jam_readers s' n b.
Proof.
  intros [Hp Hb] Hj Hst.
  assert (∀ s1 t o p, l_tasks s1 = l_tasks s → (o = LRead n KBytes → p = PGet n KBytes ∨ p = PWait n b KBytes) → jam_readers (run s1 t o p) n b) as Hrun.
  { intros s1 t o p E Ho t' p'. cbn [run l_tasks]. rewrite E. intros [[_ [= -> ->]]|[_ H]]%lookup_insert_Some; [by apply Ho|by eapply Hj]. }
  assert (∀ s1 t, l_tasks s1 = l_tasks s → jam_readers (finish s1 t) n b) as Hfin.
  { intros s1 t E t' p'. cbn [finish l_tasks]. rewrite E. intros [_ H]%lookup_delete_Some. by eapply Hj. }
  destruct Hst as [t o Ht|t o p e s' Ht Hst|t o p Ht|].
  - apply Hrun; [done|]. intros ->. by left.
  - destruct Hst as [n0 k Hf|n0 k Hf|n0 k e Hf|n0 k|n0 k x0 Hx|n0 k b0 Hb0|n0 k b0 Hp0 Hb0|n0 k b0 m v0 Hb0|n0 k b0|n0 k b0 e|n0 k b0 r ca ok Hf|n0 q|n0 x0|n0 x0 pos k Hpi|n0 x0 Hpi|n0 x0|n0 k Hf|n0 k Hf|n0 k e Hf|n0 k|p n0 e Hf|n0 e];
      try done; try (by apply Hfin); apply Hrun; try done; intros ->; destruct (Hj _ _ Ht) as [H|H]; try discriminate H; try (subst p; discriminate Hf); injection H as -> ->.
    + rewrite Hp in Hb0. injection Hb0 as <-. by right.
    + congruence.
  - apply Hfin. by destruct p.
  - intros t p. cbn. by rewrite lookup_empty.
Qed.
Lemma jammed_reads limit current d tr1 s1 tr2 s2 n b v : codec_ok c → current ≤ limit →
  lexec c limit current false (lru_new d) tr1 s1 → lexec c limit current false s1 tr2 s2 →
  calls_ok c d (tr1 ++ tr2) → LCrash ∉ tr2 → jammed s1 n b v →
  (∀ t o, open_calls tr1 !! t = Some o → op_layer o ≠ n) →
  ∀ t r, LDone t (LRead n KBytes) r ∈ tr2 → r = cached_read c (default Panic v) KBytes.
Proof.
  intros Hc Hl He1 He2 Hok Hnc Hj Hidle.
  assert (jam_readers s1 n b) as Hr.
  { intros t p Ht. exfalso. apply (Hidle t (LRead n KBytes)); [|done]. by rewrite (open_tasks _ _ _ _ _ _ He1), lookup_fmap, Ht. }
  assert (∀ tr s, lexec c limit current false s1 tr s → calls_ok c d (tr1 ++ tr) → inv d False (tr1 ++ tr) s) as Hinv.
  { intros tr s He Ho. apply (lexec_inv c Hc limit current Hl d False (tr1 ++ tr) s); [by eapply lexec_trans|done|done]. }
  enough (jammed s2 n b v ∧ jam_readers s2 n b ∧ ∀ t r, LDone t (LRead n KBytes) r ∈ tr2 → r = cached_read c (default Panic v) KBytes) by naive_solver.
  revert Hok Hnc. induction He2 as [|tr sa sb He2 IH Hst|tr sa e sb He2 IH Hst]; intros Hok Hnc.
  - split_and!; [done|done|]. intros t r []%elem_of_nil.
  - destruct (IH Hok Hnc) as (H1 & H2 & H3). split_and!; [|by eapply jam_readers_step|done].
    eapply jammed_step; [done|by eapply Hinv|done|done|done].
  - assert (calls_ok c d (tr1 ++ tr)) as Hok'. { eapply calls_prefix_app. by rewrite <- app_assoc. }
    rewrite not_elem_of_app, elem_of_list_singleton in Hnc. destruct Hnc as [Hnc Hne].
    destruct (IH Hok' Hnc) as (H1 & H2 & H3). split_and!; [|by eapply jam_readers_step|].
    + eapply jammed_step; [done|by eapply Hinv|done|done|congruence].
    + intros t r [?|Hd%elem_of_list_singleton]%elem_of_app; [by eapply H3|]. subst e.
      inversion Hst as [|t0 o0 p0 e0 s0 Ht0 Hs0| |]; subst.
      assert (t0 = t ∧ o0 = LRead n KBytes) as [-> ->] by (by inversion Hs0).
      destruct H1 as [Hp Hb]. destruct (H2 _ _ Ht0) as [->| -> ]; inversion Hs0; subst; [congruence|].
      match goal with H : l_barriers _ !! b = _ |- _ => rewrite Hb in H; injection H as <- <- end. by destruct v.
Qed.

(** ** C32 *)
(** loading a layer that fits, when no other call is running *)
Lemma load_one limit s t b n x : l_tasks s !! t = None → l_barriers s !! b = None → cpeek (l_cache s) n = None →
  l_disk s !! n = Some x → length x ≤ limit →
  ∃ s', lexec c limit 0 false s [LCall t (LRead n KBytes); LDone t (LRead n KBytes) (Ok (RBytes x))] s' ∧
    l_disk s' = l_disk s ∧ l_tasks s' = l_tasks s ∧ l_cache s' = (n, Resolved x) :: l_cache s ∧
    (∀ b', b' ≠ b → l_barriers s' !! b' = l_barriers s !! b').
Proof.
  intros Ht Hb Hp Hd Hx.
  set (s1 := run s t (LRead n KBytes) (PGet n KBytes)).
  set (s2 := run (with_barrier (with_cache s1 (cinsert (l_cache s1) n (Resolving b))) b (Barrier n true None)) t (LRead n KBytes) (PLoad n b KBytes)).
  set (s3 := run (with_barrier s2 b (Barrier n true (Some (layer_bytes (l_disk s2 !! n))))) t (LRead n KBytes) (PFill n b (layer_bytes (l_disk s2 !! n)) KBytes)).
  assert (layer_bytes (l_disk s2 !! n) = Ok x) as Hlb. { subst s2 s1. cbn [run with_barrier with_cache l_disk]. by rewrite Hd. }
  assert (l_cache s3 = (n, Resolving b) :: l_cache s) as Hc3.
  { subst s3 s2 s1. cbn [run with_barrier with_cache l_cache]. unfold cinsert. by rewrite Hp. }
  assert (fill limit 0 (l_cache s3) n (Ok x) = Some ((n, Resolved x) :: l_cache s, true)) as Hf.
  { rewrite Hc3. unfold fill, enough_space. rewrite !decide_False by lia. cbn [cpeek]. rewrite decide_True by done.
    unfold cset, cremove. rewrite filter_cons, decide_False by (cbn; tauto).
    assert (filter (λ x0 : lname * centry, x0.1 ≠ n) (l_cache s) = l_cache s) as ->; [|done].
    revert Hp. clear. induction (l_cache s) as [|[m e] ca IH]; [done|]. cbn [cpeek]. destruct (decide (m = n)) as [->|Hne]; [done|].
    intros H. rewrite filter_cons, decide_True by done. by rewrite IH. }
  eexists. split.
  - apply (le_event _ _ _ _ _ [LCall t (LRead n KBytes)] s3).
    + apply (le_tau _ _ _ _ _ _ s2); [apply (le_tau _ _ _ _ _ _ s1)|].
      * apply (le_event _ _ _ _ _ [] s); [constructor|]. by apply (l_call _ _ _ _ _ t (LRead n KBytes)).
      * apply (l_task _ _ _ _ _ t (LRead n KBytes) (PGet n KBytes)); [apply lookup_insert|]. by apply t_miss.
      * apply (l_task _ _ _ _ _ t (LRead n KBytes) (PLoad n b KBytes)); [apply lookup_insert|]. by apply t_load.
    + apply (l_task _ _ _ _ _ t (LRead n KBytes) (PFill n b (Ok x) KBytes)); [subst s3; rewrite Hlb; apply lookup_insert|].
      exact (t_fill _ _ _ _ s3 t (LRead n KBytes) n KBytes b (Ok x) _ true Hf).
  - subst s3 s2 s1. cbn [run finish with_barrier with_cache l_disk l_tasks l_cache l_barriers]. split_and!; [done| |done|].
    + rewrite !insert_insert. by apply delete_insert.
    + intros b' Hne. by rewrite !lookup_insert_ne.
Qed.
(** the cache keeps all the layers that are read *)
Lemma cache_grows limit d (l : list lname) : NoDup l → (∀ n, n ∈ l → ∃ x, d !! n = Some x ∧ length x ≤ limit) →
  ∃ tr s, lexec c limit 0 false (lru_new d) tr s ∧ l_disk s = d ∧ l_tasks s = ∅ ∧
    (∀ t o, LCall t o ∈ tr → ∃ n, n ∈ l ∧ o = LRead n KBytes) ∧ (l_cache s).*1 = l ∧
    cached_bytes (l_cache s) = sum_list ((λ n, length (default [] (d !! n))) <$> l).
Proof.
  intros Hn Hl.
  enough (∃ tr s, lexec c limit 0 false (lru_new d) tr s ∧ l_disk s = d ∧ l_tasks s = ∅ ∧ (∀ b, length l ≤ b → l_barriers s !! b = None) ∧
    (∀ t o, LCall t o ∈ tr → ∃ n, n ∈ l ∧ o = LRead n KBytes) ∧ (l_cache s).*1 = l ∧
    cached_bytes (l_cache s) = sum_list ((λ n, length (default [] (d !! n))) <$> l)) as (tr & s & ?); [exists tr, s; naive_solver|].
  induction l as [|n l IH].
  - exists [], (lru_new d). split_and!; try done; [constructor|]. intros t o []%elem_of_nil.
  - apply NoDup_cons in Hn as [Hn Hnd].
    destruct IH as (tr & s & He & Hd & Ht & Hb & Hcalls & Hk & Hs); [done|intros m Hm; apply Hl; by right|].
    destruct (Hl n) as (x & Hx & Hlen); [by left|].
    destruct (load_one limit s 0 (length l) n x) as (s' & He' & Hd' & Ht' & Hc' & Hb'); [by rewrite Ht|by apply Hb|by apply cpeek_none; rewrite Hk|by rewrite Hd|done|].
    exists (tr ++ [LCall 0 (LRead n KBytes); LDone 0 (LRead n KBytes) (Ok (RBytes x))]), s'. split_and!.
    + by eapply lexec_trans.
    + by rewrite Hd'.
    + by rewrite Ht'.
    + intros b Hlb. cbn [length] in Hlb. rewrite Hb' by lia. apply Hb. lia.
    + intros t o [H|H]%elem_of_app.
      * destruct (Hcalls _ _ H) as (m & Hm & ->). exists m. split; [by right|done].
      * apply elem_of_cons in H as [[= _ ->]|H%elem_of_list_singleton]; [|done]. exists n. split; [by left|done].
    + rewrite Hc', fmap_cons, Hk. done.
    + rewrite Hc', cached_bytes_cons, Hs, fmap_cons, Hx. done.
Qed.
(** what is in the cache fits, unless it was stored *)
Lemma cached_fits limit current d tr s n x : codec_ok c → current ≤ limit →
  lexec c limit current false (lru_new d) tr s → calls_ok c d tr → cpeek (l_cache s) n = Some (Resolved x) →
  length x ≤ limit ∨ ∃ t, LCall t (LStore n x) ∈ tr.
Proof.
  intros Hc Hl He. revert n x. induction He as [|tr s1 s2 He IH Hst|tr s1 e s2 He IH Hst]; intros n x Hok Hp.
  - done.
  - inversion Hst as [|t0 o0 p0 e0 s0 Ht0 Hs0| |]; subst.
    inversion Hs0; subst; try discriminate; cbn [run finish with_barrier with_cache with_disk l_cache] in Hp; try (by apply IH).
    + rewrite ctouch_peek in Hp. by apply IH.
    + rewrite cinsert_peek in Hp. destruct (decide _) as [->|]; [|by apply IH].
      destruct (cpeek (l_cache s1) n0) eqn:E; [congruence|done].
  - assert (calls_ok c d tr) as Hok' by (by eapply calls_prefix).
    assert (∀ n x, cpeek (l_cache s1) n = Some (Resolved x) → length x ≤ limit ∨ ∃ t, LCall t (LStore n x) ∈ tr ++ [e]) as IH'.
    { intros m y Hy. destruct (IH _ _ Hok' Hy) as [?|[t ?]]; [by left|right; exists t; by apply elem_snoc]. }
    inversion Hst as [t0 o0 Ht0|t0 o0 p0 e0 s0 Ht0 Hs0|t0 o0 p0 Ht0|]; subst.
    + by apply IH'.
    + destruct (lexec_inv c Hc limit current Hl d False tr s1 He Hok' ltac:(done)) as [Hi _].
      pose proof (i_task _ _ _ _ Hi _ _ _ Ht0) as Hpc.
      inversion Hs0; subst; try discriminate; cbn [run finish with_barrier with_cache with_disk l_cache] in Hp; try (by apply IH').
      * rewrite ctouch_peek in Hp. by apply IH'.
      * cbn [pc_ok] in Hpc. destruct Hpc as (_ & _ & Hpe).
        match goal with H : fill _ _ _ _ _ = _ |- _ => rename H into Hf end.
        pose proof (fill_spec _ _ _ _ _ _ _ _ (i_nodup _ _ _ _ Hi) Hl Hpe Hf) as (_ & _ & Hsub & _ & Hown).
        destruct (decide (n = n0)) as [->|Hne]; [|by eapply IH', Hsub].
        destruct (Hown _ Hp) as (y & -> & [= <-]). left. unfold fill in Hf.
        destruct (decide (length x ≤ limit)) as [|Hgt]; [done|exfalso]. unfold enough_space in Hf. rewrite decide_True in Hf by lia.
        unfold cdrop in Hf. rewrite Hpe in Hf. injection Hf as <- <-. rewrite cpeek_remove, decide_True in Hp by done. done.
      * cbn [pc_ok] in Hpc. destruct Hpc as [-> Hd]. rewrite cinsert_peek in Hp. destruct (decide _) as [->|]; [|by apply IH'].
        destruct (cpeek (l_cache s1) n0) eqn:E; [apply IH'; congruence|]. injection Hp as ->. right. exists t0. apply elem_snoc.
        eapply (task_called c limit current d false); done.
    + destruct p0; by apply IH'.
    + done.
Qed.
End api.
