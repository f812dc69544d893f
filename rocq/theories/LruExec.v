(** Runs of the archive cache *)
From Verif Require Import Prelude ListFacts Names FileNames Archive ArchiveFacts ArchiveStore Lru SpecLru LruFacts LruInv.

Section exec.
Context (c : codec) (Hc : codec_ok c) (limit current : nat) (Hlim : current ≤ limit) (d0 : gmap lname bytes) (strict : Prop).

Lemma stored_same tr t n x t1 x1 : calls_ok c d0 tr → LCall t (LStore n x) ∈ tr → LCall t1 (LStore n x1) ∈ tr → t1 = t ∧ x1 = x.
Proof.
  intros (_ & _ & _ & Honce) (a & b & ->)%elem_of_list_split H1. destruct (Honce a t n x b eq_refl) as [_ Ha].
  apply elem_of_app in H1 as [H1|[H1|H1]%elem_of_cons]; [by destruct (Ha _ _ H1)|by injection H1 as -> ->|].
  apply elem_of_list_split in H1 as (b1 & b2 & ->).
  destruct (Honce (a ++ LCall t (LStore n x) :: b1) t1 n x1 b2) as [_ Hb]; [by rewrite <- app_assoc|].
  destruct (Hb t x). apply elem_of_app. right. apply elem_of_cons. by left.
Qed.
Lemma calls_prefix tr e : calls_ok c d0 (tr ++ [e]) → calls_ok c d0 tr.
Proof.
  intros (H1 & H2 & H3 & H4). split_and!; [done| | |].
  - intros t o H. apply (H2 t). by apply elem_snoc.
  - intros t n x H. apply (H3 t n). by apply elem_snoc.
  - intros tr1 t n x tr2 ->. apply (H4 tr1 t n x (tr2 ++ [e])). by rewrite <- app_assoc.
Qed.
Lemma no_cancel_prefix tr e : no_cancel (tr ++ [e]) → no_cancel tr.
Proof. intros H t Ht. apply (H t). by apply elem_snoc. Qed.
Lemma disk_archive tr s n x : calls_ok c d0 tr → inv d0 strict tr s → l_disk s !! n = Some x → is_archive c x.
Proof.
  intros (H1 & _ & H3 & _) Hi Hx. destruct (i_disk _ _ _ _ Hi _ _ Hx) as [H|[t H]]; [by apply (H1 n)|by apply (H3 t n)].
Qed.

(** ** Answers *)
Definition read_ok (tr : list levent) (d : gmap lname bytes) (n : lname) (k : lread) (r : outcome lres) : Prop :=
  (∃ x, d !! n = Some x ∧ r = origin_read c (Some x) k) ∨ r = Err NotFound ∨ load_error tr n r ∨ (¬ strict ∧ r = Panic).
Definition done_ok (tr : list levent) (d : gmap lname bytes) (o : lop) (r : outcome lres) : Prop :=
  match o with
  | LRead n k => read_ok tr d n k r
  | LQuery n q => (∃ x, d !! n = Some x ∧ r = origin_query c (Some x) q) ∨ r = origin_query c None q ∨ load_error tr n r
  | LStore n x => (r = Ok RStored ∧ d !! n = Some x) ∨ load_error tr n r
  end.
Lemma done_mono tr tr' d d' o r : done_ok tr d o r → (∀ e, e ∈ tr → e ∈ tr') → (∀ n x, d !! n = Some x → d' !! n = Some x) → done_ok tr' d' o r.
Proof.
  intros H Ht Hd. destruct o as [n k|n q|n x]; cbn [done_ok] in *.
  - destruct H as [(x & H & ->)|[->|[(e & -> & H)|H]]]; [left; eauto|right; by left|right; right; left; exists e; eauto|by right; right; right].
  - destruct H as [(x & H & ->)|[->|(e & -> & H)]]; [left; eauto|right; by left|right; right; exists e; eauto].
  - destruct H as [[-> H]|(e & -> & H)]; [left; eauto|right; exists e; eauto].
Qed.
Lemma cached_good tr s n k r : calls_ok c d0 tr → inv d0 strict tr s → op_ok (LRead n k) → good tr (l_disk s) n r → read_ok tr (l_disk s) n k (cached_read c r k).
Proof.
  intros Hok Hi Hop [(x & -> & Hx)|[->|(e & -> & He)]].
  - left. exists x. split; [done|]. eapply cached_read_archive; [done|by eapply disk_archive|done].
  - right; left. by rewrite cached_read_err.
  - right; right; left. exists e. by rewrite cached_read_err.
Qed.
Lemma fits_err s n e : fits limit s n = Err e → Err (A := lres) e = Err NotFound.
Proof.
  unfold fits. destruct (decide _); [done|].
  destruct (cpeek (l_cache s) n) as [[]|]; [|done|]; destruct (l_disk s !! n); cbn; congruence.
Qed.
Lemma tstep_done tr s t o p s' t' o' r : calls_ok c d0 tr → inv d0 strict tr s → l_tasks s !! t = Some (o, p) → op_ok o →
  tstep c limit current false s t o p (Some (LDone t' o' r)) s' → t' = t ∧ o' = o ∧ done_ok tr (l_disk s) o r.
Proof.
  intros Hok Hi Ht Hop Hst. pose proof (i_task _ _ _ _ Hi _ _ _ Ht) as Hpc.
  remember (Some (LDone t' o' r)) as ev eqn:Eev.
  destruct Hst as [n0 k0 Hf|n0 k0 Hf|n0 k0 e Hf|n0 k0|n0 k0 x0 Hx|n0 k0 b Hb|n0 k0 b Hp Hb|n0 k0 b m v Hb|n0 k0 b|n0 k0 b e|n0 k0 b r0 ca ok Hf|n0 q|n0 x0|n0 x0 pos k0 Hpi|n0 x0 Hpi|n0 x0|n0 k0 Hf|n0 k0 Hf|n0 k0 e Hf|n0 k0|p n0 e Hf|n0 e];
    try discriminate Eev; injection Eev as <- <- <-; cbn [pc_ok] in Hpc; split; try done; split; try done.
  - subst o. cbn [done_ok]. right; left. by eapply fits_err.
  - subst o. cbn [done_ok]. destruct (l_disk s !! n0) as [x|] eqn:E; [left; eauto|right; left; apply origin_read_none].
  - subst o. cbn [done_ok]. apply cached_good; [done|done|done|]. left. exists x0. split; [done|]. by apply (i_resolved _ _ _ _ Hi).
  - destruct Hpc as (-> & h & v' & Hv). rewrite Hb in Hv. injection Hv as -> <- <-. cbn [done_ok].
    pose proof (i_barrier _ _ _ _ Hi _ _ _ _ Hb) as Hg. destruct v as [r0|]; [by apply cached_good|]. right; right; right. split; [|by rewrite cached_read_err].
    intros Hstr. by specialize (Hg Hstr).
  - destruct Hpc as (-> & Hb & Hp). cbn [done_ok].
    destruct (fill_spec limit current (l_cache s) n0 b r0 ca ok (i_nodup _ _ _ _ Hi) Hlim Hp Hf) as (-> & _).
    apply cached_good; [done|done|done|]. exact (i_barrier _ _ _ _ Hi _ _ _ _ Hb).
  - subst o. cbn [done_ok]. unfold query. destruct (cpeek (l_cache s) n0) as [[b|x]|] eqn:E.
    + destruct (l_disk s !! n0) as [x|] eqn:E'; [left; eauto|by right; left].
    + left. exists x. pose proof (i_resolved _ _ _ _ Hi _ _ E) as Hx. split; [done|].
      eapply cached_query_archive; [done|by eapply disk_archive|done].
    + destruct (l_disk s !! n0) as [x|] eqn:E'; [left; eauto|by right; left].
  - destruct Hpc as (-> & Hd). by left.
  - subst o. cbn [done_ok]. right; left. by eapply fits_err.
  - subst o. cbn [done_ok]. destruct (l_disk s !! n0) as [x|] eqn:E; [|right; left; apply slice_read_none].
    left. exists x. split; [done|]. eapply slice_read_archive; [done|by eapply disk_archive|done].
  - destruct Hpc as [Hl He]. assert (load_error tr n0 (Err (A := lres) e)) as Hle by (exists e; done).
    destruct o; cbn [op_layer] in Hl; subst n0; cbn [done_ok]; [right; right; by left|by right; right|by right].
Qed.
Lemma tstep_disk tr s t o p e s' n x : inv d0 strict tr s → l_tasks s !! t = Some (o, p) → tstep c limit current false s t o p e s' →
  l_disk s !! n = Some x → l_disk s' !! n = Some x.
Proof.
  intros Hi Ht Hst Hx. pose proof (i_task _ _ _ _ Hi _ _ _ Ht) as Hpc. destruct Hst; try done.
  cbn [run with_disk l_disk]. destruct Hpc as (_ & Hn & _). rewrite lookup_insert_ne; [done|]. intros <-. by rewrite Hn in Hx.
Qed.
Lemma inv_restart tr s : inv d0 strict tr s → inv d0 strict tr (lru_new (l_disk s)).
Proof.
  intros []. split; cbn [lru_new l_cache l_barriers l_tasks l_disk]; try done.
  - constructor.
Qed.
Lemma start_not_resolving o n b : ¬ resolves (op_start o) n b.
Proof. destruct o as [? []| |]; by intros [(k & ?)|(r & k & ?)]. Qed.
Lemma task_called (pieces : bool) tr s t o p : lexec c limit current pieces (lru_new d0) tr s → l_tasks s !! t = Some (o, p) → LCall t o ∈ tr.
Proof.
  intros He; revert t o p. induction He as [|tr s1 s2 He IH Hst|tr s1 e s2 He IH Hst]; intros t o p.
  - cbn. by rewrite lookup_empty.
  - inversion Hst as [|t0 o0 p0 e0 s0 Ht0 Hs0| |]; subst.
    assert (∀ t o p, l_tasks s2 !! t = Some (o, p) → ∃ p', l_tasks s1 !! t = Some (o, p')) as Hk.
    { intros t1 o1 p1. inversion Hs0; subst; cbn [run finish with_barrier with_cache with_disk l_tasks]; 
        rewrite lookup_insert_Some; (intros [[<- [= <- <-]]|[_ ?]]; eauto). }
    intros H. destruct (Hk _ _ _ H) as [p' H']. by eapply IH.
  - intros H. inversion Hst as [t0 o0 Ht0|t0 o0 p0 e0 s0 Ht0 Hs0|t0 o0 p0 Ht0|]; subst; cbn [run l_tasks] in H.
    + apply lookup_insert_Some in H as [[<- [= <- <-]]|[_ H]]; [apply elem_last|]. apply elem_snoc. by eapply IH.
    + apply elem_snoc. inversion Hs0; subst; cbn [run finish with_barrier with_cache with_disk l_tasks] in H;
        (apply lookup_delete_Some in H as [_ H] || apply lookup_insert_Some in H as [[<- [= <- <-]]|[_ H]]); by eapply IH.
    + apply elem_snoc. cbn [finish l_tasks] in H. apply lookup_delete_Some in H as [_ H]. destruct p0; cbn in H; by eapply IH.
    + cbn in H. by rewrite lookup_empty in H.
Qed.
Lemma lexec_inv tr s : lexec c limit current false (lru_new d0) tr s → calls_ok c d0 tr → (strict → no_cancel tr) →
  inv d0 strict tr s ∧ (∀ t o r, LDone t o r ∈ tr → done_ok tr (l_disk s) o r).
Proof.
  intros He. induction He as [|tr s1 s2 He IH Hst|tr s1 e s2 He IH Hst]; intros Hok Hnc.
  - split; [apply inv_new|]. by intros t o r ?%elem_of_nil.
  - destruct (IH Hok Hnc) as [Hi Hd]. inversion Hst as [|t0 o0 p0 e0 s0 Ht0 Hs0| |]; subst. split.
    + eapply inv_tstep; [done|exact Hi|exact Ht0|exact Hs0|done|]. intros n x t1 x1 H1 H2. by eapply stored_same.
    + intros t o r H. eapply done_mono; [by apply (Hd t)|done|]. intros n x. by eapply tstep_disk.
  - destruct (IH (calls_prefix _ _ Hok) (λ Hs, no_cancel_prefix _ _ (Hnc Hs))) as [Hi Hd].
    assert (inv d0 strict (tr ++ [e]) s1) as Hi' by (eapply inv_trace; [done|by intros; apply elem_snoc]).
    inversion Hst as [t0 o0 Ht0|t0 o0 p0 e0 s0 Ht0 Hs0|t0 o0 p0 Ht0|]; subst.
    + split.
      * apply inv_run; [done| |apply start_not_resolving|]; [intros o' p; by rewrite Ht0|].
        destruct o0 as [n []| |n x]; cbn [op_start pc_ok]; try done. split_and!; try done; [|apply elem_last].
        destruct Hok as (_ & _ & _ & Honce). destruct (Honce tr t0 n x [] eq_refl) as [H1 H2].
        destruct (l_disk (run s1 t0 (LStore n x) (PStore n x 0)) !! n) as [y|] eqn:E; [|done]. cbn [run l_disk] in E.
        destruct (i_disk _ _ _ _ Hi _ _ E) as [H|[t H]]; [congruence|by destruct (H2 _ _ H)].
      * intros t o r [H|H%elem_of_list_singleton]%elem_of_app; [|done].
        eapply done_mono; [by apply (Hd t)|by intros; apply elem_snoc|done].
    + split.
      * eapply inv_tstep; [done|exact Hi'|exact Ht0|exact Hs0| |].
        -- intros n k [= ->]. apply elem_last.
        -- intros n x t1 x1 H1 H2. by eapply stored_same.
      * intros t o r [H|H%elem_of_list_singleton]%elem_of_app.
        -- eapply done_mono; [by apply (Hd t)|by intros; apply elem_snoc|]. intros n x. by eapply (tstep_disk (tr ++ [e])).
        -- subst e. assert (op_ok o0) as Hop.
           { destruct Hok as (_ & H2 & _). apply (H2 t0). apply elem_snoc. by eapply task_called. }
           destruct (tstep_done _ _ _ _ _ _ _ _ _ Hok Hi' Ht0 Hop Hs0) as (-> & -> & Hr).
           eapply done_mono; [exact Hr|done|]. intros n x. by eapply tstep_disk.
    + split.
      * eapply inv_cancel; [done| |exact Ht0]. intros Hs. destruct (Hnc Hs t0). apply elem_last.
      * intros t o r [H|H%elem_of_list_singleton]%elem_of_app; [|done].
        eapply done_mono; [by apply (Hd t)|by intros; apply elem_snoc|]. by destruct p0.
    + split; [by apply inv_restart|]. intros t o r [H|H%elem_of_list_singleton]%elem_of_app; [|done].
      eapply done_mono; [by apply (Hd t)|by intros; apply elem_snoc|done].
Qed.

(** ** After a layer has been stored *)
Definition refs (s : lstate) (n : lname) (b : nat) : Prop :=
  cpeek (l_cache s) n = Some (Resolving b) ∨ ∃ t o k, l_tasks s !! t = Some (o, PWait n b k).
Definition settled (tr : list levent) (s : lstate) (n : lname) (x : bytes) : Prop :=
  l_disk s !! n = Some x ∧
  (∀ b h v, refs s n b → l_barriers s !! b = Some (Barrier n h v) →
    match v with None => True | Some r => r = Ok x ∨ load_error tr n r end) ∧
  ∀ t o e, l_tasks s !! t = Some (o, PFail n e) → LIoError n e ∈ tr.
Lemma settled_mono tr tr' s n x : settled tr s n x → (∀ e, e ∈ tr → e ∈ tr') → settled tr' s n x.
Proof.
  intros (H1 & H2 & H3) Ht. split_and!; [done| |intros t o e H; by eapply Ht, H3]. intros b h v Hr Hb. specialize (H2 _ _ _ Hr Hb). destruct v; [|done].
  destruct H2 as [->|(k & -> & H)]; [by left|right; exists k; eauto].
Qed.
(** when the layer is in nobody's hands *)
Lemma settled_idle tr tr' s n x : strict → inv d0 strict tr s → l_disk s !! n = Some x →
  (∀ t o p, l_tasks s !! t = Some (o, p) → op_layer o ≠ n) → settled tr' s n x.
Proof.
  intros Hstr Hi Hd Hidle. split_and!; [done| |].
  2:{ intros t o e Ht. destruct (Hidle _ _ _ Ht). pose proof (i_task _ _ _ _ Hi _ _ _ Ht) as Hok. by destruct Hok. }
  intros b h v [Hr|(t & o & k & Ht)] _; exfalso.
  - destruct (i_resolving _ _ _ _ Hi Hstr _ _ Hr) as (t & o & p & Ht & Hp). apply (Hidle _ _ _ Ht).
    pose proof (i_task _ _ _ _ Hi _ _ _ Ht) as Hok. destruct Hp as [(k & ->)|(r & k & ->)]; cbn [pc_ok] in Hok; by destruct Hok as [-> _].
  - apply (Hidle _ _ _ Ht). pose proof (i_task _ _ _ _ Hi _ _ _ Ht) as Hok. cbn [pc_ok] in Hok. by destruct Hok as [-> _].
Qed.
Lemma settled_sub tr s s' n x : settled tr s n x → l_disk s' !! n = Some x →
  (∀ b, refs s' n b → refs s n b) → (∀ b, refs s n b → l_barriers s' !! b = l_barriers s !! b) →
  (∀ t o e, l_tasks s' !! t = Some (o, PFail n e) → LIoError n e ∈ tr) → settled tr s' n x.
Proof.
  intros (_ & H2 & _) Hd Hr Hb Hf. split_and!; [done| |done]. intros b h v Hrb Hbb. apply Hr in Hrb. rewrite Hb in Hbb by done. by eapply H2.
Qed.
Lemma refs_run s t o p n b : refs (run s t o p) n b → refs s n b ∨ ∃ k, p = PWait n b k.
Proof.
  intros [H|(t' & o' & k & H)]; [by left; left|]. cbn [run l_tasks] in H.
  apply lookup_insert_Some in H as [[_ [= _ ->]]|[_ H]]; [right; eauto|left; right; eauto].
Qed.
Lemma refs_finish s t n b : refs (finish s t) n b → refs s n b.
Proof. intros [H|(t' & o' & k & H)]; [by left|]. cbn [finish l_tasks] in H. apply lookup_delete_Some in H as [_ H]. right; eauto. Qed.
Lemma refs_cache s ca n b : (∀ m b, cpeek ca m = Some (Resolving b) → cpeek (l_cache s) m = Some (Resolving b)) → refs (with_cache s ca) n b → refs s n b.
Proof. intros He [H|H]; [left; by apply He|by right]. Qed.

Lemma fail_tstep (tr' : list levent) s t o p e s' n : (∀ t o e, l_tasks s !! t = Some (o, PFail n e) → LIoError n e ∈ tr') →
  tstep c limit current false s t o p e s' → (∀ n k, e = Some (LIoError n k) → LIoError n k ∈ tr') →
  ∀ t o e, l_tasks s' !! t = Some (o, PFail n e) → LIoError n e ∈ tr'.
Proof.
  intros Hf Hst Hio t1 o1 e1. destruct Hst; cbn [run finish with_barrier with_cache with_disk l_tasks];
    (intros [_ Hx1]%lookup_delete_Some || intros [[_ Hx1]|[_ Hx1]]%lookup_insert_Some); try exact (Hf _ _ _ Hx1); try discriminate Hx1.
  - by destruct k.
  - injection Hx1 as E1 E2 E3. rewrite <- E2, <- E3. exact (Hio _ _ eq_refl).
Qed.
Lemma settled_tstep tr tr' s t o p e s' n x : calls_ok c d0 tr → inv d0 strict tr s → settled tr' s n x → l_tasks s !! t = Some (o, p) → 
  tstep c limit current false s t o p e s' → (∀ n k, e = Some (LIoError n k) → LIoError n k ∈ tr') → settled tr' s' n x.
Proof.
  intros Hok Hi Hs Ht Hst Hio. pose proof (i_task _ _ _ _ Hi _ _ _ Ht) as Hpc. pose proof Hs as (Hd & Href & Hfail).
  assert (l_disk s' !! n = Some x) as Hd' by (by eapply tstep_disk).
  assert (∀ t o e, l_tasks s' !! t = Some (o, PFail n e) → LIoError n e ∈ tr') as Hfail' by (by eapply fail_tstep).
  destruct Hst as [n0 k Hf|n0 k Hf|n0 k e Hf|n0 k|n0 k x0 Hx|n0 k b Hb|n0 k b Hp Hb|n0 k b m v Hb|n0 k b|n0 k b e|n0 k b r ca ok Hf|n0 q|n0 x0|n0 x0 pos k Hpi|n0 x0 Hpi|n0 x0|n0 k Hf|n0 k Hf|n0 k e Hf|n0 k|p n0 e Hf|n0 e];
    cbn [pc_ok] in Hpc.
  - eapply settled_sub; [done|done| |done|done]. intros b [H|(k' & ?)]%refs_run; [done|by destruct k].
  - eapply settled_sub; [done|done| |done|done]. intros b [H|(k' & ?)]%refs_run; done.
  - eapply settled_sub; [done|done| |done|done]. by intros b H%refs_finish.
  - eapply settled_sub; [done|done| |done|done]. by intros b H%refs_finish.
  - eapply settled_sub; [done|done| |done|done]. intros b H%refs_finish. eapply refs_cache, H. intros m b'. by rewrite ctouch_peek.
  - eapply settled_sub; [done|done| |done|done]. intros b' [H|(k' & [= <- <- <-])]%refs_run; [|by left].
    eapply refs_cache, H. intros m b''. by rewrite ctouch_peek.
  - split_and!; [done| |done]. intros b' h v Hr Hv. cbn [run with_barrier with_cache l_barriers] in Hv.
    destruct (decide (b' = b)) as [->|Hne]; [rewrite lookup_insert in Hv; by injection Hv as <- <- <-|].
    rewrite lookup_insert_ne in Hv by done. apply (Href b' h); [|done].
    apply refs_run in Hr as [Hr|(k' & ?)]; [|done]. destruct Hr as [Hr|Hr]; [|by right]. left.
    cbn [with_barrier with_cache l_cache] in Hr. rewrite cinsert_peek, Hp in Hr. destruct (decide _); [congruence|done].
  - eapply settled_sub; [done|done| |done|done]. by intros b' H%refs_finish.
  - split_and!; [done| |done]. intros b' h v Hr Hv. cbn [run with_barrier l_barriers] in Hv. apply refs_run in Hr as [Hr|(k' & ?)]; [|done].
    destruct (decide (b' = b)) as [->|Hne].
    + rewrite lookup_insert in Hv. injection Hv as <- <- <-. left. rewrite Hd. done.
    + rewrite lookup_insert_ne in Hv by done. by apply (Href b' h).
  - split_and!; [done| |done]. intros b' h v Hr Hv. cbn [run with_barrier l_barriers] in Hv. apply refs_run in Hr as [Hr|(k' & ?)]; [|done].
    destruct (decide (b' = b)) as [->|Hne].
    + rewrite lookup_insert in Hv. injection Hv as <- <- <-. right. exists e. split; [done|]. by apply Hio.
    + rewrite lookup_insert_ne in Hv by done. by apply (Href b' h).
  - destruct Hpc as (-> & Hbar & Hpeek).
    destruct (fill_spec limit current (l_cache s) n0 b r ca ok (i_nodup _ _ _ _ Hi) Hlim Hpeek Hf) as (_ & _ & Hsub & _ & Hown).
    split_and!; [done| |done]. intros b' h v Hr%refs_finish Hv.
    assert (refs s n b') as Hr'.
    { eapply (refs_cache s ca); [|destruct Hr as [Hr|Hr]; [by left|by right]]. intros m b'' Hm.
      destruct (decide (m = n0)) as [->|]; [by destruct (Hown _ Hm) as (y & _ & ?)|by apply Hsub]. }
    cbn [finish with_barrier with_cache l_barriers] in Hv. destruct (decide (b' = b)) as [->|Hne].
    + rewrite lookup_insert in Hv. injection Hv as <- <- <-. by apply (Href b true (Some r)).
    + rewrite lookup_insert_ne in Hv by done. by apply (Href b' h).
  - eapply settled_sub; [done|done| |done|done]. by intros b' H%refs_finish.
  - eapply settled_sub; [done|done| |done|done]. by intros b [H|(k' & ?)]%refs_run.
  - done.
  - done.
  - eapply settled_sub; [done|done| |done|done]. intros b H%refs_finish. eapply refs_cache, H. intros m b'. rewrite cinsert_peek.
    destruct (decide (m = n0)) as [->|]; [|done]. by destruct (cpeek (l_cache s) n0).
  - eapply settled_sub; [done|done| |done|done]. by intros b [H|(k' & ?)]%refs_run.
  - eapply settled_sub; [done|done| |done|done]. by intros b [H|(k' & ?)]%refs_run.
  - eapply settled_sub; [done|done| |done|done]. by intros b H%refs_finish.
  - eapply settled_sub; [done|done| |done|done]. by intros b H%refs_finish.
  - eapply settled_sub; [done|done| |done|done]. by intros b [H|(k' & ?)]%refs_run.
  - eapply settled_sub; [done|done| |done|done]. by intros b H%refs_finish.
Qed.
Lemma settled_done tr tr' s t o p s' n x k r : strict → calls_ok c d0 tr → inv d0 strict tr s → settled tr' s n x → l_tasks s !! t = Some (o, p) → op_ok o →
  tstep c limit current false s t o p (Some (LDone t o r)) s' → 
  (o = LRead n k → r = origin_read c (Some x) k ∨ load_error tr' n r) ∧ (∀ q, o = LQuery n q → r = origin_query c (Some x) q ∨ load_error tr' n r).
Proof.
  intros Hstr Hok Hi (Hd & Href & Hfail) Ht Hop Hst. pose proof (i_task _ _ _ _ Hi _ _ _ Ht) as Hpc.
  assert (is_archive c x) as Hax by (by eapply disk_archive).
  destruct (tstep_done _ _ _ _ _ _ _ _ _ Hok Hi Ht Hop Hst) as (_ & _ & Hdone).
  split.
  - intros ->. assert (∀ r0, r0 = Ok x ∨ load_error tr' n r0 → cached_read c r0 k = origin_read c (Some x) k ∨ load_error tr' n (cached_read c r0 k)) as Hcr.
    { intros r0 [->|(e & -> & He)]; [left; by eapply cached_read_archive|right; exists e; by rewrite cached_read_err]. }
    remember (Some (LDone t (LRead n k) r)) as ev eqn:Eev. remember (LRead n k) as o eqn:Eo.
    destruct Hst as [n0 k0 Hf|n0 k0 Hf|n0 k0 e Hf|n0 k0|n0 k0 x0 Hx|n0 k0 b Hb|n0 k0 b Hp Hb|n0 k0 b m v Hb|n0 k0 b|n0 k0 b e|n0 k0 b r0 ca ok Hf|n0 q|n0 x0|n0 x0 pos k0 Hpi|n0 x0 Hpi|n0 x0|n0 k0 Hf|n0 k0 Hf|n0 k0 e Hf|n0 k0|p n0 e Hf|n0 e];
      try discriminate Eev; injection Eev as <-; cbn [pc_ok] in Hpc; subst o.
    + exfalso. injection Hpc as <- <-. unfold fits in *. destruct (decide _); [done|].
      destruct (cpeek (l_cache s) n) as [[]|]; rewrite ?Hd in *; done.
    + injection Hpc as <- <-. left. by rewrite Hd.
    + injection Hpc as <- <-. apply Hcr. left. rewrite (i_resolved _ _ _ _ Hi _ _ Hx) in Hd. by injection Hd as ->.
    + destruct Hpc as ([= <- <-] & h & v' & Hv). rewrite Hb in Hv. injection Hv as -> <- <-.
      pose proof (i_barrier _ _ _ _ Hi _ _ _ _ Hb) as Hg. destruct v as [r0|]; [|by specialize (Hg Hstr)]. apply Hcr.
      apply (Href b false (Some r0)); [|done]. right. eauto.
    + destruct Hpc as ([= <- <-] & Hb & Hp).
      destruct (fill_spec limit current (l_cache s) n b r0 ca ok (i_nodup _ _ _ _ Hi) Hlim Hp Hf) as (-> & _).
      apply Hcr. apply (Href b true (Some r0)); [by left|done].
    + done.
    + by destruct Hpc.
    + exfalso. injection Hpc as <- <-. unfold fits in *. destruct (decide _); [done|].
      destruct (cpeek (l_cache s) n) as [[]|]; rewrite ?Hd in *; done.
    + injection Hpc as <- <-. left. rewrite Hd. by eapply slice_read_archive.
    + destruct Hpc as [<- _]. right. exists e. split; [done|]. by eapply Hfail.
  - intros q0 ->. cbn [done_ok] in Hdone.
    remember (Some (LDone t (LQuery n q0) r)) as ev eqn:Eev. remember (LQuery n q0) as o eqn:Eo.
    destruct Hst as [n0 k0 Hf|n0 k0 Hf|n0 k0 e Hf|n0 k0|n0 k0 x0 Hx|n0 k0 b Hb|n0 k0 b Hp Hb|n0 k0 b m v Hb|n0 k0 b|n0 k0 b e|n0 k0 b r0 ca ok Hf|n0 q|n0 x0|n0 x0 pos k0 Hpi|n0 x0 Hpi|n0 x0|n0 k0 Hf|n0 k0 Hf|n0 k0 e Hf|n0 k0|p n0 e Hf|n0 e];
      try discriminate Eev; injection Eev as <-; cbn [pc_ok] in Hpc; subst o; try done; try by destruct Hpc.
    2:{ destruct Hpc as [<- _]. right. exists e. split; [done|]. by eapply Hfail. }
    left. injection Hpc as <- <-. unfold query. destruct (cpeek (l_cache s) n) as [[b|y]|] eqn:E; rewrite ?Hd; try done.
    rewrite (i_resolved _ _ _ _ Hi _ _ E) in Hd. injection Hd as ->. by eapply cached_query_archive.
Qed.
End exec.
