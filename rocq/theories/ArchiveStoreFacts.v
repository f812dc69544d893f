(** Proofs about the readers and the archive store *)
From Verif Require Import Prelude ListFacts Names NamesFacts FileNames Archive ArchiveFacts ArchiveStore SpecArchive.

(** ** Readers *)
Lemma delivered_snoc tr x : delivered (tr ++ [x]) = delivered tr ++ match x.2 with PollOk b => b | _ => [] end.
Proof. unfold delivered. rewrite fmap_app, mjoin_app2. f_equal. cbn. by rewrite app_nil_r. Qed.
Lemma reads_snoc data tr room p :
  reads_exactly data tr →
  (p ≠ PollErr ∧ ∀ b, p = PollOk b → length b ≤ room ∧ ∃ rest, data = delivered tr ++ b ++ rest) →
  (p = PollOk [] → 0 < room → delivered tr = data) →
  reads_exactly data (tr ++ [(room, p)]).
Proof.
  intros (H1 & H2 & H3) [Hp Hb] He. split_and!.
  - rewrite delivered_snoc. cbn [snd]. destruct p as [|b|]; [by rewrite app_nil_r| |done].
    destruct (Hb b eq_refl) as [_ [rest ->]]. exists rest. by rewrite <- app_assoc.
  - intros r q [Hin|Hin]%elem_of_app; [by apply H2|]. apply elem_of_list_singleton in Hin as [= -> ->].
    split; [done|]. intros b Eb. by apply (Hb b Eb).
  - intros tr1 r tr2 E Hr. destruct tr2 as [|y tr2 _] using rev_ind.
    + apply app_inj_tail in E as [-> [= -> ->]]. by apply He.
    + rewrite app_comm_cons, app_assoc in E. apply app_inj_tail in E as [-> _]. by apply (H3 tr1 r tr2).
Qed.
Lemma reads_nil data : reads_exactly data [].
Proof.
  split_and!; [by exists data|by intros ?? Hx%not_elem_of_nil|]. intros tr1 r tr2 E. by destruct tr1.
Qed.

Lemma bytes_polls data tr s : polls bytes_step data tr s → reads_exactly data tr ∧ data = delivered tr ++ s.
Proof.
  induction 1 as [|tr s1 room p s2 _ [IH E] Hstep]; [split; [apply reads_nil|done]|].
  destruct Hstep as (b & Hp & ->). unfold bytes_poll in Hp.
  assert (s1 = b ++ s2 ∧ length b ≤ room ∧ (b = [] → 0 < room → s1 = [])) as (Hs & Hl & Hn).
  { case_decide as Hd; injection Hp as <- <-.
    - rewrite app_nil_r. split_and!; [done|lia|done].
    - rewrite take_drop. split_and!; [done|rewrite take_length; lia|]. intros Ht Hr.
      apply (f_equal length) in Ht. rewrite take_length in Ht. cbn in Ht. apply nil_length_inv. lia. }
  split.
  - apply reads_snoc; [done| |].
    + split; [done|]. intros ? [= <-]. split; [done|]. exists s2. by rewrite E, Hs.
    + intros [= ->] Hr. rewrite E, (Hn eq_refl Hr). by rewrite app_nil_r.
  - rewrite delivered_snoc. cbn [snd]. by rewrite <- app_assoc, <- Hs.
Qed.

Lemma slice_polls data junk tr s : polls (slice_step false) (data ++ junk, length data) tr s →
  reads_exactly data tr ∧ ∃ d, data = delivered tr ++ d ∧ s.2 = length d ∧ (d ≠ [] → s.1 = d ++ junk).
Proof.
  induction 1 as [|tr s1 room p s2 _ (IH & d & E & Hr & Hf) Hstep]; [split; [apply reads_nil|by exists data]|].
  destruct Hstep as (o & Ho & He & Hp). specialize (He eq_refl). destruct s1 as [rest rem]. cbn [fst snd] in *. subst rem.
  unfold slice_poll in Hp. case_decide as Hd.
  { injection Hp as <- <-. apply nil_length_inv in Hd as ->. rewrite app_nil_r in E. split.
    - apply reads_snoc; [done| |done]. split; [done|]. intros ? [= <-]. split; [cbn; lia|]. exists []. by rewrite !app_nil_r.
    - exists []. rewrite delivered_snoc. cbn [snd]. rewrite !app_nil_r. split_and!; [done|done|done]. }
  assert (d ≠ []) as Hdn by (by intros ->). specialize (Hf Hdn). subst rest.
  destruct o as [| |k]; [|done|].
  { injection Hp as <- <-. split.
    - apply reads_snoc; [done| |done]. by split.
    - exists d. rewrite delivered_snoc. cbn [snd]. by rewrite app_nil_r. }
  destruct Ho as (Hk & Hkl & Hk0). case_decide as Hlt; injection Hp as <- <-; cbn [fst snd].
  - rewrite take_app. split.
    + apply reads_snoc; [done| |].
      * split; [done|]. intros ? [= <-]. split; [lia|]. exists []. by rewrite app_nil_r.
      * intros [= Hx]. by rewrite Hx in Hdn.
    + exists []. rewrite delivered_snoc. cbn [snd]. by rewrite app_nil_r.
  - rewrite take_app_le, drop_app_le by lia. split.
    + apply reads_snoc; [done| |].
      * split; [done|]. intros ? [= <-]. rewrite take_length. split; [lia|]. exists (drop k d). by rewrite take_drop.
      * intros [= Hx] Hroom. apply (f_equal length) in Hx. rewrite take_length in Hx. cbn in Hx.
        destruct (Hk0 ltac:(destruct d; [done|]; cbn in *; lia)) as [?|Hn]; [lia|].
        apply app_eq_nil in Hn as [-> _]. done.
    + exists (drop k d). rewrite delivered_snoc. cbn [snd]. rewrite <- app_assoc, take_drop, drop_length. done.
Qed.

(** ** Construction files and the calls made on them *)
Lemma writes_to_snoc h tr i : writes_to h (tr ++ [i]) = writes_to h tr ++ default [] (write_of h i).
Proof.
  unfold writes_to. rewrite omap_app, mjoin_app2. f_equal. cbn [omap list_omap].
  destruct (write_of h i); [|done]. cbn. by rewrite app_nil_r.
Qed.
Definition opens (h : nat) (i : aitem) : Prop := ∃ n ft, i = IOpen n ft h.
Definition cell_ok (tr : list aitem) (h : nat) (o : option cfile) : Prop :=
  match o with
  | None => writes_to h tr = [] ∧ ISync h (Ok tt) ∉ tr ∧ ∀ n ft, IOpen n ft h ∉ tr
  | Some (UnderConstruction b) => b = writes_to h tr ∧ ISync h (Ok tt) ∉ tr
  | Some (Finalized b) => b = writes_to h tr ∧ ISync h (Ok tt) ∈ tr
  | Some Finalizing => False
  end.
Lemma cell_ok_snoc tr h o i : cell_ok tr h o → write_of h i = None → i ≠ ISync h (Ok tt) →
  ((∀ n ft, i ≠ IOpen n ft h) ∨ is_Some o) → cell_ok (tr ++ [i]) h o.
Proof.
  intros Hc Hw Hs Ho. unfold cell_ok in *. rewrite writes_to_snoc, Hw, app_nil_r.
  assert (ISync h (Ok tt) ∈ tr ++ [i] ↔ ISync h (Ok tt) ∈ tr) as Hi.
  { rewrite elem_of_app, elem_of_list_singleton. split; [intros [?|?]; [done|by subst]|auto]. }
  destruct o as [[b| |b]|]; rewrite ?Hi; [done..|]. destruct Hc as (H1 & H2 & H3). split_and!; [done|done|].
  destruct Ho as [Ho|[x Hx]]; [|done]. intros n ft [?|?%elem_of_list_singleton]%elem_of_app; [by eapply H3|by eapply Ho].
Qed.
Definition cells_ok (tr : list aitem) (s : astore) : Prop := ∀ h, cell_ok tr h (as_cells s !! h).

Lemma cells_item (c : codec) tr s i s' : cells_ok tr s → astep c s (Some i) s' → 
  (∀ n m ft h, as_constr s !! n = Some m → m !! ft = Some h → is_Some (as_cells s !! h)) →
  cells_ok (tr ++ [i]) s'.
Proof.
  intros Hok Hstep Hcon h. specialize (Hok h).
  inversion Hstep; subst; cbn [as_cells set_constr set_cells set_writes set_disk set_rollups poison restart];
    try (by apply cell_ok_snoc; [done|done|done|left; done]).
  - (* open_old *) apply cell_ok_snoc; [done|done|done|].
    destruct (decide (h0 = h)) as [->|Hne]; [right; by eapply Hcon|left; intros ?? [= ?]; done].
  - (* open_new *) destruct (decide (h0 = h)) as [->|Hne].
    + rewrite lookup_insert. match goal with Hx : as_cells s !! h = None |- _ => rewrite Hx in Hok end. destruct Hok as (H1' & H2' & _). split.
      * rewrite writes_to_snoc, H1'. done.
      * rewrite elem_of_app, elem_of_list_singleton. by intros [?|?].
    + rewrite lookup_insert_ne by done. apply cell_ok_snoc; [done|done|done|]. left. intros ?? [= ?]; done.
  - (* write *) destruct (decide (h0 = h)) as [->|Hne].
    + rewrite lookup_insert. match goal with Hx : as_cells s !! h = Some _ |- _ => rewrite Hx in Hok end.
      destruct f as [x| |x]; [|done|done]. match goal with Hx : _ = Ok f' |- _ => injection Hx as <- end.
      destruct Hok as [-> Hs]. split.
      * rewrite writes_to_snoc. cbn [write_of]. by rewrite decide_True.
      * rewrite elem_of_app, elem_of_list_singleton. by intros [?|?].
    + rewrite lookup_insert_ne by done. apply cell_ok_snoc; [done| |done|left; done]. cbn [write_of]. by rewrite decide_False.
  - (* sync *) destruct (decide (h0 = h)) as [->|Hne].
    + rewrite lookup_insert. match goal with Hx : as_cells s !! h = Some _ |- _ => rewrite Hx in Hok end.
      destruct f as [x| |x]; [|done|done]. match goal with Hx : _ = Ok f' |- _ => injection Hx as <- end.
      destruct Hok as [-> Hs]. split.
      * rewrite writes_to_snoc. cbn. by rewrite app_nil_r.
      * apply elem_of_app. right. by left.
    + rewrite lookup_insert_ne by done. apply cell_ok_snoc; [done|done|by intros [= ?]|left; done].
Qed.
Lemma cells_tau (c : codec) tr s s' : cells_ok tr s → astep c s None s' → cells_ok tr s'.
Proof. intros Hok Hstep. by inversion Hstep; subst. Qed.
Definition constr_ok (s : astore) : Prop :=
  ∀ n m ft h, as_constr s !! n = Some m → m !! ft = Some h → is_Some (as_cells s !! h) ∧ ft < rollup_type.
Lemma constr_step (c : codec) s o s' : constr_ok s → astep c s o s' → constr_ok s'.
Proof.
  intros Hok Hstep. inversion Hstep; subst; intros n' m' ft' h'; 
    cbn [as_cells as_constr set_constr set_cells set_writes set_disk set_rollups poison restart]; try apply Hok.
  - intros [[<- <-]|[_ ?]]%lookup_insert_Some Hm; [by rewrite lookup_empty in Hm|by eapply Hok].
  - intros [[<- <-]|[_ Hc]]%lookup_insert_Some Hm.
    + apply lookup_insert_Some in Hm as [[<- <-]|[_ Hm]]; [by rewrite lookup_insert|].
      match goal with Hx : as_constr s !! _ = Some m |- _ => destruct (Hok _ _ _ _ Hx Hm) as [? ?] end. split; [|done]. by apply lookup_insert_is_Some'; right.
    + destruct (Hok _ _ _ _ Hc Hm) as [? ?]. split; [|done]. by apply lookup_insert_is_Some'; right.
  - intros Hc Hm. destruct (Hok _ _ _ _ Hc Hm) as [? ?]. split; [|done]. by apply lookup_insert_is_Some'; right.
  - intros Hc Hm. destruct (Hok _ _ _ _ Hc Hm) as [? ?]. split; [|done]. by apply lookup_insert_is_Some'; right.
  - intros [_ Hc]%lookup_delete_Some Hm. by eapply Hok.
  - by rewrite lookup_empty.
Qed.

(** ** The life of one layer *)
Section life.
Context (c : codec) (n : lname).

(** the archive of the layer holds exactly the files written by these calls *)
Definition good_files (L : list (nat * bytes)) (tr : list aitem) : Prop :=
  files_ok L ∧ (∀ ft b, (ft, b) ∈ L ↔ file_written tr n ft b) ∧ Forall (λ ft, ft < rollup_type) (L.*1).
Definition no_writes (s : astore) : Prop := ∀ t p r, as_writes s !! t ≠ Some (n, p, r).
Definition finalized_at (tr tr1 tr2 : list aitem) : Prop :=
  tr = tr1 ++ IFinalize n :: tr2 ∧ IFinalize n ∉ tr1 ∧ IFinalize n ∉ tr2.

Inductive phase (tr : list aitem) (s : astore) : Prop :=
  | ph_none : ICreate n (Ok tt) ∉ tr → (∀ ft h, IOpen n ft h ∉ tr) → IFinalize n ∉ tr → IStored n ∉ tr →
      as_constr s !! n = None → as_disk s !! n = None → no_writes s → phase tr s
  | ph_open m : ICreate n (Ok tt) ∈ tr → (∀ ft h, IOpen n ft h ∈ tr ↔ m !! ft = Some h) → IFinalize n ∉ tr → IStored n ∉ tr →
      as_constr s !! n = Some m → as_disk s !! n = None → no_writes s → phase tr s
  | ph_write tr1 tr2 L t pos : ICreate n (Ok tt) ∈ tr → finalized_at tr tr1 tr2 → IStored n ∉ tr → good_files L tr1 →
      as_constr s !! n = None → as_writes s !! t = Some (n, pos, drop pos (archive_bytes c L)) →
      pos ≤ length (archive_bytes c L) → (∀ t' p r, as_writes s !! t' = Some (n, p, r) → t' = t) →
      default [] (as_disk s !! n) = take pos (archive_bytes c L) → phase tr s
  | ph_stored tr1 tr2 L : ICreate n (Ok tt) ∈ tr → finalized_at tr tr1 tr2 → good_files L tr1 →
      as_constr s !! n = None → no_writes s → as_disk s !! n = Some (archive_bytes c L) → phase tr s
  | ph_lost : ICreate n (Ok tt) ∈ tr → IStored n ∉ tr → as_constr s !! n = None → no_writes s →
      (as_disk s !! n = None ∨ IFinalize n ∈ tr) → phase tr s.

(** items that do not concern the layer *)
Definition foreign (i : aitem) : Prop :=
  i ≠ ICreate n (Ok tt) ∧ (∀ ft h, i ≠ IOpen n ft h) ∧ i ≠ IFinalize n ∧ i ≠ IStored n.
Lemma not_in_snoc (tr : list aitem) (i j : aitem) : j ∉ tr → i ≠ j → j ∉ tr ++ [i].
Proof. intros Hn Hne. rewrite elem_of_app, elem_of_list_singleton. intros [?|?]; [done|by subst]. Qed.
Lemma finalized_snoc tr tr1 tr2 i : finalized_at tr tr1 tr2 → i ≠ IFinalize n → finalized_at (tr ++ [i]) tr1 (tr2 ++ [i]).
Proof.
  intros (-> & H1 & H2) Hi. split_and!; [|done|by apply not_in_snoc]. by rewrite <- app_assoc.
Qed.
Lemma phase_foreign tr s s' i : phase tr s → foreign i →
  as_constr s' !! n = as_constr s !! n → as_disk s' !! n = as_disk s !! n →
  (∀ t p r, as_writes s' !! t = Some (n, p, r) ↔ as_writes s !! t = Some (n, p, r)) →
  phase (tr ++ [i]) s'.
Proof.
  intros Hp (F1 & F2 & F3 & F4) Hc Hd Hw.
  assert (no_writes s → no_writes s') as Hnw by (intros Hx t p r; rewrite Hw; apply Hx).
  destruct Hp as [A1 A2 A3 A4 A5 A6 A7|m A1 A2 A3 A4 A5 A6 A7|tr1 tr2 L t pos A1 A2 A3 A4 A5 A6 A7 A8 A9
    |tr1 tr2 L A1 A2 A4 A5 A6 A7|A1 A2 A3 A4 A5].
  - apply ph_none; try by apply not_in_snoc. + intros ft h. by apply not_in_snoc. + by rewrite Hc. + by rewrite Hd. + auto.
  - apply (ph_open _ _ m); try by apply not_in_snoc.
    + apply elem_of_app; by left.
    + intros ft h. rewrite <- A2, elem_of_app, elem_of_list_singleton. split; [|auto]. intros [?|E]; [done|]. by destruct (F2 ft h).
    + by rewrite Hc. + by rewrite Hd. + auto.
  - apply (ph_write _ _ tr1 (tr2 ++ [i]) L t pos); try by apply not_in_snoc.
    + apply elem_of_app; by left. + by apply finalized_snoc. + done. + by rewrite Hc. + by apply Hw. + done.
    + intros t' p r Hx. apply Hw in Hx. by eapply A8. + by rewrite Hd.
  - apply (ph_stored _ _ tr1 (tr2 ++ [i]) L).
    + apply elem_of_app; by left. + by apply finalized_snoc. + done. + by rewrite Hc. + auto. + by rewrite Hd.
  - apply ph_lost.
    + apply elem_of_app; by left. + by apply not_in_snoc. + by rewrite Hc. + auto.
    + rewrite Hd. destruct A5; [by left|right]. apply elem_of_app. by left.
Qed.

Lemma finalized_files_good tr s m :
  cells_ok tr s → constr_ok s → as_constr s !! n = Some m → (∀ ft h, IOpen n ft h ∈ tr ↔ m !! ft = Some h) →
  (N.of_nat (length (mjoin ((finalized_files (as_cells s) m).*2))) ≤ u64_max)%N →
  good_files (finalized_files (as_cells s) m) tr.
Proof.
  intros Hcells Hcon Hm Hop Hsize.
  set (L := finalized_files (as_cells s) m) in *.
  assert (∀ ft b, (ft, b) ∈ L ↔ ∃ h, m !! ft = Some h ∧ as_cells s !! h = Some (Finalized b)) as Hin.
  { intros ft b. unfold L, finalized_files. rewrite elem_of_list_omap. split.
    - intros ([ft' h] & Hx & Hy). apply elem_of_map_to_list in Hx. exists h. 
      destruct (as_cells s !! h) as [[|  |d]|] eqn:E; try done. injection Hy as -> ->. done.
    - intros (h & Hx & Hy). exists (ft, h). split; [by apply elem_of_map_to_list|]. by rewrite Hy. }
  assert (∀ ft, ft ∈ L.*1 → ft < rollup_type) as Hft.
  { intros ft ([ft' b] & -> & Hx)%elem_of_list_fmap. cbn [fst]. apply Hin in Hx as (h & Hx & _).
    by apply (Hcon n m ft' h). }
  split_and!.
  - split_and!.
    + unfold L, finalized_files. pose proof (NoDup_fst_map_to_list m) as Hnd.
      clear -Hnd. induction (map_to_list m) as [|[ft h] l IH]; [constructor|]. rewrite fmap_cons in Hnd. cbn [fst] in Hnd.
      apply NoDup_cons in Hnd as [Hni Hnd]. cbn [omap list_omap].
      destruct (as_cells s !! h) as [[|  |d]|]; try by apply IH. rewrite fmap_cons. cbn [fst]. constructor; [|by apply IH].
      intros ([ft' b] & -> & Hx)%elem_of_list_fmap. apply Hni. cbn [fst]. apply elem_of_list_omap in Hx as ([g k] & Hx & Hy).
      destruct (as_cells s !! k) as [[|  |d']|]; try done. injection Hy as -> ->. apply elem_of_list_fmap. by exists (ft', k).
    + apply Forall_forall. intros ft Hx. specialize (Hft ft Hx). unfold rollup_type in Hft. lia.
    + by rewrite <- total_join.
  - intros ft b. rewrite Hin. unfold file_written. split.
    + intros (h & Hx & Hy). exists h. split; [by apply Hop|]. specialize (Hcells h). rewrite Hy in Hcells. by destruct Hcells as [-> ?].
    + intros (h & Hx & Hy & ->). exists h. split; [by apply Hop|]. specialize (Hcells h).
      destruct (as_cells s !! h) as [[d| |d]|]; cbn [cell_ok] in Hcells; [by destruct Hcells|done|by destruct Hcells as [-> _]|by destruct Hcells as (_ & ? & _)].
  - by apply Forall_forall.
Qed.

Lemma write_at_prefix (W : bytes) pos k : pos ≤ length W → k ≤ length (drop pos W) →
  write_at (take pos W) pos (take k (drop pos W)) = take (pos + k) W.
Proof.
  intros Hp Hk. rewrite drop_length in Hk. unfold write_at. rewrite take_take, Nat.min_id.
  rewrite (drop_ge (take pos W)) by (rewrite !take_length, drop_length; lia). rewrite app_nil_r.
  by rewrite take_take_drop.
Qed.

Lemma archive_nonempty L : archive_bytes c L ≠ [].
Proof. intros E. apply (f_equal length) in E. rewrite archive_bytes_eq, app_length, put_u64_length in E. done. Qed.

Lemma phase_tau tr s s' : phase tr s → astep c s None s' → phase tr s'.
Proof.
  intros Hp Hstep. inversion Hstep as [| | | | | | | | | | |s0 t n' pos rest k Hw Hk E1 E2 E3| | | |]; subst.
  destruct (decide (n' = n)) as [->|Hne].
  - destruct Hp as [A1 A2 A3 A4 A5 A6 A7|m A1 A2 A3 A4 A5 A6 A7|tr1 tr2 L t' pos' A1 A2 A3 A4 A5 A6 A7 A8 A9
      |tr1 tr2 L A1 A2 A4 A5 A6 A7|A1 A2 A3 A4 A5].
    + by destruct (A7 t pos rest).
    + by destruct (A7 t pos rest).
    + assert (t = t') as -> by (by eapply A8). rewrite A6 in Hw. injection Hw as <- <-.
      apply (ph_write _ _ tr1 tr2 L t' (pos' + k)); try done; cbn [as_constr as_disk as_writes set_disk set_writes].
      * by rewrite lookup_insert, drop_drop.
      * rewrite drop_length in Hk. lia.
      * intros t'' p r [[-> _]|[_ Hx]]%lookup_insert_Some; [done|]. by eapply A8.
      * rewrite lookup_insert. cbn [default]. rewrite A9. by apply write_at_prefix.
    + by destruct (A6 t pos rest).
    + by destruct (A4 t pos rest).
  - assert (∀ t' p r, as_writes (set_writes (set_disk s (<[n':=write_at (default [] (as_disk s !! n')) pos (take k rest)]> (as_disk s)))
        (<[t:=(n', pos + k, drop k rest)]> (as_writes s))) !! t' = Some (n, p, r) ↔ as_writes s !! t' = Some (n, p, r)) as Hw'.
    { intros t' p r. cbn [as_writes set_writes]. destruct (decide (t' = t)) as [->|Hnt].
      - rewrite lookup_insert, Hw. split; intros [= ?]; by subst.
      - by rewrite lookup_insert_ne by done. }
    set (s' := set_writes _ _) in *.
    assert (as_constr s' !! n = as_constr s !! n) as Hc by done.
    assert (as_disk s' !! n = as_disk s !! n) as Hd by (cbn; by rewrite lookup_insert_ne).
    clearbody s'.
    assert (no_writes s → no_writes s') as Hnw by (intros Hx t' p r; rewrite Hw'; apply Hx).
    destruct Hp as [A1 A2 A3 A4 A5 A6 A7|m A1 A2 A3 A4 A5 A6 A7|tr1 tr2 L t' pos' A1 A2 A3 A4 A5 A6 A7 A8 A9
      |tr1 tr2 L A1 A2 A4 A5 A6 A7|A1 A2 A3 A4 A5].
    + apply ph_none; try done; [by rewrite Hc|by rewrite Hd|auto].
    + apply (ph_open _ _ m); try done; [by rewrite Hc|by rewrite Hd|auto].
    + apply (ph_write _ _ tr1 tr2 L t' pos'); try done; [by rewrite Hc|by apply Hw'| |by rewrite Hd].
      intros t'' p r Hx. apply Hw' in Hx. by eapply A8.
    + apply (ph_stored _ _ tr1 tr2 L); try done; [by rewrite Hc|auto|by rewrite Hd].
    + apply ph_lost; try done; [by rewrite Hc|auto|by rewrite Hd].
Qed.

Lemma phase_item tr s i s' : phase tr s → cells_ok tr s → constr_ok s → astep c s (Some i) s' →
  created_once n (tr ++ [i]) → phase (tr ++ [i]) s'.
Proof.
  intros Hp Hcells Hcon Hstep Honce.
  inversion Hstep as [s0 n' B1 B2 B3|s0 n' B1|s0 n' B1 B2|s0 n' ft h m B1 B2 B3|s0 n' ft h m B1 B2 B3 B4 B5
    |s0 h b f f' B1 B2|s0 h b f k B1 B2|s0 h f f' B1 B2|s0 h f k B1 B2|s0 n' m t B1 B2 B3 B4|s0 n' B1
    | |s0 t n' pos B1|s0 n' b d B1|s0 n' b k B1|s0]; subst;
    try (by eapply phase_foreign; [exact Hp|by split_and!|done|done|done]).
  - (* create *) destruct (decide (n' = n)) as [->|Hne].
    + destruct Hp as [A1 A2 A3 A4 A5 A6 A7|m A1 A2 A3 A4 A5 A6 A7|tr1 tr2 L t' pos' A1 A2 A3 A4 A5 A6 A7 A8 A9
        |tr1 tr2 L A1 A2 A4 A5 A6 A7|A1 A2 A3 A4 A5]; try (by destruct (Honce tr [] eq_refl)).
      apply (ph_open _ _ ∅); try by apply not_in_snoc.
      * apply elem_of_app. right. by left.
      * intros ft h. rewrite lookup_empty. split; [|done]. intros Hx. exfalso. revert Hx. by apply not_in_snoc.
      * cbn. by rewrite lookup_insert.
      * done.
      * done.
    + apply (phase_foreign tr s); [done| |cbn; by rewrite lookup_insert_ne|done|done].
      split_and!; [congruence|done|done|done].
  - (* open old *) destruct (decide (n' = n)) as [->|Hne].
    + destruct Hp as [A1 A2 A3 A4 A5 A6 A7|m' A1 A2 A3 A4 A5 A6 A7|tr1 tr2 L t' pos' A1 A2 A3 A4 A5 A6 A7 A8 A9
        |tr1 tr2 L A1 A2 A4 A5 A6 A7|A1 A2 A3 A4 A5]; try congruence.
      rewrite B2 in A5. injection A5 as <-. apply (ph_open _ _ m); try by apply not_in_snoc.
      * apply elem_of_app. by left.
      * intros ft' h'. rewrite <- A2, elem_of_app, elem_of_list_singleton. split; [|auto].
        intros [?|[= -> ->]]; [done|]. by apply A2.
      * done.
      * done.
      * done.
    + eapply phase_foreign; [exact Hp| |done|done|done]. split_and!; [done|intros ?? [=]; congruence|done|done].
  - (* open new *) destruct (decide (n' = n)) as [->|Hne].
    + destruct Hp as [A1 A2 A3 A4 A5 A6 A7|m' A1 A2 A3 A4 A5 A6 A7|tr1 tr2 L t' pos' A1 A2 A3 A4 A5 A6 A7 A8 A9
        |tr1 tr2 L A1 A2 A4 A5 A6 A7|A1 A2 A3 A4 A5]; try congruence.
      rewrite B2 in A5. injection A5 as <-. apply (ph_open _ _ (<[ft := h]> m)); try by apply not_in_snoc.
      * apply elem_of_app. by left.
      * intros ft' h'. rewrite elem_of_app, elem_of_list_singleton, lookup_insert_Some, A2. split.
        -- intros [Hx|[= -> ->]]; [|by left]. right. split; [|done]. intros ->. congruence.
        -- intros [[-> ->]|[_ ?]]; [by right|by left].
      * cbn. by rewrite lookup_insert.
      * done.
      * done.
    + apply (phase_foreign tr s); [done| |cbn; by rewrite lookup_insert_ne|done|done].
      split_and!; [done|intros ?? [=]; congruence|done|done].
  - (* finalize *) destruct (decide (n' = n)) as [->|Hne].
    + destruct Hp as [A1 A2 A3 A4 A5 A6 A7|m' A1 A2 A3 A4 A5 A6 A7|tr1 tr2 L t' pos' A1 A2 A3 A4 A5 A6 A7 A8 A9
        |tr1 tr2 L A1 A2 A4 A5 A6 A7|A1 A2 A3 A4 A5]; try congruence.
      rewrite B2 in A5. injection A5 as <-.
      apply (ph_write _ _ tr [] (finalized_files (as_cells s) m) t 0); cbn [as_constr as_disk as_writes set_constr set_writes].
      * apply elem_of_app. by left.
      * split_and!; [done|done|apply not_elem_of_nil].
      * by apply not_in_snoc.
      * by apply finalized_files_good.
      * by rewrite lookup_delete.
      * by rewrite lookup_insert, drop_0.
      * lia.
      * intros t' p r [[-> _]|[_ Hx]]%lookup_insert_Some; [done|]. by destruct (A7 t' p r).
      * by rewrite A6.
    + apply (phase_foreign tr s); [done| |cbn; by rewrite lookup_delete_ne|done|].
      * split_and!; [done|done|congruence|done].
      * intros t' p r. cbn. rewrite lookup_insert_Some. split; [|intros Hx; right; split; [|done]; intros ->; congruence].
        intros [[-> [= -> _ _]]|[_ ?]]; done.
  - (* stored *) destruct (decide (n' = n)) as [->|Hne].
    + destruct Hp as [A1 A2 A3 A4 A5 A6 A7|m' A1 A2 A3 A4 A5 A6 A7|tr1 tr2 L t' pos' A1 A2 A3 A4 A5 A6 A7 A8 A9
        |tr1 tr2 L A1 A2 A4 A5 A6 A7|A1 A2 A3 A4 A5].
      * by destruct (A7 t pos []).
      * by destruct (A7 t pos []).
      * assert (t = t') as -> by (by eapply A8). rewrite B1 in A6. injection A6 as -> E.
        apply (ph_stored _ _ tr1 (tr2 ++ [IStored n]) L); cbn [as_constr as_disk as_writes set_writes].
        -- apply elem_of_app. by left.
        -- by apply finalized_snoc.
        -- done.
        -- done.
        -- intros t'' p r. cbn [as_writes set_writes]. intros [Hne Hx]%lookup_delete_Some. destruct Hne. symmetry. by eapply A8.
        -- symmetry in E. apply (f_equal length) in E. rewrite drop_length in E. change (length (@nil nat)) with 0 in E.
           rewrite take_ge in A9 by lia. destruct (as_disk s !! n) as [d|]; cbn in A9; [by subst|].
           by destruct (archive_nonempty L).
      * by destruct (A6 t pos []).
      * by destruct (A4 t pos []).
    + apply (phase_foreign tr s); [done| |done|done|].
      * split_and!; [done|done|done|congruence].
      * intros t' p r. cbn. rewrite lookup_delete_Some. split; [by intros [_ ?]|]. intros Hx. split; [|done]. intros ->. congruence.
  - (* crash *)
    destruct Hp as [A1 A2 A3 A4 A5 A6 A7|m' A1 A2 A3 A4 A5 A6 A7|tr1 tr2 L t' pos' A1 A2 A3 A4 A5 A6 A7 A8 A9
        |tr1 tr2 L A1 A2 A4 A5 A6 A7|A1 A2 A3 A4 A5].
    + apply ph_none; try by apply not_in_snoc.
      * intros ft h. by apply not_in_snoc.
      * done.
      * done.
      * intros t p r. cbn. by rewrite lookup_empty.
    + apply ph_lost; [apply elem_of_app; by left|by apply not_in_snoc|done|intros t p r; cbn; by rewrite lookup_empty|by left].
    + apply ph_lost; [apply elem_of_app; by left|by apply not_in_snoc|done|intros t p r; cbn; by rewrite lookup_empty|].
      right. apply elem_of_app. left. destruct A2 as (-> & _). apply elem_of_app. right. by left.
    + apply (ph_stored _ _ tr1 (tr2 ++ [ICrash]) L);
        [apply elem_of_app; by left|by apply finalized_snoc|done|done|intros t p r; cbn; by rewrite lookup_empty|done].
    + apply ph_lost; [apply elem_of_app; by left|by apply not_in_snoc|done|intros t p r; cbn; by rewrite lookup_empty|].
      destruct A5; [by left|]. right. apply elem_of_app. by left.
Qed.

Lemma created_once_prefix tr i : created_once n (tr ++ [i]) → created_once n tr.
Proof. intros Ho tr1 tr2 ->. apply (Ho tr1 (tr2 ++ [i])). by rewrite <- app_assoc. Qed.

Lemma aexec_inv tr s : aexec c astore_new tr s → created_once n tr → cells_ok tr s ∧ constr_ok s ∧ phase tr s.
Proof.
  induction 1 as [|tr s1 s2 _ IH Hstep|tr s1 i s2 _ IH Hstep]; intros Ho.
  - split_and!.
    + intros h. cbn. rewrite lookup_empty. split_and!; [done|apply not_elem_of_nil|intros; apply not_elem_of_nil].
    + intros n' m ft h. cbn. by rewrite lookup_empty.
    + apply ph_none; try apply not_elem_of_nil; try done. intros ft h. apply not_elem_of_nil.
  - destruct (IH Ho) as (H1 & H2 & H3). split_and!; [by eapply cells_tau|by eapply constr_step|by eapply phase_tau].
  - destruct (IH (created_once_prefix _ _ Ho)) as (H1 & H2 & H3). split_and!.
    + eapply cells_item; [done|done|]. intros n' m ft h Ha Hb. by destruct (H2 _ _ _ _ Ha Hb).
    + by eapply constr_step.
    + by eapply phase_item.
Qed.

(** a name that has been stored *)
Lemma stored_archive tr s tr1 tr2 : aexec c astore_new tr s → created_once n tr →
  tr = tr1 ++ IFinalize n :: tr2 → IStored n ∈ tr2 →
  ∃ L, good_files L tr1 ∧ as_constr s !! n = None ∧ as_disk s !! n = Some (archive_bytes c L).
Proof.
  intros He Ho -> Hs. destruct (aexec_inv _ _ He Ho) as (_ & _ & Hp).
  assert (IFinalize n ∈ tr1 ++ IFinalize n :: tr2) as Hf by (apply elem_of_app; right; by left).
  assert (IStored n ∈ tr1 ++ IFinalize n :: tr2) as Hst by (apply elem_of_app; right; by right).
  destruct Hp as [A1 A2 A3 A4 A5 A6 A7|m' A1 A2 A3 A4 A5 A6 A7|tr1' tr2' L t' pos' A1 A2 A3 A4 A5 A6 A7 A8 A9
        |tr1' tr2' L A1 A2 A4 A5 A6 A7|A1 A2 A3 A4 A5]; try done.
  exists L. destruct A2 as (E & Hn1 & Hn2). assert (tr1 = tr1') as ->; [|done].
  clear -E Hn1 Hn2. revert tr1' E Hn1. induction tr1 as [|x tr1 IH]; intros [|y tr1'] E Hn1; cbn in E.
  - done.
  - injection E as <- ->. destruct Hn1. by left.
  - injection E as -> <-. destruct Hn2. apply elem_of_app. right. by left.
  - injection E as -> E. f_equal. apply (IH tr1' E). intros Hx. apply Hn1. by right.
Qed.
Lemma stored_quiet tr s tr1 tr2 : aexec c astore_new tr s → created_once n tr →
  tr = tr1 ++ IFinalize n :: tr2 → IStored n ∈ tr2 → no_writes s.
Proof.
  intros He Ho -> Hs. destruct (aexec_inv _ _ He Ho) as (_ & _ & Hp).
  assert (IFinalize n ∈ tr1 ++ IFinalize n :: tr2) as Hf by (apply elem_of_app; right; by left).
  assert (IStored n ∈ tr1 ++ IFinalize n :: tr2) as Hst by (apply elem_of_app; right; by right).
  by destruct Hp.
Qed.
(** a stored layer that no call is writing *)
Definition at_rest (s : astore) : Prop := is_Some (as_disk s !! n) ∧ as_constr s !! n = None ∧ no_writes s.
Lemma rest_step s o s' : at_rest s → astep c s o s' → at_rest s' ∧ as_disk s' !! n = as_disk s !! n.
Proof.
  intros (Hd & Hc & Hw) Hstep. unfold at_rest, no_writes in *. destruct Hd as [d Hd].
  inversion Hstep; subst; cbn [as_disk as_constr as_writes set_constr set_cells set_writes set_disk set_rollups poison restart];
    try (split; [|done]; rewrite Hd, Hc; split_and!; [by eexists|done|done]).
  - (* create *) assert (n0 ≠ n) by (intros ->; congruence). split; [|done]. rewrite Hd, lookup_insert_ne by done. by split_and!; [eexists|..].
  - (* open *) assert (n0 ≠ n) by (intros ->; congruence). split; [|done]. rewrite Hd, lookup_insert_ne by done. by split_and!; [eexists|..].
  - (* finalize *) assert (n0 ≠ n) by (intros ->; congruence). split; [|done]. rewrite Hd, lookup_delete_ne by done.
    split_and!; [by eexists|done|]. intros t' p r [[_ E]|[_ E]]%lookup_insert_Some; [by injection E|by eapply Hw].
  - (* chunk *) assert (n0 ≠ n) by (intros ->; by eapply Hw). rewrite lookup_insert_ne by done. split; [|done]. rewrite Hd.
    split_and!; [by eexists|done|]. intros t' p r [[_ E]|[_ E]]%lookup_insert_Some; [by injection E|by eapply Hw].
  - (* stored *) split; [|done]. rewrite Hd. split_and!; [by eexists|done|]. intros t' p r [_ E]%lookup_delete_Some. by eapply Hw.
  - (* crash *) split; [|done]. rewrite Hd, lookup_empty. split_and!; [by eexists|done|]. intros t' p r. by rewrite lookup_empty.
Qed.
Lemma rest_exec s tr s' : at_rest s → aexec c s tr s' → at_rest s' ∧ as_disk s' !! n = as_disk s !! n.
Proof.
  intros Hr. induction 1 as [|tr s1 s2 _ [IH1 IH2] Hstep|tr s1 i s2 _ [IH1 IH2] Hstep]; [done|..];
    destruct (rest_step _ _ _ IH1 Hstep) as [H1 H2]; split; [done|by rewrite H2|done|by rewrite H2].
Qed.
(** a layer under construction *)
Lemma constr_stays tr s : aexec c astore_new tr s → ICrash ∉ tr → IFinalize n ∉ tr → ICreate n (Ok tt) ∈ tr → is_Some (as_constr s !! n).
Proof.
  induction 1 as [|tr s1 s2 _ IH Hstep|tr s1 i s2 _ IH Hstep]; intros Hcr Hf Hin.
  - by apply elem_of_nil in Hin.
  - specialize (IH Hcr Hf Hin). by inversion Hstep; subst.
  - apply not_elem_of_app in Hcr as [Hcr Hcr']. apply not_elem_of_app in Hf as [Hf Hf'].
    apply elem_of_app in Hin as [Hin|Hin%elem_of_list_singleton].
    + specialize (IH Hcr Hf Hin). inversion Hstep; subst; cbn [as_constr set_constr set_cells set_writes set_disk set_rollups poison restart]; try done.
      * apply lookup_insert_is_Some'. by right.
      * apply lookup_insert_is_Some'. by right.
      * rewrite lookup_delete_ne; [done|]. intros ->. apply Hf'. by left.
      * destruct Hcr'. by left.
    + subst i. inversion Hstep; subst. cbn. by rewrite lookup_insert.
Qed.
Lemma under_construction tr s ft : aexec c astore_new tr s → created_once n tr → ICrash ∉ tr → IFinalize n ∉ tr →
  ICreate n (Ok tt) ∈ tr → ft < rollup_type →
  as_directory_exists s n = true ∧
  (∃ e, as_file_exists s n ft = Ok e ∧ (e = true ↔ ∃ h, IOpen n ft h ∈ tr)) ∧
  (∀ b, as_map c s n ft = Ok b ↔ file_written tr n ft b).
Proof.
  intros He Ho Hcr Hf Hin Hft. destruct (constr_stays _ _ He Hcr Hf Hin) as [m Hm]. destruct (aexec_inv _ _ He Ho) as (Hcells & Hcon & Hp).
  assert (∀ ft h, IOpen n ft h ∈ tr ↔ m !! ft = Some h) as Hopen.
  { destruct Hp as [A1 A2 A3 A4 A5 A6 A7|m' A1 A2 A3 A4 A5 A6 A7|tr1' tr2' L t' pos' A1 A2 A3 A4 A5 A6 A7 A8 A9
        |tr1' tr2' L A1 A2 A4 A5 A6 A7|A1 A2 A3 A4 A5]; try congruence. by simplify_eq. }
  unfold as_directory_exists, as_file_exists, as_map. rewrite !decide_False by lia. rewrite Hm. split; [done|]. split.
  - eexists. split; [done|]. rewrite bool_decide_eq_true. split.
    + intros [h Hh]. exists h. by apply Hopen.
    + intros [h Hh%Hopen]. by eexists.
  - intros b. destruct (m !! ft) as [h|] eqn:Eh.
    + pose proof (Hcells h) as Hh. destruct (Hcon n m ft h Hm Eh) as [[f Hcell] _]. rewrite Hcell in Hh |- *.
      destruct f as [x| |x]; cbn in Hh |- *; [|done|].
      * split; [done|]. intros (h' & Ho'%Hopen & Hs & _). rewrite Eh in Ho'. injection Ho' as <-. by destruct Hh.
      * destruct Hh as [-> Hs]. split.
        -- intros [= <-]. exists h. split_and!; [by apply Hopen|done|done].
        -- intros (h' & Ho'%Hopen & _ & ->). rewrite Eh in Ho'. by injection Ho' as <-.
    + cbn. split; [done|]. intros (h' & Ho'%Hopen & _). congruence.
Qed.
Lemma unfinished_absent tr s : aexec c astore_new tr s → created_once n tr → IFinalize n ∉ tr → as_disk s !! n = None.
Proof.
  intros He Ho Hn. destruct (aexec_inv _ _ He Ho) as (_ & _ & Hp).
  destruct Hp as [A1 A2 A3 A4 A5 A6 A7|m' A1 A2 A3 A4 A5 A6 A7|tr1' tr2' L t' pos' A1 A2 A3 A4 A5 A6 A7 A8 A9
        |tr1' tr2' L A1 A2 A4 A5 A6 A7|A1 A2 A3 A4 A5]; try done.
  - destruct A2 as (-> & _). destruct Hn. apply elem_of_app. right. by left.
  - destruct A2 as (-> & _). destruct Hn. apply elem_of_app. right. by left.
  - by destruct A5.
Qed.
End life.
