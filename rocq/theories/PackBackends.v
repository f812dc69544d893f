(** The three stores do what importing needs *)
From Verif Require Import Prelude Names NamesFacts FileNames Archive ArchiveFacts ArchiveStore SpecArchive ArchiveStoreFacts Pack SpecPack PackFacts PackImport.

(** ** Memory and directory *)
Definition file_building (s : gmap (list N) (gmap (list nat) (list nat))) (n : lname) (m : gmap (list nat) (list nat)) : Prop := s !! n = Some m.
Lemma look_other (s : gmap (list N) (gmap (list nat) (list nat))) n n' m f : n' ≠ n → f_look (<[n := m]> s) n' f = f_look s n' f.
Proof. intros Hne. unfold f_look. by rewrite lookup_insert_ne by done. Qed.
Lemma memory_untouched s n n' m : n' ≠ n → untouched memory_pls s (<[n := m]> s) n'.
Proof. intros Hne. split; cbn; [by rewrite lookup_insert_ne|]. intros f. by rewrite look_other. Qed.
Lemma directory_untouched over s n n' m : n' ≠ n → untouched (directory_pls over) s (<[n := m]> s) n'.
Proof. intros Hne. split; cbn; [by rewrite lookup_insert_ne|]. intros f. by rewrite look_other. Qed.
Lemma other_building s n n' m m' : n' ≠ n → file_building s n' m' → file_building (<[n := m]> s) n' m'.
Proof. intros Hne. unfold file_building. by rewrite lookup_insert_ne by done. Qed.
Lemma file_found {A} (r : option A) b : r = Some b → found r = Ok b.
Proof. by intros ->. Qed.

Lemma memory_laws : laws memory_pls (λ _, True) file_building.
Proof.
  split.
  - intros s n _ _. eexists. split; [done|]. split_and!; [done|apply lookup_insert|].
    intros n' Hne. split; [by apply memory_untouched|intros; by apply other_building].
  - intros s n m c f b _ Hb _ _ _. unfold file_building in Hb. cbn [memory_pls p_write]. rewrite Hb. eexists. split; [done|].
    split_and!; [done|apply lookup_insert|]. intros n' Hne. split; [by apply memory_untouched|intros; by apply other_building].
  - intros s n m c _ Hb _ _. eexists. split; [done|]. split_and!; [done| |].
    + intros c' Hk. unfold file_building in Hb.
      assert (∀ f, f_look s n f = m !! f) as El. { intros f. unfold f_look. by rewrite Hb. }
      split_and!; cbn [memory_pls p_dir p_exists p_map p_size].
      * by rewrite Hb.
      * intros f _. rewrite El. by destruct (m !! f).
      * by rewrite El.
      * rewrite El. rewrite bool_decide_eq_false_2; [done|]. intros Hr%Hk. by apply rollup_may in Hr.
    + intros n' _. split; [apply untouched_refl|done].
Qed.
Lemma directory_laws over : laws (directory_pls over) (λ _, True) file_building.
Proof.
  split.
  - intros s n _ Hd. assert (s !! n = None) as Hn. { cbn in Hd. destruct (s !! n); [|done]. by injection Hd. }
    eexists. split; [done|]. split_and!; [done|rewrite Hn; apply lookup_insert|].
    intros n' Hne. split; [by apply directory_untouched|intros; by apply other_building].
  - intros s n m c f b _ Hb _ _ Hf. unfold file_building in Hb. cbn [directory_pls p_write]. rewrite Hb, Hf. eexists. split; [done|].
    split_and!; [done|apply lookup_insert|]. intros n' Hne. split; [by apply directory_untouched|intros; by apply other_building].
  - intros s n m c _ Hb _ _. unfold file_building in Hb. cbn [directory_pls p_finalize]. rewrite Hb. eexists. split; [done|].
    split_and!; [done| |].
    + intros c' Hk. assert (∀ f, f_look s n f = m !! f) as El. { intros f. unfold f_look. by rewrite Hb. }
      split_and!; cbn [directory_pls p_dir p_exists p_map p_size].
      * by rewrite Hb.
      * intros f _. rewrite El. by destruct (m !! f).
      * by rewrite El.
      * rewrite El. rewrite bool_decide_eq_false_2; [done|]. intros Hr%Hk. by apply rollup_may in Hr.
    + intros n' _. split; [apply untouched_refl|done].
Qed.

(** ** Archive *)
Definition archive_building (s : astore) (n : lname) (m : gmap (list nat) (list nat)) : Prop :=
  as_disk s !! n = None ∧ ∃ cm, as_constr s !! n = Some cm ∧
  (∀ f b, m !! f = Some b → ∃ ft h, type_of_name f = Some ft ∧ cm !! ft = Some h ∧ as_cells s !! h = Some (Finalized b)) ∧
  (∀ ft h, cm !! ft = Some h → ∃ f b, m !! f = Some b ∧ type_of_name f = Some ft).

(** what is asked about a layer depends on these parts of the store *)
Lemma archive_untouched (c : codec) (s s' : astore) (n : lname) :
  as_poisoned s' = as_poisoned s → as_disk s' !! n = as_disk s !! n → as_rollups s' !! n = as_rollups s !! n →
  as_constr s' !! n = as_constr s !! n →
  (∀ m ft h, as_constr s !! n = Some m → m !! ft = Some h → as_cells s' !! h = as_cells s !! h) →
  untouched (archive_pls c) s s' n.
Proof.
  intros Hp Hd Hr Hc Hh. split.
  - cbn. unfold ap_dir, locked, as_directory_exists. by rewrite Hp, Hd, Hc.
  - intros f. cbn. unfold ap_exists, ap_map, ap_size, typed. destruct (type_of_name f) as [ft|]; [|done].
    unfold locked, as_file_exists, as_map, as_size. rewrite Hp, Hd, Hr, Hc. split_and!; [done| |].
    + destruct (as_constr s !! n) as [m|] eqn:Em; [|done]. destruct (m !! ft) as [h|] eqn:Eh; [|done]. by rewrite (Hh m ft h).
    + destruct (as_constr s !! n) as [m|] eqn:Em; [|done]. destruct (m !! ft) as [h|] eqn:Eh; [|done]. by rewrite (Hh m ft h).
Qed.
Lemma archive_other (s s' : astore) (n : lname) m :
  as_disk s' !! n = as_disk s !! n → as_constr s' !! n = as_constr s !! n →
  (∀ m ft h, as_constr s !! n = Some m → m !! ft = Some h → as_cells s' !! h = as_cells s !! h) →
  archive_building s n m → archive_building s' n m.
Proof.
  intros Hd Hc Hh (B1 & cm & B2 & B3 & B4). split; [by rewrite Hd|]. exists cm. rewrite Hc. split_and!; [done| |done].
  intros f b Hf. destruct (B3 f b Hf) as (ft & h & ? & Hm & Hx). exists ft, h. split_and!; [done|done|]. by rewrite (Hh cm ft h).
Qed.

Lemma archive_create (c : codec) (s : astore) (n : lname) : archive_good s → p_dir (archive_pls c) s n = Ok false →
  ∃ s', p_create (archive_pls c) s n = (Ok tt, s') ∧ archive_good s' ∧ archive_building s' n ∅ ∧
    ∀ n', n' ≠ n → untouched (archive_pls c) s s' n' ∧ ∀ m, archive_building s n' m → archive_building s' n' m.
Proof.
  intros (Hp & Hr & Hc & Hi) Hd. cbn in Hd. unfold ap_dir, locked, as_directory_exists in Hd. rewrite Hp in Hd. injection Hd as Hd.
  destruct (as_constr s !! n) as [m|] eqn:Em; [done|]. unfold layer_exists in Hd. destruct (as_disk s !! n) as [d|] eqn:Ed; [by vm_compute in Hd|].
  cbn [archive_pls p_create]. unfold ap_create. rewrite Ed, Hp, Em. eexists. split; [done|]. split_and!.
  - split_and!; [done|done| |].
    + intros n' m ft h. cbn [set_constr as_constr as_cells].
      intros [[<- <-]|[_ Hx]]%lookup_insert_Some Hy; [by rewrite lookup_empty in Hy|by eapply Hc].
    + intros n1 m1 f1 n2 m2 f2 h. cbn [set_constr as_constr].
      intros [[<- <-]|[_ H1]]%lookup_insert_Some H2; [by rewrite lookup_empty in H2|].
      intros [[<- <-]|[_ H3]]%lookup_insert_Some H4; [by rewrite lookup_empty in H4|by eapply Hi].
  - split; [done|]. exists ∅. cbn [set_constr as_constr as_cells]. rewrite lookup_insert. split_and!; [done| |].
    + intros f b Hx. by rewrite lookup_empty in Hx.
    + intros ft h Hx. by rewrite lookup_empty in Hx.
  - intros n' Hne. split.
    + apply archive_untouched; [done|done|done| |done]. cbn [set_constr as_constr]. by rewrite lookup_insert_ne.
    + intros m. apply archive_other; [done| |done]. cbn [set_constr as_constr]. by rewrite lookup_insert_ne.
Qed.

(** a new file is another one than all the files there are *)
Lemma apart_open (s : astore) (n : lname) cm ft h x : files_apart s → as_constr s !! n = Some cm →
  (∀ n' m' ft' h', as_constr s !! n' = Some m' → m' !! ft' = Some h' → h' ≠ h) →
  files_apart (set_cells (set_constr s (<[n := <[ft := h]> cm]> (as_constr s))) x).
Proof.
  intros Hi Hn Hold n1 m1 f1 n2 m2 f2 h0. cbn [set_cells set_constr as_constr]. intros H1 H2 H3 H4.
  assert (∀ n' m' f' , <[n := <[ft := h]> cm]> (as_constr s) !! n' = Some m' → m' !! f' = Some h0 →
    (n' = n ∧ f' = ft ∧ h0 = h) ∨ (h0 ≠ h ∧ ∃ m0, as_constr s !! n' = Some m0 ∧ m0 !! f' = Some h0)) as Hx.
  { intros n' m' f' [[<- <-]|[_ Hx]]%lookup_insert_Some Hy.
    - apply lookup_insert_Some in Hy as [[<- <-]|[_ Hy]]; [by left|]. right. split; [by eapply Hold|by eauto].
    - right. split; [by eapply Hold|by eauto]. }
  destruct (Hx _ _ _ H1 H2) as [(-> & -> & ->)|(Hne & m3 & H5 & H6)];
    destruct (Hx _ _ _ H3 H4) as [(-> & -> & E)|(Hne' & m4 & H7 & H8)]; try done.
  by eapply Hi.
Qed.
Lemma archive_write (c : codec) (s : astore) (n : lname) m k f b : archive_good s → archive_building s n m → of_kind k m →
  f ∈ may_have k → m !! f = None →
  ∃ s', p_write (archive_pls c) s n f b = (Ok tt, s') ∧ archive_good s' ∧ archive_building s' n (<[f := b]> m) ∧
    ∀ n', n' ≠ n → untouched (archive_pls c) s s' n' ∧ ∀ m, archive_building s n' m → archive_building s' n' m.
Proof.
  intros (Hp & Hr & Hc & Hi) (B1 & cm & B2 & B3 & B4) Hk Hf Hfm. destruct (may_have_typed _ _ Hf) as (ft & Eft & Hft).
  cbn [archive_pls p_write]. unfold ap_write. rewrite Eft, decide_False by lia. rewrite Hp, B2.
  assert (cm !! ft = None) as Hcm.
  { destruct (cm !! ft) as [h|] eqn:Eh; [|done]. destruct (B4 ft h Eh) as (g & bg & Hg & Eg).
    assert (g = f) as -> by (apply (types_inj k); [apply Hk; by eexists|done|congruence]). congruence. }
  rewrite Hcm. set (h := fresh (dom (D := gset nat) (as_cells s))).
  assert (as_cells s !! h = None) as Hh. { apply (not_elem_of_dom (D := gset nat)). apply is_fresh. }
  unfold write_cell. cbn [set_cells set_constr as_cells as_constr]. rewrite lookup_insert. cbn [cfile_write obind cfile_sync app].
  eexists. split; [done|].
  assert (∀ n' m' ft' h', as_constr s !! n' = Some m' → m' !! ft' = Some h' → h' ≠ h) as Hold.
  { intros n' m' ft' h' H1 H2 ->. destruct (Hc _ _ _ _ H1 H2) as [[x Hx] _]. congruence. }
  split_and!.
  - split_and!; [done|done| |].
    + intros n' m' ft' h'. cbn [set_cells set_constr as_constr as_cells]. rewrite insert_insert.
      intros [[<- <-]|[_ Hx]]%lookup_insert_Some Hy.
      * apply lookup_insert_Some in Hy as [[<- <-]|[_ Hy]].
        -- split; [rewrite lookup_insert; by eexists|done].
        -- destruct (Hc _ _ _ _ B2 Hy) as [? ?]. split; [|done]. apply lookup_insert_is_Some'. by right.
      * destruct (Hc _ _ _ _ Hx Hy) as [? ?]. split; [|done]. apply lookup_insert_is_Some'. by right.
    + by apply apart_open.
  - split; [done|]. exists (<[ft := h]> cm). cbn [set_cells set_constr as_constr as_cells]. rewrite lookup_insert, insert_insert.
    split_and!; [done| |].
    + intros g bg [[<- <-]|[Hne Hg]]%lookup_insert_Some.
      * exists ft, h. rewrite !lookup_insert. done.
      * destruct (B3 g bg Hg) as (gt & gh & Et & Em & Ex). exists gt, gh. split_and!; [done| |].
        -- rewrite lookup_insert_ne; [done|]. intros ->. congruence.
        -- rewrite lookup_insert_ne; [done|]. intros ->. congruence.
    + intros gt gh [[<- <-]|[Hne Hg]]%lookup_insert_Some.
      * exists f, b. by rewrite lookup_insert.
      * destruct (B4 gt gh Hg) as (g & bg & Eg & Et). exists g, bg. split; [|done]. rewrite lookup_insert_ne; [done|]. intros ->. congruence.
  - intros n' Hne. split.
    + apply archive_untouched; [done|done|done| |]; cbn [set_cells set_constr as_constr as_cells].
      * by rewrite lookup_insert_ne.
      * intros m' ft' h' H1 H2. rewrite insert_insert. apply lookup_insert_ne. intros <-. by eapply (Hold _ _ _ _ H1 H2).
    + intros m'. apply archive_other; [done| |]; cbn [set_cells set_constr as_constr as_cells].
      * by rewrite lookup_insert_ne.
      * intros m'' ft' h' H1 H2. rewrite insert_insert. apply lookup_insert_ne. intros <-. by eapply (Hold _ _ _ _ H1 H2).
Qed.

(** the files that end up in the archive *)
Lemma elem_finalized cells (cm : gmap nat nat) ft b :
  (ft, b) ∈ finalized_files cells cm ↔ ∃ h, cm !! ft = Some h ∧ cells !! h = Some (Finalized b).
Proof.
  unfold finalized_files. rewrite elem_of_list_omap. split.
  - intros ([ft' h] & Hx & Hy). apply elem_of_map_to_list in Hx. exists h.
    destruct (cells !! h) as [[|  |d]|] eqn:E; try done. injection Hy as -> ->. done.
  - intros (h & Hx & Hy). exists (ft, h). split; [by apply elem_of_map_to_list|]. by rewrite Hy.
Qed.
Lemma finalized_nodup cells (cm : gmap nat nat) : NoDup (finalized_files cells cm).*1.
Proof.
  unfold finalized_files. pose proof (NoDup_fst_map_to_list cm) as Hnd.
  induction (map_to_list cm) as [|[ft h] l IH]; [constructor|]. rewrite fmap_cons in Hnd. cbn [fst] in Hnd.
  apply NoDup_cons in Hnd as [Hni Hnd]. cbn [omap list_omap].
  destruct (cells !! h) as [[|  |d]|]; try by apply IH. rewrite fmap_cons. cbn [fst]. constructor; [|by apply IH].
  intros ([ft' b] & -> & Hx)%elem_of_list_fmap. apply Hni. cbn [fst]. apply elem_of_list_omap in Hx as ([g k] & Hx & Hy).
  destruct (cells !! k) as [[|  |d']|]; try done. injection Hy as -> ->. apply elem_of_list_fmap. by exists (ft', k).
Qed.
Lemma building_files (s : astore) (n : lname) m k cm : archive_building s n m → as_constr s !! n = Some cm → of_kind k m →
  ∀ f ft, f ∈ parent_file :: may_have k → type_of_name f = Some ft → ∀ b, (ft, b) ∈ finalized_files (as_cells s) cm ↔ m !! f = Some b.
Proof.
  intros (_ & cm' & B2 & B3 & B4) Hc Hk f ft Hf Eft b. rewrite B2 in Hc. injection Hc as ->. rewrite elem_finalized. split.
  - intros (h & Hx & Hy). destruct (B4 ft h Hx) as (g & bg & Eg & Et).
    assert (g ∈ may_have k) as Hgk by (apply Hk; by eexists).
    assert (g = f) as ->.
    { apply elem_of_cons in Hf as [->|Hf]; [|apply (types_inj k); [done|done|congruence]].
      rewrite parent_typed in Eft. injection Eft as <-. by apply (parent_type_unique k). }
    destruct (B3 _ _ Eg) as (ft' & h' & E1 & E2 & E3). congruence.
  - intros Hm. destruct (B3 f b Hm) as (ft' & h & E1 & E2 & E3). rewrite Eft in E1. injection E1 as <-. by exists h.
Qed.
Lemma total_pairs {A} (l : list (A * bytes)) g : total ((λ p, (g p, p.2)) <$> l) = sum_list (length <$> l.*2).
Proof.
  induction l as [|[f b] l IH]; [done|]. rewrite !fmap_cons. cbn [total snd]. rewrite IH. done.
Qed.
Lemma building_total (s : astore) (n : lname) m k cm : archive_building s n m → as_constr s !! n = Some cm → of_kind k m →
  total (finalized_files (as_cells s) cm) = map_total m.
Proof.
  intros HB Hc Hk. unfold map_total. rewrite <- (total_pairs _ (λ p, default 0 (type_of_name p.1))). apply total_perm.
  apply NoDup_Permutation.
  - eapply NoDup_fmap_1, finalized_nodup.
  - apply NoDup_fmap_2_strong; [|apply NoDup_map_to_list]. intros [f b] [g d] Hf Hg. cbn [fst snd]. intros [= Et ->].
    apply elem_of_map_to_list in Hf, Hg. assert (f ∈ may_have k) as Hfk by (apply Hk; by eexists). assert (g ∈ may_have k) as Hgk by (apply Hk; by eexists).
    f_equal. apply (types_inj k); [done|done|]. destruct (may_have_typed _ _ Hfk) as (? & E1 & _), (may_have_typed _ _ Hgk) as (? & E2 & _).
    rewrite E1, E2 in *. by f_equal.
  - intros [ft b]. rewrite elem_of_list_fmap. split.
    + intros Hx. pose proof Hx as Hy. destruct HB as (B1 & cm' & B2 & B3 & B4). rewrite elem_finalized in Hy. destruct Hy as (h & H1 & H2).
      assert (cm' = cm) as -> by congruence. destruct (B4 ft h H1) as (f & b' & E1 & E2).
      assert (f ∈ may_have k) as Hfk by (apply Hk; by eexists).
      exists (f, b'). cbn [fst snd]. rewrite E2. split; [|by apply elem_of_map_to_list]. f_equal.
      destruct (B3 f b' E1) as (ft' & h' & ? & ? & ?). congruence.
    + intros ((f & b') & [= -> ->] & Hf). apply elem_of_map_to_list in Hf.
      assert (f ∈ may_have k) as Hfk by (apply Hk; by eexists). destruct (may_have_typed _ _ Hfk) as (ft & E1 & _).
      rewrite E1. cbn [default id]. apply (building_files s n m k cm HB Hc Hk f ft); [by right|done|done].
Qed.
Lemma building_files_ok (s : astore) (n : lname) m k cm : archive_good s → archive_building s n m → as_constr s !! n = Some cm → of_kind k m →
  (N.of_nat (map_total m) ≤ u64_max)%N → files_ok (finalized_files (as_cells s) cm).
Proof.
  intros (_ & _ & Hc & _) HB Hcm Hk Ht. split_and!; [apply finalized_nodup| |by rewrite (building_total s n m k)].
  apply Forall_forall. intros ft ([ft' b] & -> & Hx)%elem_of_list_fmap. cbn [fst]. apply elem_finalized in Hx as (h & Hx & _).
  destruct (Hc _ _ _ _ Hcm Hx) as [_ H]. unfold rollup_type in H. lia.
Qed.

Lemma archive_finalize (c : codec) (s : astore) (n : lname) m k : codec_ok c → archive_good s → archive_building s n m → of_kind k m →
  (N.of_nat (map_total m) ≤ u64_max)%N →
  ∃ s', p_finalize (archive_pls c) s n = (Ok tt, s') ∧ archive_good s' ∧ (∀ k', of_kind k' m → built (archive_pls c) s' n k' m) ∧
    ∀ n', n' ≠ n → untouched (archive_pls c) s s' n' ∧ ∀ m, archive_building s n' m → archive_building s' n' m.
Proof.
  intros Hcod Hg HB Hk Ht. pose proof Hg as (Hp & Hr & Hc & Hi). pose proof HB as (B1 & cm & B2 & B3 & B4).
  pose proof (building_files_ok s n m k cm Hg HB B2 Hk Ht) as Hok.
  cbn [archive_pls p_finalize]. unfold ap_finalize. rewrite Hp, B2.
  rewrite decide_True. 2:{ rewrite total_join, (building_total s n m k) by done. done. }
  eexists. split; [done|]. rewrite B1. cbn [default].
  set (fs := finalized_files (as_cells s) cm) in *.
  assert (write_at [] 0 (archive_bytes c fs) = archive_bytes c fs) as Ew. { unfold write_at. cbn [take app]. by rewrite drop_nil, app_nil_r. }
  rewrite Ew. split_and!.
  - split_and!; [done| | |].
    + cbn [set_disk set_constr as_rollups as_disk]. intros n' Hn'. apply lookup_insert_is_Some'. right. by apply Hr.
    + cbn [set_disk set_constr as_constr as_cells]. intros n' m' ft h [_ Hx]%lookup_delete_Some. by apply (Hc n' m' ft h).
    + intros n1 m1 f1 n2 m2 f2 h. cbn [set_disk set_constr as_constr]. intros [_ H1]%lookup_delete_Some H2 [_ H3]%lookup_delete_Some. by eapply Hi.
  - intros k' Hk'.
    assert (∀ f ft, f ∈ parent_file :: may_have k' → type_of_name f = Some ft → ft < 64 →
      layer_file_exists (Some (archive_bytes c fs)) ft = Ok (bool_decide (is_Some (m !! f)))) as Hex.
    { intros f ft Hf Eft H64. rewrite (file_exists_archive c fs ft) by done. f_equal. apply bool_decide_ext.
      pose proof (building_files s n m k' cm HB B2 Hk' f ft Hf Eft) as Hiff. split.
      - intros ([ft' b] & -> & Hx)%elem_of_list_fmap. exists b. by apply Hiff.
      - intros [b Hx]. apply elem_of_list_fmap. exists (ft, b). split; [done|]. by apply Hiff. }
    split_and!; cbn [archive_pls p_dir p_exists p_map p_size].
    + unfold ap_dir, locked, as_directory_exists. cbn [set_disk set_constr as_constr as_disk as_poisoned].
      rewrite Hp, lookup_delete, lookup_insert. done.
    + intros f Hf. destruct (may_have_typed _ _ Hf) as (ft & Eft & Hft).
      unfold ap_exists, ap_map, ap_size, typed. rewrite Eft, !decide_False by lia. unfold locked. cbn [set_disk set_constr as_poisoned].
      rewrite Hp. unfold as_file_exists, as_map, as_size. rewrite !decide_False by lia.
      cbn [set_disk set_constr as_constr as_disk]. rewrite !lookup_delete, !lookup_insert.
      rewrite (Hex f ft); [|by right|done|unfold rollup_type in Hft; lia].
      destruct (m !! f) as [b|] eqn:Em; [|done].
      apply (building_files s n m k' cm HB B2 Hk' f ft) in Em; [|by right|done].
      rewrite (structure_present c Hcod fs ft b Hok Em), (size_present c Hcod fs ft b Hok Em). done.
    + unfold ap_exists, typed. rewrite parent_typed, decide_False by (unfold parent_type, rollup_type; lia).
      unfold locked. cbn [set_disk set_constr as_poisoned]. rewrite Hp. unfold as_file_exists.
      rewrite decide_False by (unfold parent_type, rollup_type; lia). cbn [set_disk set_constr as_constr as_disk].
      rewrite lookup_delete, lookup_insert. apply Hex; [left|apply parent_typed|unfold parent_type; lia].
    + unfold ap_exists, typed. rewrite rollup_typed, decide_True by done. unfold as_file_exists. rewrite decide_True by done.
      cbn [set_disk set_constr as_rollups as_disk]. rewrite lookup_insert.
      destruct (as_rollups s !! n) eqn:Er; [|done]. destruct (Hr n) as [d Hd]; [by eexists|congruence].
  - intros n' Hne. split.
    + apply archive_untouched; [done| |done| |done]; cbn [set_disk set_constr as_disk as_constr].
      * by rewrite lookup_insert_ne.
      * by rewrite lookup_delete_ne.
    + intros m'. apply archive_other; [| |done]; cbn [set_disk set_constr as_disk as_constr].
      * by rewrite lookup_insert_ne.
      * by rewrite lookup_delete_ne.
Qed.
Lemma archive_laws (c : codec) : codec_ok c → laws (archive_pls c) archive_good archive_building.
Proof.
  intros Hc. split.
  - intros s n. apply archive_create.
  - intros s n m k f b. apply archive_write.
  - intros s n m k. by apply archive_finalize.
Qed.

Lemma backend_laws (k : backend) : backend_ok k → ∃ building, laws (backend_pls k) (backend_good k) building.
Proof.
  destruct k as [|over|c]; intros Hk; cbn [backend_pls backend_good backend_state].
  - exists file_building. apply memory_laws.
  - exists file_building. apply directory_laws.
  - exists archive_building. by apply archive_laws.
Qed.

(** ** Exporting and importing *)
Lemma omap_ext_in {A B} (f g : A → option B) (l : list A) : (∀ x, x ∈ l → f x = g x) → omap f l = omap g l.
Proof.
  induction l as [|x l IH]; intros H; [done|]. cbn [omap list_omap]. rewrite H by left. rewrite IH; [done|]. intros y Hy. apply H. by right.
Qed.
Lemma built_complete {S} (st : pls S) {T} (ts : pls T) (s : S) (t : T) (n : lname) : complete st s n →
  built ts t n (is_child st s n) (list_to_map (shown_files (shows st s n) (may_have (is_child st s n)))) →
  same_files st ts s t n.
Proof.
  intros (Hx & Hr & Hm & Ht) HB. set (k := is_child st s n) in *. set (m := list_to_map _) in HB.
  assert (∀ f, f ∈ may_have k → m !! f = shows st s n f) as Hl. { intros f Hf. apply shown_lookup; [apply may_have_nodup|done]. }
  assert (∀ f, f ∈ may_have k → shows ts t n f = shows st s n f) as Hs. { intros f Hf. rewrite <- Hl by done. by eapply built_shows. }
  assert (bool_decide (is_Some (m !! parent_file)) = k) as Hkp.
  { destruct k eqn:Ek.
    - rewrite bool_decide_eq_true_2; [done|]. rewrite Hl by (by apply parent_may). apply Hm. 
      unfold must_have, file_names. rewrite fmap_app. apply elem_of_app. right. left.
    - rewrite bool_decide_eq_false_2; [done|]. intros [b Hb]. apply elem_of_list_to_map_2, elem_shown in Hb as [Hb _].
      by apply parent_may in Hb. }
  destruct HB as (B1 & B2 & B3 & B4).
  assert (is_child ts t n = k) as Ek. { unfold is_child. rewrite B3, Hkp. destruct k; by vm_compute. }
  split_and!.
  - done.
  - done.
  - done.
  - unfold shows. by rewrite B4.
  - split_and!.
    + by eexists.
    + rewrite Ek. intros f Hf. specialize (B2 f Hf). destruct (m !! f) as [b|]; [right; by exists b|by left].
    + rewrite Ek. intros f Hf. rewrite Hs by (by apply must_may). by apply Hm.
    + rewrite Ek, (omap_ext_in _ (shows st s n)) by done. exact Ht.
Qed.
