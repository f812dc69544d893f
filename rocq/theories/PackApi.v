(** What packs do, for all kinds of stores. *)
From Verif Require Import Prelude ListFacts Names NamesFacts FileNames Archive ArchiveFacts ArchiveStore SpecArchive ArchiveStoreFacts ArchiveApi
  Pack SpecPack PackFacts PackImport PackBackends.

(** ** Exporting and importing *)
Lemma entries_ok {S} (st : pls S) (s : S) (ids : list lname) : Forall name_ok ids →
  Forall entry_ok (mjoin ((λ n, layer_entries (shows st s n) (is_child st s n) n) <$> ids)).
Proof.
  induction 1 as [|n ids Hn _ IH]; [constructor|]. rewrite fmap_cons.
  change (mjoin (?a :: ?b)) with (a ++ mjoin b). apply Forall_app. split; [by apply layer_entries_ok|done].
Qed.
Lemma export_pack {S} (st : pls S) (tc : tar_codec) (s : S) (ids : list lname) : tar_ok tc → Forall name_ok ids → (∀ n, n ∈ ids → complete st s n) →
  ∃ pack, export_layers st tc s ids = Ok pack ∧
    tc_read tc pack = Ok <$> mjoin ((λ n, layer_entries (shows st s n) (is_child st s n) n) <$> ids).
Proof.
  intros Ht Hn Hc. unfold export_layers. rewrite export_ok by done. cbn [obind]. eexists. split; [done|]. apply Ht. by apply entries_ok.
Qed.
Lemma built_empty {S} (st : pls S) (s : S) (n : lname) : (∀ c, built st s n c ∅) → empty_layer st s n.
Proof.
  intros HB. split; [apply (HB true)|]. intros c f [->|Hf]%elem_of_cons.
  - destruct (HB c) as (_ & _ & _ & E). unfold shows. by rewrite E.
  - by rewrite (built_shows st s n c ∅ f (HB c) Hf).
Qed.
Lemma transport (ka kb : backend) (tc : tar_codec) a b exp req order :
  backend_ok kb → tar_ok tc → backend_good kb b → Forall name_ok exp → Forall name_ok req → NoDup exp → NoDup req → import_order req order →
  (∀ n, n ∈ exp → complete (backend_pls ka) a n) → (∀ n, n ∈ req → p_dir (backend_pls kb) b n = Ok false) →
  ∃ pack b', export_layers (backend_pls ka) tc a exp = Ok pack ∧ import_layers (backend_pls kb) tc b pack req order = (Ok tt, b') ∧
    backend_good kb b' ∧
    (∀ n, n ∈ req → n ∈ exp → same_files (backend_pls ka) (backend_pls kb) a b' n) ∧
    (∀ n, n ∈ req → n ∉ exp → empty_layer (backend_pls kb) b' n) ∧
    (∀ n, n ∉ req → untouched (backend_pls kb) b b' n).
Proof.
  intros Hk Ht Hg He Hr Hde Hdr Ho Hc Hd. destruct (export_pack (backend_pls ka) tc a exp Ht He Hc) as (pack & -> & Hp).
  destruct (backend_laws kb Hk) as (building & L).
  destruct (import_all _ _ _ L req exp order (shows (backend_pls ka) a) (is_child (backend_pls ka) a) b Hr He Hdr Hde Ho Hg Hd)
    as (b' & E & Hg' & H1 & H2 & H3).
  { intros n Hn. rewrite shown_total. by destruct (Hc n Hn) as (_ & _ & _ & ?). }
  exists pack, b'. split; [done|]. unfold import_layers. rewrite Hp, E. split_and!; [done|done| | |done].
  - intros n Hnr Hne. apply built_complete; [by apply Hc|by apply H1].
  - intros n Hnr Hne. apply built_empty. by apply H2.
Qed.

(** ** Only the requested layers are touched, whatever the pack contains *)
Definition local {S} (st : pls S) (good : S → Prop) : Prop :=
  ∀ (s : S) (n : lname) (r : outcome unit) (s' : S), good s → r ≠ Panic →
    (p_create st s n = (r, s') ∨ (∃ f b, p_write st s n f b = (r, s')) ∨ p_finalize st s n = (r, s')) →
    good s' ∧ ∀ n', n' ≠ n → untouched st s s' n'.
Lemma each_local {S A} (st : pls S) (good : S → Prop) (f : S → A → outcome unit * S) (P : A → Prop) (ids : list lname) :
  (∀ s x r s', P x → good s → r ≠ Panic → f s x = (r, s') → good s' ∧ ∀ n, n ∉ ids → untouched st s s' n) →
  ∀ l s r s', Forall P l → good s → r ≠ Panic → each f s l = (r, s') → good s' ∧ ∀ n, n ∉ ids → untouched st s s' n.
Proof.
  intros Hf. induction l as [|x l IH]; intros s r s' HP Hg Hr; cbn [each].
  - intros [= <- <-]. split; [done|]. intros. apply untouched_refl.
  - apply Forall_cons in HP as [Hx HP]. destruct (f s x) as [[u|k|] s1] eqn:E.
    + intros H. destruct (Hf s x (Ok u) s1 Hx Hg ltac:(done) E) as [Hg1 H1]. destruct (IH _ _ _ HP Hg1 Hr H) as [Hg2 H2].
      split; [done|]. intros n Hn. eapply untouched_trans; [by apply H1|by apply H2].
    + intros [= <- <-]. by apply (Hf s x (Err k) s1).
    + by intros [= <- <-].
Qed.
Lemma import_local {S} (st : pls S) (good : S → Prop) (tc : tar_codec) (s : S) pack ids order r s' : local st good →
  Forall name_ok ids → (∀ n, n ∈ order → n ∈ ids) → good s → r ≠ Panic → import_layers st tc s pack ids order = (r, s') →
  good s' ∧ ∀ n, n ∉ ids → untouched st s s' n.
Proof.
  intros HL Hids Ho Hg Hr. unfold import_layers, import_entries.
  assert (∀ l (f : S → lname → outcome unit * S), (∀ s n r s', good s → r ≠ Panic → f s n = (r, s') → good s' ∧ ∀ n', n' ≠ n → untouched st s s' n') →
    (∀ n, n ∈ l → n ∈ ids) → ∀ s r s', good s → r ≠ Panic → each f s l = (r, s') → good s' ∧ ∀ n, n ∉ ids → untouched st s s' n) as Hcalls.
  { intros l f Hf Hl s0 r0 s0' Hg0 Hr0. apply (each_local st good f (λ n, n ∈ ids)); [|by apply Forall_forall|done|done].
    intros s1 x r1 s1' Hx Hg1 Hr1 E. destruct (Hf _ _ _ _ Hg1 Hr1 E) as [? H1]. split; [done|]. intros n Hn. apply H1. by intros ->. }
  destruct (each (p_create st) s ids) as [[u|k|] s1] eqn:E1.
  2:{ intros [= <- <-]. apply (Hcalls ids (p_create st)) in E1; try done. intros s9 n9 r9 s9' Hg9 Hr9 E9. exact (HL s9 n9 r9 s9' Hg9 Hr9 ltac:(auto)). }
  2:{ by intros [= <- <-]. }
  apply (Hcalls ids (p_create st)) in E1 as [Hg1 H1]; try done. 2:{ intros s9 n9 r9 s9' Hg9 Hr9 E9. exact (HL s9 n9 r9 s9' Hg9 Hr9 ltac:(auto)). }
  assert (∀ r s2, r ≠ Panic → each (import_entry st (name_to_string <$> ids)) s1 (tc_read tc pack) = (r, s2) →
    good s2 ∧ ∀ n, n ∉ ids → untouched st s1 s2 n) as H2.
  { intros r0 s2 Hr0 E. refine (each_local st good _ (λ _, True) ids _ _ _ _ _ _ Hg1 Hr0 E); [|by apply Forall_true].
    clear E. intros s3 x r3 s3' _ Hg3 Hr3. unfold import_entry. destruct x as [e|k|].
    2:{ intros [= <- <-]. split; [done|]. intros. apply untouched_refl. } 2:{ by intros [= <- <-]. }
    destruct (file_name (e_path e)) as [[f|]|].
    2:{ intros [= <- <-]. split; [done|]. intros. apply untouched_refl. } 2:{ by intros [= <- <-]. }
    case_decide as Hin. 2:{ intros [= <- <-]. split; [done|]. intros. apply untouched_refl. }
    apply elem_of_list_fmap in Hin as (x & Ex & Hx). rewrite Ex.
    rewrite string_to_name_round by (by eapply Forall_forall in Hids). destruct (e_file e).
    - intros E. destruct (HL s3 x r3 s3' Hg3 Hr3) as [Hg4 H4]; [right; left; by eauto|]. split; [done|].
      intros n Hn. apply H4. by intros ->.
    - intros [= <- <-]. split; [done|]. intros. apply untouched_refl. }
  destruct (each (import_entry st (name_to_string <$> ids)) s1 (tc_read tc pack)) as [[u2|k2|] s2] eqn:E2.
  - destruct (H2 (Ok u2) s2 ltac:(done) eq_refl) as [Hg2 H2']. intros E3. apply (Hcalls order (p_finalize st)) in E3 as [Hg3 H3]; try done.
    + split; [done|]. intros n Hn. eapply untouched_trans; [by apply H1|]. eapply untouched_trans; [by apply H2'|by apply H3].
    + intros s9 n9 r9 s9' Hg9 Hr9 E9. exact (HL s9 n9 r9 s9' Hg9 Hr9 ltac:(auto)).
  - intros [= <- <-]. destruct (H2 (Err k2) s2 ltac:(done) eq_refl) as [Hg2 H2']. split; [done|].
    intros n Hn. eapply untouched_trans; [by apply H1|by apply H2'].
  - by intros [= <- <-].
Qed.

Lemma memory_local : local memory_pls (λ _, True).
Proof.
  intros s n r s' _ Hr H. split; [done|]. intros n' Hne. destruct H as [H|[(f & b & H)|H]]; cbn [memory_pls p_create p_write p_finalize] in H.
  - injection H as <- <-. by apply memory_untouched.
  - destruct (s !! n); injection H as <- <-; [by apply memory_untouched|apply untouched_refl].
  - injection H as <- <-. apply untouched_refl.
Qed.
Lemma directory_local over : local (directory_pls over) (λ _, True).
Proof.
  intros s n r s' _ Hr H. split; [done|]. intros n' Hne. destruct H as [H|[(f & b & H)|H]]; cbn [directory_pls p_create p_write p_finalize] in H.
  - injection H as <- <-. by apply directory_untouched.
  - destruct (s !! n); injection H as <- <-; [by apply directory_untouched|apply untouched_refl].
  - destruct (s !! n); injection H as <- <-; apply untouched_refl.
Qed.
(** changing a file of a layer under construction *)
Lemma cell_good (s : astore) (h : nat) x : archive_good s → is_Some (as_cells s !! h) → archive_good (set_cells s (<[h := x]> (as_cells s))).
Proof.
  intros (Hp & Hr & Hc & Hi) Hh. split_and!; [done|done| |done]. intros n m ft h'. cbn [set_cells as_constr as_cells]. intros H1 H2.
  destruct (Hc _ _ _ _ H1 H2) as [? ?]. split; [|done]. apply lookup_insert_is_Some'. by right.
Qed.
Lemma cell_untouched (c : codec) (s : astore) (n : lname) m ft h x n' : archive_good s → as_constr s !! n = Some m → m !! ft = Some h → n' ≠ n →
  untouched (archive_pls c) s (set_cells s (<[h := x]> (as_cells s))) n'.
Proof.
  intros (_ & _ & _ & Hi) Hn Hh Hne. apply archive_untouched; [done..|]. intros m' ft' h' H1 H2. cbn [set_cells as_cells].
  apply lookup_insert_ne. intros <-. destruct (Hi _ _ _ _ _ _ _ Hn Hh H1 H2). congruence.
Qed.
Lemma write_cell_local (c : codec) (s : astore) (n : lname) m ft h b r s' : archive_good s → as_constr s !! n = Some m → m !! ft = Some h →
  write_cell s h b = (r, s') → archive_good s' ∧ ∀ n', n' ≠ n → untouched (archive_pls c) s s' n'.
Proof.
  intros Hg Hn Hh. unfold write_cell. pose proof Hg as (_ & _ & Hc & _). destruct (Hc _ _ _ _ Hn Hh) as [[x Hx] _]. rewrite Hx.
  destruct (obind (cfile_write x b) cfile_sync) as [x'|k|]; intros [= <- <-].
  - split; [apply cell_good; [done|by eexists]|]. intros. by eapply cell_untouched.
  - split; [done|]. intros. apply untouched_refl.
  - split; [done|]. intros. apply untouched_refl.
Qed.
Lemma open_good (s : astore) (n : lname) m ft x : archive_good s → as_constr s !! n = Some m → ft < rollup_type → m !! ft = None →
  let h := fresh (dom (D := gset nat) (as_cells s)) in
  archive_good (set_cells (set_constr s (<[n := <[ft := h]> m]> (as_constr s))) (<[h := x]> (as_cells s))).
Proof.
  intros (Hp & Hr & Hc & Hi) Hn Hft Hm. cbn zeta. set (h := fresh _).
  assert (as_cells s !! h = None) as Hh. { apply (not_elem_of_dom (D := gset nat)). apply is_fresh. }
  split_and!; [done|done| |].
  - intros n' m' ft' h'. cbn [set_cells set_constr as_constr as_cells]. intros [[<- <-]|[_ Hx]]%lookup_insert_Some Hy.
    + apply lookup_insert_Some in Hy as [[<- <-]|[_ Hy]].
      * split; [rewrite lookup_insert; by eexists|done].
      * destruct (Hc _ _ _ _ Hn Hy) as [? ?]. split; [|done]. apply lookup_insert_is_Some'. by right.
    + destruct (Hc _ _ _ _ Hx Hy) as [? ?]. split; [|done]. apply lookup_insert_is_Some'. by right.
  - apply apart_open; [done|done|]. intros n' m' ft' h' H1 H2 ->. destruct (Hc _ _ _ _ H1 H2) as [[y Hy] _]. congruence.
Qed.
Lemma open_untouched (c : codec) (s : astore) (n : lname) m ft x n' : archive_good s → n' ≠ n →
  let h := fresh (dom (D := gset nat) (as_cells s)) in
  untouched (archive_pls c) s (set_cells (set_constr s (<[n := <[ft := h]> m]> (as_constr s))) (<[h := x]> (as_cells s))) n'.
Proof.
  intros (Hp & Hr & Hc & Hi) Hne. cbn zeta. set (h := fresh _).
  assert (as_cells s !! h = None) as Hh. { apply (not_elem_of_dom (D := gset nat)). apply is_fresh. }
  apply archive_untouched; [done|done|done| |]; cbn [set_cells set_constr as_constr as_cells]; [by rewrite lookup_insert_ne|].
  intros m' ft' h' H1 H2. apply lookup_insert_ne. intros <-. destruct (Hc _ _ _ _ H1 H2) as [[y Hy] _]. congruence.
Qed.
Definition types_bound : bool := forallb (λ p, bool_decide (p.2 ≤ rollup_type)) filename_enum_map.
Lemma type_bound f ft : type_of_name f = Some ft → ft ≤ rollup_type.
Proof.
  unfold type_of_name. intros H. apply fmap_Some in H as (p & Hp & ->).
  assert (p ∈ filter (λ p, p.1 = f) (prod_map text_bytes id <$> filename_enum_map)) as Hin.
  { destruct (filter _ _); [done|]. injection Hp as <-. left. }
  apply elem_of_list_filter in Hin as [_ Hin]. apply elem_of_list_fmap in Hin as ([g i] & -> & Hin). cbn.
  assert (types_bound = true) as Hb by (vm_compute; reflexivity).
  apply (forallb_elem _ _ _ Hb) in Hin. by apply bool_decide_eq_true in Hin.
Qed.
Lemma archive_local (c : codec) : local (archive_pls c) archive_good.
Proof.
  intros s n r s' Hg Hr H. pose proof Hg as (Hp & Hro & Hc & Hi).
  destruct H as [H|[(f & b & H)|H]]; cbn [archive_pls p_create p_write p_finalize] in H.
  - unfold ap_create in H. rewrite Hp in H. destruct (as_disk s !! n) eqn:Ed; [by injection H as <- <-|].
    destruct (as_constr s !! n) eqn:En; injection H as <- <-; [done|].
    destruct (archive_create c s n Hg) as (s1 & E & Hg1 & _ & H1).
    { cbn. unfold ap_dir, locked, as_directory_exists. by rewrite Hp, En, Ed. }
    cbn [archive_pls p_create] in E. unfold ap_create in E. rewrite Hp, Ed, En in E. injection E as <-.
    split; [done|]. intros n' Hne. by apply H1.
  - unfold ap_write in H. destruct (type_of_name f) as [ft|] eqn:Et; [|by injection H as <- <-]. apply type_bound in Et.
    case_decide as Eft.
    + destruct (rollup_file_sync (as_disk s !! n) b) as [d|k|] eqn:Es; injection H as <- <-; try done.
      split.
      * split_and!; [done| |done|done]. cbn [set_rollups as_rollups as_disk].
        intros n' [y [[<- <-]|[_ Hy]]%lookup_insert_Some]; [|by apply Hro; eexists].
        destruct (as_disk s !! n) eqn:Ed; [by eexists|]. exfalso. unfold rollup_file_sync in Es.
        destruct (text_lines b) as [|? [|l ?]]; try done. by destruct (string_to_name l).
      * intros n' Hne. apply archive_untouched; [done|done| |done|done]. cbn [set_rollups as_rollups]. by rewrite lookup_insert_ne.
    + rewrite Hp in H. destruct (as_constr s !! n) as [m|] eqn:Em; [|by injection H as <- <-].
      destruct (m !! ft) as [h|] eqn:Eh; [by eapply write_cell_local|].
      pose proof (open_good s n m ft (UnderConstruction []) Hg Em ltac:(lia) Eh) as Hg1.
      pose proof (λ n' Hne, open_untouched c s n m ft (UnderConstruction []) n' Hg Hne) as Hu1. cbn zeta in Hg1, Hu1.
      set (h := fresh _) in *. set (s1 := set_cells _ _) in *.
      apply (write_cell_local c s1 n (<[ft := h]> m) ft h) in H as [Hg2 Hu2]; [|done|unfold s1; cbn; by rewrite lookup_insert|by rewrite lookup_insert].
      split; [done|]. intros n' Hne. eapply untouched_trans; [by apply Hu1|by apply Hu2].
  - unfold ap_finalize in H. rewrite Hp in H. destruct (as_constr s !! n) as [m|] eqn:Em; [|by injection H as <- <-].
    case_decide; injection H as <- <-; [|done]. split.
    + split_and!; [done| | |].
      * cbn [set_disk set_constr as_rollups as_disk]. intros n' Hn'. apply lookup_insert_is_Some'. right. by apply Hro.
      * cbn [set_disk set_constr as_constr as_cells]. intros n' m' ft h [_ Hx]%lookup_delete_Some. by apply (Hc n' m' ft h).
      * intros n1 m1 f1 n2 m2 f2 h. cbn [set_disk set_constr as_constr]. intros [_ H1]%lookup_delete_Some H2 [_ H3]%lookup_delete_Some. by eapply Hi.
    + intros n' Hne. apply archive_untouched; [done| |done| |done]; cbn [set_disk set_constr as_disk as_constr].
      * by rewrite lookup_insert_ne.
      * by rewrite lookup_delete_ne.
Qed.
Lemma backend_local (k : backend) : local (backend_pls k) (backend_good k).
Proof. destruct k as [|over|c]; [apply memory_local|apply directory_local|apply archive_local]. Qed.
Lemma only_requested (k : backend) (tc : tar_codec) s pack ids order r s' : Forall name_ok ids → import_order ids order →
  backend_good k s → import_layers (backend_pls k) tc s pack ids order = (r, s') → r ≠ Panic →
  backend_good k s' ∧ ∀ n, n ∉ ids → untouched (backend_pls k) s s' n.
Proof. intros Hids [_ Ho] Hg E Hr. exact (import_local _ _ tc s pack ids order r s' (backend_local k) Hids (λ n H, proj1 (Ho n) H) Hg Hr E). Qed.

(** ** The layers of a pack and their parents *)
Lemma pack_parents_app m es es' : pack_parents m (es ++ es') = obind (pack_parents m es) (λ m, pack_parents m es').
Proof.
  revert m. induction es as [|e es IH]; intros m; [done|]. cbn [app pack_parents]. destruct (pack_parent m e); cbn [obind]; [apply IH|done|done].
Qed.
Lemma pack_parent_dir (m : gmap lname (option lname)) (n : lname) : name_ok n →
  pack_parent m (Ok (dir_entry n)) = Ok (match m !! n with Some _ => m | None => <[n := None]> m end).
Proof.
  intros Hn. unfold pack_parent, dir_entry. cbn [e_path head mbind option_bind component_text]. rewrite string_to_name_round by done.
  cbn [obind file_name last]. rewrite decide_False; [done|]. intros [= E].
  apply (f_equal length) in E. rewrite name_to_string_len in E by done. by vm_compute in E.
Qed.
Lemma pack_parent_other (m : gmap lname (option lname)) (n : lname) f b : name_ok n → f ≠ parent_file → is_Some (m !! n) →
  pack_parent m (Ok (data_entry n (f, b))) = Ok m.
Proof.
  intros Hn Hf [x Hx]. unfold pack_parent, data_entry. cbn [e_path head mbind option_bind component_text fst]. rewrite string_to_name_round by done.
  cbn [obind file_name last]. rewrite decide_False by congruence. by rewrite Hx.
Qed.
Lemma pack_parent_parent (m : gmap lname (option lname)) (n p : lname) : name_ok n → name_ok p →
  pack_parent m (Ok (data_entry n (parent_file, parent_contents p))) = Ok (<[n := Some p]> m).
Proof.
  intros Hn Hp. unfold pack_parent, data_entry. cbn [e_path e_data head mbind option_bind component_text fst snd]. rewrite string_to_name_round by done.
  cbn [obind file_name last]. rewrite decide_True by done. unfold parent_contents. pose proof (name_to_string_len p Hp) as Hl.
  unfold read_exact. rewrite decide_False by lia. cbn [obind]. rewrite take_ge by lia.
  rewrite decide_True by (by apply lossy_ascii, name_to_string_ascii). by rewrite string_to_name_round.
Qed.
Lemma pack_parents_files (n p : lname) fs : ∀ m : gmap lname (option lname), name_ok n → name_ok p →
  (∀ b, (parent_file, b) ∈ fs → b = parent_contents p) → is_Some (m !! n) →
  ∃ m', pack_parents m (Ok <$> (data_entry n <$> fs)) = Ok m' ∧ (∀ n', n' ≠ n → m' !! n' = m !! n') ∧
    m' !! n = if decide (parent_file ∈ fs.*1) then Some (Some p) else m !! n.
Proof.
  induction fs as [|[f b] fs IH]; intros m Hn Hp Hf Hm.
  - exists m. split_and!; [done|done|]. by rewrite decide_False by (by intros ?%elem_of_nil).
  - rewrite !fmap_cons. cbn [pack_parents fst]. destruct (decide (f = parent_file)) as [->|Hne].
    + rewrite (Hf b) by left. rewrite pack_parent_parent by done. cbn [obind].
      destruct (IH (<[n := Some p]> m) Hn Hp) as (m' & E & H1 & H2); [intros; apply Hf; by right|rewrite lookup_insert; by eexists|].
      exists m'. split_and!; [done| |].
      * intros n' Hn'. rewrite H1 by done. by rewrite lookup_insert_ne.
      * rewrite H2, lookup_insert. rewrite (decide_True (P := parent_file ∈ parent_file :: fs.*1)) by left. by case_decide.
    + rewrite pack_parent_other by done. cbn [obind].
      destruct (IH m Hn Hp) as (m' & E & H1 & H2); [intros; apply Hf; by right|done|].
      exists m'. split_and!; [done|done|]. rewrite H2. apply decide_ext. rewrite elem_of_cons. split; [auto|]. intros [?|?]; [congruence|done].
Qed.

(** the parent that the files of a layer say it has *)
Lemma pack_parents_layer {S} (st : pls S) (s : S) (n : lname) (q : option lname) (m : gmap lname (option lname)) : name_ok n → complete st s n →
  parent_is st s n q → (m !! n = None ∨ m !! n = Some q) →
  ∃ m', pack_parents m (Ok <$> layer_entries (shows st s n) (is_child st s n) n) = Ok m' ∧ (∀ n', n' ≠ n → m' !! n' = m !! n') ∧ m' !! n = Some q.
Proof.
  intros Hn (Hx & Hr & Hm & _) Hq Hmn. unfold layer_entries. rewrite fmap_cons. cbn [pack_parents]. rewrite pack_parent_dir by done. cbn [obind].
  set (m1 := match m !! n with Some _ => m | None => <[n := None]> m end).
  assert (∀ n', n' ≠ n → m1 !! n' = m !! n') as H1.
  { intros n' Hne. unfold m1. destruct (m !! n); [done|by rewrite lookup_insert_ne]. }
  assert (m1 !! n = Some None ∨ m1 !! n = Some q) as Hm1.
  { unfold m1. destruct Hmn as [E|E]; rewrite E; [rewrite lookup_insert; by left|by right]. }
  assert (is_Some (m1 !! n)) as Hs by (destruct Hm1 as [->| ->]; by eexists).
  destruct q as [p|]; cbn [parent_is] in Hq.
  - destruct Hq as [Hp Hq].
    assert (is_child st s n = true) as Ec. { unfold is_child. apply bool_decide_eq_true. unfold shows in Hq. by destruct (p_exists st s n parent_file) as [[|]| |]. }
    rewrite Ec in *.
    destruct (pack_parents_files n p (shown_files (shows st s n) (may_have true)) m1 Hn Hp) as (m' & E & H2 & H3); [|done|].
    { intros b [_ Hb]%elem_shown. congruence. }
    exists m'. split_and!; [done| |].
    + intros n' Hne. rewrite H2 by done. by apply H1.
    + rewrite H3, decide_True; [done|]. apply elem_of_list_fmap. exists (parent_file, parent_contents p). split; [done|].
      apply elem_shown. split; [by apply parent_may|done].
  - assert (is_child st s n = false) as Ec. { unfold is_child. apply bool_decide_eq_false. rewrite Hq. done. }
    rewrite Ec in *.
    destruct (pack_parents_files n n (shown_files (shows st s n) (may_have false)) m1 Hn Hn) as (m' & E & H2 & H3); [|done|].
    { intros b [Hb _]%elem_shown. by apply parent_may in Hb. }
    exists m'. split_and!; [done| |].
    + intros n' Hne. rewrite H2 by done. by apply H1.
    + rewrite H3, decide_False; [by destruct Hm1|]. intros ((g & b) & E' & Hg)%elem_of_list_fmap. cbn in E'. subst g.
      apply elem_shown in Hg as [Hg _]. by apply parent_may in Hg.
Qed.
Lemma listed_parents {S} (st : pls S) (tc : tar_codec) (s : S) (ids : list lname) (par : lname → option lname) : tar_ok tc → Forall name_ok ids →
  (∀ n, n ∈ ids → complete st s n ∧ parent_is st s n (par n)) →
  ∃ pack m, export_layers st tc s ids = Ok pack ∧ pack_layer_parents tc pack = Ok m ∧
    ∀ n, m !! n = if decide (n ∈ ids) then Some (par n) else None.
Proof.
  intros Ht Hn Hc. destruct (export_pack st tc s ids Ht Hn) as (pack & Hp & E); [intros; by apply Hc|]. exists pack.
  unfold pack_layer_parents. rewrite E. clear E.
  assert (∀ m0 : gmap lname (option lname), (∀ n, m0 !! n = None ∨ m0 !! n = Some (par n)) →
    ∃ m, pack_parents m0 (Ok <$> mjoin ((λ n, layer_entries (shows st s n) (is_child st s n) n) <$> ids)) = Ok m ∧
      ∀ n, m !! n = if decide (n ∈ ids) then Some (par n) else m0 !! n) as H.
  { clear Hp. revert Hn Hc. induction ids as [|x ids IH]; intros Hn Hc m0 Hm0.
    - exists m0. split; [done|]. intros n. by rewrite decide_False by (by intros ?%elem_of_nil).
    - apply Forall_cons in Hn as [Hx Hn]. rewrite fmap_cons. change (mjoin (?a :: ?b)) with (a ++ mjoin b).
      rewrite fmap_app, pack_parents_app. destruct (Hc x ltac:(left)) as [Hcx Hpx].
      destruct (pack_parents_layer st s x (par x) m0 Hx Hcx Hpx (Hm0 x)) as (m1 & -> & H1 & H2). cbn [obind].
      destruct (IH Hn (λ n Hin, Hc n ltac:(by right)) m1) as (m & E & H3).
      { intros n. destruct (decide (n = x)) as [->|Hne]; [by right|]. rewrite H1 by done. apply Hm0. }
      exists m. split; [done|]. intros n. rewrite H3. destruct (decide (n = x)) as [->|Hne].
      + rewrite H2. rewrite (decide_True (P := x ∈ x :: ids)) by left. by case_decide.
      + rewrite H1 by done. apply decide_ext. rewrite elem_of_cons. split; [by right|by intros [?|?]]. }
  destruct (H ∅) as (m & E & Hm); [intros; left; apply lookup_empty|]. exists m. split_and!; [done|done|].
  intros n. rewrite Hm. by rewrite lookup_empty.
Qed.
