(** Each layer store does what [SpecBackend] says. *)
From Verif Require Import Prelude Names NamesFacts FileNames Archive ArchiveFacts ArchiveStore SpecArchive ArchiveStoreFacts ArchiveApi
  Pack SpecPack PackFacts PackImport PackBackends Backend SpecBackend.

(** ** The layers *)
Record slot_ok (sl : slot) : Prop := SlotOk {
  so_kind : ∃ child, files_for child (sl_files sl);
  so_parent : ∀ b, sl_files sl !! parent_file = Some b → ∃ p, name_ok p ∧ b = parent_contents p;
  so_open : sl_done sl = false → sl_rollup sl = None;
  so_rollup : ∀ m, sl_rollup sl = Some m → name_ok m }.
Definition layers_ok (i : gmap (list N) slot) : Prop := ∀ n sl, i !! n = Some sl → slot_ok sl.

Lemma rollup_not_file child m : files_for child m → m !! rollup_file = None.
Proof. intros H. destruct (m !! rollup_file) eqn:E; [|done]. exfalso. apply (rollup_may child), H. by eexists. Qed.
Lemma files_insert child m f b : files_for child m → f ∈ may_have child → files_for child (<[f := b]> m).
Proof. intros H Hf g Hg. destruct (decide (g = f)) as [->|]; [done|]. rewrite lookup_insert_ne in Hg by done. by apply H. Qed.

Lemma layers_alter i n sl g : layers_ok i → i !! n = Some sl → slot_ok (g sl) → layers_ok (alter g n i).
Proof.
  intros Hi Hn Hg n' sl' [[<- (x & Hx & ->)]|[Hne Hx]]%lookup_alter_Some; [|by apply (Hi n')].
  by rewrite Hn in Hx; injection Hx as <-.
Qed.
Lemma layers_step i call : layers_ok i → proper i call → layers_ok (ideal_step i call).2.
Proof.
  intros Hi Hp. destruct call as [n|n f b|n|n m|n|n f|n f|n f|n|n]; cbn [ideal_step snd]; try done; cbn [proper] in Hp.
  - intros n' sl [[<- <-]|[_ Hx]]%lookup_insert_Some; [|by apply (Hi n')].
    split; cbn [sl_files sl_done sl_rollup]; [exists true; intros f [? Hf]; by rewrite lookup_empty in Hf|intros b Hb; by rewrite lookup_empty in Hb|done|done].
  - destruct Hp as (sl & child & Hn & Hd & Hk & Hf & Hff & Hpar). destruct (Hi n sl Hn) as [K1 K2 K3 K4].
    apply (layers_alter i n sl _ Hi Hn). split; cbn [sl_files sl_done sl_rollup].
    + exists child. by apply files_insert.
    + intros b' [[-> <-]|[_ Hx]]%lookup_insert_Some; [by apply Hpar|by apply K2].
    + done.
    + done.
  - destruct Hp as (sl & child & Hn & Hd & Hk & Ht). destruct (Hi n sl Hn) as [K1 K2 K3 K4].
    apply (layers_alter i n sl _ Hi Hn). by split.
  - destruct Hp as (sl & Hn & Hd & Hm). destruct (Hi n sl Hn) as [K1 K2 K3 K4].
    apply (layers_alter i n sl _ Hi Hn). split; cbn [sl_files sl_done sl_rollup]; [done|done|congruence|by intros ? [= <-]].
Qed.

(** ** Stores of files *)
Definition with_rollup (sl : slot) : gmap (list nat) (list nat) :=
  match sl_rollup sl with Some m => <[rollup_file := rollup_contents m]> (sl_files sl) | None => sl_files sl end.
Definition file_rel (i : gmap (list N) slot) (s : gmap (list N) (gmap (list nat) (list nat))) : Prop :=
  ∀ n, s !! n = with_rollup <$> i !! n.
Record file_like (st : pls (gmap (list N) (gmap (list nat) (list nat)))) : Prop := FileLike {
  fl_dir : p_dir st = p_dir memory_pls;
  fl_exists : p_exists st = p_exists memory_pls;
  fl_map : p_map st = p_map memory_pls;
  fl_size : p_size st = p_size memory_pls;
  fl_create : ∀ s n, s !! n = None → p_create st s n = (Ok tt, <[n := ∅]> s);
  fl_write : ∀ (s : gmap (list N) (gmap (list nat) (list nat))) n m f b, s !! n = Some m →
    (∀ old, m !! f = Some old → length old = length b) → p_write st s n f b = (Ok tt, <[n := <[f := b]> m]> s);
  fl_finalize : ∀ s n m, s !! n = Some m → p_finalize st s n = (Ok tt, s) }.
Lemma memory_file_like : file_like memory_pls.
Proof. split; try done. intros s n m f b Hn _. cbn [memory_pls p_write]. by rewrite Hn. Qed.
Lemma directory_file_like over : trusted (BDirectory over) → file_like (directory_pls over).
Proof.
  intros Ho. split; try done.
  - intros s n Hn. cbn [directory_pls p_create]. by rewrite Hn.
  - intros s n m f b Hn Hl. cbn [directory_pls p_write]. rewrite Hn. destruct (m !! f) as [old|] eqn:E; [|done].
    by rewrite (Ho old b) by (by apply Hl).
  - intros s n m Hn. cbn [directory_pls p_finalize]. by rewrite Hn.
Qed.

Lemma rollup_length n : name_ok n → length (rollup_contents n) = 43.
Proof. intros Hn. unfold rollup_contents. rewrite !app_length, (name_to_string_len n Hn). by vm_compute. Qed.
Lemma parent_reads p : name_ok p → read_parent (parent_contents p) = Ok p.
Proof. intros Hp. rewrite <- (app_nil_r (parent_contents p)). by apply read_parent_round. Qed.

Section files.
Context (st : pls (gmap (list N) (gmap (list nat) (list nat)))) (F : file_like st).
Lemma rel_look i s n f : file_rel i s → f ≠ rollup_file → f_look s n f = file_of i n f.
Proof.
  intros HR Hf. unfold f_look, file_of. rewrite (HR n). destruct (i !! n) as [sl|]; [|done]. cbn [fmap option_fmap option_map mbind option_bind].
  unfold with_rollup. destruct (sl_rollup sl); [|done]. by rewrite lookup_insert_ne.
Qed.
Lemma rel_rollup i s n : layers_ok i → file_rel i s → f_look s n rollup_file = rollup_contents <$> (i !! n ≫= sl_rollup).
Proof.
  intros Hi HR. unfold f_look. rewrite (HR n). destruct (i !! n) as [sl|] eqn:E; [|done]. cbn [fmap option_fmap option_map mbind option_bind].
  unfold with_rollup. destruct (sl_rollup sl); [by rewrite lookup_insert|].
  destruct (so_kind sl (Hi n sl E)) as [child Hk]. by rewrite (rollup_not_file child).
Qed.
Lemma ask_not_rollup i n f : may_ask i n f → f ≠ rollup_file.
Proof. intros (child & Hf & _) ->. by apply rollup_may in Hf. Qed.

Lemma file_step i s call : layers_ok i → file_rel i s → proper i call →
  (call_step st (default_parent st) s call).1 = (ideal_step i call).1 ∧
  file_rel (ideal_step i call).2 (call_step st (default_parent st) s call).2.
Proof.
  intros Hi HR Hp. destruct call as [n|n f b|n|n m|n|n f|n f|n f|n|n]; cbn [ideal_step call_step fst snd]; cbn [proper] in Hp.
  - rewrite (fl_create st F) by (by rewrite (HR n), Hp). cbn [fst snd]. split; [done|].
    intros n'. destruct (decide (n' = n)) as [->|]; [by rewrite !lookup_insert|]. by rewrite !lookup_insert_ne by done.
  - destruct Hp as (sl & child & Hn & Hd & Hk & Hf & Hff & Hpar).
    pose proof (so_open sl (Hi n sl Hn) Hd) as Hro.
    rewrite (fl_write st F s n (sl_files sl)).
    2:{ rewrite (HR n), Hn. cbn [fmap option_fmap option_map]. unfold with_rollup. by rewrite Hro. }
    2:{ intros old Ho. congruence. }
    cbn [fst snd]. split; [done|]. intros n'. destruct (decide (n' = n)) as [->|].
    + rewrite lookup_insert, lookup_alter, Hn. cbn [fmap option_fmap option_map]. unfold with_rollup. cbn [sl_rollup sl_files]. by rewrite Hro.
    + by rewrite lookup_insert_ne, lookup_alter_ne by done.
  - destruct Hp as (sl & child & Hn & Hd & Hk & Ht).
    rewrite (fl_finalize st F s n (with_rollup sl)) by (by rewrite (HR n), Hn). cbn [fst snd]. split; [done|].
    intros n'. destruct (decide (n' = n)) as [->|]; [|by rewrite lookup_alter_ne].
    rewrite lookup_alter, Hn, (HR n), Hn. done.
  - destruct Hp as (sl & Hn & Hd & Hm). destruct (so_kind sl (Hi n sl Hn)) as [child Hk].
    rewrite (fl_write st F s n (with_rollup sl)).
    2:{ by rewrite (HR n), Hn. }
    2:{ intros old Ho. rewrite (rollup_length m Hm). unfold with_rollup in Ho. destruct (sl_rollup sl) as [m'|] eqn:Er.
        - rewrite lookup_insert in Ho. injection Ho as <-. apply rollup_length. by apply (so_rollup sl (Hi n sl Hn)).
        - by rewrite (rollup_not_file child) in Ho. }
    cbn [fst snd]. split; [done|]. intros n'. destruct (decide (n' = n)) as [->|].
    + rewrite lookup_insert, lookup_alter, Hn. cbn [fmap option_fmap option_map]. unfold with_rollup. cbn [sl_rollup sl_files].
      destruct (sl_rollup sl); [by rewrite insert_insert|done].
    + by rewrite lookup_insert_ne, lookup_alter_ne by done.
  - split; [|done]. rewrite (fl_dir st F). cbn [memory_pls p_dir]. rewrite (HR n). f_equal. f_equal. apply bool_decide_ext. by rewrite fmap_is_Some.
  - split; [|done]. rewrite (fl_exists st F). cbn [memory_pls p_exists]. f_equal. f_equal. case_decide as Hf.
    + subst f. rewrite (rel_rollup i) by done. apply bool_decide_ext. by rewrite fmap_is_Some.
    + by rewrite (rel_look i) by done.
  - split; [|done]. rewrite (fl_map st F). cbn [memory_pls p_map]. rewrite (rel_look i) by (done || by eapply ask_not_rollup). done.
  - split; [|done]. rewrite (fl_size st F). cbn [memory_pls p_size]. rewrite (rel_look i) by (done || by eapply ask_not_rollup). done.
  - split; [|done]. f_equal. unfold default_parent. rewrite (fl_dir st F), (fl_exists st F), (fl_map st F). cbn [memory_pls p_dir p_exists p_map obind].
    rewrite (rel_look i s n parent_file HR) by (intros E; vm_compute in E; discriminate E).
    rewrite (HR n). unfold file_of. destruct (i !! n) as [sl|]; [|done]. cbn [fmap option_fmap option_map mbind option_bind sl_found obind].
    rewrite bool_decide_eq_true_2 by (by eexists). destruct (sl_files sl !! parent_file) as [b|]; [|done].
    rewrite bool_decide_eq_true_2 by (by eexists). done.
  - split; [|done]. f_equal. unfold rollup_of. rewrite (fl_exists st F), (fl_map st F). cbn [memory_pls p_exists p_map obind].
    rewrite (rel_rollup i) by done. destruct (i !! n) as [sl|] eqn:E; [|done]. cbn [mbind option_bind].
    destruct (sl_rollup sl) as [m|] eqn:Er; [|done]. cbn [fmap option_fmap option_map].
    rewrite bool_decide_eq_true_2 by (by eexists). cbn [found obind]. rewrite read_rollup_round; [done|].
    by apply (so_rollup sl (Hi n sl E)).
Qed.
End files.

(** ** The archive store *)
Section archive.
Context (c : codec) (Hcod : codec_ok c).

Definition archive_done (s : astore) (n : lname) (sl : slot) : Prop :=
  as_constr s !! n = None ∧ as_rollups s !! n = archive_rollup_contents <$> sl_rollup sl ∧
  ∃ fs, as_disk s !! n = Some (archive_bytes c fs) ∧ files_ok fs ∧
    ∀ child f ft, files_for child (sl_files sl) → f ∈ parent_file :: may_have child → type_of_name f = Some ft →
      ∀ b, (ft, b) ∈ fs ↔ sl_files sl !! f = Some b.
Definition archive_slot (s : astore) (n : lname) (o : option slot) : Prop :=
  match o with
  | None => as_disk s !! n = None ∧ as_constr s !! n = None
  | Some sl => if sl_done sl then archive_done s n sl else archive_building s n (sl_files sl)
  end.
Definition archive_rel (i : gmap (list N) slot) (s : astore) : Prop := archive_good s ∧ ∀ n, archive_slot s n (i !! n).

Lemma slot_frame s s' n o : as_disk s' !! n = as_disk s !! n → as_constr s' !! n = as_constr s !! n → as_rollups s' !! n = as_rollups s !! n →
  (∀ m, archive_building s n m → archive_building s' n m) → archive_slot s n o → archive_slot s' n o.
Proof.
  intros Hd Hc Hr Hb. destruct o as [sl|]; cbn [archive_slot]; [|by rewrite Hd, Hc].
  destruct (sl_done sl); [|by apply Hb]. unfold archive_done. by rewrite Hd, Hc, Hr.
Qed.
Lemma asked_typed child f : f ∈ parent_file :: may_have child → ∃ ft, type_of_name f = Some ft ∧ ft < rollup_type.
Proof.
  intros [->|H]%elem_of_cons; [|by apply may_have_typed in H].
  exists parent_type. split; [apply parent_typed|]. unfold parent_type, rollup_type. lia.
Qed.
Lemma asked_inj child f g ft : f ∈ parent_file :: may_have child → g ∈ may_have child → type_of_name f = Some ft → type_of_name g = Some ft → g = f.
Proof.
  intros [->|Hf]%elem_of_cons Hg Ef Eg; [|apply (types_inj child); [done|done|congruence]].
  rewrite parent_typed in Ef. injection Ef as <-. by apply (parent_type_unique child).
Qed.

(** what is read of a layer *)
Definition reads (s : astore) (n : lname) (f : bytes) (r : option bytes) : Prop :=
  p_exists (archive_pls c) s n f = Ok (bool_decide (is_Some r)) ∧ p_map (archive_pls c) s n f = sl_found r ∧
  p_size (archive_pls c) s n f = sl_found (length <$> r).
Lemma reads_none s n child f : as_poisoned s = false → as_disk s !! n = None → as_constr s !! n = None →
  f ∈ parent_file :: may_have child → reads s n f None.
Proof.
  intros Hp Hd Hc Hf. destruct (asked_typed _ _ Hf) as (ft & Eft & Hft). unfold reads. cbn [archive_pls p_exists p_map p_size].
  unfold ap_exists, ap_map, ap_size, typed. rewrite Eft, !decide_False by lia. unfold locked. rewrite Hp.
  unfold as_file_exists, as_map, as_size. rewrite !decide_False by lia. rewrite Hc, Hd. done.
Qed.
Lemma reads_building s n m child f : as_poisoned s = false → archive_building s n m → files_for child m →
  f ∈ parent_file :: may_have child → reads s n f (m !! f).
Proof.
  intros Hp (B1 & cm & B2 & B3 & B4) Hk Hf. destruct (asked_typed _ _ Hf) as (ft & Eft & Hft). unfold reads. cbn [archive_pls p_exists p_map p_size].
  unfold ap_exists, ap_map, ap_size, typed. rewrite Eft, !decide_False by lia. unfold locked. rewrite Hp.
  unfold as_file_exists, as_map, as_size. rewrite !decide_False by lia. rewrite B2.
  destruct (m !! f) as [b|] eqn:Em.
  - destruct (B3 f b Em) as (ft' & h & E1 & E2 & E3). rewrite Eft in E1. injection E1 as <-. rewrite E2, E3.
    rewrite bool_decide_eq_true_2 by (by eexists). done.
  - assert (cm !! ft = None) as ->; [|done]. destruct (cm !! ft) as [h|] eqn:Eh; [|done].
    destruct (B4 ft h Eh) as (g & b & Eg & Et). assert (g = f) as -> by (apply (asked_inj child f g ft); [done|apply Hk; by eexists|done|done]).
    congruence.
Qed.
Lemma reads_done s n sl child f : as_poisoned s = false → archive_done s n sl → files_for child (sl_files sl) →
  f ∈ parent_file :: may_have child → reads s n f (sl_files sl !! f).
Proof.
  intros Hp (D1 & D2 & fs & D3 & Hok & D4) Hk Hf. destruct (asked_typed _ _ Hf) as (ft & Eft & Hft). unfold reads. cbn [archive_pls p_exists p_map p_size].
  unfold ap_exists, ap_map, ap_size, typed. rewrite Eft, !decide_False by lia. unfold locked. rewrite Hp.
  unfold as_file_exists, as_map, as_size. rewrite !decide_False by lia. rewrite D1, D3.
  pose proof (D4 child f ft Hk Hf Eft) as Hiff.
  assert (ft < 64) as H64 by (unfold rollup_type in Hft; lia).
  rewrite (file_exists_archive c fs ft) by done.
  destruct (sl_files sl !! f) as [b|] eqn:Em.
  - assert ((ft, b) ∈ fs) as Hin by (by apply Hiff).
    rewrite (structure_present c Hcod fs ft b Hok Hin), (size_present c Hcod fs ft b Hok Hin).
    rewrite !bool_decide_eq_true_2; [done|by eexists|]. apply elem_of_list_fmap. by exists (ft, b).
  - assert (ft ∉ fs.*1) as Hn. { intros ([ft' b] & -> & Hx)%elem_of_list_fmap. by apply Hiff in Hx. }
    rewrite (structure_absent c Hcod fs ft), (size_absent c Hcod fs ft) by done. rewrite bool_decide_eq_false_2 by done. done.
Qed.
Lemma reads_rel i s n child f : layers_ok i → archive_rel i s → f ∈ parent_file :: may_have child →
  (∀ sl, i !! n = Some sl → files_for child (sl_files sl)) → reads s n f (file_of i n f).
Proof.
  intros Hi ((Hp & _) & HR) Hf Hk. specialize (HR n). unfold file_of. destruct (i !! n) as [sl|]; cbn [archive_slot mbind option_bind] in *.
  - destruct (sl_done sl); [apply (reads_done s n sl child)|apply (reads_building s n _ child)]; auto.
  - destruct HR. by apply (reads_none s n child).
Qed.
Lemma rollup_rel i s n : layers_ok i → archive_rel i s →
  match i !! n ≫= sl_rollup with
  | Some m => name_ok m ∧ is_Some (as_disk s !! n) ∧ as_rollups s !! n = Some (archive_rollup_contents m)
  | None => as_rollups s !! n = None
  end.
Proof.
  intros Hi ((_ & Hg & _) & HR). specialize (HR n). destruct (i !! n) as [sl|] eqn:E; cbn [archive_slot mbind option_bind] in *.
  - destruct (Hi n sl E) as [K1 K2 K3 K4]. destruct (sl_done sl) eqn:Ed.
    + destruct HR as (D1 & D2 & fs & D3 & _). rewrite D2, D3. destruct (sl_rollup sl) as [m|] eqn:Er; [|done].
      split_and!; [by apply K4|by eexists|done].
    + rewrite (K3 eq_refl). destruct HR as (B1 & _). destruct (as_rollups s !! n) eqn:Er; [|done].
      destruct (Hg n) as [? ?]; [by eexists|congruence].
  - destruct HR as [H1 H2]. destruct (as_rollups s !! n) eqn:Er; [|done]. destruct (Hg n) as [? ?]; [by eexists|congruence].
Qed.

Lemma write_frame (s s' : astore) (n : lname) f b r ft : type_of_name f = Some ft → ft < rollup_type → ap_write s n f b = (r, s') →
  as_disk s' = as_disk s ∧ as_rollups s' = as_rollups s ∧ ∀ n', n' ≠ n → as_constr s' !! n' = as_constr s !! n'.
Proof.
  intros Et Hft. unfold ap_write. rewrite Et, decide_False by lia. destruct (as_poisoned s); [by intros [= <- <-]|].
  destruct (as_constr s !! n) as [m|]; [|by intros [= <- <-]].
  assert (∀ t h, write_cell t h b = (r, s') → as_disk s' = as_disk t ∧ as_rollups s' = as_rollups t ∧ as_constr s' = as_constr t) as Hw.
  { intros t h. unfold write_cell. destruct (as_cells t !! h) as [x|]; [|by intros [= <- <-]].
    destruct (obind (cfile_write x b) cfile_sync); by intros [= <- <-]. }
  destruct (m !! ft) as [h|].
  - intros (E1 & E2 & E3)%Hw. split_and!; [done|done|]. by rewrite E3.
  - intros (E1 & E2 & E3)%Hw. split_and!; [done|done|]. intros n' Hne. rewrite E3. cbn [set_cells set_constr as_constr]. by rewrite lookup_insert_ne.
Qed.

Lemma archive_step i s call : layers_ok i → archive_rel i s → proper i call →
  (call_step (archive_pls c) (as_parent c) s call).1 = (ideal_step i call).1 ∧
  archive_rel (ideal_step i call).2 (call_step (archive_pls c) (as_parent c) s call).2.
Proof.
  intros Hi HR Hp. pose proof HR as [Hg HS]. pose proof Hg as (Hpo & _).
  destruct call as [n|n f b|n|n m|n|n f|n f|n f|n|n]; cbn [ideal_step call_step fst snd]; cbn [proper] in Hp.
  - pose proof (HS n) as Hn. rewrite Hp in Hn. cbn [archive_slot] in Hn. destruct Hn as [N1 N2].
    destruct (archive_create c s n Hg) as (s' & E & Hg' & HB & Ho).
    { cbn [archive_pls p_dir]. unfold ap_dir, locked, as_directory_exists. by rewrite Hpo, N2, N1. }
    rewrite E. cbn [fst snd]. split; [done|]. split; [done|].
    cbn [archive_pls p_create] in E. unfold ap_create in E. rewrite N1, Hpo, N2 in E. injection E as <-.
    intros n'. destruct (decide (n' = n)) as [->|Hne]; [by rewrite lookup_insert|]. rewrite lookup_insert_ne by done.
    apply (slot_frame s); [done|cbn [set_constr as_constr]; by rewrite lookup_insert_ne|done|by apply Ho|apply HS].
  - destruct Hp as (sl & child & Hn & Hd & Hk & Hf & Hff & Hpar). destruct (may_have_typed _ _ Hf) as (ft & Et & Hft).
    pose proof (HS n) as HB. rewrite Hn in HB. cbn [archive_slot] in HB. rewrite Hd in HB.
    destruct (archive_write c s n (sl_files sl) child f b Hg HB Hk Hf Hff) as (s' & E & Hg' & HB' & Ho).
    rewrite E. cbn [fst snd]. split; [done|]. split; [done|].
    cbn [archive_pls p_write] in E. destruct (write_frame _ _ _ _ _ _ _ Et Hft E) as (F1 & F2 & F3).
    intros n'. destruct (decide (n' = n)) as [->|Hne].
    + rewrite lookup_alter, Hn. cbn [fmap option_fmap option_map archive_slot sl_done sl_files]. by rewrite Hd.
    + rewrite lookup_alter_ne by done. apply (slot_frame s); [by rewrite F1|by apply F3|by rewrite F2|by apply Ho|apply HS].
  - destruct Hp as (sl & child & Hn & Hd & Hk & Ht).
    pose proof (HS n) as HB. rewrite Hn in HB. cbn [archive_slot] in HB. rewrite Hd in HB.
    destruct (archive_finalize c s n (sl_files sl) child Hcod Hg HB Hk Ht) as (s' & E & Hg' & _ & Ho).
    rewrite E. cbn [fst snd]. split; [done|]. split; [done|].
    pose proof HB as (B1 & cm & B2 & B3 & B4).
    pose proof (building_files_ok s n _ child cm Hg HB B2 Hk Ht) as Hok.
    cbn [archive_pls p_finalize] in E. unfold ap_finalize in E. rewrite Hpo, B2, decide_True in E.
    2:{ rewrite total_join, (building_total s n _ child cm HB B2 Hk). done. }
    injection E as <-. rewrite B1 in *. cbn [default] in *.
    assert (∀ x : bytes, write_at [] 0 x = x) as Ew. { intros x. unfold write_at. cbn [take app]. by rewrite drop_nil, app_nil_r. }
    rewrite Ew in *. intros n'. destruct (decide (n' = n)) as [->|Hne].
    + rewrite lookup_alter, Hn. cbn [fmap option_fmap option_map archive_slot sl_done sl_files].
      unfold archive_done. cbn [set_disk set_constr as_constr as_rollups as_disk sl_files sl_rollup].
      rewrite lookup_delete, lookup_insert. split; [done|]. split.
      * rewrite (so_open sl (Hi n sl Hn) Hd). destruct Hg as (_ & Hr & _). destruct (as_rollups s !! n) eqn:Er; [|done].
        destruct (Hr n) as [? ?]; [by eexists|congruence].
      * eexists. split; [done|]. split; [done|]. intros child' f ft Hk' Hf Et. by apply (building_files s n _ child' cm HB B2 Hk').
    + rewrite lookup_alter_ne by done. apply (slot_frame s); cbn [set_disk set_constr as_constr as_rollups as_disk].
      * by rewrite lookup_insert_ne.
      * by rewrite lookup_delete_ne.
      * done.
      * by apply Ho.
      * apply HS.
  - destruct Hp as (sl & Hn & Hd & Hm). pose proof (HS n) as HD. rewrite Hn in HD. cbn [archive_slot] in HD. rewrite Hd in HD.
    destruct HD as (D1 & D2 & fs & D3 & Hok & D4).
    cbn [archive_pls p_write]. unfold ap_write. rewrite rollup_typed, decide_True by done. rewrite D3, rollup_sync_contents by done.
    cbn [fst snd]. split; [done|]. split.
    + destruct Hg as (G1 & G2 & G3 & G4). split_and!; [done| |done|done]. intros n'. cbn [set_rollups as_rollups as_disk].
      intros [x Hx]. apply lookup_insert_Some in Hx as [[<- _]|[_ Hx]]; [by rewrite D3; eexists|apply G2; by eexists].
    + intros n'. destruct (decide (n' = n)) as [->|Hne].
      * rewrite lookup_alter, Hn. cbn [fmap option_fmap option_map archive_slot sl_done]. rewrite Hd.
        unfold archive_done. cbn [set_rollups as_constr as_rollups as_disk sl_rollup sl_files]. rewrite lookup_insert.
        split; [done|]. split; [done|]. by exists fs.
      * rewrite lookup_alter_ne by done. apply (slot_frame s); cbn [set_rollups as_constr as_rollups as_disk]; [done|done|by rewrite lookup_insert_ne|done|apply HS].
  - split; [|done]. f_equal. cbn [archive_pls p_dir]. unfold ap_dir, locked, as_directory_exists. rewrite Hpo. f_equal.
    specialize (HS n). destruct (i !! n) as [sl|]; cbn [archive_slot] in HS.
    + rewrite bool_decide_eq_true_2 by (by eexists). destruct (sl_done sl).
      * destruct HS as (D1 & D2 & fs & D3 & _). by rewrite D1, D3.
      * destruct HS as (B1 & cm & B2 & _). by rewrite B2.
    + destruct HS as [N1 N2]. by rewrite N1, N2.
  - split; [|done]. f_equal. destruct (decide (f = rollup_file)) as [->|Hf].
    + cbn [archive_pls p_exists]. unfold ap_exists, typed. rewrite rollup_typed, decide_True by done. unfold as_file_exists. rewrite decide_True by done.
      pose proof (rollup_rel i s n Hi HR) as Hr. destruct (i !! n ≫= sl_rollup) as [m|].
      * destruct Hr as (Hm & [d Hd] & ->). rewrite Hd. unfold rollup_file_exists. by rewrite get_rollup_contents by done.
      * rewrite Hr. unfold rollup_file_exists, get_rollup. by destruct (as_disk s !! n).
    + assert (∃ child, f ∈ parent_file :: may_have child ∧ ∀ sl, i !! n = Some sl → files_for child (sl_files sl)) as (child & H1 & H2).
      { destruct Hp as [->|[->|(child & H1 & H2)]]; [done| |exists child; split; [by right|done]].
        destruct (i !! n) as [sl|] eqn:E; [|exists true; split; [left|done]].
        destruct (so_kind sl (Hi n sl E)) as [child Hk]. exists child. split; [left|]. by intros ? [= <-]. }
      apply (reads_rel i s n child f Hi HR H1 H2).
  - split; [|done]. f_equal. destruct Hp as (child & H1 & H2). apply (reads_rel i s n child f Hi HR); [by right|done].
  - split; [|done]. f_equal. destruct Hp as (child & H1 & H2). apply (reads_rel i s n child f Hi HR); [by right|done].
  - split; [|done]. f_equal. unfold as_parent, get_parent. specialize (HS n). destruct (i !! n) as [sl|] eqn:E; cbn [archive_slot sl_found obind] in *.
    + rewrite (Hp sl eq_refl) in HS. destruct HS as (D1 & D2 & fs & D3 & Hok & D4). rewrite D3.
      destruct (Hi n sl E) as [[child Hk] K2 K3 K4].
      pose proof (D4 child parent_file parent_type Hk ltac:(left) parent_typed) as Hiff.
      destruct (sl_files sl !! parent_file) as [b|] eqn:Eb.
      * rewrite (structure_present c Hcod fs parent_type b Hok) by (by apply Hiff). destruct (K2 b eq_refl) as (p & Hpn & ->).
        rewrite parent_reads by done. cbn [parse_parent obind]. unfold parent_contents. pose proof (name_to_string_len p Hpn) as Hl.
        rewrite decide_False by lia. rewrite take_ge by lia. by rewrite string_to_name_round.
      * rewrite (structure_absent c Hcod fs parent_type Hok); [done|unfold parent_type; lia|].
        intros ([ft' b] & Eft & Hx)%elem_of_list_fmap. cbn [fst] in Eft. subst ft'. by apply Hiff in Hx.
    + destruct HS as [-> _]. done.
  - split; [|done]. f_equal. unfold rollup_of. cbn [archive_pls p_exists p_map]. unfold ap_exists, ap_map, typed. rewrite rollup_typed, !decide_True by done.
    unfold as_file_exists, as_map. rewrite !decide_True by done.
    pose proof (rollup_rel i s n Hi HR) as Hr. destruct (i !! n ≫= sl_rollup) as [m|].
    + destruct Hr as (Hm & [d Hd] & ->). rewrite Hd. unfold rollup_file_exists. rewrite get_rollup_contents by done. cbn [obind].
      rewrite bool_decide_eq_true_2 by (by eexists). destruct (rollup_map_reads d m Hm) as (b & -> & Hb & _). cbn [obind]. by rewrite Hb.
    + rewrite Hr. unfold rollup_file_exists, get_rollup. by destruct (as_disk s !! n).
Qed.
End archive.

(** ** All stores *)
Definition store_rel (k : backend) : gmap (list N) slot → backend_state k → Prop :=
  match k with BMemory | BDirectory _ => file_rel | BArchive c => archive_rel c end.
Lemma store_step k i s call : trusted k → layers_ok i → store_rel k i s → proper i call →
  (bstep k s call).1 = (ideal_step i call).1 ∧ store_rel k (ideal_step i call).2 (bstep k s call).2.
Proof.
  destruct k as [|over|c]; intros Hk.
  - apply (file_step memory_pls memory_file_like).
  - apply (file_step (directory_pls over) (directory_file_like over Hk)).
  - apply (archive_step c Hk).
Qed.
Lemma store_new k : store_rel k ∅ (backend_new k).
Proof.
  destruct k as [|over|c]; cbn [store_rel backend_new].
  - intros n. by rewrite !lookup_empty.
  - intros n. by rewrite !lookup_empty.
  - split; [|intros n; by rewrite lookup_empty]. split_and!; [done| | |].
    + intros n [? H]. cbn [astore_new as_rollups] in H; by rewrite lookup_empty in H.
    + intros n m ft h H. cbn [astore_new as_constr] in H; by rewrite lookup_empty in H.
    + intros n m ft n' m' ft' h H. cbn [astore_new as_constr] in H; by rewrite lookup_empty in H.
Qed.
Lemma store_run k calls : trusted k → ∀ i s, layers_ok i → store_rel k i s → properly i calls →
  (brun k s calls).1 = (ideal_run i calls).1 ∧ store_rel k (ideal_run i calls).2 (brun k s calls).2.
Proof.
  intros Hk. induction calls as [|call calls IH]; intros i s Hi HR Hp; [done|]. destruct Hp as [Hp Hps]. cbn [brun ideal_run].
  destruct (store_step k i s call Hk Hi HR Hp) as [E HR']. pose proof (layers_step i call Hi Hp) as Hi'.
  destruct (bstep k s call) as [a s1], (ideal_step i call) as [a' i1]. cbn [fst snd] in *.
  destruct (IH i1 s1 Hi' HR' Hps) as [E' HR'']. destruct (brun k s1 calls), (ideal_run i1 calls). cbn [fst snd] in *. split; [congruence|done].
Qed.
Lemma layers_new : layers_ok ∅.
Proof. intros n sl H. by rewrite lookup_empty in H. Qed.
Lemma stores_ideal k calls : trusted k → properly ∅ calls → (brun k (backend_new k) calls).1 = (ideal_run ∅ calls).1.
Proof. intros Hk Hp. by apply (store_run k calls Hk ∅ _ layers_new (store_new k)). Qed.
Lemma stores_agree k k' calls : trusted k → trusted k' → properly ∅ calls →
  (brun k (backend_new k) calls).1 = (brun k' (backend_new k') calls).1.
Proof. intros Hk Hk' Hp. by rewrite !stores_ideal. Qed.

(** ** Opening an archive store again *)
Lemma archive_again (c : codec) i s : archive_rel c i s → archive_rel c (filter (λ p, sl_done p.2 = true) i) (restart s).
Proof.
  intros [(G1 & G2 & G3 & G4) HS]. split.
  - split_and!; [done|done| |]; cbn [restart as_constr].
    + intros n m ft h H. by rewrite lookup_empty in H.
    + intros n m ft n' m' ft' h H. cbn [restart as_constr] in H. by rewrite lookup_empty in H.
  - intros n. specialize (HS n). rewrite map_filter_lookup. destruct (i !! n) as [sl|]; cbn [archive_slot mbind option_bind] in *.
    + destruct (sl_done sl) eqn:Ed.
      * cbn [snd]. rewrite option_guard_True by done. cbn [archive_slot]. rewrite Ed. destruct HS as (D1 & D2 & D3).
        split; [apply lookup_empty|]. done.
      * rewrite option_guard_False by (cbn [snd]; congruence). destruct HS as (B1 & _). split; [done|apply lookup_empty].
    + destruct HS. split; [done|apply lookup_empty].
Qed.
Lemma layers_filter i : layers_ok i → layers_ok (filter (λ p, sl_done p.2 = true) i).
Proof. intros H n sl [Hx _]%map_filter_lookup_Some. by apply (H n). Qed.
Lemma layers_run calls : ∀ i, layers_ok i → properly i calls → layers_ok (ideal_run i calls).2.
Proof.
  induction calls as [|call calls IH]; intros i Hi Hp; [done|]. destruct Hp as [Hp Hps]. cbn [ideal_run].
  pose proof (layers_step i call Hi Hp) as Hi'. destruct (ideal_step i call) as [a i1]. cbn [snd] in *. specialize (IH i1 Hi' Hps).
  by destruct (ideal_run i1 calls).
Qed.
Lemma archive_reopened (c : codec) calls calls' : codec_ok c → properly ∅ calls →
  let i := filter (λ p, sl_done p.2 = true) (ideal_run ∅ calls).2 in
  properly i calls' → (brun (BArchive c) (restart (brun (BArchive c) astore_new calls).2) calls').1 = (ideal_run i calls').1.
Proof.
  intros Hc Hp i Hp'. destruct (store_run (BArchive c) calls Hc ∅ astore_new layers_new (store_new (BArchive c)) Hp) as [_ HR].
  apply (store_run (BArchive c) calls' Hc i); [|by apply archive_again|done]. by apply layers_filter, layers_run; [apply layers_new|].
Qed.

(** ** Calls that are proper, decided *)
Definition forb (child : bool) (m : gmap (list nat) (list nat)) : bool := forallb (λ p, bool_decide (p.1 ∈ may_have child)) (map_to_list m).
Lemma forb_ok child m : forb child m = true → files_for child m.
Proof.
  unfold forb. intros H f [b Hb]. apply elem_of_map_to_list in Hb. pose proof (forallb_elem _ _ _ H Hb) as Hx. by apply bool_decide_eq_true in Hx.
Qed.
Definition askb (i : gmap (list N) slot) (n : lname) (f : bytes) : bool :=
  existsb (λ child, bool_decide (f ∈ may_have child) && match i !! n with Some sl => forb child (sl_files sl) | None => true end) [true; false].
Lemma askb_ok i n f : askb i n f = true → may_ask i n f.
Proof.
  unfold askb. intros (child & _ & H)%existsb_exists. rewrite andb_true_iff in H. destruct H as [H1 H2]. exists child.
  apply bool_decide_eq_true in H1. split; [done|]. intros sl E. rewrite E in H2. by apply forb_ok.
Qed.
Definition nameb (n : lname) : bool := bool_decide (length n = 5) && forallb (λ w, N.leb w u32_max) n.
Lemma nameb_ok n : nameb n = true → name_ok n.
Proof.
  unfold nameb. rewrite andb_true_iff. intros [H1 H2]. apply bool_decide_eq_true in H1. split; [done|]. apply Forall_forall. intros w Hw.
  apply N.leb_le. by apply (forallb_elem (λ w, N.leb w u32_max) n).
Qed.
Definition properb (i : gmap (list N) slot) (call : bcall) : bool :=
  match call with
  | BCreate n => bool_decide (i !! n = None)
  | BWrite n f b =>
      match i !! n with
      | Some sl => negb (sl_done sl) && bool_decide (sl_files sl !! f = None) &&
          existsb (λ child, bool_decide (f ∈ may_have child) && forb child (sl_files sl)) [true; false] &&
          (if decide (f = parent_file) then match string_to_name b with Ok p => nameb p && bool_decide (b = parent_contents p) | _ => false end else true)
      | None => false
      end
  | BFinalize n =>
      match i !! n with
      | Some sl => negb (sl_done sl) && existsb (λ child, forb child (sl_files sl)) [true; false] && N.leb (files_size (sl_files sl)) u64_max
      | None => false
      end
  | BRollup n m => match i !! n with Some sl => sl_done sl && nameb m | None => false end
  | BDir n => true
  | BExists n f => bool_decide (f = rollup_file) || bool_decide (f = parent_file) || askb i n f
  | BMap n f | BSize n f => askb i n f
  | BParentOf n => match i !! n with Some sl => sl_done sl | None => true end
  | BRollupOf n => true
  end.
Lemma properb_ok i call : properb i call = true → proper i call.
Proof.
  destruct call as [n|n f b|n|n m|n|n f|n f|n f|n|n]; cbn [properb proper].
  - by intros H%bool_decide_eq_true.
  - destruct (i !! n) as [sl|]; [|done]. rewrite !andb_true_iff. intros [[[H1 H2] H3] H4].
    apply bool_decide_eq_true in H2. apply existsb_exists in H3 as (child & _ & H3). rewrite andb_true_iff in H3. destruct H3 as [H3 H5].
    apply bool_decide_eq_true in H3. exists sl, child. split_and!; [done|by destruct (sl_done sl)|by apply forb_ok|done|done|].
    intros ->. rewrite decide_True in H4 by done. destruct (string_to_name b) as [p| |]; [|done|done].
    rewrite andb_true_iff in H4. destruct H4 as [H4 H6]. exists p. split; [by apply nameb_ok|by apply bool_decide_eq_true in H6].
  - destruct (i !! n) as [sl|]; [|done]. rewrite !andb_true_iff. intros [[H1 H2] H3]. apply existsb_exists in H2 as (child & _ & H2).
    exists sl, child. split_and!; [done|by destruct (sl_done sl)|by apply forb_ok|by apply N.leb_le].
  - destruct (i !! n) as [sl|]; [|done]. rewrite !andb_true_iff. intros [H1 H2]. exists sl. split_and!; [done|done|by apply nameb_ok].
  - done.
  - rewrite !orb_true_iff. intros [[H|H]|H]; [left|right; left|right; right]; [by apply bool_decide_eq_true in H|by apply bool_decide_eq_true in H|by apply askb_ok].
  - apply askb_ok.
  - apply askb_ok.
  - destruct (i !! n) as [sl|]; [|done]. by intros H ? [= <-].
  - done.
Qed.
Fixpoint properlyb (i : gmap (list N) slot) (calls : list bcall) : bool :=
  match calls with [] => true | call :: calls' => properb i call && properlyb (ideal_step i call).2 calls' end.
Lemma properlyb_ok calls : ∀ i, properlyb i calls = true → properly i calls.
Proof.
  induction calls as [|call calls IH]; intros i H; [done|]. cbn [properlyb] in H. rewrite andb_true_iff in H. destruct H as [H1 H2].
  split; [by apply properb_ok|by apply IH].
Qed.
