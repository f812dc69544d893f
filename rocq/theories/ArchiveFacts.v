(** Proofs about layer archives *)
From Verif Require Import Prelude ListFacts Names NamesFacts FileNames Archive.

Lemma mjoin_app2 {A} (l k : list (list A)) : mjoin (l ++ k) = mjoin l ++ mjoin k.
Proof. induction l as [|x l IH]; [done|]. change (x ++ mjoin (l ++ k) = (x ++ mjoin l) ++ mjoin k). by rewrite IH, app_assoc. Qed.

(** ** Words *)
Lemma be_bytes_length k n : length (be_bytes k n) = k.
Proof. revert n; induction k as [|k IH]; intros n; [done|]. cbn [be_bytes]. rewrite app_length, IH. cbn. lia. Qed.
Lemma be_value_snoc s b : be_value (s ++ [b]) = (be_value s * 256 + N.of_nat b)%N.
Proof. unfold be_value. by rewrite foldl_app. Qed.
Lemma be_value_bytes k n : (n < 256 ^ N.of_nat k)%N → be_value (be_bytes k n) = n.
Proof.
  revert n; induction k as [|k IH]; intros n Hn.
  { change (256 ^ N.of_nat 0)%N with 1%N in Hn. cbn. lia. }
  cbn [be_bytes]. rewrite be_value_snoc, N2Nat.id. rewrite Nat2N.inj_succ, N.pow_succ_r' in Hn.
  rewrite IH by (apply N.div_lt_upper_bound; lia).
  pose proof (N.div_mod n 256). lia.
Qed.
Lemma put_u64_length n : length (put_u64 n) = 8.
Proof. apply be_bytes_length. Qed.
Lemma put_u64_value n : (n ≤ u64_max)%N → be_value (put_u64 n) = n.
Proof. intros Hn. apply be_value_bytes. unfold u64_max in Hn. change (256 ^ N.of_nat 8)%N with 18446744073709551616%N. lia. Qed.

(** ** The presence header *)
Definition fbit (ft : nat) : N := N.shiftl 1 (63 - N.of_nat ft).
Lemma fbit_testbit ft j : ft < 64 → j < 64 → N.testbit (fbit ft) (63 - N.of_nat j) = bool_decide (j = ft).
Proof.
  intros Hf Hj. unfold fbit. rewrite N.shiftl_1_l, N.pow2_bits_eqb. case_bool_decide; [subst; apply N.eqb_refl|].
  apply N.eqb_neq. lia.
Qed.
Lemma from_present_get fts j : Forall (λ f, f < 64) fts → j < 64 →
  sba_get (from_present fts) j = bool_decide (j ∈ fts).
Proof.
  intros Hf Hj. unfold sba_get, from_present.
  assert (∀ v, N.testbit (foldl (λ v ft, N.lor v (fbit ft)) v fts) (63 - N.of_nat j)
               = N.testbit v (63 - N.of_nat j) || bool_decide (j ∈ fts)) as Hx.
  { induction fts as [|f fts IH]; intros v.
    { cbn [foldl]. rewrite (bool_decide_eq_false_2 (j ∈ [])) by (by apply not_elem_of_nil). by rewrite orb_false_r. }
    apply Forall_cons in Hf as [Hf Hfs]. cbn [foldl]. rewrite (IH Hfs), N.lor_spec, (fbit_testbit f j Hf Hj).
    rewrite <- orb_assoc. f_equal. destruct (decide (j = f)) as [->|Hne].
    - rewrite (bool_decide_eq_true_2 (f = f)) by done. cbn [orb]. symmetry. apply bool_decide_eq_true_2. left.
    - rewrite (bool_decide_eq_false_2 (j = f)) by done. cbn [orb]. apply bool_decide_ext. rewrite elem_of_cons.
      split; [auto|]. intros [?|?]; [by destruct Hne|done]. }
  unfold fbit in Hx. by rewrite Hx.
Qed.
Lemma from_present_bound fts : Forall (λ f, f < 64) fts → (from_present fts ≤ u64_max)%N.
Proof.
  intros Hf. unfold from_present.
  assert (∀ v, (v < 2 ^ 64)%N → (foldl (λ v ft, N.lor v (fbit ft)) v fts < 2 ^ 64)%N) as Hx.
  { induction fts as [|f fts IH]; intros v Hv; [done|]. apply Forall_cons in Hf as [Hf Hfs]. cbn [foldl]. apply IH; [done|].
    assert ((fbit f < 2 ^ 64)%N) as Hb.
    { unfold fbit. rewrite N.shiftl_1_l. apply N.pow_lt_mono_r; lia. }
    destruct (decide (N.lor v (fbit f) = 0%N)) as [->|Hn]; [done|].
    apply N.log2_lt_pow2; [lia|]. rewrite N.log2_lor.
    destruct (decide (v = 0%N)) as [->|Hv0].
    - change (N.log2 0) with 0%N. destruct (decide (fbit f = 0%N)) as [E|Hf0]; [rewrite E; done|].
      apply N.log2_lt_pow2 in Hb; lia.
    - apply N.log2_lt_pow2 in Hv; [|lia]. destruct (decide (fbit f = 0%N)) as [E|Hf0]; [rewrite E; change (N.log2 0) with 0%N; lia|].
      apply N.log2_lt_pow2 in Hb; lia. }
  specialize (Hx 0%N ltac:(done)). unfold fbit in Hx. unfold u64_max. change (2 ^ 64)%N with 18446744073709551616%N in Hx. lia.
Qed.

(** ** Sorting the files *)
#[global] Instance key_le_total : Total key_le.
Proof. intros x y. unfold key_le. lia. Qed.
#[global] Instance key_le_trans : Transitive key_le.
Proof. intros x y z. unfold key_le. lia. Qed.

Definition sorted_files (l : list (nat * bytes)) : list (nat * bytes) := merge_sort key_le l.
Lemma sorted_files_perm l : sorted_files l ≡ₚ l.
Proof. apply merge_sort_Permutation. Qed.
Lemma sorted_keys l : NoDup (l.*1) → SSorted ((sorted_files l).*1).
Proof.
  intros Hnd. assert (StronglySorted key_le (sorted_files l)) as Hs by (apply StronglySorted_merge_sort; apply _).
  assert (NoDup ((sorted_files l).*1)) as Hn by (by rewrite (sorted_files_perm l)).
  clear Hnd. induction Hs as [|[f b] L Hs IH Hall]; [constructor|]. rewrite fmap_cons in *. cbn [fst] in *.
  apply NoDup_cons in Hn as [Hni Hn]. constructor; [by apply IH|]. apply Forall_forall. rewrite Forall_forall in Hall.
  intros g Hg. apply elem_of_list_fmap in Hg as [[g' b'] [-> Hin]]. cbn [fst]. specialize (Hall _ Hin). unfold key_le in Hall. cbn in Hall.
  assert (f ≠ g') as Hne. { intros ->. apply Hni. apply elem_of_list_fmap. by exists (g', b'). }
  change (f < g'). lia.
Qed.

Fixpoint total (l : list (nat * bytes)) : nat :=
  match l with [] => 0 | (_, b) :: l' => length b + total l' end.
Lemma total_perm l l' : l ≡ₚ l' → total l = total l'.
Proof. induction 1 as [|[f b] l l' _ IH|[f b] [g d] l|l l' l'' _ IH _ IH']; cbn; lia. Qed.
Lemma total_join l : length (mjoin (l.*2)) = total l.
Proof. induction l as [|[f b] l IH]; [done|]. rewrite fmap_cons. cbn [mjoin list_join total snd]. rewrite app_length. f_equal. apply IH. Qed.
Lemma total_app l l' : total (l ++ l') = total l + total l'.
Proof. induction l as [|[f b] l IH]; cbn; lia. Qed.

Lemma tallies_ge acc l : Forall (λ n, acc ≤ n ≤ acc + total l) (tallies acc l).
Proof.
  revert acc; induction l as [|[f b] l IH]; intros acc; [constructor|]. cbn [tallies total]. constructor; [lia|].
  eapply Forall_impl; [apply IH|]. cbn. lia.
Qed.
Lemma tallies_sorted acc l : StronglySorted le (tallies acc l).
Proof.
  revert acc; induction l as [|[f b] l IH]; intros acc; [constructor|]. cbn [tallies]. constructor; [apply IH|].
  eapply Forall_impl; [apply tallies_ge|]. cbn. lia.
Qed.
Lemma tallies_app acc l l' : tallies acc (l ++ l') = tallies acc l ++ tallies (acc + total l) l'.
Proof.
  revert acc; induction l as [|[f b] l IH]; intros acc; cbn [tallies app total]; [by rewrite Nat.add_0_r|].
  f_equal. rewrite IH. do 2 f_equal. lia.
Qed.
Lemma tallies_length acc l : length (tallies acc l) = length l.
Proof. revert acc; induction l as [|[f b] l IH]; intros acc; cbn; auto. Qed.
Lemma tallies_offsets l : length l ≤ 64 → (N.of_nat (total l) ≤ u64_max)%N → offsets_ok (tallies 0 l).
Proof.
  intros Hl Ht. split; [by rewrite tallies_length|]. split; [apply tallies_sorted|]. eapply Forall_impl; [apply tallies_ge|]. cbn. lia.
Qed.
Lemma tallies_last acc l : l ≠ [] → last (tallies acc l) = Some (acc + total l).
Proof.
  revert acc; induction l as [|[f b] l IH]; intros acc Hl; [done|]. cbn [tallies total].
  destruct l as [|p l]; [cbn; f_equal; lia|]. destruct (tallies (acc + length b) (p :: l)) eqn:E.
  { apply (f_equal length) in E. rewrite tallies_length in E. done. }
  rewrite last_cons, <- E, IH by done. f_equal. lia.
Qed.
Lemma entry_last acc l1 f b l2 : tallies acc (l1 ++ (f, b) :: l2) !! length l1 = Some (acc + total l1 + length b).
Proof.
  rewrite tallies_app, lookup_app_r by (by rewrite tallies_length). rewrite tallies_length, Nat.sub_diag.
  cbn [tallies lookup list_lookup]. done.
Qed.
Lemma entry_before acc l1 l2 : l1 ≠ [] → tallies acc (l1 ++ l2) !! (length l1 - 1) = Some (acc + total l1).
Proof.
  intros Hl. destruct l1 as [|p l1'] using rev_ind; [done|]. clear IHl1'. destruct p as [f b].
  rewrite <- app_assoc. rewrite app_length. cbn [length app]. replace (length l1' + 1 - 1) with (length l1') by lia.
  rewrite entry_last, total_app. cbn. f_equal. lia.
Qed.

(** ** Ranks *)
Lemma seq_ssorted a n : SSorted (seq a n).
Proof.
  revert a; induction n as [|n IH]; intros a; [constructor|]. cbn [seq]. constructor; [apply IH|].
  rewrite Forall_forall. intros x Hx. apply elem_of_seq in Hx. change (a < x). lia.
Qed.
Lemma file_index_present (L1 : list (nat * bytes)) (f : nat) (b : bytes) (L2 : list (nat * bytes)) :
  SSorted ((L1 ++ (f, b) :: L2).*1) → Forall (λ f, f < 64) ((L1 ++ (f, b) :: L2).*1) →
  file_index (from_present ((L1 ++ (f, b) :: L2).*1)) f = Some (length L1).
Proof.
  intros Hs Hf. set (L := L1 ++ (f, b) :: L2) in *.
  assert (f ∈ L.*1) as Hin. { apply elem_of_list_fmap. exists (f, b). split; [done|]. apply elem_of_app. right. left. }
  assert (f < 64) as Hf64 by (rewrite Forall_forall in Hf; by apply Hf).
  unfold file_index, is_present. rewrite (from_present_get _ _ Hf Hf64), (bool_decide_eq_true_2 _ Hin). f_equal.
  unfold sba_rank1.
  assert (filter (λ j, sba_get (from_present L.*1) j = true) (seq 0 (S f)) = (L1.*1) ++ [f]) as ->.
  { apply ssorted_ext.
    - apply ssorted_filter, seq_ssorted.
    - unfold L in Hs. rewrite fmap_app, fmap_cons in Hs. cbn [fst] in Hs.
      replace (L1.*1 ++ f :: L2.*1) with ((L1.*1 ++ [f]) ++ L2.*1) in Hs by (by rewrite <- app_assoc).
      by apply ssorted_app in Hs as (? & _ & _).
    - intros x. rewrite elem_of_list_filter, elem_of_seq, elem_of_app, elem_of_list_singleton.
      unfold L in Hs. rewrite fmap_app, fmap_cons in Hs. cbn [fst] in Hs.
      apply ssorted_app in Hs as (Hs1 & Hs2 & Hs12). apply ssorted_cons in Hs2 as [Hs2 Hs3].
      split.
      + intros [Hg Hx]. rewrite (from_present_get _ _ Hf) in Hg by lia. apply bool_decide_eq_true in Hg.
        unfold L in Hg. rewrite fmap_app, fmap_cons in Hg. cbn [fst] in Hg. apply elem_of_app in Hg as [Hg|Hg]; [auto|].
        apply elem_of_cons in Hg as [->|Hg]; [auto|]. specialize (Hs3 _ Hg). change (f < x) in Hs3. lia.
      + intros Hx. assert (x ≤ f ∧ x ∈ L.*1) as [Hle HxL].
        { destruct Hx as [Hx| ->]; [|done]. split.
          - specialize (Hs12 x f Hx ltac:(left)). change (x < f) in Hs12. lia.
          - unfold L. rewrite fmap_app. apply elem_of_app. by left. }
        split; [|lia]. rewrite (from_present_get _ _ Hf) by lia. by apply bool_decide_eq_true_2. }
  rewrite app_length, fmap_length. cbn. lia.
Qed.
Lemma file_index_absent fts f : Forall (λ f, f < 64) fts → f < 64 → f ∉ fts → file_index (from_present fts) f = None.
Proof.
  intros Hf Hf64 Hn. unfold file_index, is_present. by rewrite (from_present_get _ _ Hf Hf64), (bool_decide_eq_false_2 _ Hn).
Qed.

(** ** Reading an archive *)
(** what [finalize] may be given *)
Definition files_ok (l : list (nat * bytes)) : Prop :=
  NoDup (l.*1) ∧ Forall (λ f, f < 64) (l.*1) ∧ (N.of_nat (total l) ≤ u64_max)%N.

Section read.
Context (c : codec) (Hc : codec_ok c).

Definition archive_header (l : list (nat * bytes)) : header :=
  Header (from_present ((sorted_files l).*1)) (tallies 0 (sorted_files l)).
Definition archive_data (l : list (nat * bytes)) : bytes := mjoin ((sorted_files l).*2).

Lemma archive_bytes_eq l : archive_bytes c l =
  put_u64 (h_present (archive_header l)) ++ cd_encode c (h_offsets (archive_header l)) ++ archive_data l.
Proof. done. Qed.
Lemma archive_codec l r : files_ok l →
  8 ≤ length (cd_encode c (h_offsets (archive_header l))) ∧
  cd_length c (take 8 (cd_encode c (h_offsets (archive_header l)))) = length (cd_encode c (h_offsets (archive_header l))) - 8 ∧
  cd_parse c (cd_encode c (h_offsets (archive_header l)) ++ r) = Some (h_offsets (archive_header l), r).
Proof.
  intros (Hn & Hf & Ht). apply Hc. apply tallies_offsets; [|by rewrite (total_perm _ _ (sorted_files_perm l))].
  rewrite (sorted_files_perm l), <- (fmap_length fst l), <- (seq_length 64 0). apply submseteq_length.
  apply NoDup_submseteq; [done|]. intros f Hi. rewrite Forall_forall in Hf. apply elem_of_seq. apply Hf in Hi. lia.
Qed.
Lemma archive_present_ok l : files_ok l → (h_present (archive_header l) ≤ u64_max)%N.
Proof. intros (_ & Hf & _). apply from_present_bound. by rewrite (sorted_files_perm l). Qed.

Lemma parse_header_archive l : files_ok l → parse_header c (archive_bytes c l) = Ok (archive_header l, archive_data l).
Proof.
  intros Hl. pose proof (archive_present_ok l Hl) as Hp. destruct (archive_codec l (archive_data l) Hl) as (_ & _ & Hd).
  rewrite archive_bytes_eq. unfold parse_header. rewrite decide_False.
  2:{ rewrite app_length, put_u64_length. lia. }
  rewrite drop_app_alt by (by rewrite put_u64_length). rewrite take_app_alt by (by rewrite put_u64_length).
  rewrite Hd, put_u64_value by done. by destruct (archive_header l).
Qed.
Lemma read_exact_app n b r : length b = n → read_exact n (b ++ r) = Ok (b, r).
Proof.
  intros <-. unfold read_exact. rewrite decide_False by (rewrite app_length; lia).
  by rewrite take_app, drop_app.
Qed.
Lemma parse_reader_archive l : files_ok l → parse_from_reader c (archive_bytes c l) = Ok (archive_header l, archive_data l).
Proof.
  intros Hl. pose proof (archive_present_ok l Hl) as Hp. destruct (archive_codec l [] Hl) as (H8 & Hlen & Hd).
  rewrite archive_bytes_eq. unfold parse_from_reader. rewrite (read_exact_app 8) by apply put_u64_length. cbn [obind].
  set (e := cd_encode c (h_offsets (archive_header l))) in *.
  replace (e ++ archive_data l) with (take 8 e ++ (drop 8 e ++ archive_data l)) by (by rewrite app_assoc, take_drop).
  rewrite (read_exact_app 8) by (rewrite take_length; lia). cbn [obind]. rewrite Hlen.
  rewrite read_exact_app by (rewrite drop_length; lia). cbn [obind].
  rewrite take_drop. rewrite app_nil_r in Hd. rewrite Hd, put_u64_value by done. by destruct (archive_header l).
Qed.

Lemma parse_archive_whole l : files_ok l → l ≠ [] → parse_archive c (archive_bytes c l) = Ok (archive_header l, archive_data l).
Proof.
  intros Hl Hne. unfold parse_archive. rewrite parse_reader_archive by done. cbn [obind]. unfold archive_header at 1. cbn [h_offsets].
  assert (sorted_files l ≠ []) as Hs.
  { intros E. pose proof (sorted_files_perm l) as Hp. rewrite E in Hp. apply Permutation_nil_l in Hp. done. }
  rewrite tallies_last by done. cbn [Nat.add].
  rewrite <- (app_nil_r (archive_data l)) at 1. rewrite read_exact_app by apply total_join. done.
Qed.

Lemma sorted_split l ft b : (ft, b) ∈ l → ∃ L1 L2, sorted_files l = L1 ++ (ft, b) :: L2.
Proof.
  intros Hin. apply elem_of_list_split. by rewrite (sorted_files_perm l).
Qed.
Lemma range_for_archive l ft b L1 L2 : files_ok l → sorted_files l = L1 ++ (ft, b) :: L2 →
  range_for (archive_header l) ft = Ok (Some (total L1, total L1 + length b)).
Proof.
  intros (Hnd & Hf & Ht) Hs. unfold range_for, archive_header. cbn [h_present h_offsets].
  assert (SSorted ((sorted_files l).*1)) as Hss by (by apply sorted_keys).
  assert (Forall (λ f, f < 64) ((sorted_files l).*1)) as Hff by (by rewrite (sorted_files_perm l)).
  rewrite Hs in *. rewrite (file_index_present L1 ft b L2 Hss Hff).
  unfold entry. rewrite entry_last. destruct (decide (length L1 = 0)) as [E|E].
  - destruct L1; [|done]. done.
  - rewrite entry_before by (by intros ->). done.
Qed.
Lemma range_for_absent l ft : files_ok l → ft < 64 → ft ∉ l.*1 → range_for (archive_header l) ft = Ok None.
Proof.
  intros (Hnd & Hf & Ht) Hft Hn. unfold range_for, archive_header. cbn [h_present].
  rewrite file_index_absent; [done| |done|]; rewrite (sorted_files_perm l); done.
Qed.
Lemma archive_data_split l ft b L1 L2 : sorted_files l = L1 ++ (ft, b) :: L2 →
  archive_data l = mjoin (L1.*2) ++ b ++ mjoin (L2.*2).
Proof. intros Hs. unfold archive_data. rewrite Hs, fmap_app, fmap_cons. by rewrite mjoin_app2. Qed.
Lemma data_at l ft b L1 L2 k : sorted_files l = L1 ++ (ft, b) :: L2 → k ≤ length b →
  drop (total L1 + k) (archive_data l) = drop k b ++ mjoin (L2.*2).
Proof.
  intros Hs Hk. rewrite (archive_data_split _ _ _ _ _ Hs). rewrite <- drop_drop, drop_app_alt by (by rewrite total_join).
  by rewrite drop_app_le.
Qed.

(** whole-archive reader *)
Lemma slice_for_present l ft b : files_ok l → (ft, b) ∈ l → slice_for c (archive_bytes c l) ft = Ok (Some b).
Proof.
  intros Hl Hin. destruct (sorted_split _ _ _ Hin) as (L1 & L2 & Hs). unfold slice_for.
  rewrite parse_header_archive by done. cbn [obind]. rewrite (range_for_archive _ _ _ _ _ Hl Hs). cbn [obind].
  rewrite decide_True.
  - pose proof (data_at _ _ _ _ _ 0 Hs ltac:(lia)) as Hd. rewrite Nat.add_0_r in Hd. rewrite Hd, drop_0.
    rewrite take_app_alt by lia. done.
  - rewrite (archive_data_split _ _ _ _ _ Hs), !app_length, total_join. lia.
Qed.
Lemma slice_for_absent l ft : files_ok l → ft < 64 → ft ∉ l.*1 → slice_for c (archive_bytes c l) ft = Ok None.
Proof.
  intros Hl Hft Hn. unfold slice_for. rewrite parse_header_archive by done. cbn [obind].
  by rewrite range_for_absent.
Qed.
(** ranged readers *)
Lemma structure_present l ft b : files_ok l → (ft, b) ∈ l → structure_bytes c (Some (archive_bytes c l)) ft = Ok (Some b).
Proof.
  intros Hl Hin. destruct (sorted_split _ _ _ Hin) as (L1 & L2 & Hs). unfold structure_bytes. cbn [open_file obind].
  rewrite parse_reader_archive by done. cbn [obind]. rewrite (range_for_archive _ _ _ _ _ Hl Hs). cbn [obind].
  pose proof (data_at _ _ _ _ _ 0 Hs ltac:(lia)) as Hd. rewrite Nat.add_0_r in Hd. rewrite Hd, drop_0.
  rewrite read_exact_app by lia. done.
Qed.
Lemma structure_absent l ft : files_ok l → ft < 64 → ft ∉ l.*1 → structure_bytes c (Some (archive_bytes c l)) ft = Ok None.
Proof.
  intros Hl Hft Hn. unfold structure_bytes. cbn [open_file obind]. rewrite parse_reader_archive by done. cbn [obind].
  by rewrite range_for_absent.
Qed.
Lemma structure_from_present l ft b k : files_ok l → (ft, b) ∈ l → k ≤ length b →
  ∃ r, structure_from c (Some (archive_bytes c l)) ft k = Ok (drop k b ++ r, length (drop k b)).
Proof.
  intros Hl Hin Hk. destruct (sorted_split _ _ _ Hin) as (L1 & L2 & Hs). unfold structure_from. cbn [open_file obind].
  rewrite parse_reader_archive by done. cbn [obind]. rewrite (range_for_archive _ _ _ _ _ Hl Hs). cbn [obind].
  rewrite decide_False by lia. rewrite (data_at _ _ _ _ _ k Hs Hk). exists (mjoin (L2.*2)). do 2 f_equal.
  rewrite drop_length. lia.
Qed.
Lemma structure_from_beyond l ft b k : files_ok l → (ft, b) ∈ l → length b < k →
  structure_from c (Some (archive_bytes c l)) ft k = Panic.
Proof.
  intros Hl Hin Hk. destruct (sorted_split _ _ _ Hin) as (L1 & L2 & Hs). unfold structure_from. cbn [open_file obind].
  rewrite parse_reader_archive by done. cbn [obind]. rewrite (range_for_archive _ _ _ _ _ Hl Hs). cbn [obind].
  by rewrite decide_True by lia.
Qed.
Lemma structure_from_absent l ft k : files_ok l → ft < 64 → ft ∉ l.*1 →
  structure_from c (Some (archive_bytes c l)) ft k = Err NotFound.
Proof.
  intros Hl Hft Hn. unfold structure_from. cbn [open_file obind]. rewrite parse_reader_archive by done. cbn [obind].
  by rewrite range_for_absent.
Qed.
Lemma size_present l ft b : files_ok l → (ft, b) ∈ l → structure_size c (Some (archive_bytes c l)) ft = Ok (length b).
Proof.
  intros Hl Hin. destruct (sorted_split _ _ _ Hin) as (L1 & L2 & Hs). unfold structure_size, size_of. cbn [open_file obind].
  rewrite parse_reader_archive by done. cbn [obind]. rewrite (range_for_archive _ _ _ _ _ Hl Hs). cbn [obind].
  rewrite decide_False by lia. cbn [obind]. f_equal. lia.
Qed.
Lemma size_absent l ft : files_ok l → ft < 64 → ft ∉ l.*1 → structure_size c (Some (archive_bytes c l)) ft = Err NotFound.
Proof.
  intros Hl Hft Hn. unfold structure_size, size_of. cbn [open_file obind]. rewrite parse_reader_archive by done. cbn [obind].
  by rewrite range_for_absent.
Qed.
Lemma file_exists_archive l ft : files_ok l → ft < 64 →
  layer_file_exists (Some (archive_bytes c l)) ft = Ok (bool_decide (ft ∈ l.*1)).
Proof.
  intros Hl Hft. pose proof (archive_present_ok l Hl) as Hp. destruct Hl as (Hnd & Hf & Ht).
  unfold layer_file_exists. rewrite archive_bytes_eq, (read_exact_app 8) by apply put_u64_length. cbn [obind].
  rewrite put_u64_value by done. unfold is_present, archive_header. cbn [h_present].
  rewrite from_present_get; [|by rewrite (sorted_files_perm l)|done]. f_equal. apply bool_decide_ext.
  by rewrite (sorted_files_perm l).
Qed.
Lemma archive_perm l l' : l ≡ₚ l' → NoDup (l.*1) → archive_bytes c l = archive_bytes c l'.
Proof.
  intros Hp Hnd. assert (sorted_files l = sorted_files l') as E.
  { assert ((sorted_files l).*1 = (sorted_files l').*1) as Hk.
    { apply ssorted_ext; [by apply sorted_keys|apply sorted_keys; by rewrite <- Hp|].
      intros x. by rewrite (sorted_files_perm l), (sorted_files_perm l'), Hp. }
    assert (∀ f b d, (f, b) ∈ l → (f, d) ∈ l → b = d) as Hu.
    { intros f b d Hi Hj. apply elem_of_list_lookup in Hi as [i Hi]. apply elem_of_list_lookup in Hj as [j Hj].
      assert (i = j) as ->; [|congruence].
      apply (NoDup_lookup (l.*1) i j f Hnd); rewrite list_lookup_fmap; [by rewrite Hi|by rewrite Hj]. }
    apply list_eq. intros i. apply (f_equal (.!! i)) in Hk. rewrite !list_lookup_fmap in Hk.
    destruct (sorted_files l !! i) as [[f b]|] eqn:E1, (sorted_files l' !! i) as [[g d]|] eqn:E2; try done.
    injection Hk as <-. do 2 f_equal. apply (Hu f).
    - rewrite <- (sorted_files_perm l). by eapply elem_of_list_lookup_2.
    - rewrite Hp, <- (sorted_files_perm l'). by eapply elem_of_list_lookup_2. }
  unfold archive_bytes. fold (sorted_files l) (sorted_files l'). by rewrite E.
Qed.
End read.
