(** Proofs about the archive cache *)
From Verif Require Import Prelude ListFacts Names FileNames Archive ArchiveFacts ArchiveStore Lru SpecLru.

(** ** The cache as a map *)
Lemma cpeek_elem ca n e : NoDup (ca.*1) → cpeek ca n = Some e ↔ (n, e) ∈ ca.
Proof.
  induction ca as [|[m e'] ca IH]; cbn [cpeek]; [set_solver|]. rewrite fmap_cons. intros [Hn Hnd]%NoDup_cons.
  destruct (decide (m = n)) as [->|Hne].
  - rewrite elem_of_cons. split; [intros [= ->]; by left|]. intros [[= ->]|Hi]; [done|].
    destruct Hn. apply elem_of_list_fmap. by exists (n, e).
  - rewrite IH by done. rewrite elem_of_cons. split; [by right|]. intros [[= -> ->]|]; done.
Qed.
Lemma cpeek_none ca n : cpeek ca n = None ↔ n ∉ ca.*1.
Proof.
  induction ca as [|[m e] ca IH]; cbn [cpeek]; [set_solver|]. rewrite fmap_cons, not_elem_of_cons. cbn [fst].
  destruct (decide (m = n)) as [->|Hne]; [naive_solver|]. rewrite IH. naive_solver.
Qed.
Lemma cpeek_perm ca ca' n : ca ≡ₚ ca' → NoDup (ca.*1) → cpeek ca n = cpeek ca' n.
Proof.
  intros Hp Hn. assert (NoDup (ca'.*1)) as Hn' by (by rewrite <- Hp).
  apply option_eq. intros e. by rewrite !cpeek_elem, Hp.
Qed.
Lemma cremove_elem ca n m e : (m, e) ∈ cremove ca n ↔ m ≠ n ∧ (m, e) ∈ ca.
Proof. unfold cremove. by rewrite elem_of_list_filter. Qed.
Lemma cremove_keys ca n m : m ∈ (cremove ca n).*1 ↔ m ≠ n ∧ m ∈ ca.*1.
Proof.
  rewrite !elem_of_list_fmap. split.
  - intros ([m' e] & -> & (? & ?)%cremove_elem). split; [done|]. by exists (m', e).
  - intros (Hne & ([m' e] & -> & Hi)). exists (m', e). split; [done|]. by apply cremove_elem.
Qed.
Lemma cremove_nodup ca n : NoDup (ca.*1) → NoDup ((cremove ca n).*1).
Proof.
  induction ca as [|[m e] ca IH]; [done|]. rewrite fmap_cons. intros [Hm Hn]%NoDup_cons. unfold cremove. rewrite filter_cons.
  case_decide; [|by apply IH]. rewrite fmap_cons. apply NoDup_cons. split; [|by apply IH].
  cbn [fst] in *. intros [_ Hi]%cremove_keys. done.
Qed.
Lemma cpeek_remove ca n m : cpeek (cremove ca n) m = if decide (m = n) then None else cpeek ca m.
Proof.
  induction ca as [|[m' e] ca IH]; [by destruct (decide _)|]. unfold cremove in *. rewrite filter_cons. cbn [fst].
  destruct (decide (m' ≠ n)) as [Hm|Hm]; cbn [cpeek].
  - destruct (decide (m' = m)) as [->|]; [by rewrite decide_False|done].
  - rewrite IH. assert (m' = n) as -> by (destruct (decide (m' = n)); done).
    destruct (decide (m = n)) as [->|Hne]; [done|]. by rewrite decide_False by done.
Qed.
Lemma cpeek_cons_remove ca n e m : cpeek ((n, e) :: cremove ca n) m = if decide (m = n) then Some e else cpeek ca m.
Proof.
  cbn [cpeek]. rewrite cpeek_remove. destruct (decide (n = m)) as [->|Hne]; [by rewrite decide_True|].
  by rewrite !decide_False by done.
Qed.
Lemma cons_remove_nodup ca n e : NoDup (ca.*1) → NoDup (((n, e) :: cremove ca n).*1).
Proof.
  intros H. rewrite fmap_cons. apply NoDup_cons. split; [|by apply cremove_nodup]. cbn [fst]. by intros [? _]%cremove_keys.
Qed.
Lemma ctouch_peek ca n m : cpeek (ctouch ca n) m = cpeek ca m.
Proof.
  unfold ctouch. destruct (cpeek ca n) eqn:E; [|done]. rewrite cpeek_cons_remove. destruct (decide _) as [->|]; done.
Qed.
Lemma ctouch_nodup ca n : NoDup (ca.*1) → NoDup ((ctouch ca n).*1).
Proof. unfold ctouch. destruct (cpeek ca n); [apply cons_remove_nodup|done]. Qed.
Lemma cinsert_peek ca n e m : cpeek (cinsert ca n e) m =
  if decide (m = n) then match cpeek ca n with Some e' => Some e' | None => Some e end else cpeek ca m.
Proof.
  unfold cinsert. destruct (cpeek ca n) eqn:E; [apply cpeek_cons_remove|]. cbn [cpeek].
  destruct (decide (n = m)) as [->|]; [by rewrite decide_True|by rewrite decide_False].
Qed.
Lemma cinsert_nodup ca n e : NoDup (ca.*1) → NoDup ((cinsert ca n e).*1).
Proof.
  intros H. unfold cinsert. destruct (cpeek ca n) eqn:E; [by apply cons_remove_nodup|]. rewrite fmap_cons.
  apply NoDup_cons. split; [|done]. by apply cpeek_none.
Qed.

(** ** Making space *)
Lemma pop_resolved_spec ca c1 x c2 : pop_resolved ca = Some (c1, x, c2) →
  ∃ n, ca = c1 ++ (n, Resolved x) :: c2.
Proof.
  revert c1; induction ca as [|[n e] ca IH]; intros c1; cbn [pop_resolved]; [done|].
  destruct (pop_resolved ca) as [[[c1' x'] c2']|] eqn:E.
  - intros [= <- -> ->]. destruct (IH c1' eq_refl) as [m ->]. by exists m.
  - destruct e as [|y]; [done|]. intros [= <- -> ->]. by exists n.
Qed.
Lemma pop_resolved_none ca : pop_resolved ca = None → cached_bytes ca = 0.
Proof.
  induction ca as [|[n e] ca IH]; cbn [pop_resolved]; [done|].
  destruct (pop_resolved ca) as [[[]]|]; [done|]. destruct e; [|done]. intros _. by apply IH.
Qed.
Lemma cached_bytes_app ca ca' : cached_bytes (ca ++ ca') = cached_bytes ca + cached_bytes ca'.
Proof. induction ca as [|[n e] ca IH]; [done|]. unfold cached_bytes in *. cbn. rewrite IH. lia. Qed.
Lemma cached_bytes_cons n e ca : cached_bytes ((n, e) :: ca) = match e with Resolved x => length x | _ => 0 end + cached_bytes ca.
Proof. done. Qed.
(** a cache that only lacks resolved entries of the other one *)
Definition shrunk (ca ca' : list (lname * centry)) : Prop :=
  NoDup (ca'.*1) ∧ (∀ m e, cpeek ca' m = Some e → cpeek ca m = Some e) ∧
  (∀ m b, cpeek ca m = Some (Resolving b) → cpeek ca' m = Some (Resolving b)).
Lemma shrunk_refl ca : NoDup (ca.*1) → shrunk ca ca.
Proof. intros Hn. split; [done|]. by split. Qed.
Lemma shrunk_trans a b d : shrunk a b → shrunk b d → shrunk a d.
Proof. intros (H1 & H2 & H3) (G1 & G2 & G3). split_and!; eauto. Qed.
Lemma pop_shrunk ca c1 x c2 : NoDup (ca.*1) → pop_resolved ca = Some (c1, x, c2) → shrunk ca (c2 ++ c1).
Proof.
  intros Hn (n & ->)%pop_resolved_spec.
  assert (c1 ++ (n, Resolved x) :: c2 ≡ₚ (n, Resolved x) :: c2 ++ c1) as Hp by (by rewrite <- Permutation_middle, (Permutation_app_comm c1)).
  assert (NoDup (((n, Resolved x) :: c2 ++ c1).*1)) as Hn' by (by rewrite <- Hp).
  assert (n ∉ (c2 ++ c1).*1 ∧ NoDup ((c2 ++ c1).*1)) as [Hni Hn2] by (rewrite fmap_cons in Hn'; by apply NoDup_cons in Hn').
  split_and!; [done| |].
  - intros m e He. rewrite (cpeek_perm _ _ m Hp Hn). cbn [cpeek]. rewrite decide_False; [done|]. intros <-.
    apply cpeek_none in Hni. congruence.
  - intros m b Hb. rewrite (cpeek_perm _ _ m Hp Hn) in Hb. cbn [cpeek] in Hb. by destruct (decide (n = m)).
Qed.
Lemma make_space_spec rounds ca required : NoDup (ca.*1) → length ca < rounds → (∃ m b, cpeek ca m = Some (Resolving b)) →
  match make_space rounds ca required with
  | Space ca' => shrunk ca ca'
  | SpaceLoops => True
  | _ => False
  end.
Proof.
  revert ca required; induction rounds as [|rounds IH]; intros ca required Hn Hl (m & b & Hb); [lia|].
  cbn [make_space]. destruct ca as [|y ca]; [done|]. destruct (pop_resolved (y :: ca)) as [[[c1 x] c2]|] eqn:E; [|done].
  pose proof (pop_shrunk _ _ _ _ Hn E) as Hs. destruct (decide _); [done|].
  assert (length (c2 ++ c1) < rounds) as Hlt.
  { apply pop_resolved_spec in E as [n0 E]. rewrite E in Hl. rewrite !app_length in *. cbn in Hl. lia. }
  pose proof Hs as (Hn' & _ & Hr).
  specialize (IH (c2 ++ c1) (required - length x) Hn' Hlt (ex_intro _ m (ex_intro _ b (Hr _ _ Hb)))).
  destruct (make_space _ _ _); try done. by eapply shrunk_trans.
Qed.
Lemma enough_space_spec ca limit current required : NoDup (ca.*1) → current ≤ limit → (∃ m b, cpeek ca m = Some (Resolving b)) →
  match enough_space ca limit current required with
  | Space ca' => shrunk ca ca'
  | NoSpace => limit < required
  | SpaceLoops => 0 < current
  | SpacePanic => False
  end.
Proof.
  intros Hn Hc Hb. unfold enough_space. destruct (decide (limit < required)) as [|Hr]; [done|]. rewrite decide_False by lia.
  destruct (decide (limit - current < required)) as [Hd|]; [|by apply shrunk_refl]. unfold additional_space.
  rewrite decide_False by lia. pose proof (make_space_spec (S (length ca)) ca (required - (limit - current)) Hn ltac:(lia) Hb) as H.
  destruct (make_space _ _ _); try done. lia.
Qed.
(** the function that makes space, given the right number, would keep the limit *)
Lemma make_space_total rounds ca required : length ca < rounds → 0 < required → required ≤ cached_bytes ca →
  ∃ ca', make_space rounds ca required = Space ca' ∧ cached_bytes ca' + required ≤ cached_bytes ca.
Proof.
  revert ca required; induction rounds as [|rounds IH]; intros ca required Hl Hr Ht; [lia|]. cbn [make_space].
  destruct ca as [|y ca]; [cbn in Ht; lia|]. destruct (pop_resolved (y :: ca)) as [[[c1 x] c2]|] eqn:E.
  2:{ apply pop_resolved_none in E. lia. }
  pose proof (pop_resolved_spec _ _ _ _ E) as [n En]. rewrite En in *.
  rewrite cached_bytes_app, cached_bytes_cons in *. rewrite app_length in Hl. cbn [length] in Hl.
  destruct (decide (required ≤ length x)).
  - eexists. split; [done|]. rewrite cached_bytes_app. lia.
  - destruct (IH (c2 ++ c1) (required - length x)) as (ca' & E' & H').
    + rewrite app_length. lia.
    + lia.
    + rewrite cached_bytes_app. lia.
    + exists ca'. split; [done|]. rewrite cached_bytes_app in H'. lia.
Qed.
Lemma enough_space_limit ca limit required : cached_bytes ca ≤ limit → required ≤ limit →
  ∃ ca', enough_space ca limit (cached_bytes ca) required = Space ca' ∧ cached_bytes ca' + required ≤ limit.
Proof.
  intros Hc Hr. unfold enough_space. rewrite !decide_False by lia. destruct (decide _) as [Hd|].
  - unfold additional_space. rewrite decide_False by lia.
    destruct (make_space_total (S (length ca)) ca (required - (limit - cached_bytes ca))) as (ca' & -> & H); [lia|lia|lia|].
    exists ca'. split; [done|]. lia.
  - eexists. split; [done|]. lia.
Qed.

(** ** Loading *)
Lemma cdrop_peek ca n b : NoDup (ca.*1) → cpeek ca n = Some (Resolving b) →
  cdrop ca n = Some (cremove ca n).
Proof. intros Hn E. unfold cdrop. by rewrite E. Qed.
Lemma fill_spec limit current ca n b r ca' ok : NoDup (ca.*1) → current ≤ limit → cpeek ca n = Some (Resolving b) →
  fill limit current ca n r = Some (ca', ok) →
  ok = true ∧ NoDup (ca'.*1) ∧
  (∀ m e, m ≠ n → cpeek ca' m = Some e → cpeek ca m = Some e) ∧
  (∀ m b', m ≠ n → cpeek ca m = Some (Resolving b') → cpeek ca' m = Some (Resolving b')) ∧
  (∀ e, cpeek ca' n = Some e → ∃ x, r = Ok x ∧ e = Resolved x).
Proof.
  intros Hn Hc Hb. assert (∃ m b, cpeek ca m = Some (Resolving b)) as Hex by eauto.
  assert (cdrop ca n = Some (cremove ca n)) as Hd by (by eapply cdrop_peek).
  assert (∀ ca1 ok1, Some (cremove ca n, true) = Some (ca1, ok1) → ok1 = true ∧ NoDup (ca1.*1) ∧
    (∀ m e, m ≠ n → cpeek ca1 m = Some e → cpeek ca m = Some e) ∧
    (∀ m b', m ≠ n → cpeek ca m = Some (Resolving b') → cpeek ca1 m = Some (Resolving b')) ∧
    (∀ e, cpeek ca1 n = Some e → ∃ x, r = Ok x ∧ e = Resolved x)) as Hrem.
  { intros ca1 ok1 [= <- <-]. split; [done|]. split; [by apply cremove_nodup|]. split_and!.
    - intros m e Hm. by rewrite cpeek_remove, decide_False.
    - intros m b' Hm. by rewrite cpeek_remove, decide_False.
    - intros e. by rewrite cpeek_remove, decide_True. }
  unfold fill. destruct r as [x|k|]; [|rewrite Hd; apply Hrem|rewrite Hd; apply Hrem].
  pose proof (enough_space_spec ca limit current (length x) Hn Hc Hex) as Hs.
  destruct (enough_space ca limit current (length x)) as [ca1| | |]; [|rewrite Hd; intros E; by apply Hrem|done|done].
  destruct Hs as (Hn1 & Hsub & Hres). rewrite (Hres _ _ Hb). intros [= <- <-]. split; [done|]. unfold cset.
  split; [by apply cons_remove_nodup|]. split_and!.
  - intros m e Hm. rewrite cpeek_cons_remove, decide_False by done. apply Hsub.
  - intros m b' Hm H. rewrite cpeek_cons_remove, decide_False by done. by apply Hres.
  - intros e. rewrite cpeek_cons_remove, decide_True by done. intros [= <-]. by exists x.
Qed.
Lemma fill_total limit ca n b r : NoDup (ca.*1) → cpeek ca n = Some (Resolving b) → is_Some (fill limit 0 ca n r).
Proof.
  intros Hn Hb. unfold fill. rewrite (cdrop_peek _ _ _ Hn Hb). destruct r as [x|k|]; [|eauto|eauto].
  pose proof (enough_space_spec ca limit 0 (length x) Hn ltac:(lia) ltac:(eauto)) as Hs.
  destruct (enough_space ca limit 0 (length x)) as [ca1| | |]; [|eauto|eauto|lia]. destruct (cpeek ca1 n); eauto.
Qed.

(** ** What is made of the bytes *)
Section reads.
Context (c : codec) (Hc : codec_ok c).

Lemma cached_read_err r k : (∀ x, r ≠ Ok x) → cached_read c r k = match r with Ok _ => Panic | Err e => Err e | Panic => Panic end.
Proof. intros H. destruct r as [x|e|]; [by destruct (H x)|by destruct k|by destruct k]. Qed.
Lemma origin_read_none k : origin_read c None k = Err NotFound.
Proof. by destruct k. Qed.
Lemma cached_read_archive n x k : is_archive c x → op_ok (LRead n k) → cached_read c (Ok x) k = origin_read c (Some x) k.
Proof.
  intros (L & HL & ->) Hop. unfold rollup_type in *.
  assert (∀ ft, ft < 64 → ∃ o, slice_for c (archive_bytes c L) ft = Ok o ∧ structure_bytes c (Some (archive_bytes c L)) ft = Ok o ∧
    ∀ from, (∀ y, o = Some y → (if decide (length y < from) then structure_from c (Some (archive_bytes c L)) ft from = Panic
        else ∃ z, structure_from c (Some (archive_bytes c L)) ft from = Ok (drop from y ++ z, length (drop from y)))) ∧
      (o = None → structure_from c (Some (archive_bytes c L)) ft from = Err NotFound)) as H.
  { intros ft Hft. destruct (decide (ft ∈ L.*1)) as [([ft' y] & -> & Hi)%elem_of_list_fmap|Hni].
    - exists (Some y). cbn [fst]. split_and!; [by apply slice_for_present|by apply structure_present|]. intros from. split; [|done].
      intros y' [= <-]. destruct (decide _); [by eapply structure_from_beyond|]. apply structure_from_present; [done|done|done|lia].
    - exists None. split_and!; [by apply slice_for_absent|by apply structure_absent|]. intros from. split; [done|].
      intros _. by apply structure_from_absent. }
  destruct k as [|ft|ft from|]; cbn [cached_read origin_read obind op_ok] in *.
  - done.
  - destruct (H ft ltac:(unfold rollup_type in *; lia)) as (o & -> & -> & _). done.
  - destruct (H ft ltac:(unfold rollup_type in *; lia)) as (o & -> & _ & Hf). destruct (Hf from) as [H1 H2]. destruct o as [y|].
    + specialize (H1 y eq_refl). cbn [obind]. destruct (decide _); [by rewrite H1|]. destruct H1 as [z ->]. cbn [obind].
      do 2 f_equal. by rewrite take_app_alt.
    + rewrite (H2 eq_refl). done.
  - destruct (H parent_type ltac:(unfold parent_type; lia)) as (o & E1 & E2 & _). unfold get_parent. by rewrite E1, E2.
Qed.
Lemma slice_read_none k : slice_read c None k = Err NotFound.
Proof. by destruct k. Qed.
Lemma slice_read_archive n x k : is_archive c x → op_ok (LRead n k) → slice_read c (Some x) k = origin_read c (Some x) k.
Proof.
  intros Hx Hop. destruct k as [|ft|ft from|]; try done. cbn [slice_read].
  rewrite <- (cached_read_archive n x (KFrom ft from) Hx Hop). cbn [cached_read obind].
  assert (structure_bytes c (Some x) ft = slice_for c x ft) as ->; [|done].
  destruct Hx as (L & HL & ->). cbn [op_ok] in Hop. unfold rollup_type in Hop.
  destruct (decide (ft ∈ L.*1)) as [([ft' y] & -> & Hi)%elem_of_list_fmap|Hni].
  - cbn [fst]. by rewrite (structure_present c Hc L ft' y), (slice_for_present c Hc L ft' y).
  - rewrite (structure_absent c Hc L ft), (slice_for_absent c Hc L ft); [done|done|lia|done|done|lia|done].
Qed.
Lemma cached_query_archive n x q : is_archive c x → op_ok (LQuery n q) → cached_query c x q = origin_query c (Some x) q.
Proof.
  intros (L & HL & ->) Hop. destruct q as [| |ft|ft]; cbn [cached_query origin_query op_ok] in *.
  - done.
  - done.
  - unfold layer_file_exists. unfold read_exact. destruct (decide _) as [Hl|]; [|done].
    exfalso. rewrite (archive_bytes_eq c), app_length, put_u64_length in Hl. lia.
  - unfold structure_size. cbn [open_file obind]. rewrite parse_header_archive, parse_reader_archive by done. cbn [obind].
    destruct (size_of _ _) as [[k|]| |]; done.
Qed.
End reads.
