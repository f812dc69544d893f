(** Point lookup, enumeration by predicate and object, counts and streams of one set of
    triple files. *)
From Verif Require Import Prelude ListFacts Succinct SuccinctFacts TripleFiles TripleBuildFacts
  IterFacts TripleReadFacts.

(** ** scans of one run *)
Lemma adj_open a n : adj_wf a → adj_bits a !! n = Some false → S n < right_count a.
Proof.
  intros (Hl & Hlast & _) Hb. pose proof (lookup_lt_Some _ _ _ Hb) as Hlt.
  unfold right_count. destruct (decide (S n = length (adj_nums a))) as [He|]; [|lia].
  exfalso. assert (adj_nums a ≠ []) as Hne by (intros Hx; rewrite Hx in He; done).
  specialize (Hlast Hne). rewrite last_lookup, Hl, <-He in Hlast. cbn in Hlast. congruence.
Qed.

Lemma scan_sp_ok a fuel pos x :
  adj_wf a → pos < right_count a → right_count a - pos < fuel →
  ∃ r, scan_sp fuel a pos x = Some r ∧
    match r with
    | Some k => pos ≤ k ∧ adj_nums a !! k = Some x ∧ rank1 (adj_bits a) k = rank1 (adj_bits a) pos
    | None => ∀ k, pos ≤ k → rank1 (adj_bits a) k = rank1 (adj_bits a) pos → k < right_count a →
                   adj_nums a !! k ≠ Some x
    end.
Proof.
  intros Hwf. revert pos. induction fuel as [|fuel IH]; intros pos Hpos Hf; [lia|].
  cbn [scan_sp]. unfold num_at_pos, bit_at_pos.
  destruct (lookup_lt_is_Some_2 (adj_nums a) pos) as [num Hnum]; [done|].
  destruct (adj_bit_num a Hwf pos num Hnum) as [bit Hbit].
  rewrite Hbit, Hnum. cbn [mbind option_bind]. case_decide as Hx.
  { subst. exists (Some pos). auto. }
  destruct bit.
  - exists None. split; [done|]. intros k Hk Hr Hlt Hc.
    destruct (decide (k = pos)) as [->|]; [congruence|].
    pose proof (rank1_mono (adj_bits a) (S pos) k ltac:(lia)) as Hm.
    rewrite (rank1_S _ _ _ Hbit) in Hm. lia.
  - pose proof (adj_open a pos Hwf Hbit).
    destruct (IH (S pos)) as (r & Hr & Hspec); [lia..|]. exists r. split; [done|].
    rewrite (rank1_S _ _ _ Hbit), Nat.add_0_r in Hspec. destruct r as [k|].
    + destruct Hspec as (? & ? & ?). auto with lia.
    + intros k Hk Hrk Hlt Hc. destruct (decide (k = pos)) as [->|]; [congruence|].
      apply (Hspec k); auto. lia.
Qed.
Lemma scan_spo_ok a fuel pos x :
  adj_wf a → pos < right_count a → right_count a - pos < fuel →
  ∃ r, scan_spo fuel a pos x = Some r ∧
    (r = true ↔ ∃ k, pos ≤ k ∧ adj_nums a !! k = Some x ∧ rank1 (adj_bits a) k = rank1 (adj_bits a) pos).
Proof.
  intros Hwf. revert pos. induction fuel as [|fuel IH]; intros pos Hpos Hf; [lia|].
  cbn [scan_spo]. unfold num_at_pos, bit_at_pos.
  destruct (lookup_lt_is_Some_2 (adj_nums a) pos) as [num Hnum]; [done|].
  destruct (adj_bit_num a Hwf pos num Hnum) as [bit Hbit].
  rewrite Hbit, Hnum. cbn [mbind option_bind]. case_decide as Hx.
  { subst. exists true. split; [done|]. split; [eauto|done]. }
  destruct bit.
  - exists false. split; [done|]. split; [done|]. intros (k & Hk & Hc & Hr).
    destruct (decide (k = pos)) as [->|]; [congruence|].
    pose proof (rank1_mono (adj_bits a) (S pos) k ltac:(lia)) as Hm.
    rewrite (rank1_S _ _ _ Hbit) in Hm. lia.
  - pose proof (adj_open a pos Hwf Hbit).
    destruct (IH (S pos)) as (r & Hr & Hspec); [lia..|]. exists r. split; [done|].
    rewrite (rank1_S _ _ _ Hbit), Nat.add_0_r in Hspec. rewrite Hspec. split.
    + intros (k & ? & ? & ?). exists k. auto with lia.
    + intros (k & Hk & Hc & Hrk). destruct (decide (k = pos)) as [->|]; [congruence|].
      exists k. auto with lia.
Qed.

Section query.
  Context (sparse : bool) (tf : tfiles) (T : list triple) (Hok : tf_ok sparse tf T).

  Notation sp := (tf_sp tf).
  Notation spo := (tf_spo tf).
  Notation subjects := (tf_subjects tf).
  Notation SP := (adj_pairs (tf_sp tf)).
  Notation SPO := (adj_pairs (tf_spo tf)).
  Notation dec := (dec_spo (tf_subjects tf) (adj_pairs (tf_sp tf))).
  Notation decsp := (dec_sp (tf_subjects tf) (adj_pairs (tf_sp tf))).
  Notation rd_spo := (rd_spo _ _ _ Hok).
  Notation rd_wfsp := (rd_wfsp _ _ _ Hok).
  Notation rd_wfspo := (rd_wfspo _ _ _ Hok).

  Lemma sp_lookup k : k < right_count sp →
    ∃ p, adj_nums sp !! k = Some p ∧ SP !! k = Some (S (rank1 (adj_bits sp) k), p).
  Proof.
    intros Hk. destruct (lookup_lt_is_Some_2 (adj_nums sp) k) as [p Hp]; [done|].
    exists p. split; auto. by rewrite adj_pairs_lookup, Hp.
  Qed.

  (** the position a subject is looked up at, exactly *)
  Lemma s_position_ok s : s ≠ 0 →
    let r := match subjects with
             | None => if decide (left_count sp < s) then None else Some (s - 1)
             | Some ss => mla_index_of ss s
             end in
    ∀ k, r = Some k ↔ k < left_count sp ∧ unmap subjects (S k) = Some s.
  Proof.
    intros Hs. cbn zeta. intros k. pose proof (so_subj _ _ _ _ _ rd_spo) as Hsub.
    destruct subjects as [ss|]; cbn.
    - destruct Hsub as (Hl & Hss & _). rewrite (mla_index_of_spec ss s k Hss), Nat.sub_0_r.
      split; [|tauto]. intros Hk. split; auto. apply lookup_lt_Some in Hk. lia.
    - case_decide as Hd.
      + split; [done|]. intros [? [= <-]]. lia.
      + split; [intros [= <-]|intros [? [= <-]]]; [split; [lia|f_equal; lia]|f_equal; lia].
  Qed.

  (** [sp_o_position] finds the run of the pair [(s, p)]. *)
  Lemma sp_o_position_ok s p :
    ∃ r, sp_o_position subjects sp spo s p = Some r ∧
      match r with
      | Some n => n < right_count spo ∧ decsp (S (rank1 (adj_bits spo) n)) = Some (s, p) ∧
                  ∀ m, m < right_count spo → rank1 (adj_bits spo) m = rank1 (adj_bits spo) n → n ≤ m
      | None => ∀ i, 1 ≤ i → decsp i ≠ Some (s, p)
      end.
  Proof.
    unfold sp_o_position. case_decide as H0.
    { exists None. split; [done|]. intros i Hi (Hp & m & Hm & Hu)%dec_sp_Some.
      destruct H0 as [->|?]; [|done].
      apply elem_of_list_lookup_2 in Hm. pose proof (so_left _ _ _ _ _ rd_spo _ _ Hm).
      pose proof (so_subj _ _ _ _ _ rd_spo) as Hsub.
      destruct subjects as [ss|]; cbn in Hu; [|injection Hu as ->; lia].
      destruct Hsub as (_ & _ & Hnz & _). eapply Hnz; [|done]. by eapply elem_of_list_lookup_2. }
    assert (s ≠ 0) as Hs0 by lia. assert (p ≠ 0) as Hp0 by lia. clear H0.
    pose proof (s_position_ok s Hs0) as Hspos. cbn zeta in Hspos |- *.
    set (r := match subjects with None => _ | Some _ => _ end) in *.
    destruct r as [s0|].
    2:{ exists None. split; [done|]. intros i Hi (Hp & m & Hm & Hu)%dec_sp_Some.
        apply elem_of_list_lookup_2 in Hm. pose proof (so_left _ _ _ _ _ rd_spo _ _ Hm).
        assert (@None nat = Some (m - 1)); [|done]. apply Hspos. replace (S (m - 1)) with m by lia.
        split; [lia|done]. }
    destruct (Hspos s0) as [Hs1 _]. destruct (Hs1 eq_refl) as [Hs0l Hu]. clear Hs1.
    destruct (offset_for_spec sp rd_wfsp (s0 + 1)) as (k & -> & Hk & Hrk & Hk'); [lia|].
    cbn [mbind option_bind].
    assert (Hklt : k < right_count sp).
    { destruct (decide (k = right_count sp)) as [->|]; [|lia].
      rewrite (rank1_right_count sp rd_wfsp) in Hrk. lia. }
    destruct (scan_sp_ok sp (S (right_count sp)) k p rd_wfsp Hklt) as (r2 & -> & Hr2); [lia|].
    cbn [mbind option_bind]. destruct r2 as [pos|].
    - destruct Hr2 as (Hge & Hnum & Hrp).
      pose proof (lookup_lt_Some _ _ _ Hnum) as Hposlt. fold (right_count sp) in Hposlt.
      destruct (offsets_ok _ _ _ Hok pos) as (n & -> & Hn & Hrn & Hn'); [lia|].
      cbn [mbind option_bind]. exists (Some n). split; [done|]. split_and!.
      + destruct (decide (n = right_count spo)) as [->|]; [|lia].
        rewrite (rank1_right_count spo rd_wfspo), (fo_lr _ _ _ Hok) in Hrn. lia.
      + apply dec_sp_Some. split; auto. exists (S s0). cbn. rewrite Nat.sub_0_r, Hrn.
        rewrite adj_pairs_lookup, Hnum. cbn. rewrite Hrp, Hrk. split; [do 2 f_equal; lia|done].
      + intros m Hm Hrm. apply Hn'; auto. lia.
    - exists None. split; [done|]. intros i Hi (_ & m & Hm & Hu')%dec_sp_Some.
      pose proof (lookup_lt_Some _ _ _ Hm) as Hlt. rewrite adj_pairs_length in Hlt.
      pose proof (so_left _ _ _ _ _ rd_spo _ _ (elem_of_list_lookup_2 _ _ _ Hm)) as Hml.
      rewrite adj_pairs_lookup in Hm. apply fmap_Some in Hm as (x & Hx & [= -> <-]).
      assert (rank1 (adj_bits sp) (i - 1) = s0) as Hri.
      { destruct (lt_eq_lt_dec (rank1 (adj_bits sp) (i - 1)) s0) as [[Hc|Hc]|Hc]; auto; exfalso.
        - pose proof (unmap_mono _ _ _ _ _ rd_spo (S (rank1 (adj_bits sp) (i - 1))) (S s0) s s ltac:(lia) (proj1 Hml) Hu' Hu). lia.
        - pose proof (unmap_mono _ _ _ _ _ rd_spo (S s0) (S (rank1 (adj_bits sp) (i - 1))) s s ltac:(lia) ltac:(lia) Hu Hu'). lia. }
      apply (Hr2 (i - 1)); auto; [|lia]. apply Hk'; [done|lia].
  Qed.

  Theorem layer_triple_exists_ok t : layer_triple_exists tf t = Some (bool_decide (t ∈ T)).
  Proof.
    destruct t as [[s p] o]. unfold layer_triple_exists. case_decide as Ho.
    { subst. rewrite bool_decide_eq_false_2; [done|].
      intros Ht%(T_nonzero _ _ _ Hok). by destruct Ht as (_ & _ & ?). }
    destruct (sp_o_position_ok s p) as (r & -> & Hr). cbn [mbind option_bind].
    destruct r as [n|].
    - destruct Hr as (Hn & Hd & Hmin).
      destruct (scan_spo_ok spo (S (right_count spo)) n o rd_wfspo Hn) as (r & -> & Hr); [lia|].
      f_equal. apply eq_bool_prop_intro. rewrite bool_decide_spec, Is_true_true, Hr.
      rewrite (elem_of_spo_T _ _ _ _ _ rd_spo). split.
      + intros (k & Hk & Hnum & Hrk). exists (S (rank1 (adj_bits spo) n)). split; auto.
        apply elem_of_list_lookup. exists k. by rewrite adj_pairs_lookup, Hnum, Hrk.
      + intros (i & Hin & Hd').
        pose proof (so_ix _ _ _ _ _ rd_spo _ _ Hin) as Hix.
        assert (i = S (rank1 (adj_bits spo) n)) as ->
          by (eapply (dec_sp_inj _ _ _ _ _ rd_spo); eauto; lia).
        apply elem_of_list_lookup in Hin as [k Hk].
        pose proof (lookup_lt_Some _ _ _ Hk) as Hlt. rewrite adj_pairs_length in Hlt.
        rewrite adj_pairs_lookup in Hk. apply fmap_Some in Hk as (num & Hnum & [= E <-]).
        exists k. split_and!; auto.
    - rewrite bool_decide_eq_false_2; [done|]. intros (i & Hin & Hd)%(elem_of_spo_T _ _ _ _ _ rd_spo).
      pose proof (so_ix _ _ _ _ _ rd_spo _ _ Hin). apply (Hr i); auto. lia.
  Qed.

  (** ** counting *)
  Lemma spo_surj k : k < right_count sp → ∃ num, (S k, num) ∈ SPO.
  Proof.
    intros Hk. rewrite <-(fo_lr _ _ _ Hok), <-(rank1_right_count spo rd_wfspo) in Hk.
    destruct (rank1_find _ _ _ Hk) as (m & Hm & Hb & Hr).
    destruct (lookup_lt_is_Some_2 (adj_nums spo) m) as [num Hnum]; [done|].
    exists num. apply elem_of_list_lookup. exists m. by rewrite adj_pairs_lookup, Hnum, Hr.
  Qed.
  Lemma spo_stub_entry k num : (S k, num) ∈ SPO → num = 0 ↔ adj_nums sp !! k = Some 0.
  Proof.
    intros Hin. pose proof (so_ix _ _ _ _ _ rd_spo _ _ Hin) as Hix.
    rewrite adj_pairs_length in Hix. destruct (sp_lookup k) as (p & Hp & Hl); [lia|].
    rewrite (so_stub _ _ _ _ _ rd_spo (S k) num (S (rank1 (adj_bits sp) k)) p); auto.
    - rewrite Hp. split; congruence.
    - cbn. by rewrite Nat.sub_0_r.
  Qed.

  Lemma filter_length_split {A} (P : A → Prop) `{!∀ x, Decision (P x)} (l : list A) :
    length l = length (filter P l) + length (filter (λ x, ¬ P x) l).
  Proof.
    induction l as [|x l IH]; [done|]. rewrite !filter_cons. repeat case_decide; cbn [length]; try tauto; lia.
  Qed.
  Lemma omap_length_filter {A B} (f : A → option B) (l : list A) :
    length (omap f l) = length (filter (λ x, is_Some (f x)) l).
  Proof.
    induction l as [|x l IH]; [done|]. rewrite filter_cons. cbn. destruct (f x) eqn:Hx.
    - rewrite decide_True by eauto. cbn. by rewrite IH.
    - rewrite decide_False by (intros [? [=]]). done.
  Qed.

  Lemma zeros_ok : length (filter (λ e, e.2 = 0) SPO) = length (wt_positions (adj_nums sp) 0).
  Proof.
    assert ((λ e : nat * nat, e.1 - 1) <$> filter (λ e, e.2 = 0) SPO = wt_positions (adj_nums sp) 0) as <-.
    2:{ by rewrite fmap_length. }
    apply ssorted_ext.
    - apply fmap_ssorted; [|apply ssorted_filter; by destruct rd_spo].
      intros [i o] [i' o'] [Ho Hi]%elem_of_list_filter [Ho' Hi']%elem_of_list_filter Hlt.
      cbn in *. pose proof (so_ix _ _ _ _ _ rd_spo _ _ Hi). ord_num.
    - apply wt_positions_sorted.
    - intros k. rewrite elem_of_list_fmap, wt_positions_spec. split.
      + intros ([i o] & -> & [Ho Hi]%elem_of_list_filter). cbn in *. subst o.
        pose proof (so_ix _ _ _ _ _ rd_spo _ _ Hi) as Hix. replace i with (S (i - 1)) in Hi by lia.
        by apply (spo_stub_entry _ _ Hi).
      + intros Hk. destruct (spo_surj k) as [num Hin]; [by eapply lookup_lt_Some|].
        exists (S k, num). cbn. rewrite Nat.sub_0_r. split; auto.
        apply elem_of_list_filter. split; auto. by apply (spo_stub_entry _ _ Hin).
  Qed.

  Theorem tf_count_ok : tf_count tf = Some (length T).
  Proof.
    unfold tf_count. rewrite (fo_wt _ _ _ Hok).
    assert (match wt_lookup (adj_nums sp) 0 with Some l => length l | None => 0 end =
            length (wt_positions (adj_nums sp) 0)) as ->.
    { unfold wt_lookup. by destruct (wt_positions (adj_nums sp) 0). }
    rewrite <-zeros_ok.
    pose proof (filter_length_split (λ e : nat * nat, e.2 = 0) SPO) as Hsp.
    rewrite adj_pairs_length in Hsp. rewrite decide_False by lia. f_equal.
    rewrite Hsp. rewrite (so_T _ _ _ _ _ rd_spo), omap_length_filter.
    rewrite (filter_ext_in (λ x, is_Some (dec x)) (λ x, x.2 ≠ 0)); [lia|].
    intros [i o] Hin. cbn. split.
    - intros [t Ht]. by destruct (dec_spo_Some _ _ _ _ _ rd_spo _ _ _ Hin Ht).
    - intros. by apply (dec_spo_is_Some _ _ _ _ _ rd_spo).
  Qed.
End query.
