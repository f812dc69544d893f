(** What the lookups and iterators of one set of triple files deliver. *)
From Verif Require Import Prelude ListFacts Succinct SuccinctFacts TripleFiles TripleBuildFacts IterFacts.

Lemma mla_index_of_spec ss x i :
  SSorted ss → mla_index_of ss x = Some i ↔ ss !! i = Some x.
Proof.
  intros Hs. unfold mla_index_of. rewrite fmap_Some. split.
  - intros ([j y] & Hf & ->). apply list_find_Some in Hf as (Hj & -> & _). done.
  - intros Hi. destruct (list_find_elem_of (x =.) ss x) as [[j y] Hf]; [by eapply elem_of_list_lookup_2|done|].
    exists (j, y). split; [done|]. apply list_find_Some in Hf as (Hj & <- & _). cbn.
    eapply NoDup_lookup; eauto using ssorted_nodup.
Qed.
Lemma mla_nearest_le ss x : mla_nearest_index_of ss x ≤ length ss.
Proof. induction ss as [|y ss IH]; cbn; [lia|]. case_decide; lia. Qed.
Lemma mla_nearest_spec ss x i y :
  SSorted ss → ss !! i = Some y → mla_nearest_index_of ss x ≤ i ↔ x ≤ y.
Proof.
  revert i. induction ss as [|z ss IH]; intros i Hs Hi; [done|].
  apply ssorted_cons in Hs as [Hs Hz]. cbn. case_decide as Hd.
  - split; [intros _|lia]. destruct i as [|i]; cbn in Hi; [by injection Hi as <-|].
    apply elem_of_list_lookup_2, Hz in Hi. ord_num.
  - destruct i as [|i]; cbn in Hi; [injection Hi as <-; lia|].
    rewrite <-(IH i) by done. lia.
Qed.
Lemma wt_positions_spec l x i : i ∈ wt_positions l x ↔ l !! i = Some x.
Proof.
  unfold wt_positions. rewrite elem_of_list_filter, elem_of_seq. split; [tauto|].
  intros Hi. split; auto. apply lookup_lt_Some in Hi. lia.
Qed.
Lemma seq_ssorted a n : SSorted (seq a n).
Proof.
  revert a. induction n as [|n IH]; intros a; cbn; [apply ssorted_nil|].
  apply ssorted_cons. split; auto. intros y Hy%elem_of_seq. ord_num.
Qed.
Lemma wt_positions_sorted l x : SSorted (wt_positions l x).
Proof. apply ssorted_filter, seq_ssorted. Qed.

Section read.
  Context (sparse : bool) (tf : tfiles) (T : list triple) (Hok : tf_ok sparse tf T).

  Notation sp := (tf_sp tf).
  Notation spo := (tf_spo tf).
  Notation subjects := (tf_subjects tf).
  Notation SP := (adj_pairs (tf_sp tf)).
  Notation SPO := (adj_pairs (tf_spo tf)).
  Notation dec := (dec_spo (tf_subjects tf) (adj_pairs (tf_sp tf))).

  Lemma rd_spo : spo_ok subjects (left_count sp) SP SPO T.
  Proof. apply (fo_spo_ok _ _ _ Hok). Qed.
  Lemma rd_wfsp : adj_wf sp.
  Proof. apply (fo_sp _ _ _ Hok). Qed.
  Lemma rd_wfspo : adj_wf spo.
  Proof. apply (fo_spo _ _ _ Hok). Qed.

  Lemma T_sorted : SSorted T.
  Proof. exact (spo_T_sorted _ _ _ _ _ rd_spo). Qed.
  Lemma T_nonzero t : t ∈ T → nonzero t.
  Proof.
    destruct t as [[s p] o]. intros (i & Hin & Hd)%(elem_of_spo_T _ _ _ _ _ rd_spo).
    assert (dec (i, o) = Some (s, p, o)) as Hdec by (unfold dec_spo; cbn; by rewrite Hd).
    destruct (dec_spo_Some _ _ _ _ _ rd_spo _ _ _ Hin Hdec) as (? & _ & _).
    apply dec_sp_Some in Hd as (Hp & m & Hm & Hs).
    unfold nonzero, t_s, t_p, t_o. cbn. split_and!; auto.
    apply elem_of_list_lookup_2, (so_left _ _ _ _ _ rd_spo) in Hm.
    pose proof (so_subj _ _ _ _ _ rd_spo) as Hsub.
    destruct subjects as [ss|]; cbn in Hs; [|injection Hs as <-; lia].
    destruct Hsub as (_ & _ & Hnz & _). eapply Hnz, elem_of_list_lookup_2, Hs.
  Qed.

  (** an entry of sp_o and its pair *)
  Lemma spo_entry n : n < right_count spo →
    ∃ num bit p bit', adj_nums spo !! n = Some num ∧ adj_bits spo !! n = Some bit ∧
      adj_nums sp !! rank1 (adj_bits spo) n = Some p ∧ adj_bits sp !! rank1 (adj_bits spo) n = Some bit' ∧
      SPO !! n = Some (S (rank1 (adj_bits spo) n), num) ∧
      SP !! rank1 (adj_bits spo) n = Some (S (rank1 (adj_bits sp) (rank1 (adj_bits spo) n)), p) ∧
      (num = 0 ↔ p = 0).
  Proof.
    intros Hn. destruct (lookup_lt_is_Some_2 (adj_nums spo) n) as [num Hnum]; [done|].
    destruct (adj_bit_num spo rd_wfspo n num Hnum) as [bit Hbit].
    pose proof (adj_left_le spo rd_wfspo n Hn) as Hr. rewrite (fo_lr _ _ _ Hok) in Hr.
    destruct (lookup_lt_is_Some_2 (adj_nums sp) (rank1 (adj_bits spo) n)) as [p Hp]; [done|].
    destruct (adj_bit_num sp rd_wfsp _ p Hp) as [bit' Hbit'].
    exists num, bit, p, bit'.
    assert (SPO !! n = Some (S (rank1 (adj_bits spo) n), num)) as HSPO
      by (by rewrite adj_pairs_lookup, Hnum).
    assert (SP !! rank1 (adj_bits spo) n = Some (S (rank1 (adj_bits sp) (rank1 (adj_bits spo) n)), p)) as HSP
      by (by rewrite adj_pairs_lookup, Hp).
    split_and!; auto. eapply (so_stub _ _ _ _ _ rd_spo).
    - by eapply elem_of_list_lookup_2.
    - by rewrite Nat.sub_1_r.
  Qed.
  (** an open entry is followed by another of the same pair *)
  Lemma spo_open n : adj_bits spo !! n = Some false → S n < right_count spo.
  Proof.
    intros Hb. pose proof (lookup_lt_Some _ _ _ Hb) as Hlt. destruct rd_wfspo as (Hl & Hlast & _).
    unfold right_count. destruct (decide (S n = length (adj_nums spo))) as [He|]; [|lia].
    exfalso. assert (adj_nums spo ≠ []) as Hne by (intros Hx; rewrite Hx in He; done).
    specialize (Hlast Hne). rewrite last_lookup, Hl, <-He in Hlast. cbn in Hlast. congruence.
  Qed.
  Lemma spo_stub_closed n : n < right_count spo → adj_nums spo !! n = Some 0 → adj_bits spo !! n = Some true.
  Proof.
    intros Hn H0. destruct (spo_entry n Hn) as (num & bit & p & bit' & E1 & E2 & E3 & E4 & E5 & E6 & E7).
    destruct bit; auto. exfalso.
    pose proof (spo_open n E2) as Hn'.
    destruct (spo_entry (S n) Hn') as (num2 & bit2 & p2 & bit2' & F1 & F2 & F3 & F4 & F5 & F6 & F7).
    rewrite (rank1_S _ _ _ E2), Nat.add_0_r in *. rewrite E3 in F3. injection F3 as <-.
    rewrite E1 in H0. injection H0 as ->.
    assert (num2 = 0) as -> by tauto.
    destruct rd_spo as [? so_spo ? ? ? ? ?]. pose proof (ssorted_lookup _ _ _ _ _ so_spo E5 F5 ltac:(lia)). ord_absurd.
  Qed.

  Definition rest (n : nat) : list triple := omap dec (drop n SPO).

  Lemma rest_end n : right_count spo ≤ n → rest n = [].
  Proof. intros. unfold rest. rewrite drop_ge; [done|]. by rewrite adj_pairs_length. Qed.
  Lemma rest_step n e : SPO !! n = Some e →
    rest n = match dec e with Some t => t :: rest (S n) | None => rest (S n) end.
  Proof. intros He. unfold rest. by rewrite (drop_S _ _ _ He). Qed.
  Lemma rest_0 : rest 0 = T.
  Proof. unfold rest. rewrite drop_0. by destruct rd_spo. Qed.
  Lemma rest_filter n (Q : nat * nat → Prop) (Q' : triple → Prop)
      `{!∀ x, Decision (Q x), !∀ t, Decision (Q' t)} :
    (∀ m e, SPO !! m = Some e → n ≤ m ↔ Q e) →
    (∀ e t, e ∈ SPO → dec e = Some t → Q e ↔ Q' t) → rest n = filter Q' T.
  Proof.
    intros HQ HQ'. unfold rest. rewrite (drop_as_filter Q) by done.
    rewrite (omap_filter _ Q Q') by done. by destruct rd_spo as [? ? ? ? ? ? <-].
  Qed.
  Lemma rest_length n : length (rest n) ≤ right_count spo.
  Proof.
    unfold rest. rewrite <-adj_pairs_length.
    assert (∀ l : list (nat * nat), length (omap dec l) ≤ length l) as Hl.
    { induction l as [|x l IH]; [done|]. cbn. destruct (dec x); cbn; lia. }
    rewrite Hl, drop_length. lia.
  Qed.
  Lemma rest_elem n t : t ∈ rest n → t ∈ T.
  Proof.
    unfold rest. destruct rd_spo as [? ? ? ? ? ? ->]. rewrite !elem_of_list_omap.
    intros (e & He & ?). exists e. split; auto. rewrite <-(take_drop n SPO). apply elem_of_app. auto.
  Qed.
  Lemma rest_sorted n : SSorted (rest n).
  Proof.
    unfold rest. apply omap_ssorted; [|apply ssorted_drop; by destruct rd_spo].
    intros x y a b Hx Hy. apply (dec_spo_mono _ _ _ _ _ rd_spo);
    rewrite <-(take_drop n SPO); apply elem_of_app; auto.
  Qed.

  (** ** the subject iterator *)
  Record sit_at_ok (it : sit) (n : nat) : Prop := {
    sa_sub : si_subjects it = subjects;
    sa_sp : si_sp it = sp;
    sa_spo : si_spo it = spo;
    sa_pos : si_spo_pos it = n;
    sa_le : n ≤ right_count spo;
    sa_in : n < right_count spo → si_sp_pos it = rank1 (adj_bits spo) n ∧
            si_s_pos it = rank1 (adj_bits sp) (rank1 (adj_bits spo) n) }.

  Definition sit_den (it : sit) (l : list triple) : Prop :=
    ∃ n, sit_at_ok it n ∧ l = option_list (si_peeked it) ++ rest n.

  Lemma sit_loop_ok fuel it n :
    sit_at_ok it n → si_peeked it = None → right_count spo - n < fuel →
    ∃ it', sit_loop fuel it = Some (head (rest n), it') ∧ sit_den it' (tail (rest n)) ∧ si_peeked it' = None.
  Proof.
    revert it n. induction fuel as [|fuel IH]; intros it n Hat Hpk Hf; [lia|].
    destruct Hat as [Es Esp Espo En Hle Hin]. cbn [sit_loop]. rewrite Espo, En.
    case_decide as Hend.
    { rewrite rest_end by done. cbn. exists it. split; [done|]. split; [|done].
      exists n. rewrite Hpk, rest_end by done. split; [|done]. split; auto. }
    destruct (spo_entry n) as (num & bit & p & bit' & E1 & E2 & E3 & E4 & E5 & E6 & E7); [lia|].
    destruct Hin as [Hsp Hs]; [lia|].
    rewrite Esp, Hsp, Hs. unfold bit_at_pos, num_at_pos.
    set (k := rank1 (adj_bits spo) n) in *. rewrite E3, E4. cbn [mbind option_bind].
    rewrite (rest_step n _ E5).
    assert (Hdec : dec (S k, num) = if decide (p = 0) then None else
                     s ← unmap subjects (S (rank1 (adj_bits sp) k)); Some (mkt s p num)).
    { unfold dec_spo, dec_sp. cbn. rewrite Nat.sub_0_r, E6. cbn.
      destruct (unmap _ _); cbn; by case_decide. }
    case_decide as Hp0.
    - rewrite Hdec. assert (num = 0) as -> by tauto.
      pose proof (spo_stub_closed n ltac:(lia) E1) as Hc. rewrite E2 in Hc. injection Hc as ->.
      apply IH; [|done|lia].
      split; cbn; auto; [lia|]. rewrite (rank1_S _ _ _ E2). fold k. intros _.
      rewrite Nat.add_1_r. split; [done|]. rewrite (rank1_S _ _ _ E4).
      destruct bit'; lia.
    - rewrite E1, E2. cbn [mbind option_bind]. rewrite decide_False by tauto.
      destruct (unmap_is_Some _ _ _ _ _ rd_spo (S (rank1 (adj_bits sp) k))) as [s Hs'].
      { eapply (so_left _ _ _ _ _ rd_spo), elem_of_list_lookup_2, E6. }
      rewrite Hdec, Hs'. cbn [mbind option_bind head tail].
      assert (match si_subjects it with Some ss => mla_entry ss (rank1 (adj_bits sp) k)
              | None => Some (S (rank1 (adj_bits sp) k)) end = Some s) as ->.
      { rewrite Es. destruct subjects; cbn in *; [|done]. unfold mla_entry. by rewrite Nat.sub_0_r in Hs'. }
      cbn. eexists. split; [done|]. split; [|done].
      exists (S n). split; [|done]. split; cbn; auto; [lia|].
      intros _. rewrite (rank1_S _ _ _ E2). fold k.
      destruct bit; cbn; rewrite ?Nat.add_0_r, ?Nat.add_1_r; [|done].
      split; auto. rewrite (rank1_S _ _ _ E4). destruct bit'; lia.
  Qed.

  Lemma sit_spec : iter_spec sit_next sit_peek sit_den.
  Proof.
    assert (Hnext : ∀ st l, sit_den st l →
      ∃ st', sit_next st = Some (head l, st') ∧ sit_den st' (tail l) ∧ si_peeked st' = None).
    { intros st l (n & Hat & ->). unfold sit_next. destruct (si_peeked st) as [t|] eqn:Hpk.
      - cbn. eexists. split; [done|]. split; [|done]. exists n. split; [|done].
        destruct Hat. split; auto.
      - rewrite (sa_spo _ _ Hat). apply sit_loop_ok; auto. lia. }
    split.
    - intros st l Hd. destruct (Hnext st l Hd) as (st' & ? & ? & _). eauto.
    - intros st l Hd. destruct (Hnext st l Hd) as (st' & Hn & (n & Hat & Htl) & Hpk).
      unfold sit_peek. rewrite Hn. cbn. eexists. split; [done|].
      exists n. split; [destruct Hat; split; auto|]. cbn. rewrite Hpk in Htl. cbn in Htl.
      destruct l as [|t l]; cbn in *; congruence.
  Qed.

  Lemma sit_new_at : sit_at_ok (tf_iter tf) 0.
  Proof. split; auto. cbn. lia. Qed.
  Lemma sit_den_at it n : sit_at_ok it n → si_peeked it = None → sit_den it (rest n).
  Proof. intros ? Hpk. exists n. rewrite Hpk. done. Qed.

  Lemma tf_fuel_ok n : length (rest n) < tf_fuel tf.
  Proof. pose proof (rest_length n). unfold tf_fuel. lia. Qed.

  Lemma sit_collect it n :
    sit_at_ok it n → si_peeked it = None → collect sit_next (tf_fuel tf) it = Some (rest n).
  Proof.
    intros. eapply collect_ok; [apply sit_spec|by apply sit_den_at|apply tf_fuel_ok].
  Qed.

  Theorem tf_triples_ok : tf_triples tf = Some T.
  Proof. unfold tf_triples. rewrite (sit_collect _ 0), rest_0; auto using sit_new_at. Qed.
  (** ** seeks *)

  (** the boundary found through both offset lookups *)
  Lemma offsets_ok k :
    k ≤ right_count sp →
    ∃ n, offset_for spo (k + 1) = Some n ∧ n ≤ right_count spo ∧ rank1 (adj_bits spo) n = k ∧
      ∀ m, m < right_count spo → n ≤ m ↔ k ≤ rank1 (adj_bits spo) m.
  Proof.
    intros Hk. destruct (offset_for_spec spo rd_wfspo (k + 1)) as (n & ? & ? & ? & Hm).
    { rewrite (fo_lr _ _ _ Hok). lia. }
    exists n. split_and!; auto; [lia|]. intros m Hmn. rewrite (Hm m Hmn). lia.
  Qed.

  (** entry of sp_o against a position of s_p *)
  Lemma spo_entry_ge n k :
    (∀ m, m < right_count spo → n ≤ m ↔ k ≤ rank1 (adj_bits spo) m) →
    ∀ m e, SPO !! m = Some e → n ≤ m ↔ k < e.1.
  Proof.
    intros Hm m e He. pose proof (lookup_lt_Some _ _ _ He) as Hlt. rewrite adj_pairs_length in Hlt.
    rewrite Hm by done. rewrite adj_pairs_lookup in He. apply fmap_Some in He as (num & _ & ->).
    cbn. lia.
  Qed.

  (** decoded entries against a position of s_p *)
  Lemma dec_pos e t : e ∈ SPO → dec e = Some t →
    ∃ m, SP !! (e.1 - 1) = Some (m, t_p t) ∧ unmap subjects m = Some (t_s t) ∧ 1 ≤ e.1 ∧
      m = S (rank1 (adj_bits sp) (e.1 - 1)) ∧ e.1 - 1 < right_count sp.
  Proof.
    destruct e as [i o]. intros He Hd.
    destruct (dec_spo_Some _ _ _ _ _ rd_spo _ _ _ He Hd) as (_ & _ & Hd').
    apply dec_sp_Some in Hd' as (_ & m & Hm & Hu). exists m. cbn. split_and!; auto.
    - apply (so_ix _ _ _ _ _ rd_spo) in He. lia.
    - rewrite adj_pairs_lookup in Hm. by apply fmap_Some in Hm as (? & _ & [= -> _]).
    - apply lookup_lt_Some in Hm. by rewrite adj_pairs_length in Hm.
  Qed.

  (** the position a subject is looked up at *)
  Lemma find_subject_ok it s m s' :
    si_subjects it = subjects → s ≠ 0 → unmap subjects m = Some s' → 1 ≤ m →
    sit_find_subject it s < m ↔ s ≤ s'.
  Proof.
    intros Es Hs Hu Hm. unfold sit_find_subject. rewrite Es.
    pose proof (so_subj _ _ _ _ _ rd_spo) as Hsub. destruct subjects as [ss|]; cbn in Hu.
    - destruct Hsub as (_ & Hss & _). rewrite <-(mla_nearest_spec ss s (m - 1) s') by done. lia.
    - injection Hu as ->. lia.
  Qed.

  Lemma sit_seek_subject_ok it s :
    si_subjects it = subjects → si_sp it = sp → si_spo it = spo →
    ∃ it' n, sit_seek_subject it s = Some it' ∧ sit_at_ok it' n ∧ si_peeked it' = None ∧
      rest n = filter (λ t, s ≤ t_s t) T.
  Proof.
    intros Es Esp Espo. unfold sit_seek_subject. case_decide as H0.
    { subst s. eexists _, 0. split; [done|]. split_and!.
      - split; cbn; auto; lia.
      - done.
      - rewrite rest_0, filter_all; auto. intros. lia. }
    rewrite Esp, Espo. set (sp0 := sit_find_subject it s).
    assert (Hpos : ∀ e t, e ∈ SPO → dec e = Some t → sp0 ≤ rank1 (adj_bits sp) (e.1 - 1) ↔ s ≤ t_s t).
    { intros e t He Hd. destruct (dec_pos e t He Hd) as (m & Hm & Hu & He1 & Hmr & _).
      rewrite <-(find_subject_ok it s m (t_s t)) by (done || lia). fold sp0. lia. }
    case_decide as Hend.
    { eexists _, (right_count spo). split; [done|]. split_and!.
      - split; cbn; auto; lia.
      - done.
      - rewrite rest_end by lia. symmetry. apply filter_none. intros t Ht Hge.
        rewrite (so_T _ _ _ _ _ rd_spo) in Ht. apply elem_of_list_omap in Ht as (e & He & Hd).
        apply (Hpos e t He Hd) in Hge.
        destruct (dec_pos e t He Hd) as (m & Hm & Hu & He1 & Hmr & Hlt).
        pose proof (adj_left_le sp rd_wfsp _ Hlt). lia. }
    destruct (offset_for_spec sp rd_wfsp (sp0 + 1)) as (k & -> & Hk & Hrk & Hk'); [lia|].
    cbn [mbind option_bind].
    destruct (offsets_ok k Hk) as (n & -> & Hn & Hrn & Hn'). cbn [mbind option_bind].
    eexists _, n. split; [done|]. split_and!.
    - split; cbn; auto. intros _. rewrite Hrn, Hrk. lia.
    - done.
    - apply (rest_filter n (λ e, k < e.1) (λ t, s ≤ t_s t)); [exact (spo_entry_ge n k Hn')|].
      intros e t He Hd. rewrite <-(Hpos e t He Hd).
      destruct (dec_pos e t He Hd) as (m & Hm & Hu & He1 & Hmr & Hlt).
      specialize (Hk' _ Hlt). lia.
  Qed.

  Lemma t_s_mono t t' : olt t t' → t_s t ≤ t_s t'.
  Proof. destruct t as [[??]?], t' as [[??]?]. unfold t_s. cbn. ord_num. Qed.

  Theorem tf_triples_s_ok s : tf_triples_s tf s = Some (filter (λ t, t_s t = s) T).
  Proof.
    unfold tf_triples_s.
    destruct (sit_seek_subject_ok (tf_iter tf) s) as (it & n & -> & Hat & Hpk & Hr); auto.
    cbn [mbind option_bind]. rewrite (sit_collect it n) by done. cbn [mbind option_bind]. f_equal.
    rewrite Hr. rewrite (take_while_filter (λ t, t_s t = s)).
    - rewrite filter_filter_and. apply filter_ext_in. intros. lia.
    - apply ssorted_filter, T_sorted.
    - intros x y [Hx _]%elem_of_list_filter _ Hlt%t_s_mono Hy. lia.
  Qed.

  (** within one subject *)
  Lemma seek_pred_ok fuel s_pos pos p :
    pos < right_count sp → rank1 (adj_bits sp) pos = s_pos →
    (∀ m, m < right_count sp → m < pos → ∀ e, SP !! m = Some e → olt e (S s_pos, p)) →
    right_count sp - pos < fuel →
    ∃ s' pos', seek_pred fuel sp s_pos pos p = Some (s', pos') ∧ pos' ≤ right_count sp ∧
      rank1 (adj_bits sp) pos' = s' ∧
      ∀ m e, SP !! m = Some e → pos' ≤ m ↔ ole (S s_pos, p) e.
  Proof.
    revert pos. induction fuel as [|fuel IH]; intros pos Hpos Hrk Hlow Hf; [lia|].
    cbn [seek_pred]. unfold num_at_pos, bit_at_pos.
    destruct (lookup_lt_is_Some_2 (adj_nums sp) pos) as [num Hnum]; [done|].
    destruct (adj_bit_num sp rd_wfsp pos num Hnum) as [bit Hbit].
    assert (SP !! pos = Some (S s_pos, num)) as HSP.
    { by rewrite adj_pairs_lookup, Hnum, <-Hrk. }
    assert (Hss : SSorted SP) by apply (so_sp _ _ _ _ _ rd_spo).
    assert (Hlk : ∀ m e, SP !! m = Some e → m < right_count sp).
    { intros m e He%lookup_lt_Some. by rewrite adj_pairs_length in He. }
    rewrite Hnum. cbn [mbind option_bind]. case_decide as Hd.
    - rewrite Hbit. cbn [mbind option_bind].
      assert (Hlow' : ∀ m, m < right_count sp → m < S pos → ∀ e, SP !! m = Some e → olt e (S s_pos, p)).
      { intros m Hm Hmp e He. destruct (decide (m = pos)) as [->|].
        - rewrite HSP in He. injection He as <-. ord_num.
        - apply (Hlow m); [done|lia|done]. }
      destruct bit.
      + eexists _, _. split; [done|]. pose proof (lookup_lt_Some _ _ _ Hbit).
        split_and!.
        * unfold right_count in *. lia.
        * rewrite (rank1_S _ _ _ Hbit). lia.
        * intros m e He. split.
          -- intros Hm. rewrite adj_pairs_lookup in He. apply fmap_Some in He as (x & _ & ->).
             pose proof (rank1_mono (adj_bits sp) _ _ Hm) as Hr. rewrite (rank1_S _ _ _ Hbit) in Hr.
             ord_num.
          -- intros Hge. destruct (decide (S pos ≤ m)); auto. exfalso. apply Hge.
             apply (Hlow' m); [by eapply Hlk|lia|done].
      + destruct rd_wfsp as (Hl & Hlast & _).
        assert (S pos < right_count sp).
        { unfold right_count in *. destruct (decide (S pos = length (adj_nums sp))) as [He|]; [|lia].
          exfalso. assert (adj_nums sp ≠ []) as Hne by (intros Hx; rewrite Hx in He; done).
          specialize (Hlast Hne). rewrite last_lookup, Hl, <-He in Hlast. cbn in Hlast. congruence. }
        apply IH; [done|rewrite (rank1_S _ _ _ Hbit); lia|done|lia].
    - eexists _, _. split; [done|]. split_and!; auto; [lia|].
      intros m e He. split.
      + intros Hm. destruct (decide (m = pos)) as [->|].
        * rewrite HSP in He. injection He as <-. ord_num.
        * pose proof (ssorted_lookup _ _ _ _ _ Hss HSP He ltac:(lia)) as Hlt.
          destruct e as [e1 e2]. ord_num.
      + intros Hge. destruct (decide (pos ≤ m)); auto. exfalso. apply Hge.
        apply (Hlow m); [by eapply Hlk|lia|done].
  Qed.

  Lemma sit_seek_sp_ok it s p :
    si_subjects it = subjects → si_sp it = sp → si_spo it = spo →
    ∃ it' n, sit_seek_sp it s p = Some it' ∧ sit_at_ok it' n ∧ si_peeked it' = None ∧
      (∀ t, t ∈ rest n → s ≤ t_s t ∧ (t_s t = s → p ≤ t_p t)) ∧
      (∀ t, t ∈ T → t_s t = s → p ≤ t_p t → t ∈ rest n).
  Proof.
    intros Es Esp Espo. unfold sit_seek_sp. case_decide as Hp0.
    { destruct (sit_seek_subject_ok it s) as (it' & n & -> & Hat & Hpk & Hr); auto.
      eexists _, n. split; [done|]. split_and!; auto.
      - intros t. rewrite Hr. intros [??]%elem_of_list_filter. lia.
      - intros t Ht ??. rewrite Hr. apply elem_of_list_filter. split; [lia|done]. }
    case_decide as Hs0.
    { subst s. eexists _, 0. split; [done|]. split_and!.
      - split; cbn; auto; lia.
      - done.
      - intros t. rewrite rest_0. intros Ht%T_nonzero. unfold nonzero in Ht. lia.
      - intros t. by rewrite rest_0. }
    rewrite Esp, Espo. set (sp0 := sit_find_subject it s).
    assert (Hpos : ∀ e t, e ∈ SPO → dec e = Some t → sp0 ≤ rank1 (adj_bits sp) (e.1 - 1) ↔ s ≤ t_s t).
    { intros e t He Hd. destruct (dec_pos e t He Hd) as (m & Hm & Hu & He1 & Hmr & _).
      rewrite <-(find_subject_ok it s m (t_s t)) by (done || lia). fold sp0. lia. }
    case_decide as Hend.
    { eexists _, (right_count spo). split; [done|].
      assert (∀ t, t ∈ T → ¬ s ≤ t_s t) as Hno.
      { intros t Ht Hge.
        rewrite (so_T _ _ _ _ _ rd_spo) in Ht. apply elem_of_list_omap in Ht as (e & He & Hd).
        apply (Hpos e t He Hd) in Hge.
        destruct (dec_pos e t He Hd) as (m & Hm & Hu & He1 & Hmr & Hlt).
        pose proof (adj_left_le sp rd_wfsp _ Hlt). lia. }
      split_and!.
      - split; cbn; auto; lia.
      - done.
      - intros t Ht. rewrite rest_end in Ht by lia. by apply elem_of_nil in Ht.
      - intros t Ht ? _. exfalso. apply (Hno t Ht). lia. }
    destruct (offset_for_spec sp rd_wfsp (sp0 + 1)) as (k & -> & Hk & Hrk & Hk'); [lia|].
    cbn [mbind option_bind].
    assert (Hklt : k < right_count sp).
    { destruct (decide (k = right_count sp)) as [->|]; [|lia].
      rewrite (rank1_right_count sp rd_wfsp) in Hrk. lia. }
    destruct (seek_pred_ok (S (right_count sp)) sp0 k p) as (s' & k' & -> & Hkl & Hrk' & Hge); auto; [lia| |lia|].
    { intros m Hm Hmk e He. rewrite adj_pairs_lookup in He. apply fmap_Some in He as (x & _ & ->).
      destruct (decide (sp0 ≤ rank1 (adj_bits sp) m)) as [Hx|Hx]; [|ord_num].
      assert (k ≤ m) by (apply Hk'; [done|lia]). lia. }
    cbn [mbind option_bind].
    destruct (offsets_ok k' Hkl) as (n & -> & Hn & Hrn & Hn'). cbn [mbind option_bind].
    assert (Hmem : ∀ t, t ∈ rest n ↔ ∃ e, e ∈ SPO ∧ dec e = Some t ∧ k' < e.1).
    { intros t. unfold rest. rewrite (drop_as_filter (λ e : nat * nat, k' < e.1)) by exact (spo_entry_ge n k' Hn').
      rewrite elem_of_list_omap. setoid_rewrite elem_of_list_filter. naive_solver. }
    eexists _, n. split; [done|]. split_and!.
    - split; cbn; auto. intros _. by rewrite Hrn, Hrk'.
    - done.
    - intros t (e & He & Hd & Hlt)%Hmem.
      destruct (dec_pos e t He Hd) as (m & Hm & Hu & He1 & Hmr & Hlt').
      assert (ole (S sp0, p) (m, t_p t)) as Hole by (eapply Hge; eauto; lia).
      split.
      + apply (Hpos e t He Hd). ord_num.
      + intros Hst. assert (s ≤ t_s t) as Hss by lia.
        pose proof (find_subject_ok it s m (t_s t) Es Hs0 Hu ltac:(lia)) as Hfs. fold sp0 in Hfs.
        (* the subject found is s itself, so it is at sp0 *)
        assert (m = S sp0) as ->; [|ord_num].
        destruct (decide (m = S sp0)) as [|Hne]; auto. exfalso.
        assert (sp0 + 1 < m) by lia.
        assert (1 ≤ S sp0 ≤ left_count sp) as Hb by lia.
        destruct (unmap_is_Some _ _ _ _ _ rd_spo _ Hb) as [s2 Hs2].
        pose proof (find_subject_ok it s (S sp0) s2 Es Hs0 Hs2 ltac:(lia)) as Hfs2. fold sp0 in Hfs2.
        pose proof (unmap_mono _ _ _ _ _ rd_spo (S sp0) m s2 (t_s t) ltac:(lia) ltac:(lia) Hs2 Hu). lia.
    - intros t Ht Hst Hpt. apply Hmem.
      rewrite (so_T _ _ _ _ _ rd_spo) in Ht. apply elem_of_list_omap in Ht as (e & He & Hd).
      exists e. split_and!; auto.
      destruct (dec_pos e t He Hd) as (m & Hm & Hu & He1 & Hmr & Hlt').
      assert (k' ≤ e.1 - 1); [|lia]. apply (Hge _ _ Hm).
      pose proof (find_subject_ok it s m (t_s t) Es Hs0 Hu ltac:(lia)) as Hfs. fold sp0 in Hfs.
      ord_num.
  Qed.

  Theorem tf_triples_sp_ok s p :
    tf_triples_sp tf s p = Some (filter (λ t, t_s t = s ∧ t_p t = p) T).
  Proof.
    unfold tf_triples_sp.
    destruct (sit_seek_sp_ok (tf_iter tf) s p) as (it & n & -> & Hat & Hpk & Hr1 & Hr2); auto.
    cbn [mbind option_bind]. rewrite (sit_collect it n) by done. cbn [mbind option_bind]. f_equal.
    rewrite (take_while_filter (λ t, t_p t = p ∧ t_s t = s)).
    - apply ssorted_ext.
      + apply ssorted_filter, rest_sorted.
      + apply ssorted_filter, T_sorted.
      + intros t. rewrite !elem_of_list_filter. split.
        * intros ((?&?) & ?%rest_elem). auto.
        * intros ((?&?) & ?). split; auto. apply Hr2; auto; lia.
    - apply rest_sorted.
    - intros x y Hx Hy Hlt [Hp Hs]. destruct (Hr1 x Hx) as [H1 H2].
      destruct x as [[a b] c], y as [[a' b'] c']. unfold t_s, t_p in *. cbn in *. ord_num.
  Qed.
End read.
