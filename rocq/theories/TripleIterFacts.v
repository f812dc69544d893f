(** The predicate and object iterators, and the streams from disk. *)
From Verif Require Import Prelude ListFacts Succinct SuccinctFacts TripleFiles TripleBuildFacts
  IterFacts TripleReadFacts TripleQueryFacts.

Lemma take_while_ext {A} (f g : A → bool) (l : list A) :
  (∀ x, f x = g x) → take_while f l = take_while g l.
Proof. intros Hfg. induction l as [|x l IH]; [done|]. cbn. rewrite Hfg, IH. done. Qed.

Section pit.
  Context (sparse : bool) (tf : tfiles) (T : list triple) (Hok : tf_ok sparse tf T).
  Context (p : nat) (Hp : p ≠ 0).

  Notation sp := (tf_sp tf).
  Notation spo := (tf_spo tf).
  Notation subjects := (tf_subjects tf).
  Notation SP := (adj_pairs (tf_sp tf)).
  Notation SPO := (adj_pairs (tf_spo tf)).
  Notation dec := (dec_spo (tf_subjects tf) (adj_pairs (tf_sp tf))).
  Notation decsp := (dec_sp (tf_subjects tf) (adj_pairs (tf_sp tf))).
  Notation rd_spo := (rd_spo _ _ _ Hok).
  Notation rd_wfsp := (rd_wfsp _ _ _ Hok).
  Notation rd_wfspo := (rd_wfspo _ _ _ Hok).

  Definition same_sp (t : triple) (t' : triple) : bool := bool_decide (t'.1 = t.1).
  (** the triples of pair number [i], counting pairs from 0 *)
  Definition run (i : nat) : list triple := filter (λ t, decsp (S i) = Some t.1) T.
  Definition lookups : list nat := wt_positions (adj_nums sp) p.

  Lemma lookups_elem i : i ∈ lookups ↔ ∃ s, decsp (S i) = Some (s, p).
  Proof.
    unfold lookups. rewrite wt_positions_spec. split.
    - intros Hi. destruct (sp_lookup tf i) as (p' & Hp' & Hl).
      { by eapply lookup_lt_Some. }
      rewrite Hi in Hp'. injection Hp' as <-.
      destruct (unmap_is_Some _ _ _ _ _ rd_spo (S (rank1 (adj_bits sp) i))) as [s Hs].
      { eapply (so_left _ _ _ _ _ rd_spo), elem_of_list_lookup_2, Hl. }
      exists s. apply dec_sp_Some. split; auto. exists (S (rank1 (adj_bits sp) i)).
      cbn. by rewrite Nat.sub_0_r.
    - intros [s (_ & m & Hm & _)%dec_sp_Some]. cbn in Hm. rewrite Nat.sub_0_r, adj_pairs_lookup in Hm.
      by apply fmap_Some in Hm as (x & Hx & [= _ ->]).
  Qed.

  (** after a seek to pair [i], the triples of that pair come first *)
  Lemma seek_run it i :
    i ∈ lookups → si_subjects it = subjects → si_sp it = sp → si_spo it = spo →
    ∃ it' n t l, sit_seek_s_p_pos it i = Some it' ∧ sit_at_ok tf it' n ∧ si_peeked it' = None ∧
      rest tf n = t :: l ∧ run i = take_while (same_sp t) (t :: l).
  Proof.
    intros Hi Es Esp Espo.
    pose proof Hi as [s Hs]%lookups_elem.
    assert (Hilt : i < right_count sp).
    { apply wt_positions_spec in Hi. by eapply lookup_lt_Some. }
    destruct (offsets_ok _ _ _ Hok i) as (n & Hoff & Hn & Hrn & Hn'); [lia|].
    unfold sit_seek_s_p_pos. rewrite Espo, Hoff. cbn [mbind option_bind]. rewrite Esp.
    assert (Hrest : rest tf n = filter (λ t, ole (s, p) t.1) T).
    { apply (rest_filter _ _ _ Hok n (λ e, i < e.1) (λ t, ole (s, p) t.1));
        [exact (spo_entry_ge _ _ _ Hn')|].
      intros [j o] t He Hd. pose proof (dec_spo_Some _ _ _ _ _ rd_spo _ _ _ He Hd) as (_ & _ & Hj).
      pose proof (so_ix _ _ _ _ _ rd_spo _ _ He) as Hjx. cbn. destruct t as [[s' p'] o'].
      unfold t_s, t_p in Hj. cbn in Hj |- *. split.
      - intros Hij. destruct (decide (j = S i)) as [->|].
        + rewrite Hs in Hj. injection Hj as <- <-. apply ole_alt. auto.
        + apply ole_alt. left. eapply (dec_sp_mono _ _ _ _ _ rd_spo (S i) j); eauto; lia.
      - intros Hole. destruct (decide (i < j)); auto. exfalso. apply Hole.
        eapply (dec_sp_mono _ _ _ _ _ rd_spo j (S i)); eauto; lia. }
    assert (Hrun : run i = filter (λ t, t.1 = (s, p)) (rest tf n)).
    { unfold run. rewrite Hrest, filter_filter_and. apply filter_ext_in. intros t _.
      rewrite Hs. split.
      - intros [= <-]. split; auto. apply ole_alt. auto.
      - intros [_ ->]. done. }
    assert (∃ t, t ∈ run i) as [t0 Ht0].
    { destruct (spo_surj _ _ _ Hok i Hilt) as [num Hin].
      assert (num ≠ 0) as Hnz.
      { intros H0%(spo_stub_entry _ _ _ Hok _ _ Hin). apply wt_positions_spec in Hi. congruence. }
      exists (s, p, num). unfold run. apply elem_of_list_filter. split; [done|].
      apply (elem_of_spo_T _ _ _ _ _ rd_spo). eauto. }
    (* the head is a triple of the pair *)
    assert (Hsorted : SSorted (rest tf n)) by (eapply rest_sorted; eauto).
    destruct (rest tf n) as [|t l] eqn:Hr.
    { rewrite Hrun in Ht0. by apply elem_of_nil in Ht0. }
    assert (Hall : ∀ x, x ∈ t :: l → ole (s, p) x.1).
    { intros x Hx. rewrite Hrest in Hx. by apply elem_of_list_filter in Hx as [? _]. }
    assert (t.1 = (s, p)) as Ht.
    { rewrite Hrun in Ht0. apply elem_of_list_filter in Ht0 as [E [->|Hin]%elem_of_cons]; auto.
      apply ssorted_cons in Hsorted as [_ Hlt]. specialize (Hlt _ Hin).
      assert (ole (s, p) t.1) as Hge by (apply Hall; left).
      destruct t as [[a b] c], t0 as [[a' b'] c']. cbn in *. injection E as -> ->.
      f_equal; ord_num. }
    eexists _, n, t, l. split; [done|]. split_and!; auto.
    - split; cbn; auto. intros _. rewrite Hrn. unfold left_at_pos. split; [done|lia].
    - rewrite Hrun. rewrite <-(take_while_filter (λ t : triple, t.1 = (s, p)) (t :: l)); auto.
      + apply take_while_ext. intros x. unfold same_sp. by rewrite Ht.
      + intros x y Hx Hy Hlt Ey. specialize (Hall x Hx).
        destruct x as [[a b] c], y as [[a' b'] c']. cbn in *. injection Ey as -> ->.
        f_equal; ord_num.
  Qed.

  (** what is still to come *)
  Definition pit_den (it : pit) (l : list triple) : Prop :=
    ∃ L, sit_den tf (pi_sub it) L ∧ pi_lookup it = lookups ∧
      (si_subjects (pi_sub it) = subjects ∧ si_sp (pi_sub it) = sp ∧ si_spo (pi_sub it) = spo) ∧
      l = option_list (pi_peeked it) ++
          (if pi_boundary it then [] else
             match L with [] => [] | t :: _ => take_while (same_sp t) L end) ++
          mjoin (run <$> drop (pi_pos it) lookups) ∧
      (pi_boundary it = false → L ≠ []).

  Lemma sit_den_fields st L : sit_den tf st L →
    si_subjects st = subjects ∧ si_sp st = sp ∧ si_spo st = spo.
  Proof. intros (n & [? ? ? ? ? ?] & _). auto. Qed.

  (** delivering from a subject iterator that stands at [t :: L] *)
  Lemma pit_deliver_ok it t L :
    sit_den tf (pi_sub it) (t :: L) → pi_lookup it = lookups → pi_peeked it = None →
    ∃ it', pit_deliver it = Some (Some t, it') ∧ pi_peeked it' = None ∧
      pit_den it' (tail (take_while (same_sp t) (t :: L)) ++ mjoin (run <$> drop (pi_pos it) lookups)).
  Proof.
    intros Hden Hlk Hpk. unfold pit_deliver. pose proof (sit_spec _ _ _ Hok) as Hspec.
    destruct (is_next _ _ _ Hspec _ _ Hden) as (sub1 & -> & Hden1). cbn [mbind option_bind head tail] in *.
    destruct (is_peek _ _ _ Hspec _ _ Hden1) as (sub2 & -> & Hden2). cbn [mbind option_bind].
    eexists. split; [done|]. split; [done|]. exists L. cbn [pi_sub pi_lookup pi_peeked pi_boundary pi_pos].
    pose proof (sit_den_fields _ _ Hden2) as (? & ? & ?). split_and!; auto.
    - rewrite Hpk. cbn. unfold same_sp at 1. rewrite bool_decide_eq_true_2 by done. cbn. f_equal.
      destruct L as [|t' L]; cbn.
      + done.
      + unfold same_sp at 1 3. rewrite (bool_decide_eq_true_2 (t'.1 = t'.1)) by done.
        destruct (decide (t'.1 = t.1)) as [E|E].
        * rewrite (bool_decide_eq_true_2 (t'.1 = t.1)) by done. rewrite bool_decide_eq_false_2.
          -- cbn. f_equal. apply take_while_ext. intros x. unfold same_sp. by rewrite E.
          -- intros [?|Hne]; [done|]. apply Hne. by rewrite E.
        * rewrite (bool_decide_eq_false_2 (t'.1 = t.1)) by done. rewrite bool_decide_eq_true_2; auto.
          right. congruence.
    - intros Hb. apply bool_decide_eq_false in Hb. intros ->. apply Hb. auto.
  Qed.

  Lemma take_while_same_head t L : take_while (same_sp t) (t :: L) = t :: take_while (same_sp t) L.
  Proof. cbn. unfold same_sp at 1. by rewrite bool_decide_eq_true_2. Qed.

  Lemma pit_spec : iter_spec pit_next pit_peek pit_den.
  Proof.
    assert (Hnext : ∀ st l, pit_den st l →
      ∃ st', pit_next st = Some (head l, st') ∧ pit_den st' (tail l) ∧ pi_peeked st' = None).
    { intros st l (L & Hden & Hlk & (Es & Esp & Espo) & -> & HL). unfold pit_next.
      destruct (pi_peeked st) as [t|] eqn:Hpk.
      { cbn. eexists. split; [done|]. split; [|done]. exists L. cbn. split_and!; auto. }
      destruct (pi_boundary st) eqn:Hb.
      - unfold pit_next_pos. rewrite Hlk. case_decide as Hend.
        + rewrite drop_ge by done. cbn. eexists. split; [done|]. split; [|done].
          exists L. split_and!; auto; [|congruence]. rewrite Hpk, Hb, drop_ge by done. done.
        + destruct (lookup_lt_is_Some_2 lookups (pi_pos st)) as [i Hi]; [lia|].
          rewrite Hi. cbn [mbind option_bind].
          destruct (seek_run (pi_sub st) i) as (it' & n & t & l & -> & Hat & Hpk' & Hr & Hrun); auto.
          { by eapply elem_of_list_lookup_2. }
          cbn [mbind option_bind].
          destruct (pit_deliver_ok (PIT lookups it' (S (pi_pos st)) true None) t l)
            as (st' & Hdel & Hpk'' & Hden'); auto.
          { cbn. rewrite <-Hr. by apply sit_den_at. }
          rewrite Hb, Hpk, Hdel. cbn [pi_pos] in Hden'.
          rewrite (drop_S _ _ _ Hi). cbn [fmap list_fmap mjoin list_join option_list app].
          rewrite Hrun, take_while_same_head in *. cbn in Hden' |- *. eauto.
      - destruct L as [|t L]; [by destruct HL|].
        destruct (pit_deliver_ok st t L) as (st' & Hdel & Hpk'' & Hden'); auto.
        rewrite Hdel. rewrite take_while_same_head in *. cbn in Hden' |- *. eauto. }
    split.
    - intros st l Hd. destruct (Hnext st l Hd) as (st' & ? & ? & _). eauto.
    - intros st l Hd. destruct (Hnext st l Hd) as (st' & Hn & (L & Hat & ? & (? & ? & ?) & Htl & ?) & Hpk).
      unfold pit_peek. rewrite Hn. cbn. eexists. split; [done|].
      exists L. cbn [pi_sub pi_lookup pi_peeked pi_boundary pi_pos]. split_and!; auto.
      rewrite Hpk in Htl. cbn [option_list app] in Htl.
      destruct l as [|t l]; [exact Htl|]. exact (f_equal (cons t) Htl).
  Qed.

  Lemma runs_ok : mjoin (run <$> lookups) = filter (λ t, t_p t = p) T.
  Proof.
    apply ssorted_ext.
    - apply concat_ssorted.
      + apply wt_positions_sorted.
      + intros i _. apply ssorted_filter. eapply T_sorted; eauto.
      + intros i j a b Hi Hj Hij [Ha _]%elem_of_list_filter [Hb _]%elem_of_list_filter.
        assert (olt a.1 b.1) as Hlt by (eapply (dec_sp_mono _ _ _ _ _ rd_spo (S i) (S j)); eauto; ord_num).
        destruct a as [[??]?], b as [[??]?]. cbn in *. ord_num.
    - apply ssorted_filter. eapply T_sorted; eauto.
    - intros t. rewrite elem_of_list_join, elem_of_list_filter. split.
      + intros (l & Hl & Hx). apply elem_of_list_fmap in Hx as (i & -> & [s Hs]%lookups_elem).
        apply elem_of_list_filter in Hl as [Ht HT]. split; auto.
        rewrite Hs in Ht. unfold t_p. by injection Ht as <-.
      + intros [Ht HT]. destruct t as [[s p'] o]. unfold t_p in Ht. cbn in Ht. subst p'.
        pose proof HT as (i & Hin & Hd)%(elem_of_spo_T _ _ _ _ _ rd_spo).
        pose proof (so_ix _ _ _ _ _ rd_spo _ _ Hin). replace i with (S (i - 1)) in Hd by lia.
        exists (run (i - 1)). split.
        * apply elem_of_list_filter. done.
        * apply elem_of_list_fmap. exists (i - 1). split; auto. apply lookups_elem. eauto.
  Qed.

  Lemma tf_iter_p_ok :
    match tf_iter_p tf p with
    | None => filter (λ t, t_p t = p) T = []
    | Some it => pit_den it (filter (λ t, t_p t = p) T)
    end.
  Proof.
    unfold tf_iter_p, wt_lookup. rewrite (fo_wt _ _ _ Hok). fold lookups.
    rewrite <-runs_ok. destruct lookups as [|i l] eqn:Hl; cbn; [done|].
    exists T. split; [|split; [cbn; by rewrite Hl|split; [done|split; [|done]]]].
    - exists 0. split; [split; cbn; auto; lia|]. cbn. erewrite rest_0; eauto.
    - cbn. by rewrite Hl, drop_0.
  Qed.

  Theorem tf_triples_p_ok : tf_triples_p tf p = Some (filter (λ t, t_p t = p) T).
  Proof.
    unfold tf_triples_p. pose proof tf_iter_p_ok as Hd. destruct (tf_iter_p tf p) as [it|].
    - eapply collect_ok; [apply pit_spec|done|].
      pose proof (filter_length (λ t, t_p t = p) T). pose proof (tf_fuel_ok tf 0) as Hf.
      rewrite (rest_0 _ _ _ Hok) in Hf. lia.
    - by rewrite Hd.
  Qed.
End pit.

Section oit.
  Context (sparse : bool) (tf : tfiles) (T : list triple) (Hok : tf_ok sparse tf T).
  Notation ops := (tf_ops tf).
  Notation sp := (tf_sp tf).
  Notation SP := (adj_pairs (tf_sp tf)).
  Notation OPS := (adj_pairs (tf_ops tf)).
  Notation deco := (dec_ops (tf_subjects tf) (adj_pairs (tf_sp tf)) (tf_objects tf)).

  Lemma rd_ops : ops_ok (tf_subjects tf) (tf_objects tf) (left_count ops) SP OPS T.
  Proof. apply (fo_ops_ok _ _ _ Hok). Qed.
  Lemma rd_wfops : adj_wf ops.
  Proof. apply (fo_ops _ _ _ Hok). Qed.

  (** the entries still to be looked at *)
  Definition osuffix (stop hit : bool) (o_pos n : nat) : list (nat * nat) :=
    if stop then if hit then [] else filter (λ e, e.1 = S o_pos) (drop n OPS) else drop n OPS.
  Definition orest (stop hit : bool) (o_pos n : nat) : list triple := omap deco (osuffix stop hit o_pos n).

  Record oit_at_ok (it : oit) (n : nat) : Prop := {
    oa_sub : oi_subjects it = tf_subjects tf;
    oa_obj : oi_objects it = tf_objects tf;
    oa_ops : oi_ops it = ops;
    oa_sp : oi_sp it = sp;
    oa_pos : oi_ops_pos it = n;
    oa_le : n ≤ right_count ops;
    oa_hit : oi_hit it = true → oi_stop it = true;
    oa_in : n < right_count ops → oi_stop it && oi_hit it = false → oi_o_pos it = rank1 (adj_bits ops) n }.

  Definition oit_den (it : oit) (l : list triple) : Prop :=
    ∃ n, oit_at_ok it n ∧ l = option_list (oi_peeked it) ++ orest (oi_stop it) (oi_hit it) (oi_o_pos it) n.

  Lemma ops_entry n : n < right_count ops →
    ∃ num bit, adj_nums ops !! n = Some num ∧ adj_bits ops !! n = Some bit ∧
      OPS !! n = Some (S (rank1 (adj_bits ops) n), num).
  Proof.
    intros Hn. destruct (lookup_lt_is_Some_2 (adj_nums ops) n) as [num Hnum]; [done|].
    destruct (adj_bit_num ops rd_wfops n num Hnum) as [bit Hbit].
    exists num, bit. split_and!; auto. by rewrite adj_pairs_lookup, Hnum.
  Qed.

  Lemma orest_step stop n num bit :
    n < right_count ops → adj_nums ops !! n = Some num → adj_bits ops !! n = Some bit →
    orest stop false (rank1 (adj_bits ops) n) n =
      option_list (deco (S (rank1 (adj_bits ops) n), num)) ++
      orest stop (if bit && stop then true else false)
        (if (bit : bool) then S (rank1 (adj_bits ops) n) else rank1 (adj_bits ops) n) (S n).
  Proof.
    intros Hn Hnum Hbit. unfold orest, osuffix.
    assert (OPS !! n = Some (S (rank1 (adj_bits ops) n), num)) as He by (by rewrite adj_pairs_lookup, Hnum).
    rewrite (drop_S _ _ _ He). destruct stop.
    - rewrite filter_cons_True by done. cbn [omap list_omap].
      destruct bit; cbn [andb].
      + rewrite (filter_none _ (drop (S n) OPS)).
        * by destruct (deco _).
        * intros [j k] Hin. cbn. apply elem_of_list_lookup in Hin as [x Hx].
          rewrite lookup_drop, adj_pairs_lookup in Hx. apply fmap_Some in Hx as (? & _ & [= -> _]).
          pose proof (rank1_mono (adj_bits ops) (S n) (S n + x) ltac:(lia)) as Hm.
          rewrite (rank1_S _ _ _ Hbit) in Hm. cbn [Nat.add] in Hm. lia.
      + by destruct (deco _).
    - cbn [omap list_omap]. by destruct (deco _).
  Qed.

  Lemma oit_loop_ok fuel it n :
    oit_at_ok it n → oi_peeked it = None → right_count ops - n < fuel →
    ∃ it', let l := orest (oi_stop it) (oi_hit it) (oi_o_pos it) n in
      oit_loop fuel it = Some (head l, it') ∧ oit_den it' (tail l) ∧ oi_peeked it' = None.
  Proof.
    revert it n. induction fuel as [|fuel IH]; intros it n Hat Hpk Hf; [lia|].
    pose proof Hat as [Es Eo Eops Esp En Hle Hh Hin]. cbn [oit_loop]. cbn zeta.
    destruct (oi_stop it && oi_hit it)%bool eqn:Hsh.
    { apply andb_true_iff in Hsh as [Hs1 Hs2]. rewrite Hs1, Hs2. cbn.
      exists it. split; [done|]. split; [|done]. exists n. rewrite Hpk, Hs1, Hs2. done. }
    assert (oi_hit it = false) as Hhit.
    { destruct (oi_hit it); [|done]. rewrite Hh in Hsh by done. done. }
    rewrite Eops, En. case_decide as Hend.
    { assert (orest (oi_stop it) (oi_hit it) (oi_o_pos it) n = []) as Hnil.
      { unfold orest, osuffix. rewrite drop_ge by (by rewrite adj_pairs_length).
        rewrite Hhit. by destruct (oi_stop it). }
      rewrite Hnil. exists it. split; [done|]. split; [|done]. exists n. rewrite Hpk, Hnil. done. }
    destruct (ops_entry n) as (num & bit & E1 & E2 & E3); [lia|].
    specialize (Hin ltac:(lia) ltac:(done)). unfold bit_at_pos, num_at_pos.
    rewrite E1, E2. cbn [mbind option_bind]. rewrite Hhit, Hin.
    rewrite (orest_step (oi_stop it) n num bit ltac:(lia) E1 E2).
    set (it' := oit_at it _ _ _).
    assert (Hat' : oit_at_ok it' (S n)).
    { split; cbn; auto; [lia| |].
      - destruct bit; cbn; [|done]. destruct (oi_stop it); cbn; [done|]. congruence.
      - intros Hn1 Hsh'. rewrite (rank1_S _ _ _ E2). destruct bit; [lia|lia]. }
    case_decide as Hz.
    - subst num. assert (deco (S (rank1 (adj_bits ops) n), 0) = None) as ->.
      { unfold dec_ops. cbn. by rewrite decide_True. }
      cbn [option_list app].
      destruct (IH it' (S n) Hat' eq_refl ltac:(lia)) as (it'' & Hloop). cbn zeta in Hloop.
      exists it''. exact Hloop.
    - assert ((S (rank1 (adj_bits ops) n), num) ∈ OPS) as Hin' by (by eapply elem_of_list_lookup_2).
      destruct (oo_dec _ _ _ _ _ _ rd_ops _ _ Hin' Hz) as [t Ht].
      rewrite Ht. cbn [option_list app head tail].
      unfold dec_ops in Ht. cbn in Ht. rewrite decide_False in Ht by done.
      unfold pair_at_pos, num_at_pos. rewrite Esp, Es, Eo.
      destruct (dec_sp (tf_subjects tf) SP num) as [[s p]|] eqn:Hd; [|done]. cbn in Ht.
      apply dec_sp_Some in Hd as (Hp & m & Hm & Hu).
      rewrite adj_pairs_lookup in Hm. apply fmap_Some in Hm as (x & Hx & [= -> <-]).
      rewrite Hx. cbn [mbind option_bind].
      change (left_at_pos sp (num - 1)) with (S (rank1 (adj_bits sp) (num - 1))).
      assert (match tf_subjects tf with
              | Some ss => mla_entry ss (S (rank1 (adj_bits sp) (num - 1)) - 1)
              | None => Some (S (rank1 (adj_bits sp) (num - 1)))
              end = Some s) as ->.
      { by destruct (tf_subjects tf). }
      cbn [mbind option_bind].
      destruct (unmap (tf_objects tf) (S (rank1 (adj_bits ops) n))) as [o|] eqn:Huo; [|done].
      cbn in Ht. injection Ht as <-.
      assert (match tf_objects tf with
              | Some os => mla_entry os (rank1 (adj_bits ops) n)
              | None => Some (S (rank1 (adj_bits ops) n))
              end = Some o) as ->.
      { destruct (tf_objects tf); cbn in Huo; [|done]. by rewrite Nat.sub_0_r in Huo. }
      cbn [mbind option_bind]. eexists. split; [done|]. split; [|done].
      exists (S n). split; [done|]. done.
  Qed.

  Lemma oit_spec : iter_spec oit_next oit_peek oit_den.
  Proof.
    assert (Hnext : ∀ st l, oit_den st l →
      ∃ st', oit_next st = Some (head l, st') ∧ oit_den st' (tail l) ∧ oi_peeked st' = None).
    { intros st l (n & Hat & ->). unfold oit_next. destruct (oi_peeked st) as [t|] eqn:Hpk.
      - cbn. eexists. split; [done|]. split; [|done]. exists n. split; [|done].
        destruct Hat. split; auto.
      - rewrite (oa_ops _ _ Hat).
        destruct (oit_loop_ok (S (right_count ops)) st n Hat Hpk ltac:(lia)) as (it' & Hl). eauto. }
    split.
    - intros st l Hd. destruct (Hnext st l Hd) as (st' & ? & ? & _). eauto.
    - intros st l Hd. destruct (Hnext st l Hd) as (st' & Hn & (n & Hat & Htl) & Hpk).
      unfold oit_peek. rewrite Hn. cbn. eexists. split; [done|].
      exists n. split; [destruct Hat; split; auto|]. cbn. rewrite Hpk in Htl. cbn in Htl.
      destruct l as [|t l]; cbn in *; congruence.
  Qed.

  Definition TO : list triple := omap deco OPS.
  Lemma TO_elem' t : t ∈ TO ↔ t ∈ T.
  Proof. apply (oo_T _ _ _ _ _ _ rd_ops). Qed.
  Lemma TO_sorted' : SSorted (okey <$> TO).
  Proof. apply (oo_T_sorted _ _ _ _ _ _ rd_ops). Qed.

  Lemma deco_obj j k t : (j, k) ∈ OPS → deco (j, k) = Some t → unmap (tf_objects tf) j = Some (t_o t).
  Proof.
    intros Hin. unfold dec_ops. cbn. case_decide; [done|].
    destruct (dec_sp _ _ _) as [[s p]|]; [|done]. cbn.
    destruct (unmap (tf_objects tf) j) as [o|]; [|done]. cbn. by intros [= <-].
  Qed.
  Lemma unmap_o_mono j j' o o' :
    j < j' → 1 ≤ j → unmap (tf_objects tf) j = Some o → unmap (tf_objects tf) j' = Some o' → o < o'.
  Proof.
    intros ?? Hm Hm'. pose proof (oo_obj _ _ _ _ _ _ rd_ops) as Hobj.
    destruct (tf_objects tf) as [os|]; cbn in *; [|congruence].
    destruct Hobj as (_ & Hss & _). change (olt o o').
    eapply (ssorted_lookup os); eauto. lia.
  Qed.

  (** where [seek_object] lands: everything with an object at least [o], and, when the
      iterator stops at the boundary, only the first object of those *)
  Lemma oit_seek_ok stop o :
    ∃ it n, oit_seek (tf_iter_o tf stop) o = Some it ∧ oit_at_ok it n ∧ oi_peeked it = None ∧
      oi_stop it = stop ∧ oi_hit it = false ∧
      omap deco (drop n OPS) = filter (λ t, o ≤ t_o t) TO ∧
      (∀ j k, (j, k) ∈ drop n OPS → unmap (tf_objects tf) j = Some o → j = S (oi_o_pos it)) ∧
      (tf_objects tf = None → oi_o_pos it = o - 1).
  Proof.
    unfold oit_seek. case_decide as H0.
    { subst o. eexists _, 0. split; [done|]. split_and!; auto.
      - split; cbn; auto; [lia|]. intros. lia.
      - rewrite drop_0. fold TO. rewrite filter_all; auto. intros. lia.
      - intros j k Hin Hu. rewrite drop_0 in Hin.
        pose proof (oo_left _ _ _ _ _ _ rd_ops _ _ Hin).
        pose proof (oo_obj _ _ _ _ _ _ rd_ops) as Hobj. destruct (tf_objects tf) as [os|]; cbn in Hu.
        + destruct Hobj as (_ & _ & Hnz & _). destruct (Hnz 0); auto. by eapply elem_of_list_lookup_2.
        + injection Hu as ->. lia. }
    cbn [oi_objects oi_ops tf_iter_o oit_new].
    set (o0 := match tf_objects tf with None => o - 1 | Some os => mla_nearest_index_of os o end).
    assert (Hfind : ∀ j x, 1 ≤ j → unmap (tf_objects tf) j = Some x → o0 < j ↔ o ≤ x).
    { intros j x Hj Hu. subst o0. pose proof (oo_obj _ _ _ _ _ _ rd_ops) as Hobj.
      destruct (tf_objects tf) as [os|]; cbn in Hu.
      - destruct Hobj as (_ & Hss & _). rewrite <-(mla_nearest_spec os o (j - 1) x) by done. lia.
      - injection Hu as ->. lia. }
    assert (Hlast : ∀ j, 1 ≤ j → unmap (tf_objects tf) j = Some o → j ≤ left_count ops → o0 < left_count ops → j = S o0).
    { intros j Hj Hu Hjl Ho0. pose proof (proj2 (Hfind j o Hj Hu) ltac:(lia)) as Hlt.
      destruct (decide (j = S o0)) as [|Hne]; auto. exfalso.
      assert (∃ x, unmap (tf_objects tf) (S o0) = Some x) as [x Hx].
      { pose proof (oo_obj _ _ _ _ _ _ rd_ops) as Hobj. destruct (tf_objects tf) as [os|]; cbn; [|eauto].
        destruct Hobj as (Hl & _). apply lookup_lt_is_Some. lia. }
      pose proof (proj1 (Hfind (S o0) x ltac:(lia) Hx) ltac:(lia)).
      pose proof (unmap_o_mono (S o0) j x o ltac:(lia) ltac:(lia) Hx Hu). lia. }
    case_decide as Hend.
    { eexists _, (right_count ops). split; [done|].
      assert (drop (right_count ops) OPS = []) as Hnil.
      { apply drop_ge. by rewrite adj_pairs_length. }
      rewrite Hnil. split_and!; auto.
      - split; cbn; auto; lia.
      - cbn. symmetry. apply filter_none. intros t Ht Hge.
        apply elem_of_list_omap in Ht as ([j k] & Hin & Hd).
        pose proof (oo_left _ _ _ _ _ _ rd_ops _ _ Hin) as Hj.
        pose proof (deco_obj _ _ _ Hin Hd) as Hu. apply (Hfind j _ (proj1 Hj) Hu) in Hge. lia.
      - intros j k Hin. by apply elem_of_nil in Hin.
      - cbn. intros E. subst o0. by rewrite E. }
    destruct (offset_for_spec ops rd_wfops (o0 + 1)) as (n & -> & Hn & Hrn & Hn'); [lia|].
    cbn [mbind option_bind]. eexists _, n. split; [done|]. split_and!; auto.
    - split; cbn; auto; intros; lia.
    - assert (Hpos : ∀ m e, OPS !! m = Some e → n ≤ m ↔ o0 < e.1).
      { intros m e He. pose proof (lookup_lt_Some _ _ _ He) as Hlt. rewrite adj_pairs_length in Hlt.
        rewrite (Hn' m Hlt). rewrite adj_pairs_lookup in He. apply fmap_Some in He as (x & _ & ->).
        cbn. lia. }
      rewrite (drop_as_filter (λ e : nat * nat, o0 < e.1) OPS n Hpos).
      unfold TO. apply omap_filter. intros [j k] t Hin Hd.
      pose proof (oo_left _ _ _ _ _ _ rd_ops _ _ Hin) as Hj.
      pose proof (deco_obj _ _ _ Hin Hd) as Hu. apply (Hfind j _ (proj1 Hj) Hu).
    - intros j k Hin Hu. assert ((j, k) ∈ OPS) as Hin'.
      { rewrite <-(take_drop n OPS). apply elem_of_app. auto. }
      pose proof (oo_left _ _ _ _ _ _ rd_ops _ _ Hin') as Hj. cbn. apply Hlast; auto; lia.
    - cbn. intros E. subst o0. by rewrite E.
  Qed.

  Lemma okey_mono t t' : olt (okey t) (okey t') → t_o t ≤ t_o t'.
  Proof. unfold okey. ord_num. Qed.

  Lemma orest_length stop hit o n : length (orest stop hit o n) < tf_fuel tf.
  Proof.
    unfold orest.
    assert (∀ l : list (nat * nat), length (omap deco l) ≤ length l) as Hl.
    { induction l as [|x l IH]; [done|]. cbn. destruct (deco x); cbn; lia. }
    assert (length (osuffix stop hit o n) ≤ length OPS) as Ho.
    { unfold osuffix. pose proof (drop_length OPS n) as Hd.
      pose proof (filter_length (λ e, e.1 = S o) (drop n OPS)).
      destruct stop, hit; cbn [length]; lia. }
    specialize (Hl (osuffix stop hit o n)). rewrite adj_pairs_length in Ho. unfold tf_fuel. lia.
  Qed.

  (** objects in order: a key-sorted list filtered *)
  Lemma keyed_ext (l1 l2 : list triple) :
    SSorted (okey <$> l1) → SSorted (okey <$> l2) → (∀ t, t ∈ l1 ↔ t ∈ l2) → l1 = l2.
  Proof.
    intros H1 H2 Heq.
    assert (Inj (=) (=) okey) as Hinj.
    { intros [[??]?] [[??]?]. unfold okey, t_o, t_s, t_p. cbn. congruence. }
    apply (inj (fmap okey)), ssorted_ext; auto.
    intros k. rewrite !elem_of_list_fmap. setoid_rewrite Heq. done.
  Qed.
  Lemma keyed_sublist (k l : list triple) :
    SSorted (okey <$> l) → k `sublist_of` l → SSorted (okey <$> k).
  Proof.
    intros Hs Hsub. induction Hsub as [|x l1 l2 Hsub IH|x l1 l2 Hsub IH]; auto.
    - cbn in Hs. apply ssorted_cons in Hs as [Hs Hx]. cbn. apply ssorted_cons. split; auto.
      intros y (t & -> & Ht)%elem_of_list_fmap. apply Hx. apply elem_of_list_fmap. exists t. split; auto.
      eapply elem_of_submseteq; [done|]. by apply sublist_submseteq.
    - cbn in Hs. apply ssorted_cons in Hs as [Hs _]. auto.
  Qed.
  Lemma keyed_filter (P : triple → Prop) `{!∀ t, Decision (P t)} (l : list triple) :
    SSorted (okey <$> l) → SSorted (okey <$> filter P l).
  Proof.
    induction l as [|x l IH]; intros Hs; [done|]. cbn in Hs. apply ssorted_cons in Hs as [Hs Hx].
    rewrite filter_cons. case_decide; auto. cbn. apply ssorted_cons. split; auto.
    intros y (t & -> & [_ Ht]%elem_of_list_filter)%elem_of_list_fmap. apply Hx.
    apply elem_of_list_fmap. eauto.
  Qed.

  Lemma keyed_take_while (P : triple → Prop) `{!∀ t, Decision (P t)} (l : list triple) :
    SSorted (okey <$> l) → (∀ x y, x ∈ l → y ∈ l → olt (okey x) (okey y) → P y → P x) →
    take_while (λ t, bool_decide (P t)) l = filter P l.
  Proof.
    induction l as [|x l IH]; intros Hs HP; [done|].
    cbn in Hs. apply ssorted_cons in Hs as [Hs Hx]. cbn [take_while]. rewrite filter_cons. case_decide as Hd.
    - rewrite bool_decide_eq_true_2 by done. f_equal. apply IH; auto.
      intros ?? Hin Hin'. apply HP; by right.
    - rewrite bool_decide_eq_false_2 by done. symmetry. apply filter_none.
      intros y Hy HPy. apply Hd. eapply (HP x y); auto; [left|by right|].
      apply Hx. apply elem_of_list_fmap. eauto.
  Qed.

  (** the triples with object [o], ordered by subject and predicate *)
  Definition by_object (o : nat) : list triple := filter (λ t, t_o t = o) T.
  Lemma by_object_TO o : filter (λ t, t_o t = o) TO = by_object o.
  Proof.
    apply keyed_ext.
    - apply keyed_filter, TO_sorted'.
    - unfold by_object. apply fmap_ssorted.
      + intros [[a b] c] [[a' b'] c'] [Hx _]%elem_of_list_filter [Hy _]%elem_of_list_filter Hlt.
        unfold okey, t_o, t_s, t_p in *. cbn in *. ord_num.
      + apply ssorted_filter. eapply T_sorted; eauto.
    - intros t. unfold by_object. rewrite !elem_of_list_filter, TO_elem'. done.
  Qed.

  Theorem tf_triples_o_ok o : tf_triples_o tf o = Some (by_object o).
  Proof.
    unfold tf_triples_o.
    destruct (oit_seek_ok true o) as (it & n & -> & Hat & Hpk & Hst & Hhit & Hrest & Hrow & _).
    cbn [mbind option_bind].
    erewrite (collect_ok _ _ _ it); [|apply oit_spec| |apply orest_length].
    2:{ exists n. split; [done|]. rewrite Hpk. cbn. reflexivity. }
    cbn [mbind option_bind]. f_equal. rewrite Hst, Hhit. unfold orest, osuffix.
    assert (Hsuf : ∀ l, (∃ P, ∃ HD : ∀ e : nat * nat, Decision (P e), l = filter P (drop n OPS)) →
      SSorted (okey <$> omap deco l)).
    { intros l (P & HD & ->).
      assert (omap deco (filter P (drop n OPS)) `sublist_of` TO) as Hsub.
      { unfold TO. rewrite <-(take_drop n OPS) at 2. rewrite omap_app. apply sublist_inserts_l.
        clear. induction (drop n OPS) as [|e l IH]; [done|]. rewrite filter_cons. cbn.
        case_decide; cbn; destruct (deco e); auto using sublist_skip, sublist_cons. }
      by apply (keyed_sublist _ TO); [apply TO_sorted'|]. }
    rewrite (keyed_take_while (λ t, t_o t = o)).
    - rewrite <-by_object_TO. apply keyed_ext.
      + apply keyed_filter, Hsuf. eexists _, _. done.
      + apply keyed_filter, TO_sorted'.
      + intros t. rewrite !elem_of_list_filter. split.
        * intros [Ht Hin]. split; auto. apply elem_of_list_omap in Hin as (e & [_ He]%elem_of_list_filter & Hd).
          apply elem_of_list_omap. exists e. split; auto. rewrite <-(take_drop n OPS). apply elem_of_app. auto.
        * intros [Ht Hin]. split; auto.
          assert (t ∈ omap deco (drop n OPS)) as Hin'.
          { rewrite Hrest. apply elem_of_list_filter. split; auto. lia. }
          apply elem_of_list_omap in Hin' as ([j k] & He & Hd). apply elem_of_list_omap. exists (j, k).
          split; auto. apply elem_of_list_filter. split; auto. cbn.
          apply (Hrow j k); [done|]. rewrite (deco_obj j k t); [by rewrite Ht| |done].
          rewrite <-(take_drop n OPS). apply elem_of_app. auto.
    - apply Hsuf. eexists _, _. done.
    - intros x y Hx Hy Hlt%okey_mono Ey.
      assert (x ∈ omap deco (drop n OPS)) as Hx'.
      { apply elem_of_list_omap in Hx as (e & [_ He]%elem_of_list_filter & Hd).
        apply elem_of_list_omap. eauto. }
      rewrite Hrest in Hx'. apply elem_of_list_filter in Hx' as [? _]. lia.
  Qed.

  (** the object iterator as the merged iterator over a stack uses it *)
  Lemma tf_iter_o_seek o :
    ∃ it l, oit_seek (tf_iter_o tf false) o = Some it ∧ oit_den it l ∧ SSorted (okey <$> l) ∧
      ∀ t, t ∈ l ↔ t ∈ T ∧ o ≤ t_o t.
  Proof.
    destruct (oit_seek_ok false o) as (it & n & Hs & Hat & Hpk & Hst & Hhit & Hrest & _).
    exists it, (filter (λ t, o ≤ t_o t) TO). split; [done|]. split_and!.
    - exists n. split; [done|]. rewrite Hpk, Hst, <-Hrest. done.
    - apply keyed_filter, TO_sorted'.
    - intros t. rewrite elem_of_list_filter, TO_elem'. naive_solver.
  Qed.

  Theorem tf_triples_o_internal_ok o :
    (∃ t, t ∈ T ∧ t_o t = o) ∨ (sparse = false ∧ o ≠ 0) →
    tf_triples_o_internal tf o = Some (by_object o).
  Proof.
    intros Hcase. unfold tf_triples_o_internal.
    destruct (oit_seek_ok false o) as (it & n & -> & Hat & Hpk & Hst & Hhit & Hrest & Hrow & Hdense).
    cbn [mbind option_bind].
    erewrite (collect_ok _ _ _ (oit_stop_at_boundary it true)); [|apply oit_spec| |apply orest_length].
    2:{ exists n. split.
        - destruct Hat as [????????]. split; cbn; auto. intros ? _. rewrite Hst in *. auto.
        - cbn [oi_peeked oit_stop_at_boundary oi_stop oi_hit oi_o_pos]. rewrite Hpk.
          cbn [option_list app]. reflexivity. }
    f_equal. cbn [oi_stop oi_hit oi_o_pos oit_stop_at_boundary]. rewrite Hhit. unfold orest, osuffix.
    assert (Hsub : ∀ e, e ∈ drop n OPS → e ∈ OPS).
    { intros e He. rewrite <-(take_drop n OPS). apply elem_of_app. auto. }
    assert (Hthis : ∀ j k t, (j, k) ∈ drop n OPS → deco (j, k) = Some t →
                      j = S (oi_o_pos it) ↔ t_o t = o).
    { intros j k t He Hd. pose proof (deco_obj _ _ _ (Hsub _ He) Hd) as Hu. split.
      - intros Hj. destruct Hcase as [(t' & Ht' & Eo)|[-> Hnz]].
        + assert (t' ∈ omap deco (drop n OPS)) as Hin.
          { rewrite Hrest. apply elem_of_list_filter. split; [lia|]. by apply TO_elem'. }
          apply elem_of_list_omap in Hin as ([j' k'] & He' & Hd').
          pose proof (deco_obj _ _ _ (Hsub _ He') Hd') as Hu'. rewrite Eo in Hu'.
          pose proof (Hrow _ _ He' Hu') as Hj'. rewrite Hj, <-Hj', Hu' in Hu. congruence.
        + destruct (tf_objects tf) as [os|] eqn:Eobj.
          * pose proof (fo_osparse _ _ _ Hok) as [Hx _]. rewrite Eobj in Hx. by specialize (Hx ltac:(eauto)).
          * cbn in Hu. injection Hu as <-. rewrite Hj, (Hdense eq_refl). lia.
      - intros Ht. rewrite Ht in Hu. eauto. }
    rewrite <-by_object_TO.
    trans (filter (λ t, t_o t = o) (omap deco (drop n OPS))).
    - revert Hthis. clear. induction (drop n OPS) as [|[j k] l IH]; intros Hthis; [done|].
      rewrite filter_cons. cbn [omap list_omap]. destruct (deco (j, k)) as [t|] eqn:Hd.
      + rewrite filter_cons. specialize (Hthis j k t ltac:(left) Hd) as Ht.
        rewrite <-IH by (intros ??? Hin; apply Hthis; by right).
        destruct (decide (j = S (oi_o_pos it))) as [E|E].
        * rewrite (decide_True _ _ (proj1 Ht E)). cbn [fst]. rewrite (decide_True _ _ E). cbn. by rewrite Hd.
        * rewrite (decide_False (P := t_o t = o)) by naive_solver. cbn [fst].
          rewrite (decide_False (P := j = S (oi_o_pos it))) by done. done.
      + rewrite <-IH by (intros ??? Hin; apply Hthis; by right).
        case_decide; cbn; [by rewrite Hd|done].
    - rewrite Hrest, filter_filter_and. apply filter_ext_in. intros t _. lia.
  Qed.
End oit.

(** ** Streams *)

Section streams.
  Notation nz := (filter (λ e : nat * nat, e.2 ≠ 0)).

  (** pair numbers between [last] and the next used one are padding *)
  Lemma skip_stubs (SP : list (nat * nat)) last i s p :
    last < i → SP !! (i - 1) = Some (s, p) → p ≠ 0 →
    (∀ k s p, last < k → k < i → SP !! (k - 1) = Some (s, p) → p = 0) →
    nz (drop last SP) = (s, p) :: nz (drop i SP).
  Proof.
    intros Hlt Hi Hp. remember (i - last) as d eqn:Hd. revert last Hlt Hd.
    induction d as [|d IH]; intros last Hlt Hd Hstub; [lia|].
    destruct (lookup_lt_is_Some_2 SP last) as [[s' p'] Hl].
    { apply lookup_lt_Some in Hi. lia. }
    rewrite (drop_S _ _ _ Hl), filter_cons. cbn [snd]. destruct (decide (S last = i)) as [<-|].
    - cbn in Hi. rewrite Nat.sub_0_r, Hl in Hi. injection Hi as -> ->. by rewrite decide_True.
    - rewrite decide_False.
      + apply IH; [lia|lia|]. intros k s0 p0 ??. apply (Hstub k s0 p0); lia.
      + intros Hn. apply Hn. apply (Hstub (S last) s' p'); [lia|lia|]. cbn. by rewrite Nat.sub_0_r.
  Qed.

  Lemma base_stream_ok (SP X : list (nat * nat)) last lsp :
    SSorted X →
    (∀ i o, (i, o) ∈ X → last ≤ i ∧ 1 ≤ i ∧ ∃ s p, SP !! (i - 1) = Some (s, p) ∧ p ≠ 0) →
    (∀ k s p, last < k → SP !! (k - 1) = Some (s, p) → p ≠ 0 → ∃ o, (k, o) ∈ X) →
    last = 0 ∨ SP !! (last - 1) = Some lsp →
    base_stream (nz (drop last SP)) lsp last X = Some (omap (dec_spo None SP) X).
  Proof.
    revert last lsp. induction X as [|[i o] X IH]; intros last lsp Hs Hin Hsurj Hlast; [done|].
    apply ssorted_cons in Hs as [Hs Hx].
    destruct (Hin i o) as (Hli & Hi1 & s & p & Hi & Hp); [left|].
    assert (dec_spo None SP (i, o) = Some (mkt s p o)) as Hdec.
    { unfold dec_spo, dec_sp. cbn. rewrite Hi. cbn. rewrite decide_False by done. done. }
    cbn [base_stream omap list_omap]. rewrite Hdec. case_decide as Hc.
    - rewrite (skip_stubs SP last i s p); auto.
      + rewrite IH; auto.
        * intros i' o' Hin'. destruct (Hin i' o') as (? & ? & ?); [by right|].
          specialize (Hx _ Hin'). split_and!; auto. ord_num.
        * intros k s' p' Hk Hk' Hp'. destruct (Hsurj k s' p') as [o' Ho']; auto; [lia|].
          apply elem_of_cons in Ho' as [[= -> ->]|?]; [lia|eauto].
      + intros k s' p' Hk Hki Hk'. destruct (decide (p' = 0)); auto. exfalso.
        destruct (Hsurj k s' p') as [o' Ho']; auto.
        apply elem_of_cons in Ho' as [[= -> ->]|Ho']; [lia|]. specialize (Hx _ Ho'). ord_num.
    - assert (i = last) as -> by lia. destruct Hlast as [->|Hl]; [lia|].
      rewrite Hi in Hl. injection Hl as <-. rewrite IH; auto.
      + intros i' o' Hin'. destruct (Hin i' o') as (? & ? & ?); [by right|]. auto.
      + intros k s' p' Hk Hk' Hp'. destruct (Hsurj k s' p') as [o' Ho']; auto.
        apply elem_of_cons in Ho' as [[= -> ->]|?]; [lia|eauto].
  Qed.

  Lemma child_stream_ok (ss : list nat) (SP X : list (nat * nat)) last lsp lms :
    SSorted X →
    (∀ i o, (i, o) ∈ X → last ≤ i ∧ 1 ≤ i ≤ length SP) →
    (∀ s p, (s, p) ∈ SP → p ≠ 0 ∧ 1 ≤ s ≤ length ss) →
    (∀ k s p s' p', SP !! k = Some (s, p) → SP !! S k = Some (s', p') → s ≤ s' ≤ S s) →
    (∀ s p, SP !! 0 = Some (s, p) → s = 1) →
    (∀ k, last < k → k ≤ length SP → ∃ o, (k, o) ∈ X) →
    (last = 0 ∧ lsp = (0, 0)) ∨ (1 ≤ last ∧ SP !! (last - 1) = Some lsp ∧ ss !! (lsp.1 - 1) = Some lms) →
    child_stream (drop lsp.1 ss) (nz (drop last SP)) lms lsp last X =
      Some (omap (dec_spo (Some ss) SP) X).
  Proof.
    revert last lsp lms. induction X as [|[i o] X IH];
      intros last lsp lms Hs Hin Hnz Hstep Hfirst Hsurj Hlast; [done|].
    apply ssorted_cons in Hs as [Hs Hx].
    destruct (Hin i o) as (Hli & Hi1); [left|].
    destruct (lookup_lt_is_Some_2 SP (i - 1)) as [[s p] Hi]; [lia|].
    destruct (Hnz s p) as (Hp & Hsl); [by eapply elem_of_list_lookup_2|].
    destruct (lookup_lt_is_Some_2 ss (s - 1)) as [ms Hms]; [lia|].
    assert (dec_spo (Some ss) SP (i, o) = Some (mkt ms p o)) as Hdec.
    { unfold dec_spo, dec_sp. cbn. rewrite Hi. cbn. rewrite Hms. cbn. rewrite decide_False by done. done. }
    cbn [child_stream omap list_omap]. rewrite Hdec. case_decide as Hc.
    - assert (i = S last) as ->.
      { destruct (decide (i = S last)); auto. exfalso.
        destruct (Hsurj (S last)) as [o' Ho']; [lia|lia|].
        apply elem_of_cons in Ho' as [[= ? ?]|Ho']; [lia|]. specialize (Hx _ Ho'). ord_num. }
      rewrite (skip_stubs SP last (S last) s p); [|lia|done|done|lia].
      cbn in Hi. rewrite Nat.sub_0_r in Hi.
      assert (Hnext : child_stream (drop s ss) (nz (drop (S last) SP)) ms (s, p) (S last) X =
                Some (omap (dec_spo (Some ss) SP) X)).
      { apply (IH (S last) (s, p) ms); auto.
        - intros i' o' Hin'. destruct (Hin i' o') as (? & ?); [by right|].
          specialize (Hx _ Hin'). split_and!; auto; ord_num.
        - intros k Hk Hk'. destruct (Hsurj k) as [o' Ho']; [lia|lia|].
          apply elem_of_cons in Ho' as [[= -> ->]|?]; [lia|eauto].
        - right. cbn. rewrite Nat.sub_0_r. split_and!; auto. lia. }
      assert (Hls : lsp.1 < s ∧ s = S (lsp.1) ∨ lsp.1 = s ∧ lms = ms).
      { destruct Hlast as [[-> ->]|(Hl1 & Hl & Hlm)].
        - left. rewrite (Hfirst _ _ Hi). cbn. lia.
        - destruct lsp as [ls lp]. replace last with (S (last - 1)) in Hi by lia.
          pose proof (Hstep _ _ _ _ _ Hl Hi). cbn [fst] in *.
          destruct (decide (ls = s)) as [->|]; [right|left; lia]. split; congruence. }
      destruct Hls as [[Hlt Hs']|[Heq ->]].
      + rewrite decide_True by done.
        rewrite (drop_S ss ms (lsp.1)) by (rewrite <-Hms; f_equal; lia).
        rewrite <-Hs', Hnext. done.
      + rewrite decide_False by lia. rewrite Heq, Hnext. done.
    - assert (i = last) as -> by lia. destruct Hlast as [[-> _]|(Hl1 & Hl & Hlm)]; [lia|].
      rewrite Hi in Hl. injection Hl as <-. cbn [fst snd] in *. rewrite Hms in Hlm. injection Hlm as <-.
      pose proof (IH last (s, p) ms) as IH'. cbn [fst] in IH'. rewrite IH'; auto.
      + intros i' o' Hin'. destruct (Hin i' o') as (? & ?); [by right|]. auto.
      + intros k Hk Hk'. destruct (Hsurj k) as [o' Ho']; auto.
        apply elem_of_cons in Ho' as [[= -> ->]|?]; [lia|eauto].
  Qed.

  Context (sparse : bool) (tf : tfiles) (T : list triple) (Hok : tf_ok sparse tf T).
  Notation rd_spo := (rd_spo _ _ _ Hok).

  Theorem tf_stream_ok : tf_stream tf = Some T.
  Proof.
    pose proof rd_spo as Hspo. pose proof (so_T _ _ _ _ _ rd_spo) as HT.
    assert (HX : T = omap (dec_spo (tf_subjects tf) (adj_pairs (tf_sp tf))) (nz (adj_pairs (tf_spo tf)))).
    { rewrite omap_filter_none; auto. intros [i o] Hin Ho. cbn in Ho.
      destruct (dec_spo _ _ _) as [t|] eqn:Hd; auto.
      destruct (dec_spo_Some _ _ _ _ _ Hspo _ _ _ Hin Hd) as (? & ? & ?). lia. }
    assert (HXs : SSorted (nz (adj_pairs (tf_spo tf)))).
    { apply ssorted_filter. by destruct Hspo. }
    unfold tf_stream, adj_stream_pairs.
    destruct (tf_subjects tf) as [ss|] eqn:Hss.
    - pose proof (so_subj _ _ _ _ _ rd_spo) as Hsub. rewrite Hss in Hsub. destruct Hsub as (Hl & Hsso & Hsnz & Hnst).
      rewrite HX at 1.
      pose proof (child_stream_ok ss (adj_pairs (tf_sp tf)) (nz (adj_pairs (tf_spo tf))) 0 (0, 0) 0) as Hc.
      cbn [fst] in Hc. rewrite !drop_0 in Hc. apply Hc; auto.
      + intros i o [_ Hin]%elem_of_list_filter. pose proof (so_ix _ _ _ _ _ rd_spo _ _ Hin). lia.
      + intros s p Hin. split; [eauto|]. rewrite Hl. by apply (so_left _ _ _ _ _ rd_spo _ _ Hin).
      + intros k s p s' p' Hk Hk'. rewrite adj_pairs_lookup in Hk, Hk'.
        apply fmap_Some in Hk as (x & Hx & [= -> ->]). apply fmap_Some in Hk' as (x' & Hx' & [= -> ->]).
        destruct (adj_bit_num _ (rd_wfsp _ _ _ Hok) k x Hx) as [b Hb].
        unfold left_at_pos. rewrite (rank1_S _ _ _ Hb). destruct b; lia.
      + intros s p Hk. rewrite adj_pairs_lookup in Hk. apply fmap_Some in Hk as (x & Hx & [= -> ->]). done.
      + intros k Hk Hk'. rewrite adj_pairs_length in Hk'.
        destruct (spo_surj _ _ _ Hok (k - 1)) as [o Ho]; [lia|]. replace (S (k - 1)) with k in Ho by lia.
        exists o. apply elem_of_list_filter. split; [|done]. cbn. intros E.
        destruct (lookup_lt_is_Some_2 (adj_pairs (tf_sp tf)) (k - 1)) as [[s p] Hsp].
        { rewrite adj_pairs_length. lia. }
        apply (Hnst s p); [by eapply elem_of_list_lookup_2|].
        by apply (so_stub _ _ _ _ _ rd_spo k o s p).
    - rewrite HX at 1.
      pose proof (base_stream_ok (adj_pairs (tf_sp tf)) (nz (adj_pairs (tf_spo tf))) 0 (0, 0)) as Hc.
      rewrite !drop_0 in Hc. apply Hc; auto.
      + intros i o [Ho Hin]%elem_of_list_filter. cbn in Ho.
        pose proof (so_ix _ _ _ _ _ rd_spo _ _ Hin) as Hix.
        destruct (lookup_lt_is_Some_2 (adj_pairs (tf_sp tf)) (i - 1)) as [[s p] Hsp]; [lia|].
        split_and!; [lia|lia|]. exists s, p. split; auto. intros E. apply Ho.
        by apply (so_stub _ _ _ _ _ rd_spo i o s p).
      + intros k s p Hk Hsp Hp. pose proof (lookup_lt_Some _ _ _ Hsp) as Hlt. rewrite adj_pairs_length in Hlt.
        destruct (spo_surj _ _ _ Hok (k - 1)) as [o Ho]; [lia|]. replace (S (k - 1)) with k in Ho by lia.
        exists o. apply elem_of_list_filter. split; [|done]. cbn. intros E. apply Hp.
        by apply (so_stub _ _ _ _ _ rd_spo k o s p).
  Qed.
End streams.
