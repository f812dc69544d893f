(** Facts about the contract models of Succinct.v. *)
From Verif Require Import Prelude Succinct.

(** ** rank and select *)
Section rank.
  Implicit Types bs : list bool.

  Lemma rank1_0 bs : rank1 bs 0 = 0.
  Proof. done. Qed.
  Lemma rank1_one (b : bool) : rank1 [b] 1 = if b then 1 else 0.
  Proof. by destruct b. Qed.
  Lemma rank1_S bs n (b : bool) : bs !! n = Some b → rank1 bs (S n) = rank1 bs n + (if b then 1 else 0).
  Proof.
    intros Hb. unfold rank1. erewrite take_S_r by done.
    rewrite filter_app, app_length. f_equal. by destruct b.
  Qed.
  Lemma rank1_mono bs n m : n ≤ m → rank1 bs n ≤ rank1 bs m.
  Proof.
    intros Hnm. unfold rank1. replace m with (n + (m - n)) by lia.
    rewrite <-take_take_drop, filter_app, app_length. lia.
  Qed.
  Lemma rank1_ge bs n : length bs ≤ n → rank1 bs n = rank1 bs (length bs).
  Proof. intros. unfold rank1. by rewrite !take_ge by lia. Qed.
  Lemma rank1_le bs n : rank1 bs n ≤ n.
  Proof.
    unfold rank1. etrans; [apply filter_length|]. rewrite take_length. lia.
  Qed.
  Lemma rank1_app_l bs bs' n : n ≤ length bs → rank1 (bs ++ bs') n = rank1 bs n.
  Proof. intros. unfold rank1. by rewrite take_app_le. Qed.
  Lemma rank1_app_r bs bs' n :
    rank1 (bs ++ bs') (length bs + n) = rank1 bs (length bs) + rank1 bs' n.
  Proof.
    unfold rank1. rewrite take_add_app by done. rewrite filter_app, app_length.
    by rewrite (take_ge bs) by lia.
  Qed.
  Lemma rank1_replicate_true k n : n ≤ k → rank1 (replicate k true) n = n.
  Proof.
    intros. unfold rank1. rewrite take_replicate, Nat.min_l by lia.
    clear H. induction n as [|n IH]; [done|]. exact (f_equal S IH).
  Qed.

  Lemma select1_Some bs k n :
    select1 bs k = Some n ↔ bs !! n = Some true ∧ k = S (rank1 bs n).
  Proof.
    revert k n. induction bs as [|b bs IH]; intros k n; cbn.
    { split; [done|]. intros [? _]. done. }
    assert (Hr : ∀ m, rank1 (b :: bs) (S m) = (if b then 1 else 0) + rank1 bs m).
    { intros m. destruct b; reflexivity. }
    destruct b.
    - destruct k as [|[|k]].
      + split; [done|]. intros [? ?]. done.
      + split.
        * intros [= <-]. done.
        * intros [Hb Hk]. destruct n as [|n]; [done|]. rewrite Hr in Hk. lia.
      + rewrite fmap_Some. setoid_rewrite IH. split.
        * intros (m & [? ->] & ->). split; [done|]. by rewrite Hr.
        * intros [Hb Hk]. destruct n as [|n]; [done|]. exists n. rewrite Hr in Hk.
          repeat split; auto; lia.
    - destruct k as [|k].
      + split; [done|]. intros [? ?]. done.
      + rewrite fmap_Some. setoid_rewrite IH. split.
        * intros (m & [? ->] & ->). split; [done|]. by rewrite Hr.
        * intros [Hb Hk]. destruct n as [|n]; [done|]. exists n. rewrite Hr in Hk.
          repeat split; auto; lia.
  Qed.

  Lemma rank1_find bs k n :
    k < rank1 bs n → ∃ m, m < n ∧ bs !! m = Some true ∧ rank1 bs m = k.
  Proof.
    induction n as [|n IH]; [rewrite rank1_0; lia|]. intros Hk.
    destruct (bs !! n) as [b|] eqn:Hb.
    - rewrite (rank1_S _ _ _ Hb) in Hk.
      destruct (decide (k < rank1 bs n)) as [Hlt|].
      + destruct (IH Hlt) as (m & ? & ? & ?). exists m. auto with lia.
      + destruct b; [|lia]. exists n. repeat split; auto; lia.
    - apply lookup_ge_None in Hb. rewrite (rank1_ge _ (S n)) in Hk by lia.
      rewrite <-(rank1_ge _ n) in Hk by lia. destruct (IH Hk) as (m & ? & ? & ?).
      exists m. auto with lia.
  Qed.

  Lemma select1_is_Some bs k :
    1 ≤ k ≤ rank1 bs (length bs) → is_Some (select1 bs k).
  Proof.
    intros Hk. destruct (rank1_find bs (k - 1) (length bs)) as (m & Hm & Hb & Hr); [lia|].
    exists m. apply select1_Some. split; [done|]. lia.
  Qed.
End rank.

(** ** adjacency lists *)
Definition adj_wf (a : adj) : Prop :=
  length (adj_bits a) = length (adj_nums a) ∧
  (adj_nums a ≠ [] → last (adj_bits a) = Some true) ∧
  SSorted (adj_pairs a).

Section adj.
  Context (a : adj) (Hwf : adj_wf a).
  Notation bits := (adj_bits a).
  Notation nums := (adj_nums a).

  Lemma adj_pairs_lookup n :
    adj_pairs a !! n = (λ num, (S (rank1 bits n), num)) <$> nums !! n.
  Proof. unfold adj_pairs. rewrite list_lookup_imap. done. Qed.
  Lemma adj_pairs_length : length (adj_pairs a) = right_count a.
  Proof. unfold adj_pairs. apply imap_length. Qed.

  Lemma adj_bit_num n num : nums !! n = Some num → ∃ b, bits !! n = Some b.
  Proof.
    intros Hn. apply lookup_lt_Some in Hn. destruct Hwf as [Hl _].
    apply lookup_lt_is_Some. lia.
  Qed.

  Lemma adj_left_le n : n < right_count a → rank1 bits n < left_count a.
  Proof.
    intros Hn. unfold left_count, right_count in *. destruct Hwf as (Hl & Hlast & _).
    assert (nums ≠ []) as Hne by (intros Heq; rewrite Heq in Hn; cbn in Hn; lia).
    specialize (Hlast Hne). rewrite last_lookup in Hlast.
    rewrite Hl in *. destruct (length nums) as [|k]; [lia|]. cbn in Hlast.
    rewrite (rank1_S _ _ _ Hlast). pose proof (rank1_mono bits n k). lia.
  Qed.

  (** [offset_for a i] is the boundary between the entries of left-hand sides below [i]
      and the others. *)
  Lemma offset_for_spec i :
    1 ≤ i ≤ S (left_count a) →
    ∃ n, offset_for a i = Some n ∧ n ≤ right_count a ∧ rank1 bits n = i - 1 ∧
         (∀ m, m < right_count a → n ≤ m ↔ i - 1 ≤ rank1 bits m).
  Proof.
    intros Hi. destruct i as [|[|i]]; [lia| |].
    - exists 0. cbn. repeat split; auto; lia.
    - cbn. destruct (select1_is_Some bits (S i)) as [n Hn]; [unfold left_count in Hi; lia|].
      rewrite Hn. apply select1_Some in Hn as [Hb Hr]. exists (S n).
      pose proof (lookup_lt_Some _ _ _ Hb) as Hlt. destruct Hwf as [Hl _].
      repeat split.
      + unfold right_count. lia.
      + rewrite (rank1_S _ _ _ Hb). lia.
      + intros Hnm. pose proof (rank1_mono bits (S n) m Hnm) as Hm.
        rewrite (rank1_S _ _ _ Hb) in Hm. lia.
      + intros Hm. destruct (decide (S n ≤ m)); auto. exfalso.
        pose proof (rank1_mono bits m n). lia.
  Qed.
  Lemma offset_for_beyond i : S (left_count a) < i → offset_for a i = None.
  Proof.
    intros Hi. destruct i as [|[|i]]; [lia|lia|]. cbn.
    destruct (select1 bits (S i)) as [n|] eqn:Hn; [|done].
    apply select1_Some in Hn as [Hb Hr]. pose proof (lookup_lt_Some _ _ _ Hb).
    pose proof (rank1_mono bits (S n) (length bits)) as Hm.
    rewrite (rank1_S _ _ _ Hb) in Hm. unfold left_count in Hi. lia.
  Qed.
  Lemma rank1_right_count : rank1 bits (right_count a) = left_count a.
  Proof. unfold left_count, right_count. by rewrite (proj1 Hwf). Qed.
End adj.

(** ** the builder *)
Definition adjb_pairs (b : adjb) : list (nat * nat) :=
  imap (λ n num, (S (rank1 (b_bits b) n), num)) (b_nums b).

Definition adjb_ok (b : adjb) : Prop :=
  b = adjb_new ∨
  (length (b_nums b) = S (length (b_bits b)) ∧
   b_last_left b = S (rank1 (b_bits b) (length (b_bits b))) ∧
   last (b_nums b) = Some (b_last_right b) ∧ 0 < b_last_right b ∧
   SSorted (adjb_pairs b)).

Lemma adjb_new_ok : adjb_ok adjb_new.
Proof. by left. Qed.

(** the padding written before a pair with left-hand side [l] *)
Definition stubs (last l : nat) : list (nat * nat) :=
  (λ x, (x, 0)) <$> seq (S last) (l - last - 1).

Lemma adjb_pairs_last b :
  adjb_ok b → b ≠ adjb_new →
  adjb_pairs b !! (length (b_nums b) - 1) = Some (b_last_left b, b_last_right b).
Proof.
  intros [->|(Hlen & Hll & Hlast & Hlr & Hs)] Hne; [done|].
  unfold adjb_pairs. rewrite list_lookup_imap. rewrite last_lookup in Hlast.
  rewrite Hlen in *. cbn in Hlast |- *. rewrite Nat.sub_0_r, Hlast. cbn. by rewrite <-Hll.
Qed.
Lemma adjb_pairs_length b : length (adjb_pairs b) = length (b_nums b).
Proof. apply imap_length. Qed.
Lemma adjb_sorted b : adjb_ok b → SSorted (adjb_pairs b).
Proof. intros [->|?]; [apply ssorted_nil|naive_solver]. Qed.
Lemma adjb_pairs_le b pr :
  adjb_ok b → pr ∈ adjb_pairs b → ole pr (b_last_left b, b_last_right b).
Proof.
  intros Hok Hpr. destruct (decide (b_nums b = [])) as [He|He].
  { unfold adjb_pairs in Hpr. rewrite He in Hpr. by apply elem_of_nil in Hpr. }
  assert (b ≠ adjb_new) as Hne by (by intros ->).
  pose proof (adjb_pairs_last b Hok Hne) as Hl. pose proof (adjb_sorted b Hok) as Hs.
  destruct (last_Some (adjb_pairs b) (b_last_left b, b_last_right b)) as [Hx _].
  destruct Hx as [l' Hl'].
  { rewrite last_lookup, adjb_pairs_length, <-Hl. f_equal. lia. }
  rewrite Hl' in Hpr, Hs. apply elem_of_app in Hpr as [Hpr|Hpr].
  - apply ole_alt. left. apply ssorted_app in Hs as (_ & _ & Hs). apply Hs; auto. by left.
  - apply elem_of_list_singleton in Hpr as ->. apply ole_alt. auto.
Qed.
Lemma adjb_pairs_bound b l r :
  adjb_ok b → (l, r) ∈ adjb_pairs b → 1 ≤ l ≤ b_last_left b.
Proof.
  intros Hok Hpr. split.
  - apply elem_of_list_lookup in Hpr as [i Hi]. unfold adjb_pairs in Hi.
    rewrite list_lookup_imap in Hi. apply fmap_Some in Hi as (? & ? & [= -> ->]). lia.
  - apply adjb_pairs_le in Hpr; auto. ord_num.
Qed.

Lemma stubs_spec last l pr : pr ∈ stubs last l ↔ last < pr.1 < l ∧ pr.2 = 0.
Proof.
  unfold stubs. rewrite elem_of_list_fmap. setoid_rewrite elem_of_seq. split.
  - intros (x & -> & ?). cbn. lia.
  - destruct pr as [a b]. cbn. intros [? ->]. exists a. split; auto. lia.
Qed.
Lemma stubs_sorted last l : SSorted (stubs last l).
Proof.
  unfold stubs. generalize (S last) as a, (l - last - 1) as n.
  intros a n. revert a. induction n as [|n IH]; intros a; cbn; [apply ssorted_nil|].
  apply ssorted_cons. split; [apply IH|]. intros y (x & -> & Hx%elem_of_seq)%elem_of_list_fmap.
  ord_num.
Qed.
Lemma stubs_snoc_sorted b l r :
  adjb_ok b → olt (b_last_left b, b_last_right b) (l, r) →
  SSorted (adjb_pairs b ++ stubs (b_last_left b) l ++ [(l, r)]).
Proof.
  intros Hok Hlt. apply ssorted_app. split_and!.
  - by apply adjb_sorted.
  - apply ssorted_app. split_and!; [apply stubs_sorted|apply ssorted_singleton|].
    intros x y [??]%stubs_spec ->%elem_of_list_singleton. ord_num.
  - intros x y Hx Hy. apply adjb_pairs_le, ole_alt in Hx; auto.
    assert (olt (b_last_left b, b_last_right b) y) as Hy'.
    { apply elem_of_app in Hy as [[??]%stubs_spec| ->%elem_of_list_singleton]; auto.
      ord_num. }
    destruct Hx as [Hx| ->]; auto. by etrans.
Qed.

Lemma adjb_push_ok b l r :
  adjb_ok b → 0 < l → 0 < r → olt (b_last_left b, b_last_right b) (l, r) →
  ∃ b', adjb_push b l r = Some b' ∧ adjb_ok b' ∧ b_last_left b' = l ∧ b_last_right b' = r ∧
        adjb_pairs b' = adjb_pairs b ++ stubs (b_last_left b) l ++ [(l, r)].
Proof.
  intros Hok Hl Hr Hlt. pose proof (stubs_snoc_sorted b l r Hok Hlt) as Hsrt.
  assert (∀ b', length (b_nums b') = S (length (b_bits b')) →
    b_last_left b' = S (rank1 (b_bits b') (length (b_bits b'))) →
    last (b_nums b') = Some (b_last_right b') → b_last_left b' = l → b_last_right b' = r →
    adjb_pairs b' = adjb_pairs b ++ stubs (b_last_left b) l ++ [(l, r)] →
    adjb_ok b' ∧ b_last_left b' = l ∧ b_last_right b' = r ∧
        adjb_pairs b' = adjb_pairs b ++ stubs (b_last_left b) l ++ [(l, r)]) as Hfin.
  { intros b' ????? Hp. split; auto. right. rewrite Hp. split_and!; auto. lia. }
  unfold adjb_push.
  rewrite decide_False.
  2:{ ord_num. }
  destruct Hok as [->|(Hlen & Hll & Hlast & Hlr & _)].
  - cbn. rewrite Nat.sub_0_r.
    destruct (decide (l = 1)) as [->|Hl1].
    + rewrite decide_True by lia. eexists. split; [done|]. by apply Hfin.
    + rewrite decide_False by lia. rewrite decide_False by lia. rewrite (decide_True (P := 0 = 0)) by done.
      eexists. split; [done|].
      assert (Hrk : rank1 (replicate (l - 1) true) (l - 1) = l - 1)
        by (by apply rank1_replicate_true).
      apply Hfin; cbn [b_nums b_bits b_last_left b_last_right b_last_right adjb_new app]; auto.
      { rewrite !app_length, !replicate_length. cbn. lia. }
      { rewrite replicate_length, Hrk. lia. }
      { by rewrite last_snoc. }
      unfold adjb_pairs, stubs. cbn.
      rewrite imap_app. cbn. rewrite replicate_length, Nat.add_0_r, Hrk, Nat.sub_0_r.
      f_equal; [|repeat f_equal; lia].
      apply list_eq. intros i. rewrite list_lookup_imap, list_lookup_fmap.
      destruct (decide (i < l - 1)).
      * rewrite lookup_replicate_2, lookup_seq_lt by lia. cbn.
        rewrite rank1_replicate_true by lia. do 2 f_equal.
      * rewrite lookup_ge_None_2 by (rewrite replicate_length; lia).
        rewrite lookup_seq_ge by lia. done.
  - rewrite decide_False by lia.
    assert (Hprd : ∀ bits nums,
      imap (λ n num, (S (rank1 (b_bits b ++ bits) n), num)) (b_nums b ++ nums) =
      adjb_pairs b ++
      imap (λ n num, (S (rank1 (b_bits b ++ bits) (length (b_nums b) + n)), num)) nums).
    { intros bits nums. rewrite imap_app. f_equal. apply imap_ext.
      intros i x Hx. apply lookup_lt_Some in Hx. rewrite rank1_app_l; [done|lia]. }
    case_decide as Hsk.
    + assert (l = b_last_left b) as ->.
      { ord_num. }
      eexists. split; [done|].
      apply Hfin; cbn [b_nums b_bits b_last_left b_last_right b_last_right adjb_new app]; auto.
      { rewrite !app_length. cbn. lia. }
      { rewrite app_length. cbn. rewrite rank1_app_r, rank1_one. lia. }
      { by rewrite last_snoc. }
      unfold adjb_pairs at 1. cbn [b_nums b_bits]. rewrite Hprd. f_equal.
      unfold stubs. replace (_ - _ - 1) with 0 by lia. cbn.
      rewrite Hlen. replace (S (length (b_bits b)) + 0) with (length (b_bits b) + 1) by lia.
      rewrite rank1_app_r, rank1_one. do 3 f_equal. lia.
    + set (k := l - b_last_left b) in *.
      rewrite decide_False by lia.
      eexists. split; [done|].
      apply Hfin; cbn [b_nums b_bits b_last_left b_last_right b_last_right adjb_new app]; auto.
      { rewrite !app_length, !replicate_length. cbn. lia. }
      { rewrite app_length, replicate_length, rank1_app_r, rank1_replicate_true by lia. lia. }
      { by rewrite app_assoc, last_snoc. }
      unfold adjb_pairs at 1. cbn [b_nums b_bits]. rewrite Hprd. f_equal.
      rewrite imap_app. cbn. f_equal.
      * unfold stubs. apply list_eq. intros i. rewrite list_lookup_imap, list_lookup_fmap.
        destruct (decide (i < k - 1)).
        -- rewrite lookup_replicate_2, lookup_seq_lt by lia. cbn.
           rewrite Hlen. replace (S (length (b_bits b)) + i) with (length (b_bits b) + S i) by lia.
           rewrite rank1_app_r, rank1_replicate_true by lia. do 2 f_equal. lia.
        -- rewrite lookup_ge_None_2 by (rewrite replicate_length; lia).
           rewrite lookup_seq_ge by lia. done.
      * rewrite replicate_length, Nat.add_0_r, Hlen.
        replace (S (length (b_bits b)) + (k - 1)) with (length (b_bits b) + k) by lia.
        rewrite rank1_app_r, rank1_replicate_true by lia. do 3 f_equal. lia.
Qed.

Lemma adjb_push_panics b l r :
  ¬ olt (b_last_left b, b_last_right b) (l, r) → adjb_push b l r = None.
Proof.
  intros Hn. unfold adjb_push. rewrite decide_True; auto.
  ord_num.
Qed.

Lemma adjb_finalize_ok b :
  adjb_ok b →
  adj_wf (adjb_finalize b) ∧ adj_pairs (adjb_finalize b) = adjb_pairs b ∧
  left_count (adjb_finalize b) = b_last_left b.
Proof.
  intros [->|(Hlen & Hll & Hlast & Hlr & Hs)]; [split_and!; try done; split_and!; try done; apply ssorted_nil|].
  unfold adjb_finalize.
  assert (b_nums b ≠ []) as Hne by (intros Heq; rewrite Heq in Hlen; done).
  rewrite decide_False by done.
  assert (adj_pairs (Adj (b_nums b) (b_bits b ++ [true])) = adjb_pairs b) as Hp.
  { unfold adj_pairs, adjb_pairs. cbn. apply imap_ext. intros i x Hx.
    apply lookup_lt_Some in Hx. unfold left_at_pos. cbn. by rewrite rank1_app_l by lia. }
  split_and!; auto.
  - unfold adj_wf. rewrite Hp. split_and!; auto; cbn; [rewrite app_length; cbn; lia|].
    intros _. by rewrite last_snoc.
  - unfold left_count. cbn. rewrite app_length. cbn. rewrite rank1_app_r, ?rank1_one. cbn. lia.
Qed.

Lemma adjb_count_ok b : adjb_ok b → b ≠ adjb_new → adjb_count b + 1 = length (b_nums b).
Proof. intros [->|(? & _)] ?; [done|]. unfold adjb_count. lia. Qed.
