(** With fixed widths and sorting in chunks, the writers write what they write without. *)
From Verif Require Import Prelude ListFacts Succinct SuccinctFacts TripleFiles TripleBuildFacts
  TripleReadFacts Merge MergeFacts Layer StackFacts DictFacts WfFacts Builder InternFacts SameFacts Rollup RollupFacts
  RollupSame Squash MergeBase Spec BuilderFacts CommitFacts HistoryFacts SquashFacts MergeBaseFacts ReachFacts ApiFacts Widths SpecWidths.

Section widths.
  Context (width : nat → nat) (limit : nat) (Hwidth : ∀ n m : nat, n ≤ m → n < 2 ^ width m).

  Lemma fitting_app w (a b : list nat) : fitting w (a ++ b) ↔ fitting w a ∧ fitting w b.
  Proof. apply Forall_app. Qed.
  Lemma fitting_le m (ns : list nat) : (∀ n, n ∈ ns → n ≤ m) → fitting (width m) ns.
  Proof. intros H. apply Forall_forall. intros n Hn. by apply Hwidth, H. Qed.

  (** ** Adjacency lists *)
  Lemma push_nums b l r b' : adjb_push b l r = Some b' →
    ∃ k, b_nums b' = b_nums b ++ replicate k 0 ++ [r].
  Proof.
    unfold adjb_push. case_decide; [done|]. intros E.
    repeat case_decide; injection E as <-; cbn [b_nums]; (by exists 0) || eauto.
  Qed.
  Lemma fitting_zeros w k : fitting w (replicate k 0).
  Proof.
    apply Forall_forall. intros n [-> _]%elem_of_replicate. assert (2 ^ w ≠ 0) by (by apply Nat.pow_nonzero). lia.
  Qed.
  Lemma adjw_push_eq w b l r : r < 2 ^ w → adjw_push w b l r = adjb_push b l r.
  Proof.
    intros Hr. unfold adjw_push. destruct (adjb_push b l r) as [b'|] eqn:E; [|done]. cbn [mbind option_bind].
    destruct (push_nums _ _ _ _ E) as [k ->]. rewrite drop_app. rewrite decide_True; [done|].
    apply fitting_app. split; [apply fitting_zeros|]. by apply Forall_singleton.
  Qed.
  Lemma adjw_push_all_eq w b (prs : list (nat * nat)) : fitting w (snd <$> prs) →
    adjw_push_all w b prs = adjb_push_all b prs.
  Proof.
    revert b. induction prs as [|[l r] prs IH]; intros b Hf; [done|].
    rewrite fmap_cons in Hf. apply Forall_cons in Hf as [Hr Hf]. cbn [adjw_push_all adjb_push_all].
    rewrite adjw_push_eq by done. destruct (adjb_push b l r); [|done]. cbn [mbind option_bind]. by apply IH.
  Qed.
  Lemma adjw_push_fits w b l r b' : adjb_push b l r = Some b' → fitting w (b_nums b') → adjw_push w b l r = Some b'.
  Proof.
    intros E Hf. rewrite adjw_push_eq; [done|]. destruct (push_nums _ _ _ _ E) as [k Ek]. rewrite Ek in Hf.
    apply fitting_app in Hf as [_ Hf]. apply fitting_app in Hf as [_ Hf]. exact (proj1 (Forall_singleton _ _) Hf).
  Qed.
  Lemma push_prefix w b l r b' : adjb_push b l r = Some b' → fitting w (b_nums b') → fitting w (b_nums b).
  Proof.
    intros E Hf. destruct (push_nums _ _ _ _ E) as [k Ek]. rewrite Ek in Hf. by apply fitting_app in Hf as [? _].
  Qed.

  (** ** The subject half *)
  Lemma tfb_add_w wp wo b t b' : tfb_add b t = Some b' → fitting wp (b_nums (tfb_sp b')) → fitting wo (b_nums (tfb_spo b')) →
    tfw_add wp wo b t = Some b' ∧ fitting wp (b_nums (tfb_sp b)) ∧ fitting wo (b_nums (tfb_spo b)).
  Proof.
    destruct t as [[s p] o]. unfold tfb_add, tfw_add. case_decide. { by intros [= <-]. }
    case_decide; [done|]. case_decide.
    - intros (spo & E & [= <-])%bind_Some. cbn [tfb_sp tfb_spo]. intros H1' H2'.
      rewrite (adjw_push_fits wo _ _ _ spo) by done. split; [done|]. split; [done|]. by eapply push_prefix.
    - set (ss := match tfb_subjects b with Some _ => _ | None => _ end).
      intros (sp & E & E')%bind_Some. apply bind_Some in E' as (spo & E' & E''). injection E'' as <-. cbn [tfb_sp tfb_spo]. intros H1' H2'.
      rewrite (adjw_push_fits wp _ _ _ sp) by done. cbn [mbind option_bind].
      rewrite (adjw_push_fits wo _ _ _ spo) by done. split; [done|]. split; by eapply push_prefix.
  Qed.
  Lemma tfb_add_all_w wp wo ts b b' : tfb_add_all b ts = Some b' →
    fitting wp (b_nums (tfb_sp b')) → fitting wo (b_nums (tfb_spo b')) →
    tfw_add_all wp wo b ts = Some b' ∧ fitting wp (b_nums (tfb_sp b)) ∧ fitting wo (b_nums (tfb_spo b)).
  Proof.
    revert b. induction ts as [|t ts IH]; intros b; cbn [tfb_add_all tfw_add_all]. { by intros [= <-]. }
    intros (b1 & E & E')%bind_Some H1' H2'. destruct (IH b1 E' H1' H2') as (IE & I1 & I2).
    destruct (tfb_add_w wp wo b t b1 E I1 I2) as (-> & ? & ?). done.
  Qed.

  (** ** The object half *)
  Notation swap := (λ pr : nat * nat, (pr.2, pr.1)).
  Lemma gather_ok wo (stream : list (nat * nat)) : ∀ tally (chunks : list (list (nat * nat))) (pairs : list (nat * nat)) g,
    (∀ e, e ∈ pairs → e.2 ≤ g) → fitting wo (fst <$> pairs) →
    fitting wo (snd <$> stream) → (∀ e, e ∈ stream → g ≤ e.1) → SSorted stream →
    Forall (λ c, SSorted c) chunks → NoDup (pairs ++ (swap <$> stream)) →
    ∃ chunks' pairs' g', gather width limit wo tally chunks pairs g stream = Some (chunks', pairs', g') ∧
      Forall (λ c, SSorted c) chunks' ∧ mjoin chunks' ++ pairs' ≡ₚ mjoin chunks ++ pairs ++ (swap <$> stream) ∧
      NoDup pairs' ∧ g ≤ g' ∧ (∀ e, e ∈ stream → e.1 ≤ g').
  Proof.
    induction stream as [|[sp o] stream IH]; intros tally chunks pairs g Hp Hpo Hso Hg Hs Hc Hnd; cbn [gather].
    - exists chunks, pairs, g. rewrite fmap_nil, app_nil_r in *. split_and!; auto. by intros e ?%elem_of_nil.
    - rewrite fmap_cons in Hso. apply Forall_cons in Hso as [Ho Hso]. apply ssorted_cons in Hs as [Hs Hlt].
      assert (Hgs : g ≤ sp). { apply (Hg (sp, o)). left. }
      assert (Hle : ∀ e, e ∈ stream → sp ≤ e.1).
      { intros [sp' o'] He%Hlt. cbn [fst]. ord_num. }
      assert (Hp' : ∀ e, e ∈ pairs ++ [(o, sp)] → e.2 ≤ sp).
      { intros e [He%Hp| ->%elem_of_list_singleton]%elem_of_app; cbn [snd]; lia. }
      assert (Hpo' : fitting wo (fst <$> pairs ++ [(o, sp)])).
      { rewrite fmap_app. apply fitting_app. split; [done|]. by apply Forall_singleton. }
      rewrite fmap_cons in Hnd. cbn [fst snd] in Hnd.
      assert (Hnd' : NoDup ((pairs ++ [(o, sp)]) ++ (swap <$> stream))) by (by rewrite <-app_assoc).
      rewrite fmap_cons. cbn [fst snd].
      case_decide.
      + rewrite decide_True.
        2:{ split.
            - apply fitting_le. intros n (e & -> & He)%elem_of_list_fmap. rewrite elem_of_osort in He. by apply Hp'.
            - apply Forall_forall. intros n (e & -> & He)%elem_of_list_fmap. rewrite elem_of_osort in He.
              apply (proj1 (Forall_forall _ _) Hpo'). by apply elem_of_list_fmap_1. }
        apply NoDup_app in Hnd' as (Hn1 & Hn2 & Hn3).
        destruct (IH (S tally) (chunks ++ [osort (pairs ++ [(o, sp)])]) [] sp) as (c' & p' & g' & E & Hc' & Hperm & Hn & Hg' & Hl').
        { by intros e ?%elem_of_nil. }
        { constructor. }
        { done. }
        { done. }
        { done. }
        { apply Forall_app. split; [done|]. apply Forall_singleton. by apply osort_ssorted. }
        { done. }
        exists c', p', g'. split; [done|]. split; [done|]. split.
        { rewrite Hperm, mjoin_app'. cbn [mjoin list_join]. rewrite app_nil_r, (osort_perm (pairs ++ [(o, sp)])).
          by rewrite <-!app_assoc. }
        split; [done|]. split; [lia|]. intros e [-> |He]%elem_of_cons; [done|auto].
      + destruct (IH (S tally) chunks (pairs ++ [(o, sp)]) sp) as (c' & p' & g' & E & Hc' & Hperm & Hn & Hg' & Hl'); auto.
        exists c', p', g'. split; [done|]. split; [done|]. split; [by rewrite Hperm, <-app_assoc|].
        split; [done|]. split; [lia|]. intros e [-> |He]%elem_of_cons; [done|auto].
  Qed.

  Lemma pushw_sparse_ok w (prs : list (nat * nat)) : fitting w (snd <$> prs) → ∀ b (objects : list nat) lo ix b' (objects' : list nat),
    push_sparse b objects lo ix prs = Some (b', objects') → (∀ o, o ∈ objects → o ≤ lo) →
    ∃ lo', pushw_sparse w b objects lo ix prs = Some (b', objects', lo') ∧ ∀ o, o ∈ objects' → o ≤ lo'.
  Proof.
    induction prs as [|[o sp] prs IH]; intros Hf b objects lo ix b' objects'; cbn [push_sparse pushw_sparse].
    { intros [= <- <-]. eauto. }
    rewrite fmap_cons in Hf. apply Forall_cons in Hf as [Hsp Hf]. case_decide.
    - intros (b1 & E & E')%bind_Some Ho. rewrite adjw_push_eq, E by done. cbn [mbind option_bind].
      apply (IH Hf _ _ _ _ _ _ E'). intros o' [Ho'%Ho| ->%elem_of_list_singleton]%elem_of_app; lia.
    - intros (b1 & E & E')%bind_Some Ho. rewrite adjw_push_eq, E by done. cbn [mbind option_bind].
      by apply (IH Hf _ _ _ _ _ _ E').
  Qed.
  Lemma snd_stream (a : adj) n : n ∈ snd <$> adj_stream_pairs a → n ∈ adj_nums a.
  Proof.
    intros ([l m] & -> & [_ He]%elem_of_list_filter)%elem_of_list_fmap. cbn [snd].
    apply elem_of_list_lookup in He as [i Hi]. rewrite adj_pairs_lookup in Hi.
    apply fmap_Some in Hi as (k & Hk & [= _ ->]). by eapply elem_of_list_lookup_2.
  Qed.
  (** sorting in chunks and merging is sorting *)
  Lemma object_index_w_ok wo spo sparse r : adj_wf spo → fitting wo (adj_nums spo) →
    build_object_index spo sparse = Some r → object_index_w width limit wo spo sparse = Some r.
  Proof.
    intros (_ & _ & Hs) Hf E. unfold object_index_w.
    assert (Hss : SSorted (adj_stream_pairs spo)) by (by apply ssorted_filter).
    assert (Hnd : NoDup (swap <$> adj_stream_pairs spo)).
    { apply NoDup_fmap_2; [|by apply ssorted_nodup]. intros [??] [??] [= -> ->]. done. }
    destruct (gather_ok wo (adj_stream_pairs spo) 0 [] [] 0) as (chunks & pairs & g & -> & Hc & Hp & Hn & _ & Hg).
    { by intros e ?%elem_of_nil. }
    { constructor. }
    { apply Forall_forall. intros n Hn%snd_stream. by apply (proj1 (Forall_forall _ _) Hf). }
    { intros; lia. }
    { done. }
    { constructor. }
    { done. }
    cbn [mbind option_bind]. cbn [mjoin list_join app] in Hp.
    assert (kmerge (λ e, e) (chunks ++ [osort pairs]) = osort (swap <$> adj_stream_pairs spo)) as ->.
    { assert (Hj : mjoin (chunks ++ [osort pairs]) ≡ₚ swap <$> adj_stream_pairs spo).
      { rewrite mjoin_app'. cbn [mjoin list_join]. by rewrite app_nil_r, osort_perm. }
      destruct (merge_dicts_ok (chunks ++ [osort pairs])) as [K1 K2].
      { apply Forall_app. split; [done|]. apply Forall_singleton. by apply osort_ssorted. }
      { by rewrite Hj. }
      unfold merge_dicts in K1, K2. rewrite <-(osort_id _ K2). apply osort_unique. by rewrite K1. }
    assert (Hfit : fitting (width g) (snd <$> osort (swap <$> adj_stream_pairs spo))).
    { apply fitting_le. intros n (e & -> & He)%elem_of_list_fmap. rewrite elem_of_osort in He.
      apply elem_of_list_fmap in He as (e' & -> & He'). by apply Hg. }
    unfold build_object_index in E. destruct sparse.
    - apply bind_Some in E as ([b objects] & E & E'). injection E' as <-.
      destruct (pushw_sparse_ok _ _ Hfit _ _ _ _ _ _ E) as (lo & -> & Ho); [by intros o ?%elem_of_nil|].
      cbn [mbind option_bind]. rewrite decide_True; [done|]. by apply fitting_le.
    - rewrite adjw_push_all_eq by done. done.
  Qed.

  (** ** All files of a layer *)
  Lemma ssorted_le_last (l : list nat) n : SSorted l → n ∈ l → n ≤ default 0 (last l).
  Proof.
    destruct (last l) as [x|] eqn:E. 2:{ apply last_None in E as ->. by intros _ ?%elem_of_nil. }
    apply last_Some in E as [k ->]. rewrite ssorted_snoc. intros [_ Hx] [Hn| ->%elem_of_list_singleton]%elem_of_app; cbn; [|done].
    apply Hx in Hn. cbn in Hn. unfold olt in Hn. cbn in Hn. lia.
  Qed.
  Section files.
    Context sparse tf (T : list triple) (Htf : tf_ok sparse tf T).
    Lemma spo_num o : o ∈ adj_nums (tf_spo tf) → o = 0 ∨ ∃ t, t ∈ T ∧ t_o t = o.
    Proof.
      intros [i Hi]%elem_of_list_lookup. destruct (decide (o = 0)) as [->|Ho]; [by left|right].
      assert (∃ l, (l, o) ∈ adj_pairs (tf_spo tf)) as [l Hl].
      { eexists. apply (elem_of_list_lookup_2 _ i). rewrite adj_pairs_lookup, Hi. done. }
      destruct (dec_spo_is_Some _ _ _ _ _ (fo_spo_ok _ _ _ Htf) _ _ Hl Ho) as [t Ht].
      exists t. destruct (dec_spo_Some _ _ _ _ _ (fo_spo_ok _ _ _ Htf) _ _ _ Hl Ht) as (_ & <- & _). split; [|done].
      rewrite (so_T _ _ _ _ _ (fo_spo_ok _ _ _ Htf)). apply elem_of_list_omap. eauto.
    Qed.
    Lemma sp_num p : p ∈ adj_nums (tf_sp tf) → p = 0 ∨ ∃ t, t ∈ T ∧ t_p t = p.
    Proof.
      intros [i Hi]%elem_of_list_lookup. destruct (decide (p = 0)) as [->|Hp]; [by left|right].
      assert (∃ m, adj_pairs (tf_sp tf) !! i = Some (m, p)) as [m Hm].
      { rewrite adj_pairs_lookup, Hi. cbn. eauto. }
      assert (i < left_count (tf_spo tf)) as Hlt.
      { rewrite (fo_lr _ _ _ Htf). by eapply lookup_lt_Some. }
      destruct (offset_for_spec _ (fo_spo _ _ _ Htf) (S i)) as (n & _ & Hn & Hr & Hb); [lia|].
      assert (n < right_count (tf_spo tf)) as Hn'.
      { destruct (decide (n = right_count (tf_spo tf))) as [->|]; [|lia].
        rewrite rank1_right_count in Hr by apply Htf. lia. }
      destruct (lookup_lt_is_Some_2 (adj_nums (tf_spo tf)) n) as [o Ho]; [done|].
      assert ((S i, o) ∈ adj_pairs (tf_spo tf)) as Hin.
      { apply (elem_of_list_lookup_2 _ n). rewrite adj_pairs_lookup, Ho. cbn. rewrite Hr. repeat f_equal. lia. }
      assert (adj_pairs (tf_sp tf) !! (S i - 1) = Some (m, p)) as Hm' by (by replace (S i - 1) with i by lia).
      pose proof (so_stub _ _ _ _ _ (fo_spo_ok _ _ _ Htf) _ _ _ _ Hin Hm') as Hst.
      destruct (dec_spo_is_Some _ _ _ _ _ (fo_spo_ok _ _ _ Htf) _ _ Hin) as [t Ht]; [tauto|].
      exists t. split.
      - rewrite (so_T _ _ _ _ _ (fo_spo_ok _ _ _ Htf)). apply elem_of_list_omap. eauto.
      - unfold dec_spo in Ht. cbn [fst snd] in Ht. apply bind_Some in Ht as ([s q] & Hd & [= <-]).
        apply (dec_sp_Some _ _) in Hd as (_ & m' & Hm'' & _). rewrite Hm' in Hm''. injection Hm'' as -> ->. done.
    Qed.
    Lemma build_w_ok sp (ts : list triple) n np v : build_tfiles sp ts = Some tf →
      (∀ t, t ∈ T → t_p t ≤ np ∧ t_o t ≤ n + v) → build_tfiles_w width limit (n, np, v) sp ts = Some tf.
    Proof.
      unfold build_tfiles, tfb_finalize, build_tfiles_w. intros (b & E & E')%bind_Some HT.
      apply bind_Some in E' as ([ops objects] & E' & [= Etf]).
      assert (fitting (width np) (b_nums (tfb_sp b))) as H1'.
      { apply fitting_le. intros p Hp. destruct (sp_num p) as [->|(t & Ht & <-)]; [|lia|by apply HT].
        rewrite <-Etf. done. }
      assert (fitting (width (n + v)) (b_nums (tfb_spo b))) as H2'.
      { apply fitting_le. intros p Hp. destruct (spo_num p) as [->|(t & Ht & <-)]; [|lia|by apply HT].
        rewrite <-Etf. done. }
      destruct (tfb_add_all_w _ _ _ _ _ E H1' H2') as (-> & _). cbn [mbind option_bind].
      assert (write_subjects width (tfb_subjects b) = Some (tfb_subjects b)) as ->.
      { pose proof (so_subj _ _ _ _ _ (fo_spo_ok _ _ _ Htf)) as Hs. rewrite <-Etf in Hs. cbn [tf_subjects] in Hs.
        unfold write_subjects. destruct (tfb_subjects b) as [ss|]; [|done]. rewrite decide_True; [done|].
        apply fitting_le. intros s. apply ssorted_le_last. apply Hs. }
      cbn [mbind option_bind]. rewrite (object_index_w_ok _ _ sp (ops, objects)).
      - exact (f_equal Some Etf).
      - pose proof (fo_spo _ _ _ Htf) as Hx. by rewrite <-Etf in Hx.
      - done.
      - done.
    Qed.
  End files.

  (** ** Layers *)
  Lemma den_bound st vt u : dicts_ok st → den st vt u → t_p u ≤ pred_count st ∧ t_o u ≤ nv_count st.
  Proof.
    intros Hd (_ & H2' & H3'). apply predicate_id_range in H2'; [|done]. apply object_id_range in H3'; [|done]. lia.
  Qed.
  Lemma count_le l st : pred_count st ≤ pred_count (l :: st) ∧ nv_count st ≤ nv_count (l :: st).
  Proof. cbn [pred_count nv_count]. lia. Qed.
  Lemma adds_bound l st u : wf (l :: st) → u ∈ adds l → t_p u ≤ pred_count (l :: st) ∧ t_o u ≤ nv_count (l :: st).
  Proof. intros Hw Hu. destruct (wf_ids _ Hw) as [_ Hi]. destruct (Hi u Hu) as [vt Hvt]. eapply den_bound, Hvt. apply Hw. Qed.
  Lemma rems_bound l st u : wf (l :: st) → u ∈ rems l → t_p u ≤ pred_count (l :: st) ∧ t_o u ≤ nv_count (l :: st).
  Proof.
    intros Hw Hu. destruct (proj1 (changes_ok_cons _ _) (wf_changes _ Hw)) as (_ & _ & Hr).
    pose proof (wf_tail _ _ Hw) as Hw'. destruct (in_view_den _ u Hw' (Hr u Hu)) as [vt Hvt].
    pose proof (den_bound _ _ _ (wf_dicts _ Hw') Hvt). pose proof (count_le l st). lia.
  Qed.
  Lemma pos_w l st sp (ts : list triple) counts : wf (l :: st) → counts = all_counts (l :: st) →
    build_tfiles sp ts = Some (l_pos l) → build_tfiles_w width limit counts sp ts = Some (l_pos l).
  Proof.
    intros Hw -> E. destruct (proj1 (Forall_cons _ _ _) (wf_files _ Hw)) as [[[sp' Hf] _] _].
    destruct (all_counts_agree (l :: st)) as (n & v & -> & Hnv).
    apply (build_w_ok _ _ _ Hf); [done|]. intros t Ht. rewrite Hnv. by apply adds_bound.
  Qed.
  Lemma neg_w l st tf sp (ts : list triple) counts : wf (l :: st) → counts = all_counts (l :: st) → l_neg l = Some tf →
    build_tfiles sp ts = Some tf → build_tfiles_w width limit counts sp ts = Some tf.
  Proof.
    intros Hw -> En E. destruct (proj1 (Forall_cons _ _ _) (wf_files _ Hw)) as [[_ Hn] _]. destruct (Hn tf En) as [sp' Hf].
    destruct (all_counts_agree (l :: st)) as (n & v & -> & Hnv).
    apply (build_w_ok _ _ _ Hf); [done|]. intros t Ht. rewrite Hnv. by apply rems_bound.
  Qed.
  Lemma with_parent_counts st nodes prs vals m1 m2 pos neg :
    with_parent st nodes prs vals = all_counts (Layer nodes prs vals m1 m2 pos neg :: st).
  Proof. unfold with_parent. cbn [all_counts l_nodes l_preds l_vals]. by destruct (all_counts st) as [[??]?]. Qed.
  Lemma child_layer_same st nodes prs vals A R l : child_layer st nodes prs vals A R = Some l → wf (l :: st) →
    child_layer_w width limit st nodes prs vals A R = Some l.
  Proof.
    unfold child_layer, child_layer_w. intros (n' & -> & E)%bind_Some Hw. cbn [mbind option_bind].
    apply bind_Some in E as (p' & -> & E). cbn [mbind option_bind].
    apply bind_Some in E as (v' & -> & E). cbn [mbind option_bind].
    apply bind_Some in E as (A' & -> & E). cbn [mbind option_bind].
    apply bind_Some in E as (R' & -> & E). cbn [mbind option_bind].
    apply bind_Some in E as (pos & Ep & E). apply bind_Some in E as (neg & En & [= <-]).
    rewrite (pos_w _ st _ _ _ Hw (with_parent_counts _ _ _ _ _ _ _ _) Ep). cbn [mbind option_bind].
    rewrite (neg_w _ st neg _ _ _ Hw (with_parent_counts _ _ _ _ _ _ _ _) eq_refl En). done.
  Qed.
  Lemma base_layer_same nodes prs vals A l : base_layer nodes prs vals A = Some l → wf [l] →
    base_layer_w width limit nodes prs vals A = Some l.
  Proof.
    unfold base_layer, base_layer_w. intros (pos & Ep & [= <-])%bind_Some Hw.
    rewrite (pos_w _ [] _ _ (length nodes, length prs, length vals) Hw); [done| |done]. cbn. by rewrite !Nat.add_0_r.
  Qed.

  Section commit.
    Context (nvord : list (obj * nat) → list (obj * nat)) (prord : list (str * nat) → list (str * nat)).
    Lemma commit_same st b l : commit nvord prord st b = Some l → wf (l :: st) →
      commit_w width limit nvord prord st b = Some l.
    Proof.
      unfold commit, commit_w. intros E Hw. destruct (noops _ _ _ _) as [A R].
      apply bind_Some in E as ([nvex pex] & -> & E). cbn [mbind option_bind].
      apply bind_Some in E as (nvs & -> & E). cbn [mbind option_bind].
      apply bind_Some in E as (prs & -> & E). cbn [mbind option_bind].
      apply bind_Some in E as (nvm & -> & E). cbn [mbind option_bind].
      apply bind_Some in E as (nvm' & -> & E). cbn [mbind option_bind].
      apply bind_Some in E as (pm & -> & E). cbn [mbind option_bind].
      apply bind_Some in E as (A' & -> & E). cbn [mbind option_bind].
      apply bind_Some in E as (R' & -> & E). cbn [mbind option_bind].
      destruct st; [by apply base_layer_same|by apply child_layer_same].
    Qed.
    Lemma build_same st cs st' : build nvord prord st cs = Some st' → wf st' →
      build_w width limit nvord prord st cs = Some st'.
    Proof.
      unfold build, build_w. intros (b & -> & E)%bind_Some Hw. cbn [mbind option_bind].
      apply bind_Some in E as (l & E & [= <-]). by rewrite (commit_same st b l).
    Qed.
  End commit.
  (** ** Rollups *)
  Lemma idmap_fits (m : list nat) n : idmap_ok (Some m) n → idmap_w width n n m = Some m.
  Proof.
    intros Hm. unfold idmap_w. rewrite decide_True; [done|]. split; [|done]. apply fitting_le. intros i Hi.
    cbn in Hm. rewrite Hm in Hi. apply elem_of_seq in Hi. lia.
  Qed.
  Lemma sum_nv (top : list layer) : sum_list (l_nv <$> reverse top) = length (mjoin (l_nodes <$> top)) + length (mjoin (l_vals <$> top)).
  Proof.
    rewrite (reverse_Permutation top). induction top as [|l top IH]; [done|]. rewrite !fmap_cons, !mjoin_cons, !app_length.
    cbn [sum_list_with]. rewrite IH. unfold l_nv, id. lia.
  Qed.
  Lemma sum_preds (top : list layer) : sum_list ((λ l, length (l_preds l)) <$> reverse top) = length (mjoin (l_preds <$> top)).
  Proof.
    rewrite (reverse_Permutation top). induction top as [|l top IH]; [done|]. rewrite !fmap_cons, !mjoin_cons, !app_length.
    cbn [sum_list_with]. rewrite IH. unfold id. lia.
  Qed.
  Lemma rollup_dicts_same (top st : list layer) nvms pms pos neg l :
    rollup_dicts (reverse top) nvms pms pos neg = Some l → wf (l :: st) → same_layer (l :: st) (top ++ st) →
    rollup_dicts_w width (reverse top) nvms pms pos neg = Some l.
  Proof.
    unfold rollup_dicts, rollup_dicts_w. intros (nis & -> & E)%bind_Some Hw Hs. cbn [mbind option_bind].
    apply bind_Some in E as (vis & -> & E). cbn [mbind option_bind].
    apply bind_Some in E as (pis & -> & E). cbn [mbind option_bind]. injection E as El.
    destruct (wf_dicts _ Hw) as (_ & Hl & _).
    pose proof (sl_nv _ _ Hs) as Hnv. pose proof (sl_pc _ _ Hs) as Hpc.
    rewrite nv_count_app, nv_count_cons in Hnv. rewrite pred_count_app in Hpc. cbn [pred_count] in Hpc.
    rewrite sum_nv, sum_preds.
    replace (length (mjoin (l_nodes <$> top)) + length (mjoin (l_vals <$> top))) with (l_nv l) by lia.
    replace (length (mjoin (l_preds <$> top))) with (length (l_preds l)) by lia.
    pose proof (ld_nvmap _ Hl) as Hm. pose proof (ld_pmap _ Hl) as Hp. rewrite <-El in Hm, Hp |- *.
    unfold l_nv in *. cbn [l_nodes l_vals l_preds l_nvmap l_pmap] in *.
    rewrite (idmap_fits _ _ Hm). cbn [mbind option_bind]. rewrite (idmap_fits _ _ Hp). done.
  Qed.
  Lemma rollup_w_ok st l : rollup st = Some l → wf st → rollup_w width limit st = Some l.
  Proof.
    intros E Hw. destruct (rollup_same st Hw) as (l' & E' & _ & Hl & Hs). rewrite E in E'. injection E' as <-.
    unfold rollup in E. unfold rollup_w. apply bind_Some in E as (ts & -> & E). cbn [mbind option_bind].
    apply bind_Some in E as (pos & Ep & E).
    assert (pos = l_pos l) as ->.
    { unfold rollup_dicts in E. apply bind_Some in E as (? & _ & E). apply bind_Some in E as (? & _ & E).
      apply bind_Some in E as (? & _ & E). by injection E as <-. }
    rewrite (pos_w l [] false ts (all_counts st) Hl); [|by rewrite (sl_counts _ _ Hs)|done]. cbn [mbind option_bind].
    apply (rollup_dicts_same st [] _ _ _ _ _ E Hl). by rewrite app_nil_r.
  Qed.
  Lemma rollup_dicts_files ls nvms pms pos neg l : rollup_dicts ls nvms pms pos neg = Some l → l_pos l = pos ∧ l_neg l = neg.
  Proof.
    unfold rollup_dicts. intros (? & _ & E)%bind_Some. apply bind_Some in E as (? & _ & E).
    apply bind_Some in E as (? & _ & E). by injection E as <-.
  Qed.
  Lemma partial_w top top' st nvms pms l counts : ('(pos, neg) ← rollup_changes top'; rollup_dicts (reverse top) nvms pms pos (Some neg)) = Some l →
    wf (l :: st) → same_layer (l :: st) (top ++ st) → counts = all_counts (top ++ st) →
    ('(pos, neg) ← rollup_changes_w width limit counts top'; rollup_dicts_w width (reverse top) nvms pms pos (Some neg)) = Some l.
  Proof.
    intros ([pos neg] & E1 & E2)%bind_Some Hw Hs ->. destruct (rollup_dicts_files _ _ _ _ _ _ E2) as [Hp Hn].
    unfold rollup_changes in E1. unfold rollup_changes_w. apply bind_Some in E1 as (cs & -> & E1). cbn [mbind option_bind].
    apply bind_Some in E1 as (pos' & Ep & E1). apply bind_Some in E1 as (neg' & En & [= -> ->]). rewrite <-Hp in Ep.
    rewrite (pos_w l st _ _ _ Hw (eq_sym (sl_counts _ _ Hs)) Ep). cbn [mbind option_bind].
    rewrite (neg_w l st neg _ _ _ Hw (eq_sym (sl_counts _ _ Hs)) Hn En). cbn [mbind option_bind]. rewrite Hp.
    by apply (rollup_dicts_same top st).
  Qed.
  Lemma imprecise_w_ok mem below st l : imprecise_rollup_upto mem = Some l → wf (mem ++ st) → all_counts below = all_counts st →
    imprecise_rollup_upto_w width limit mem below = Some l.
  Proof.
    intros E Hw Hb. destruct (imprecise_rollup_same mem st Hw) as (l' & E' & Hl & Hs). rewrite E in E'. injection E' as <-.
    unfold imprecise_rollup_upto in E. unfold imprecise_rollup_upto_w.
    apply (partial_w _ _ st _ _ _ _ E Hl Hs). by rewrite !all_counts_app, Hb.
  Qed.
  Lemma rollup_upto_w_ok mem disk below st l : rollup_upto mem disk = Some l → wf (mem ++ disk ++ st) →
    Forall (λ k, l_nvmap k = l_pmap k) mem → all_counts below = all_counts (disk ++ st) →
    rollup_upto_w width limit mem disk below = Some l.
  Proof.
    intros E Hw Hm Hb. destruct (rollup_upto_same mem disk st Hw Hm) as (l' & E' & Hl & Hs). rewrite E in E'. injection E' as <-.
    unfold rollup_upto in E. unfold rollup_upto_w. rewrite app_assoc in Hs.
    apply (partial_w _ _ st _ _ _ _ E Hl Hs). by rewrite <-app_assoc, (all_counts_app mem below), (all_counts_app mem (disk ++ st)), Hb.
  Qed.
  (** ** Squashes and merges *)
  Lemma squash_w_ok st l : squash st = Some l → wf [l] → squash_w width limit st = Some l.
  Proof.
    unfold squash, squash_w. intros (ts & -> & E)%bind_Some Hw. cbn [mbind option_bind].
    apply bind_Some in E as (d & -> & E). cbn [mbind option_bind].
    apply bind_Some in E as (ts' & -> & E). cbn [mbind option_bind]. by apply base_layer_same.
  Qed.
  Lemma squash_upto_w_ok disk base l : squash_upto disk base = Some l → wf (l :: base) → squash_upto_w width limit disk base = Some l.
  Proof.
    unfold squash_upto, squash_upto_w. intros (cs & -> & E)%bind_Some Hw. cbn [mbind option_bind].
    apply bind_Some in E as (d & -> & E). cbn [mbind option_bind].
    apply bind_Some in E as (cs' & -> & E). cbn [mbind option_bind].
    apply bind_Some in E as (pos & Ep & E). apply bind_Some in E as (neg & En & [= <-]).
    rewrite (pos_w _ base _ _ _ Hw (with_parent_counts _ _ _ _ _ _ _ _) Ep). cbn [mbind option_bind].
    rewrite (neg_w _ base neg _ _ _ Hw (with_parent_counts _ _ _ _ _ _ _ _) eq_refl En). done.
  Qed.
  Lemma merge_w_ok ls l : merge_base_layers ls = Some l → wf [l] → merge_base_layers_w width limit ls = Some l.
  Proof.
    unfold merge_base_layers, merge_base_layers_w. intros ([nm nodes] & -> & E)%bind_Some Hw. cbn [mbind option_bind].
    apply bind_Some in E as ([pm prs] & -> & E). cbn [mbind option_bind].
    apply bind_Some in E as ([vm vals] & -> & E). cbn [mbind option_bind].
    apply bind_Some in E as (streams & -> & E). cbn [mbind option_bind]. by apply base_layer_same.
  Qed.
End widths.

(** ** For layers that can come about *)
Section reachable.
  Context (width : nat → nat) (limit : nat).
  Lemma commit_any_width nvord prord st cs st' : enough width → reachable st → Forall (op_ok st) cs →
    hash_order nvord → hash_order prord → build nvord prord st cs = Some st' →
    build_w width limit nvord prord st cs = Some st'.
  Proof.
    intros Hw Hr Hc H1 H2 E. apply build_same; [done|done|]. apply reachable_wf, (reach_step st); [done|].
    apply (step_commit st cs). split; [done|]. eauto.
  Qed.
  Lemma rollup_any_width st l : enough width → reachable st → rollup st = Some l → rollup_w width limit st = Some l.
  Proof. intros Hw Hr E. apply rollup_w_ok; [done|done|]. by apply reachable_wf. Qed.
  Lemma imprecise_any_width mem st below l : enough width → reachable (mem ++ st) → same_answers below st →
    imprecise_rollup_upto mem = Some l → imprecise_rollup_upto_w width limit mem below = Some l.
  Proof. intros Hw Hr Hs E. apply (imprecise_w_ok _ _ Hw _ _ st); [done|by apply reachable_wf|apply Hs]. Qed.
  Lemma rollup_upto_any_width mem disk st below l : enough width → reachable (mem ++ disk ++ st) →
    Forall (λ k, l_nvmap k = l_pmap k) mem → same_answers below (disk ++ st) →
    rollup_upto mem disk = Some l → rollup_upto_w width limit mem disk below = Some l.
  Proof. intros Hw Hr Hm Hs E. apply (rollup_upto_w_ok _ _ Hw _ _ _ st); [done|by apply reachable_wf|done|apply Hs]. Qed.
  Lemma squash_any_width st l : enough width → reachable st → st ≠ [] → squash st = Some l → squash_w width limit st = Some l.
  Proof.
    intros Hw Hr Hne E. apply squash_w_ok; [done|done|]. apply reachable_wf, reach_based. by apply (based_squash st).
  Qed.
  Lemma squash_upto_any_width top st l : enough width → reachable (top ++ st) → st ≠ [] →
    squash_upto top st = Some l → squash_upto_w width limit top st = Some l.
  Proof.
    intros Hw Hr Hne E. apply squash_upto_w_ok; [done|done|]. by apply reachable_wf, (reach_squash_upto top).
  Qed.
  Lemma merge_any_width ls l : enough width → (∀ k, k ∈ ls → based k) →
    merge_base_layers ls = Some l → merge_base_layers_w width limit ls = Some l.
  Proof. intros Hw Hr E. apply merge_w_ok; [done|done|]. by apply reachable_wf, reach_based, (based_merge ls). Qed.
End reachable.
