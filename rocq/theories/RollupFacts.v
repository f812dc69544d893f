(** A rolled up layer shows what the layers it replaces show. *)
From Verif Require Import Prelude ListFacts Succinct SuccinctFacts TripleFiles TripleBuildFacts
  TripleReadFacts Merge MergeFacts Layer StackFacts StackCountFacts DictFacts WfFacts Builder InternFacts
  Rollup.

Lemma mjoin_cons {A} (x : list A) xs : mjoin (x :: xs) = x ++ mjoin xs.
Proof. done. Qed.

(** ** Merging *)
Section kmerge.
  Context {A K : Type} `{Ord K} (key : A → K).
  Notation KS l := (SSorted (key <$> l)).
  Lemma pick_None ls : pick key ls = None → mjoin ls = [].
  Proof.
    induction ls as [|[|y l] ls IH]; cbn; [done| |].
    - destruct (pick key ls) as [[x r]|]; [done|]. auto.
    - destruct (pick key ls) as [[x r]|]; [|done]. by case_decide.
  Qed.
  Lemma pick_Some ls x r : pick key ls = Some (x, r) → Forall (λ l, KS l) ls →
    mjoin ls ≡ₚ x :: mjoin r ∧ Forall (λ l, KS l) r ∧ ∀ y, y ∈ mjoin ls → ¬ olt (key y) (key x).
  Proof.
    revert x r. induction ls as [|[|y l] ls IH]; intros x r; [done|..].
    - cbn. destruct (pick key ls) as [[x' r']|]; [|done]. cbn. intros [= <- <-] [? Hs]%Forall_cons.
      destruct (IH x' r' eq_refl Hs) as (? & ? & ?). split_and!; auto.
    - cbn [pick]. intros E [Hy Hs]%Forall_cons.
      assert (Hyl : ∀ z, z ∈ y :: l → ¬ olt (key z) (key y)).
      { rewrite fmap_cons in Hy. apply ssorted_cons in Hy as [_ Hy]. intros z [->|Hz]%elem_of_cons; [intros ?; ord_absurd|].
        assert (olt (key y) (key z)) by (apply Hy; by apply elem_of_list_fmap_1). intros ?. ord_absurd. }
      assert (KS l) as Hl.
      { rewrite fmap_cons in Hy. by apply ssorted_cons in Hy as [? _]. }
      destruct (pick key ls) as [[x' r']|] eqn:E'.
      + destruct (IH x' r' eq_refl Hs) as (H1' & H2' & H3'). case_decide as Hd; injection E as <- <-.
        * split_and!.
          -- change (mjoin ((y :: l) :: ls)) with ((y :: l) ++ mjoin ls). rewrite H1'.
             by rewrite <-Permutation_middle.
          -- by constructor.
          -- intros z. change (mjoin _) with ((y :: l) ++ mjoin ls).
             intros [Hz|Hz]%elem_of_app; [|auto]. intros Hlt. apply (Hyl z Hz). by trans (key x').
        * split_and!; [done|by constructor|]. intros z. change (mjoin _) with ((y :: l) ++ mjoin ls).
          intros [Hz|Hz]%elem_of_app; [auto|]. intros Hlt. apply (H3' z Hz).
          destruct (olt_total (key x') (key y)) as [?|[Ez|?]]; [done| |].
          -- by rewrite Ez.
          -- by trans (key y).
      + injection E as <- <-. split_and!; [done|by constructor|]. intros z. change (mjoin _) with ((y :: l) ++ mjoin ls).
        rewrite (pick_None _ E'). rewrite app_nil_r. auto.
  Qed.
  Lemma kmerge_loop_ok f ls : Forall (λ l, KS l) ls → length (mjoin ls) ≤ f → NoDup (key <$> mjoin ls) →
    kmerge_loop key f ls ≡ₚ mjoin ls ∧ KS (kmerge_loop key f ls).
  Proof.
    revert ls. induction f as [|f IH]; intros ls Hs Hf Hnd.
    { destruct (mjoin ls); [|cbn in Hf; lia]. split; [done|constructor]. }
    cbn [kmerge_loop]. destruct (pick key ls) as [[x r]|] eqn:E.
    - destruct (pick_Some _ _ _ E Hs) as (H1' & H2' & H3').
      rewrite H1' in Hf, Hnd. cbn in Hf. rewrite fmap_cons in Hnd. apply NoDup_cons in Hnd as [Hx Hnd].
      destruct (IH r) as [I1 I2]; [done|lia|done|]. split; [by rewrite I1, H1'|].
      rewrite fmap_cons. apply ssorted_cons. split; [done|].
      intros k (z & -> & Hz)%elem_of_list_fmap. rewrite I1 in Hz.
      destruct (olt_total (key x) (key z)) as [?|[Ez|?]]; [done| |].
      + destruct Hx. rewrite Ez. by apply elem_of_list_fmap_1.
      + destruct (H3' z); [|done]. rewrite H1'. by right.
    - rewrite (pick_None _ E). split; [done|constructor].
  Qed.
  Lemma kmerge_ok ls : Forall (λ l, KS l) ls → NoDup (key <$> mjoin ls) →
    kmerge key ls ≡ₚ mjoin ls ∧ KS (kmerge key ls).
  Proof. intros. by apply kmerge_loop_ok. Qed.
End kmerge.
Lemma merge_dicts_ok {A} `{Ord A} (ds : list (list A)) : Forall (λ d, SSorted d) ds → NoDup (mjoin ds) →
  merge_dicts ds ≡ₚ mjoin ds ∧ SSorted (merge_dicts ds).
Proof.
  intros Hs Hnd. destruct (kmerge_ok (λ x : A, x) ds) as [H1' H2'].
  - eapply Forall_impl; [done|]. intros d. cbn. by rewrite list_fmap_id.
  - by rewrite list_fmap_id.
  - rewrite list_fmap_id in H2'. done.
Qed.

(** ** Ids of the entries of the layers of a stack *)
Section iters.
  Context {A : Type} `{Ord A} (dic : layer → list A) (mp : layer → option (list nat)) (shift size : layer → nat).
  Context (cnt : stack → nat) (look : stack → A → option (option nat)).
  Context (Hcnt : ∀ l st, cnt (l :: st) = cnt st + size l).
  Context (Hlook : ∀ l st i x, dicts_ok (l :: st) → dic l !! i = Some x →
    ∃ j, inner_to_outer (mp l) (S (i + shift l)) = Some j ∧ look (l :: st) x = Some (Some (j + cnt st)) ∧ 1 ≤ j).
  Context (Hstable : ∀ l st i x, dicts_ok (l :: st) → look st x = Some (Some i) → look (l :: st) x = Some (Some i)).
  Context (Hsort : ∀ l, ldict_ok l → SSorted (dic l)).
  Context (Hfresh : ∀ l st x, dicts_ok (l :: st) → x ∈ dic l → look st x = Some None).
  Context (Htot : ∀ st x, dicts_ok st → is_Some (look st x)).
  Notation pairs ls := ((λ l, (l, mp l)) <$> ls).

  Lemma entries_ok l st off i d : dicts_ok (l :: st) → (∀ k x, d !! k = Some x → dic l !! (i + k) = Some x) →
    ∃ es, entries (mp l) off (i + shift l) d = Some es ∧ snd <$> es = d ∧
      ∀ id x, (id, x) ∈ es → off < id ∧ look (l :: st) x = Some (Some (id - off + cnt st)).
  Proof.
    intros Hd. revert i. induction d as [|x d IH]; intros i Hk.
    { exists []. split; [done|]. split; [done|]. by intros ?? ?%elem_of_nil. }
    destruct (Hlook l st i x Hd) as (j & Ej & El & Hj). { rewrite <-(Nat.add_0_r i). by apply Hk. }
    destruct (IH (S i)) as (es & Ees & E2 & Hes).
    { intros k y Hy. replace (S i + k) with (i + S k) by lia. by apply Hk. }
    cbn [entries]. rewrite Ej. cbn [mbind option_bind]. cbn [Nat.add] in Ees. rewrite Ees. cbn [mbind option_bind].
    eexists. split; [done|]. rewrite fmap_cons, E2. split; [done|].
    intros id y [[= -> ->]|Hin]%elem_of_cons; [|by apply Hes].
    rewrite El. split; [lia|]. do 2 f_equal. lia.
  Qed.
  Lemma look_stable_app ls st i x : dicts_ok (reverse ls ++ st) → look st x = Some (Some i) →
    look (reverse ls ++ st) x = Some (Some i).
  Proof.
    revert st. induction ls as [|l ls IH]; intros st; [done|]. rewrite reverse_cons, <-app_assoc. cbn [app].
    intros Hd E. apply IH; [done|]. apply Hstable; [|done].
    clear IH E. revert Hd. generalize (reverse ls) as k. induction k as [|l' k IH']; [done|]. intros [Hd _]. auto.
  Qed.
  Lemma dicts_ok_app top st : dicts_ok (top ++ st) → dicts_ok st.
  Proof. induction top as [|l top IH]; [done|]. intros [Hd _]. auto. Qed.
  Lemma entry_iters_ok c ls st : dicts_ok (reverse ls ++ st) → c ≤ cnt st →
    ∃ its, entry_iters dic shift size (cnt st - c) (pairs ls) = Some its ∧
      (fmap snd) <$> its = dic <$> ls ∧ NoDup (mjoin (dic <$> ls)) ∧
      ∀ id x, (id, x) ∈ mjoin its → 1 ≤ id ∧ look (reverse ls ++ st) x = Some (Some (id + c)) ∧ look st x = Some None.
  Proof.
    revert st. induction ls as [|l ls IH]; intros st Hd Hc.
    { exists []. split; [done|]. split; [done|]. split; [constructor|]. by intros ?? ?%elem_of_nil. }
    rewrite reverse_cons, <-app_assoc in Hd |- *. cbn [app] in *.
    pose proof (dicts_ok_app _ _ Hd) as Hd'.
    destruct (entries_ok l st (cnt st - c) 0 (dic l) Hd') as (es & E1 & E2 & E3).
    { intros k x Hk. done. }
    destruct (IH (l :: st) Hd) as (its & I1 & I2 & I4 & I3). { rewrite Hcnt. lia. }
    rewrite fmap_cons. cbn [entry_iters]. cbn [Nat.add] in E1. rewrite E1. cbn [mbind option_bind].
    rewrite Hcnt in I1. replace (cnt st - c + size l) with (cnt st + size l - c) by lia. rewrite I1.
    cbn [mbind option_bind]. eexists. split; [done|]. rewrite !fmap_cons, E2, I2. split; [done|]. split.
    { change (mjoin (dic l :: (dic <$> ls))) with (dic l ++ mjoin (dic <$> ls)). apply NoDup_app. split_and!; [|..|done].
      - apply ssorted_nodup, Hsort. apply Hd'.
      - intros x Hx Hx'. rewrite <-E2 in Hx. apply elem_of_list_fmap in Hx as ([id y] & -> & Hy). cbn in Hx'.
        destruct (E3 _ _ Hy) as [_ El]. rewrite <-I2 in Hx'. apply elem_of_list_join in Hx' as (d & Hx' & Hd'').
        apply elem_of_list_fmap in Hd'' as (es' & -> & Hes'). apply elem_of_list_fmap in Hx' as ([id' y'] & E & Hy').
        cbn in E. subst y'. destruct (I3 id' y) as (_ & _ & Hn); [apply elem_of_list_join; eauto|]. congruence. }
    change (mjoin (es :: its)) with (es ++ mjoin its).
    intros id x [Hin|Hin]%elem_of_app.
    - destruct (E3 _ _ Hin) as [? El]. split; [lia|]. split.
      + apply look_stable_app; [done|]. rewrite El. do 2 f_equal. lia.
      + apply (Hfresh l); [done|]. rewrite <-E2. apply elem_of_list_fmap. by exists (id, x).
    - destruct (I3 _ _ Hin) as (? & ? & Hn). split; [done|]. split; [done|].
      destruct (look st x) as [[i|]|] eqn:El; [|done|].
      + apply (Hstable l) in El; [|done]. congruence.
      + destruct (Htot st x) as [? ?]; [apply Hd'|]. congruence.
  Qed.
  Lemma mjoin_fmap_snd (its : list (list (nat * A))) : snd <$> mjoin its = mjoin (fmap snd <$> its).
  Proof. induction its as [|es its IH]; [done|]. rewrite fmap_cons, !mjoin_cons, fmap_app. by rewrite IH. Qed.
  Lemma merged_ids_ok ls st : dicts_ok (reverse ls ++ st) → ∃ its,
    entry_iters dic shift size 0 (pairs ls) = Some its ∧
    merge_dicts (dic <$> ls) ≡ₚ mjoin (dic <$> ls) ∧ SSorted (merge_dicts (dic <$> ls)) ∧
    length (merged_ids its) = length (merge_dicts (dic <$> ls)) ∧
    ∀ k x, merge_dicts (dic <$> ls) !! k = Some x → ∃ i, merged_ids its !! k = Some i ∧
      look (reverse ls ++ st) x = Some (Some (S i + cnt st)) ∧ look st x = Some None.
  Proof.
    intros Hd. destruct (entry_iters_ok (cnt st) ls st Hd) as (its & E1 & E2 & Hnd & E3); [lia|].
    rewrite Nat.sub_diag in E1. exists its. split; [done|].
    assert (Forall (λ d, SSorted d) (dic <$> ls)) as Hs.
    { apply Forall_fmap. clear -Hd Hsort. revert st Hd. induction ls as [|l ls IH]; intros st Hd; [constructor|].
      rewrite reverse_cons, <-app_assoc in Hd. constructor; [|by eapply IH].
      cbn. apply Hsort. apply dicts_ok_app in Hd. apply Hd. }
    destruct (merge_dicts_ok (dic <$> ls) Hs Hnd) as [HD1 HD2]. split; [done|]. split; [done|].
    destruct (kmerge_ok snd its) as [HM1 HM2].
    { rewrite <-E2 in Hs. rewrite Forall_fmap in Hs. exact Hs. }
    { by rewrite mjoin_fmap_snd, E2. }
    assert (snd <$> kmerge snd its = merge_dicts (dic <$> ls)) as HM.
    { apply ssorted_ext; [done|done|]. intros x. rewrite HM1, HD1, mjoin_fmap_snd, E2. done. }
    rewrite <-HM. unfold merged_ids. rewrite !fmap_length. split; [done|].
    intros k x. rewrite !list_lookup_fmap. destruct (kmerge snd its !! k) as [[id y]|] eqn:Ek; [|done].
    cbn. intros [= ->]. exists (id - 1). split; [done|].
    assert ((id, x) ∈ mjoin its) as Hin. { rewrite <-HM1. by eapply elem_of_list_lookup_2. }
    destruct (E3 _ _ Hin) as (? & -> & ->). split; [|done]. do 2 f_equal. lia.
  Qed.
End iters.
