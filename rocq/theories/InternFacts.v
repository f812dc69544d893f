(** The maps from strings to provisional ids that the layer builder keeps, and how they turn
    into dictionaries and final ids at commit. *)
From Verif Require Import Prelude ListFacts Succinct SuccinctFacts TripleFiles Layer DictFacts Builder.

Section assoc.
  Context {K V : Type} `{EqDecision K}.
  Implicit Types m : list (K * V).
  Lemma assoc_elem m k v : assoc m k = Some v → (k, v) ∈ m.
  Proof.
    induction m as [|[k' v'] m IH]; cbn; [done|]. case_decide; [|right; auto].
    intros [= ->]. subst. left.
  Qed.
  Lemma elem_assoc m k v : NoDup m.*1 → (k, v) ∈ m → assoc m k = Some v.
  Proof.
    induction m as [|[k' v'] m IH]; cbn; intros Hnd Hin; [by apply elem_of_nil in Hin|].
    apply NoDup_cons in Hnd as [Hk Hnd]. apply elem_of_cons in Hin as [[= -> ->]|Hin].
    - by rewrite decide_True.
    - rewrite decide_False; [auto|]. intros ->. destruct Hk. apply elem_of_list_fmap. by exists (k', v).
  Qed.
  Lemma assoc_None m k : assoc m k = None ↔ k ∉ m.*1.
  Proof.
    induction m as [|[k' v'] m IH]; cbn.
    - split; [|done]. by intros _ ?%elem_of_nil.
    - rewrite not_elem_of_cons. case_decide; naive_solver.
  Qed.
End assoc.

Lemma vset_ok {A} (v : list A) i x : i < length v → vset v i x = Some (<[i := x]> v).
Proof. intros. unfold vset. by rewrite decide_True. Qed.
Lemma fill_ok off v next olds :
  (∀ o, o ∈ olds → off < o ≤ off + length v) → NoDup olds →
  ∃ v', fill off v next olds = Some v' ∧ length v' = length v ∧
    (∀ j o, olds !! j = Some o → v' !! (o - off - 1) = Some (next + j)) ∧
    (∀ i, i + off + 1 ∉ olds → v' !! i = v !! i).
Proof.
  revert v next. induction olds as [|o olds IH]; intros v next Hr Hnd.
  { exists v. split_and!; try done. }
  apply NoDup_cons in Hnd as [Ho Hnd].
  assert (off < o ≤ off + length v) as Hro by (apply Hr; left). cbn [fill].
  rewrite vset_ok by lia. cbn [mbind option_bind].
  destruct (IH (<[o - off - 1:=next]> v) (S next)) as (v' & E & Hlen & Hin & Hout); [|done|].
  { intros o' Ho'. rewrite insert_length. apply Hr. by right. }
  exists v'. split; [done|]. rewrite insert_length in Hlen. split; [done|]. split.
  - intros [|j] o' Hj; cbn in Hj.
    + injection Hj as <-. rewrite Hout by (by replace (o - off - 1 + off + 1) with o by lia).
      rewrite list_lookup_insert by lia. f_equal. lia.
    + rewrite (Hin j o' Hj). f_equal. lia.
  - intros i Hi. apply not_elem_of_cons in Hi as [Hio Hi]. rewrite Hout by done.
    apply list_lookup_insert_ne. lia.
Qed.
Lemma fill_app off v next a b :
  fill off v next (a ++ b) = v' ← fill off v next a; fill off v' (next + length a) b.
Proof.
  revert v next. induction a as [|o a IH]; intros v next; cbn [fill app length].
  - cbn. by rewrite Nat.add_0_r.
  - destruct (vset v _ _); cbn [mbind option_bind]; [|done]. rewrite IH.
    by replace (S next + length a) with (next + S (length a)) by lia.
Qed.

Lemma used_ok {K} off ex (m : list (K * nat)) :
  (∀ k i, (k, i) ∈ m → off < i → is_Some (ex !! (i - off - 1))) →
  used off ex m = Some (filter (λ e, off < e.2 ∧ ex !! (e.2 - off - 1) = Some true) m).
Proof.
  induction m as [|[k i] m IH]; intros Hm; [done|]. cbn [used]. rewrite filter_cons. cbn [snd].
  rewrite IH by (intros k' i' Hin; apply (Hm k' i'); by right). case_decide as Hi.
  - by rewrite decide_False by lia.
  - destruct (Hm k i) as [e He]; [left|lia|]. rewrite He. cbn [mbind option_bind]. destruct e.
    + rewrite decide_True by (split; [lia|done]). done.
    + rewrite decide_False by naive_solver. done.
Qed.

(** the bits set for a list of ids *)
Fixpoint marks (off : nat) (ex : list bool) (ids : list nat) : option (list bool) :=
  match ids with [] => Some ex | i :: ids' => ex' ← mark off ex i; marks off ex' ids' end.
Lemma marks_ok off ex ids : (∀ i, i ∈ ids → i ≤ off + length ex) →
  ∃ ex', marks off ex ids = Some ex' ∧ length ex' = length ex ∧
    ∀ i, ex' !! i = Some true ↔ ex !! i = Some true ∨ i + off + 1 ∈ ids.
Proof.
  revert ex. induction ids as [|k ids IH]; intros ex Hr; cbn [marks].
  { exists ex. split_and!; try done. intros i. split; [auto|]. by intros [?|?%elem_of_nil]. }
  assert (k ≤ off + length ex) as Hk by (apply Hr; left). unfold mark. case_decide as Hd.
  - rewrite vset_ok by lia. cbn [mbind option_bind].
    destruct (IH (<[k - off - 1:=true]> ex)) as (ex' & E & Hlen & Hb).
    { intros i Hi. rewrite insert_length. apply Hr. by right. }
    rewrite insert_length in Hlen. exists ex'. split_and!; [done..|]. intros i. rewrite Hb, elem_of_cons.
    destruct (decide (i = k - off - 1)) as [->|Hne].
    + rewrite list_lookup_insert by lia. replace (k - off - 1 + off + 1) with k by lia. naive_solver.
    + rewrite list_lookup_insert_ne by done. assert (i + off + 1 ≠ k) by lia. tauto.
  - cbn [mbind option_bind]. destruct (IH ex) as (ex' & E & Hlen & Hb).
    { intros i Hi. apply Hr. by right. }
    exists ex'. split_and!; [done..|]. intros i. rewrite Hb, elem_of_cons. assert (i + off + 1 ≠ k) by lia. tauto.
Qed.
Lemma marks_app off ex a b : marks off ex (a ++ b) = ex' ← marks off ex a; marks off ex' b.
Proof.
  revert ex. induction a as [|i a IH]; intros ex; cbn [marks app]; [done|].
  destruct (mark off ex i); cbn [mbind option_bind]; [apply IH|done].
Qed.
Definition so_ids (ts : list triple) : list nat := mjoin ((λ t : triple, [t_s t; t_o t]) <$> ts).
Lemma existences_ok nv np e1 e2 ts a b :
  marks nv e1 (so_ids ts) = Some a → marks np e2 (t_p <$> ts) = Some b →
  existences nv np e1 e2 ts = Some (a, b).
Proof.
  revert e1 e2. induction ts as [|t ts IH]; intros e1 e2; cbn; [congruence|].
  destruct (mark nv e1 (t_s t)) as [e1'|]; cbn; [|done].
  destruct (mark nv e1' (t_o t)) as [e1''|]; cbn; [|done].
  destruct (mark np e2 (t_p t)) as [e2'|]; cbn; [|done]. apply IH.
Qed.

Lemma fst_ssorted {A B} `{Ord A, Ord B} (l : list (A * B)) : SSorted l → NoDup l.*1 → SSorted l.*1.
Proof.
  induction l as [|[a b] l IH]; cbn; intros Hs Hnd; [constructor|].
  apply ssorted_cons in Hs as [Hs Hlt]. apply NoDup_cons in Hnd as [Hn Hnd].
  apply ssorted_cons. split; [auto|]. intros a' Ha'.
  pose proof Ha' as Ha''. apply elem_of_list_fmap in Ha'' as ([a2 b2] & -> & Hin).
  apply Hlt, olt_prod in Hin as [?|[Heq _]]; [done|]. cbn in *. by subst.
Qed.

Section interner.
  Context {K : Type} `{HK : Ord K} `{!EqDecision K} (look : K → option (option nat)) (off : nat).
  Context (Htot : ∀ k, ∃ r, look k = Some r ∧ match r with Some i => 1 ≤ i ≤ off | None => True end).
  Context (Hinj : ∀ k k' i, look k = Some (Some i) → look k' = Some (Some i) → k = k').
  Implicit Types m : list (K * nat).

  Record map_ok m (n : nat) : Prop := {
    mo_keys : NoDup m.*1;
    mo_ids : ∀ k i, assoc m k = Some i → look k = Some (Some i) ∨ (look k = Some None ∧ off < i ≤ off + n);
    mo_inj : ∀ k k' i, assoc m k = Some i → assoc m k' = Some i → k = k' }.
  Definition tid m k : nat :=
    match assoc m k with
    | Some i => i
    | None => match look k with Some (Some i) => i | _ => 0 end
    end.
  Definition has m k : Prop := is_Some (assoc m k) ∨ ∃ i, look k = Some (Some i).
  Definition ext m m' : Prop := ∀ k, has m k → has m' k ∧ tid m' k = tid m k.

  Lemma map_ok_nil : map_ok [] 0.
  Proof. split; [constructor|done..]. Qed.
  Lemma ext_refl m : ext m m.
  Proof. by intros k Hk. Qed.
  Lemma ext_trans m1 m2 m3 : ext m1 m2 → ext m2 m3 → ext m1 m3.
  Proof. intros H1 H2 k Hk. destruct (H1 k Hk) as [Hk' <-]. apply H2, Hk'. Qed.

  Lemma tid_ok m n k : map_ok m n → has m k →
    look k = Some (Some (tid m k)) ∨ (look k = Some None ∧ off < tid m k ≤ off + n).
  Proof.
    intros Hm Hk. unfold tid. destruct (assoc m k) as [i|] eqn:E; [by apply (mo_ids _ _ Hm)|].
    destruct Hk as [[? Hk]|[i Hi]]; [congruence|]. rewrite Hi. auto.
  Qed.
  Lemma tid_look m n k i : map_ok m n → look k = Some (Some i) → tid m k = i.
  Proof.
    intros Hm Hi. unfold tid. destruct (assoc m k) as [j|] eqn:E; [|by rewrite Hi].
    apply (mo_ids _ _ Hm) in E. naive_solver.
  Qed.
  Lemma tid_inj m n k k' : map_ok m n → has m k → has m k' → tid m k = tid m k' → k = k'.
  Proof.
    intros Hm Hk Hk' E.
    destruct (tid_ok m n k Hm Hk) as [Hl|[Hl Hr]], (tid_ok m n k' Hm Hk') as [Hl'|[Hl' Hr']].
    - rewrite E in Hl. eauto.
    - exfalso. destruct (Htot k) as ([?|] & E' & Hb); rewrite Hl in E'; naive_solver lia.
    - exfalso. destruct (Htot k') as ([?|] & E' & Hb); rewrite Hl' in E'; naive_solver lia.
    - apply (mo_inj _ _ Hm k k' (tid m k)); [|rewrite E].
      + unfold tid. destruct Hk as [[? ->]|[? ?]]; [done|congruence].
      + unfold tid. destruct Hk' as [[? ->]|[? ?]]; [done|congruence].
  Qed.
  Lemma tid_range m n k : map_ok m n → has m k → 1 ≤ tid m k ≤ off + n.
  Proof.
    intros Hm Hk. destruct (tid_ok m n k Hm Hk) as [Hl|[Hl Hr]]; [|lia].
    destruct (Htot k) as (r & E & Hb). rewrite Hl in E. injection E as <-. lia.
  Qed.
  Lemma tid_old m n k : map_ok m n → has m k → tid m k ≤ off ↔ look k = Some (Some (tid m k)).
  Proof.
    intros Hm Hk. destruct (tid_ok m n k Hm Hk) as [Hl|[Hl Hr]].
    - destruct (Htot k) as (r & E & Hb). rewrite Hl in E. injection E as <-. split; [done|lia].
    - split; [lia|congruence].
  Qed.

  Definition intern m (n : nat) k : option (list (K * nat) * nat * nat) :=
    match assoc m k with
    | Some i => Some (m, n, i)
    | None =>
        r ← look k;
        match r with
        | Some i => Some ((k, i) :: m, n, i)
        | None => Some ((k, S (off + n)) :: m, S n, S (off + n))
        end
    end.
  Lemma intern_ext m k i : assoc m k = None → (∀ j, look k = Some (Some j) → i = j) → ext m ((k, i) :: m).
  Proof.
    intros Hk Hj k' Hh. unfold has, tid. cbn [assoc]. case_decide as Hd; [|done]. subst k'. split; [left; eauto|].
    rewrite Hk. destruct Hh as [[? ?]|[j Hlj]]; [congruence|]. rewrite Hlj. auto.
  Qed.
  Lemma intern_ok m n k : map_ok m n →
    ∃ m' n', intern m n k = Some (m', n', tid m' k) ∧ map_ok m' n' ∧ has m' k ∧ ext m m' ∧ n ≤ n'.
  Proof.
    intros Hm. unfold intern. destruct (assoc m k) as [i|] eqn:E.
    { exists m, n. unfold has. rewrite E. split_and!; eauto using ext_refl. unfold tid. by rewrite E. }
    destruct (Htot k) as (r & El & Hr). rewrite El. cbn [mbind option_bind]. destruct r as [i|].
    - exists ((k, i) :: m), n. split; [unfold tid; cbn; by rewrite decide_True|]. split; [split|].
      + cbn. apply NoDup_cons. split; [by apply assoc_None|apply Hm].
      + intros k' j. cbn. case_decide; [|apply Hm]. intros [= ->]. subst. auto.
      + intros k1 k2 j. cbn. do 2 case_decide; subst; [done|..].
        * intros [= ->] Hj. destruct (mo_ids _ _ Hm _ _ Hj) as [Hl|[Hl Hb]]; [eauto|lia].
        * intros Hj [= ->]. destruct (mo_ids _ _ Hm _ _ Hj) as [Hl|[Hl Hb]]; [eauto|lia].
        * apply Hm.
      + split; [right; eauto|]. split; [|done]. apply intern_ext; [done|]. intros j. rewrite El. congruence.
    - exists ((k, S (off + n)) :: m), (S n). split; [unfold tid; cbn; by rewrite decide_True|]. split; [split|].
      + cbn. apply NoDup_cons. split; [by apply assoc_None|apply Hm].
      + intros k' j. cbn. case_decide.
        * intros [= <-]. subst. right. split; [done|lia].
        * intros Hj. destruct (mo_ids _ _ Hm _ _ Hj) as [Hl|[Hl Hb]]; [auto|]. right. split; [done|lia].
      + assert (∀ k', assoc m k' = Some (S (off + n)) → False) as Hfresh.
        { intros k' Hj. destruct (mo_ids _ _ Hm _ _ Hj) as [Hl|[Hl Hb]]; [|lia].
          destruct (Htot k') as ([?|] & E' & Hb); rewrite Hl in E'; naive_solver lia. }
        intros k1 k2 j. cbn. do 2 case_decide; subst; [done|..].
        * intros [= <-] Hj. by destruct (Hfresh _ Hj).
        * intros Hj [= <-]. by destruct (Hfresh _ Hj).
        * apply Hm.
      + split; [left; cbn; rewrite decide_True by done; eauto|]. split; [|lia].
        apply intern_ext; [done|]. intros j. rewrite El. congruence.
  Qed.

  (** the entries kept at commit *)
  Lemma used_entries m m' n (ks : list K) (ex : list bool) : map_ok m n → m' ≡ₚ m → (∀ k, k ∈ ks → has m k) → length ex = n →
    (∀ i, ex !! i = Some true ↔ i + off + 1 ∈ tid m <$> ks) →
    ∃ us, used off ex m' = Some us ∧ NoDup us.*1 ∧ NoDup us.*2 ∧
      (∀ k i, (k, i) ∈ us → i = tid m k ∧ off < i ≤ off + n) ∧
      (∀ k, k ∈ us.*1 ↔ look k = Some None ∧ k ∈ ks).
  Proof.
    intros Hm Hp Hks Hlen Hex.
    assert (Hin : ∀ k i, (k, i) ∈ m' → assoc m k = Some i).
    { intros k i Hki. rewrite Hp in Hki. apply elem_assoc; [apply Hm|done]. }
    assert (Hold : ∀ k i, look k = Some (Some i) → off < i → False).
    { intros k i Hl Hi. destruct (Htot k) as ([?|] & E' & Hb); rewrite Hl in E'; naive_solver lia. }
    rewrite used_ok.
    2:{ intros k i Hki Hi. apply Hin in Hki. apply lookup_lt_is_Some.
        destruct (mo_ids _ _ Hm _ _ Hki) as [Hl|[Hl Hb]]; [by destruct (Hold k i)|lia]. }
    eexists. split; [done|]. set (us := filter _ m').
    assert (Hus : ∀ k i, (k, i) ∈ us ↔ (k, i) ∈ m' ∧ off < i ∧ i ∈ tid m <$> ks).
    { intros k i. unfold us. rewrite elem_of_list_filter. cbn [snd]. rewrite Hex. split.
      - intros ((Hi & Hk) & ?). replace (i - off - 1 + off + 1) with i in Hk by lia. done.
      - intros (? & Hi & ?). replace (i - off - 1 + off + 1) with i by lia. done. }
    assert (NoDup us.*1) as Hnd1.
    { assert (NoDup m'.*1) as Hm' by (rewrite Hp; apply Hm). unfold us. clear -Hm'.
      induction m' as [|[k i] m' IH]; [constructor|]. cbn in Hm'. apply NoDup_cons in Hm' as [Hk Hm'].
      rewrite filter_cons. case_decide; [|auto]. cbn. apply NoDup_cons. split; [|auto].
      intros (e & -> & [_ ?]%elem_of_list_filter)%elem_of_list_fmap. destruct Hk. apply elem_of_list_fmap. eauto. }
    split; [done|]. split.
    - apply NoDup_fmap_2_strong; [|by eapply NoDup_fmap_1].
      intros [k i] [k' i'] H1 H2 Hi. cbn in Hi. subst i'. apply Hus in H1 as (H1%Hin & _), H2 as (H2%Hin & _).
      f_equal. by eapply (mo_inj _ _ Hm).
    - split.
      + intros k i (H1%Hin & Hi & _)%Hus. unfold tid. rewrite H1. split; [done|].
        destruct (mo_ids _ _ Hm _ _ H1) as [Hl|[Hl Hb]]; [by destruct (Hold k i)|lia].
      + intros k. rewrite elem_of_list_fmap. split.
        * intros ([k' i] & -> & (H1%Hin & Hi & Hk)%Hus). cbn.
          destruct (mo_ids _ _ Hm _ _ H1) as [Hl|[Hl Hb]]; [by destruct (Hold k' i)|]. split; [done|].
          apply elem_of_list_fmap in Hk as (k2 & -> & Hk2).
          assert (tid m k' = tid m k2) as E by (unfold tid at 1; by rewrite H1).
          rewrite (tid_inj m n k' k2 Hm); auto. left. eauto.
        * intros [Hl Hk]. pose proof (Hks k Hk) as Hh. pose proof Hh as [[i Hi]|[? ?]]; [|congruence].
          exists (k, i). split; [done|]. apply Hus.
          assert (tid m k = i) as Ht by (unfold tid; by rewrite Hi). split_and!.
          -- rewrite Hp. by apply assoc_elem.
          -- destruct (mo_ids _ _ Hm _ _ Hi) as [?|[_ ?]]; [congruence|lia].
          -- apply elem_of_list_fmap. eauto.
  Qed.

  (** the new ids *)
  Lemma fill_entries m n us : map_ok m n →
    NoDup us.*1 → NoDup us.*2 → (∀ k i, (k, i) ∈ us → i = tid m k ∧ off < i ≤ off + n) →
    ∃ v, fill off (replicate n 0) (off + 1) (osort us).*2 = Some v ∧
      ∀ k, has m k → (look k = Some None → k ∈ us.*1) →
        remap off v (tid m k) =
          match look k with
          | Some (Some i) => Some i
          | _ => (λ j, j + off) <$> dict_id (osort us).*1 k
          end.
  Proof.
    intros Hm Hn1 Hn2 Hus.
    destruct (fill_ok off (replicate n 0) (off + 1) (osort us).*2) as (v & E & _ & Hv & _).
    { intros o (e & -> & He)%elem_of_list_fmap. rewrite elem_of_osort in He. rewrite replicate_length.
      destruct e as [k i]. apply Hus in He. cbn. lia. }
    { by rewrite osort_perm. }
    exists v. split; [done|]. intros k Hh Hk. unfold remap.
    destruct (tid_ok m n k Hm Hh) as [Hl|[Hl Hb]].
    - rewrite Hl. rewrite decide_False; [done|]. destruct (Htot k) as (r & E' & Hb). rewrite Hl in E'.
      injection E' as <-. lia.
    - rewrite Hl, decide_True by lia. specialize (Hk Hl).
      apply elem_of_list_fmap in Hk as ([k' i] & -> & Hki). cbn in *.
      destruct (Hus _ _ Hki) as [-> Hi]. rewrite <-elem_of_osort in Hki.
      apply elem_of_list_lookup in Hki as [j Hj].
      rewrite (Hv j) by (by rewrite list_lookup_fmap, Hj).
      rewrite (dict_get_id _ (S j)).
      + cbn. f_equal. lia.
      + by rewrite osort_perm.
      + cbn. by rewrite list_lookup_fmap, Hj.
  Qed.
End interner.

(** ** Nodes come before values *)
Lemma osort_objs (us : list (obj * nat)) : NoDup us →
  osort us = ((λ e : str * nat, (inl e.1, e.2)) <$> osort (only_nodes us)) ++
             ((λ e : val * nat, (inr e.1, e.2)) <$> osort (only_vals us)).
Proof.
  intros Hnd.
  assert (Hn : ∀ n i, (n, i) ∈ only_nodes us ↔ (inl n, i) ∈ us).
  { intros n i. unfold only_nodes. rewrite elem_of_list_omap. split.
    - intros ([[?|?] ?] & ? & ?); naive_solver.
    - intros. by exists (inl n, i). }
  assert (Hv : ∀ n i, (n, i) ∈ only_vals us ↔ (inr n, i) ∈ us).
  { intros n i. unfold only_vals. rewrite elem_of_list_omap. split.
    - intros ([[?|?] ?] & ? & ?); naive_solver.
    - intros. by exists (inr n, i). }
  assert (NoDup (only_nodes us)) as Hn1.
  { clear -Hnd. induction us as [|[[n|v] i] us IH]; [constructor|..]; cbn; apply NoDup_cons in Hnd as [Hi Hnd]; auto.
    apply NoDup_cons. split; [|auto]. intros ([[?|?] ?] & ? & ?)%elem_of_list_omap; naive_solver. }
  assert (NoDup (only_vals us)) as Hv1.
  { clear -Hnd. induction us as [|[[n|v] i] us IH]; [constructor|..]; cbn; apply NoDup_cons in Hnd as [Hi Hnd]; auto.
    apply NoDup_cons. split; [|auto]. intros ([[?|?] ?] & ? & ?)%elem_of_list_omap; naive_solver. }
  apply ssorted_ext.
  - by apply osort_ssorted.
  - apply ssorted_app. split_and!.
    + apply fmap_ssorted; [|by apply osort_ssorted]. intros [??] [??] _ _. rewrite !olt_prod. cbn.
      intros [?|[-> ?]]; [by left|by right].
    + apply fmap_ssorted; [|by apply osort_ssorted]. intros [??] [??] _ _. rewrite !olt_prod. cbn.
      intros [?|[-> ?]]; [by left|by right].
    + intros x y (? & -> & _)%elem_of_list_fmap (? & -> & _)%elem_of_list_fmap. by left.
  - intros [[n|v] i]; rewrite elem_of_osort, elem_of_app, !elem_of_list_fmap.
    + setoid_rewrite elem_of_osort. split.
      * intros Hin. left. exists (n, i). split; [done|]. by apply Hn.
      * intros [([??] & [= -> ->] & ?%Hn)|([??] & ? & _)]; done.
    + setoid_rewrite elem_of_osort. split.
      * intros Hin. right. exists (v, i). split; [done|]. by apply Hv.
      * intros [([??] & ? & _)|([??] & [= -> ->] & ?%Hv)]; done.
Qed.
