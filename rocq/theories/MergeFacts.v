(** The merged iterators deliver, in order, exactly the triples that the stack holds. *)
From Verif Require Import Prelude ListFacts Succinct TripleFiles IterFacts Merge.

Lemma collect_next_ok {St A} (next : St → option (option A * St)) (I : St → list A → Prop) st l fuel :
  (∀ st l, I st l → ∃ st', next st = Some (head l, st') ∧ I st' (tail l)) →
  I st l → length l < fuel → collect next fuel st = Some l.
Proof.
  intros Hnext. revert st l. induction fuel as [|fuel IH]; intros st l HI Hlen; [lia|].
  cbn. destruct (Hnext st l HI) as (st' & -> & HI'). cbn.
  destruct l as [|x l]; [done|]. cbn in *. rewrite (IH st' l) by (done || lia). done.
Qed.

(** ** Chains of additions and removals, top layer first *)

(** [u] is there after all the changes *)
Fixpoint present (u : triple) (Ps Ns : list (list triple)) : Prop :=
  match Ps, Ns with
  | P :: Ps', N :: Ns' => u ∈ P ∨ (present u Ps' Ns' ∧ u ∉ N)
  | _, _ => False
  end.
#[global] Instance present_dec u Ps Ns : Decision (present u Ps Ns).
Proof. revert Ns. induction Ps as [|P Ps IH]; intros [|N Ns]; cbn; apply _. Defined.
(** additions add what was not there, removals remove what was *)
Fixpoint chain_ok (u : triple) (Ps Ns : list (list triple)) : Prop :=
  match Ps, Ns with
  | P :: Ps', N :: Ns' =>
      chain_ok u Ps' Ns' ∧ (u ∈ P → ¬ present u Ps' Ns' ∧ u ∉ N) ∧ (u ∈ N → present u Ps' Ns')
  | [], [] => True
  | _, _ => False
  end.

Definition same_mem (u : triple) : relation (list triple) := λ P P', u ∈ P ↔ u ∈ P'.
Lemma present_same u Ps Ps' Ns Ns' :
  Forall2 (same_mem u) Ps Ps' → Forall2 (same_mem u) Ns Ns' →
  present u Ps Ns ↔ present u Ps' Ns'.
Proof.
  intros HP. revert Ns Ns'. induction HP as [|P P' Ps Ps' Hp HP IH]; intros Ns Ns' HN; [done|].
  destruct HN as [|N N' Ns Ns' Hn HN]; [done|]. cbn. unfold same_mem in *. rewrite Hp, Hn, IH; done.
Qed.
Lemma chain_ok_same u Ps Ps' Ns Ns' :
  Forall2 (same_mem u) Ps Ps' → Forall2 (same_mem u) Ns Ns' →
  chain_ok u Ps Ns ↔ chain_ok u Ps' Ns'.
Proof.
  intros HP. revert Ns Ns'. induction HP as [|P P' Ps Ps' Hp HP IH]; intros Ns Ns' HN.
  - by destruct HN.
  - destruct HN as [|N N' Ns Ns' Hn HN]; [done|]. cbn.
    rewrite (present_same u Ps Ps' Ns Ns') by done. unfold same_mem in *. rewrite Hp, Hn, IH; done.
Qed.
#[global] Instance same_mem_refl u : Reflexive (same_mem u).
Proof. intros P. done. Qed.
Lemma Forall2_same_refl u Ps : Forall2 (same_mem u) Ps Ps.
Proof. induction Ps; constructor; auto. reflexivity. Qed.

Lemma present_elem u Ps Ns : present u Ps Ns → ∃ P, P ∈ Ps ∧ u ∈ P.
Proof.
  revert Ns. induction Ps as [|P Ps IH]; intros [|N Ns]; cbn; try done.
  intros [?|[Hp _]].
  - exists P. split; [left|done].
  - destruct (IH _ Hp) as (P' & ? & ?). exists P'. split; [by right|done].
Qed.
Lemma chain_neg_elem u Ps Ns : chain_ok u Ps Ns → ∀ N, N ∈ Ns → u ∈ N → ∃ P, P ∈ Ps ∧ u ∈ P.
Proof.
  revert Ns. induction Ps as [|P Ps IH]; intros [|N Ns]; cbn; try done.
  { intros _ N Hin. by apply elem_of_nil in Hin. }
  intros (Hc & _ & Hn) N' [->|Hin]%elem_of_cons Hu.
  - destruct (present_elem _ _ _ (Hn Hu)) as (P' & ? & ?). exists P'. split; [by right|done].
  - destruct (IH _ Hc _ Hin Hu) as (P' & ? & ?). exists P'. split; [by right|done].
Qed.
Lemma chain_length u Ps Ns : chain_ok u Ps Ns → length Ps = length Ns.
Proof.
  revert Ns. induction Ps as [|P Ps IH]; intros [|N Ns]; cbn; try done. intros [? _]. f_equal. auto.
Qed.

Fixpoint total (Ps : list (list triple)) : nat :=
  match Ps with [] => 0 | P :: Ps' => length P + total Ps' end.

(** how many of the lists hold [u] *)
Fixpoint occurs (u : triple) (Ps : list (list triple)) : nat :=
  match Ps with
  | [] => 0
  | P :: Ps' => (if decide (u ∈ P) then 1 else 0) + occurs u Ps'
  end.
Notation b2n P := (if decide P then 1 else 0).

(** additions and removals of one triple balance against its presence below and above *)
Lemma chain_balance u Ps Ns Ps0 Ns0 :
  length Ps = length Ns → chain_ok u (Ps ++ Ps0) (Ns ++ Ns0) →
  occurs u Ps + b2n (present u Ps0 Ns0) = occurs u Ns + b2n (present u (Ps ++ Ps0) (Ns ++ Ns0)).
Proof.
  revert Ns. induction Ps as [|P Ps IH]; intros [|N Ns] Hlen; try done.
  cbn [app chain_ok]. intros (Hc & Hadd & Hrem). specialize (IH Ns ltac:(cbn in Hlen; lia) Hc).
  cbn [occurs present app].
  repeat case_decide; try lia; try tauto; cbn in *; try lia; exfalso; naive_solver.
Qed.
Lemma occurs_elem u Ps : occurs u Ps ≠ 0 ↔ ∃ P, P ∈ Ps ∧ u ∈ P.
Proof.
  induction Ps as [|P Ps IH]; cbn.
  - split; [done|]. intros (P & Hin & _). by apply elem_of_nil in Hin.
  - setoid_rewrite elem_of_cons. case_decide; [naive_solver|].
    rewrite Nat.add_0_l, IH. naive_solver.
Qed.
Lemma occurs_insert_ne u i t P' Ps : u ≠ t → Ps !! i = Some (t :: P') → occurs u (<[i:=P']> Ps) = occurs u Ps.
Proof.
  intros Hut. revert i. induction Ps as [|P Ps IH]; intros [|i] Hi; try done.
  - cbn in Hi. injection Hi as ->. cbn. f_equal. repeat case_decide; auto; exfalso; set_solver.
  - cbn in Hi. cbn. f_equal. by apply IH.
Qed.
Lemma occurs_insert i t P' Ps : t ∉ P' → Ps !! i = Some (t :: P') → occurs t Ps = S (occurs t (<[i:=P']> Ps)).
Proof.
  intros Hut. revert i. induction Ps as [|P Ps IH]; intros [|i] Hi; try done.
  - cbn in Hi. injection Hi as ->. cbn. repeat case_decide; auto; exfalso; set_solver.
  - cbn in Hi. cbn. rewrite (IH i Hi). by rewrite Nat.add_succ_r.
Qed.

Section facts.
  Context {St : Type} {K : Type} `{Ord K}.
  Context (key : triple → K) `{!Inj (=) (=) key}.
  Context (next peek : St → option (option triple * St)) (I : St → list triple → Prop).
  Context (Hspec : iter_spec next peek I).

  Notation KSorted l := (SSorted (key <$> l)).

  Lemma ksorted_cons t l : KSorted (t :: l) ↔ KSorted l ∧ ∀ u, u ∈ l → olt (key t) (key u).
  Proof.
    cbn. rewrite ssorted_cons. split; intros [Hs Hx]; split; auto.
    - intros u Hu. apply Hx. apply elem_of_list_fmap. eauto.
    - intros k (u & -> & Hu)%elem_of_list_fmap. auto.
  Qed.
  Lemma ksorted_tail l : KSorted l → KSorted (tail l).
  Proof. destruct l; [done|]. by intros [? _]%ksorted_cons. Qed.
  Lemma ksorted_notin t l : KSorted (t :: l) → t ∉ l.
  Proof. intros [_ Hx]%ksorted_cons Hin. apply Hx in Hin. ord_absurd. Qed.
  Lemma ksorted_ext (l1 l2 : list triple) :
    KSorted l1 → KSorted l2 → (∀ t, t ∈ l1 ↔ t ∈ l2) → l1 = l2.
  Proof.
    intros H1 H2 Heq. apply (inj (fmap key)), ssorted_ext; auto.
    intros k. rewrite !elem_of_list_fmap. setoid_rewrite Heq. done.
  Qed.
  Lemma ksorted_head t l : KSorted l → t ∈ l → (∀ u, u ∈ l → ole (key t) (key u)) → head l = Some t.
  Proof.
    destruct l as [|u l]; intros Hs Hin Hle; [by apply elem_of_nil in Hin|].
    apply elem_of_cons in Hin as [->|Hin]; [done|].
    apply ksorted_cons in Hs as [_ Hx]. specialize (Hx _ Hin). destruct (Hle u ltac:(left)). done.
  Qed.

  Lemma peek_all_ok sts Ps : Forall2 I sts Ps →
    ∃ sts', peek_all peek sts = Some (head <$> Ps, sts') ∧ Forall2 I sts' Ps.
  Proof.
    induction 1 as [|st P sts Ps HI HF IH]; cbn; [eauto|].
    destruct (is_peek _ _ _ Hspec st P HI) as (st' & -> & HI'). cbn.
    destruct IH as (sts' & -> & HF'). cbn. eauto.
  Qed.

  Lemma lowest_None Ps : lowest key (head <$> Ps) = None → ∀ P, P ∈ Ps → P = [].
  Proof.
    induction Ps as [|P Ps IH]; cbn; intros Hl P' Hin; [by apply elem_of_nil in Hin|].
    destruct P as [|t P]; cbn in Hl.
    - destruct (lowest key (head <$> Ps)) as [[??]|]; [done|].
      apply elem_of_cons in Hin as [->|?]; auto.
    - destruct (lowest key (head <$> Ps)) as [[??]|]; [case_decide|]; done.
  Qed.
  Lemma lowest_Some Ps i t : Forall (λ P, KSorted P) Ps → lowest key (head <$> Ps) = Some (i, t) →
    (∃ P', Ps !! i = Some (t :: P')) ∧
    (∀ P u, P ∈ Ps → u ∈ P → ole (key t) (key u)) ∧
    (∀ k P, k < i → Ps !! k = Some P → t ∉ P).
  Proof.
    assert (Hhd : ∀ (P : list triple) (t u : triple), KSorted (t :: P) → u ∈ t :: P → ole (key t) (key u)).
    { intros P t' u [_ Hx]%ksorted_cons [->|Hin]%elem_of_cons; apply ole_alt; auto. }
    intros Hs. revert i t. induction Hs as [|P Ps Hs HF IH]; intros i t; cbn; [done|].
    destruct P as [|p P]; cbn.
    - destruct (lowest key (head <$> Ps)) as [[j u]|]; [|done]. cbn. intros [= <- <-].
      destruct (IH j u eq_refl) as ([P' ?] & Hle & Hlt). split_and!.
      + exists P'. done.
      + intros P u' [->|Hin]%elem_of_cons Hu; [by apply elem_of_nil in Hu|eauto].
      + intros [|k] Q Hk HQ Hin; cbn in HQ.
        * injection HQ as <-. by apply elem_of_nil in Hin.
        * eapply Hlt; eauto. lia.
    - destruct (lowest key (head <$> Ps)) as [[j u]|] eqn:Hlow.
      + destruct (IH j u eq_refl) as ([P' HP'] & Hle & Hlt). case_decide as Hd.
        * intros [= <- <-]. split_and!.
          -- exists P'. done.
          -- intros Q u' [->|Hin]%elem_of_cons Hu; [|eauto].
             trans (key p); [apply ole_alt; auto|]. eauto.
          -- intros [|k] Q Hk HQ Hin; cbn in HQ.
             ++ injection HQ as <-. assert (ole (key p) (key u)) as Hx by eauto. done.
             ++ eapply Hlt; eauto. lia.
        * intros [= <- <-]. split_and!; [by exists P| |intros; lia].
          intros Q u' [->|Hin]%elem_of_cons Hu; [eauto|]. trans (key u); [done|eauto].
      + intros [= <- <-]. split_and!; [by exists P| |intros; lia].
        intros Q u' [->|Hin]%elem_of_cons Hu; [eauto|].
        rewrite (lowest_None _ Hlow Q Hin) in Hu. by apply elem_of_nil in Hu.
  Qed.

  Lemma next_at_ok sts Ps i t P' : Forall2 I sts Ps → Ps !! i = Some (t :: P') →
    ∃ sts', next_at next i sts = Some (t, sts') ∧ Forall2 I sts' (<[i:=P']> Ps).
  Proof.
    intros HF. revert i. induction HF as [|st P sts Ps HI HF IH]; intros i Hi; [done|].
    destruct i as [|i]; cbn in Hi |- *.
    - injection Hi as ->. destruct (is_next _ _ _ Hspec st _ HI) as (st' & -> & HI'). cbn. eauto.
    - destruct (IH i Hi) as (sts' & -> & HF'). cbn. eauto.
  Qed.

  (** [cancel] on the lists *)
  Fixpoint cancel_l (n : nat) (t : triple) (Ns : list (list triple)) : bool * list (list triple) :=
    match n, Ns with
    | 0, _ | _, [] => (false, Ns)
    | S n', N :: Ns' =>
        if decide (head N = Some t) then (true, tail N :: Ns')
        else ((cancel_l n' t Ns').1, N :: (cancel_l n' t Ns').2)
    end.
  Lemma cancel_ok negs Ns n t : Forall2 I negs Ns → n ≤ length Ns →
    ∃ negs', cancel next peek n t negs = Some ((cancel_l n t Ns).1, negs') ∧
      Forall2 I negs' (cancel_l n t Ns).2.
  Proof.
    intros HF. revert n. induction HF as [|st N negs Ns HI HF IH]; intros n Hn.
    - destruct n; [|cbn in Hn; lia]. cbn. eauto.
    - destruct n as [|n]; cbn; [eauto|]. cbn in Hn.
      destruct (is_peek _ _ _ Hspec st N HI) as (st' & -> & HI'). cbn. case_decide.
      + destruct (is_next _ _ _ Hspec st' N HI') as (st'' & -> & HI''). cbn. eauto.
      + destruct (IH n ltac:(lia)) as (negs' & -> & HF'). cbn. eauto.
  Qed.
  Lemma cancel_l_same u n t Ns : u ≠ t → Forall2 (same_mem u) (cancel_l n t Ns).2 Ns.
  Proof.
    intros Hut. revert n. induction Ns as [|N Ns IH]; intros [|n]; cbn; try (apply Forall2_same_refl).
    case_decide as Hd; cbn; constructor; auto using Forall2_same_refl; [|reflexivity].
    destruct N as [|x N]; [reflexivity|]. cbn in Hd. injection Hd as ->. unfold same_mem. cbn.
    rewrite elem_of_cons. naive_solver.
  Qed.
  Lemma insert_same u i t P' Ps : u ≠ t → Ps !! i = Some (t :: P') → Forall2 (same_mem u) (<[i:=P']> Ps) Ps.
  Proof.
    intros Hut. revert i. induction Ps as [|P Ps IH]; intros [|i] Hi; cbn in *; try done.
    - injection Hi as ->. constructor; [|apply Forall2_same_refl]. unfold same_mem.
      rewrite elem_of_cons. naive_solver.
    - constructor; [reflexivity|auto].
  Qed.

  Lemma chain_step i Ps Ns t P' :
    chain_ok t Ps Ns → Ps !! i = Some (t :: P') → t ∉ P' → (∀ k P, k < i → Ps !! k = Some P → t ∉ P) →
    (∀ N, N ∈ Ns → t ∈ N → head N = Some t ∧ t ∉ tail N) →
    ((cancel_l i t Ns).1 = false ↔ present t Ps Ns) ∧
    ¬ present t (<[i:=P']> Ps) (cancel_l i t Ns).2 ∧
    chain_ok t (<[i:=P']> Ps) (cancel_l i t Ns).2.
  Proof.
    revert Ps Ns. induction i as [|i IH]; intros [|P Ps] [|N Ns] Hc Hi HP' Hlt HN; cbn in Hi; try done.
    { cbn in *. injection Hi as ->. destruct Hc as (Hc & Hadd & _).
      destruct (Hadd ltac:(left)) as [Hnp HnN]. split_and!.
      - split; [intros _; left; left|done].
      - intros [?|[? _]]; done.
      - done.
      - done.
      - done. }
    destruct Hc as (Hc & Hadd & Hrem).
    assert (HtP : t ∉ P) by (apply (Hlt 0 P); [lia|done]).
    destruct (IH Ps Ns) as (Hf & Hnp & Hc'); auto.
    { intros k Q Hk HQ. apply (Hlt (S k) Q); [lia|done]. }
    { intros Q HQ. apply HN. by right. }
    cbn [cancel_l]. case_decide as Hd; cbn.
    - assert (t ∈ N) as HtN by (destruct N; [done|]; cbn in Hd; injection Hd as ->; left).
      specialize (Hrem HtN). apply Hf in Hrem.
      assert (Hnone : (cancel_l i t Ns).2 = Ns).
      { clear -Hrem. revert Ns Hrem. induction i as [|i IH]; intros [|N Ns]; cbn; try done.
        case_decide; cbn; [done|]. intros. by rewrite IH. }
      rewrite Hnone in *. destruct (HN N ltac:(left) HtN) as [_ Htl]. split_and!; auto.
      + split; [done|]. intros [?|[_ ?]]; done.
      + intros [?|[? _]]; done.
      + done.
    - assert (t ∉ N) as HtN by (intros Hin; destruct (HN N ltac:(left) Hin); done).
      split; [|split; [|split; [done|split; done]]].
      + rewrite Hf. split; [tauto|]. intros [?|[? _]]; done.
      + intros [?|[? _]]; done.
  Qed.

  Lemma total_insert i t P' Ps : Ps !! i = Some (t :: P') → total Ps = S (total (<[i:=P']> Ps)).
  Proof.
    revert i. induction Ps as [|P Ps IH]; intros [|i] Hi; cbn in *; try done.
    - injection Hi as ->. done.
    - rewrite (IH i Hi). rewrite Nat.add_succ_r. done.
  Qed.
  Lemma cancel_l_sorted n t Ns : Forall (λ N, KSorted N) Ns → Forall (λ N, KSorted N) (cancel_l n t Ns).2.
  Proof.
    intros HF. revert n. induction HF as [|N Ns HN HF IH]; intros [|n]; cbn; auto.
    case_decide; cbn; constructor; auto using ksorted_tail.
  Qed.
  Lemma cancel_l_length n t Ns : length (cancel_l n t Ns).2 = length Ns.
  Proof.
    revert n. induction Ns as [|N Ns IH]; intros [|n]; cbn; auto. case_decide; cbn; auto.
  Qed.

  (** The invariant of a merged iterator, for the triples of an initial segment [D] of the
      order.  After a seek the iterators of the layers may be at different places beyond
      what was sought, so nothing is said about the triples outside [D]. *)
  Definition minv (D : triple → Prop) (Ps Ns : list (list triple)) : Prop :=
    Forall (λ P, KSorted P) Ps ∧ Forall (λ N, KSorted N) Ns ∧ length Ps = length Ns ∧
    ∀ u, D u → chain_ok u Ps Ns.

  Section initial.
  Context (D : triple → Prop) `{!∀ u, Decision (D u)}
          (HD : ∀ u v, olt (key u) (key v) → D v → D u).

  Lemma merged_step Ps Ns i t :
    minv D Ps Ns → lowest key (head <$> Ps) = Some (i, t) →
    ∃ P', Ps !! i = Some (t :: P') ∧
      minv D (<[i:=P']> Ps) (cancel_l i t Ns).2 ∧
      (D t → (cancel_l i t Ns).1 = false ↔ present t Ps Ns) ∧
      (∀ u, D u → present u (<[i:=P']> Ps) (cancel_l i t Ns).2 ↔ present u Ps Ns ∧ u ≠ t).
  Proof.
    intros (HPs & HNs & Hlen & Hc) Hlow.
    destruct (lowest_Some _ _ _ HPs Hlow) as ([P' HP'] & Hle & Hlt).
    exists P'. split; [done|].
    assert (Hsorted : KSorted (t :: P')) by (by eapply Forall_lookup_1 in HP'; [|exact HPs]).
    assert (Hmain : D t →
      ((cancel_l i t Ns).1 = false ↔ present t Ps Ns) ∧
      ¬ present t (<[i:=P']> Ps) (cancel_l i t Ns).2 ∧
      chain_ok t (<[i:=P']> Ps) (cancel_l i t Ns).2).
    { intros Dt. apply chain_step; auto using ksorted_notin.
      intros N HN HtN. assert (KSorted N) as HsN by (rewrite Forall_forall in HNs; auto).
      assert (head N = Some t) as Hh.
      { apply ksorted_head; auto. intros u Hu.
        destruct (decide (olt (key u) (key t))) as [Hut|]; [|done].
        destruct (chain_neg_elem u _ _ (Hc u (HD _ _ Hut Dt)) N HN Hu) as (Q & HQ & HuQ). eauto. }
      split; auto. destruct N as [|x N]; [done|]. cbn in Hh |- *. injection Hh as ->. by apply ksorted_notin. }
    split; [split; [|split; [|split]]|split; [by intros Dt; apply Hmain|]].
    - apply Forall_insert; auto. by apply ksorted_cons in Hsorted as [? _].
    - by apply cancel_l_sorted.
    - by rewrite insert_length, cancel_l_length.
    - intros u Du. destruct (decide (u = t)) as [->|Hut]; [by apply Hmain|].
      eapply chain_ok_same; [by eapply insert_same|by apply cancel_l_same|]. by apply Hc.
    - intros u Du. destruct (decide (u = t)) as [->|Hut]; [destruct (Hmain Du); naive_solver|].
      rewrite (present_same u _ Ps _ Ns); [|by eapply insert_same|by apply cancel_l_same]. naive_solver.
  Qed.

  Definition merged_den (F n : nat) (its : list St * list St) (L : list triple) : Prop :=
    ∃ Ps Ns, Forall2 I its.1 Ps ∧ Forall2 I its.2 Ns ∧ minv D Ps Ns ∧ total Ps = n ∧ n < F ∧
      KSorted L ∧ ∀ u, u ∈ L ↔ D u ∧ present u Ps Ns.

  Lemma merged_next_ok F n its L : merged_den F n its L →
    ∃ o its' n', merged_next key next peek F its = Some (o, its') ∧ merged_den F n' its' (tail L) ∧
      match o with
      | Some t => n' < n ∧ (head L = Some t ∨ (L = [] ∧ ¬ D t))
      | None => L = []
      end.
  Proof.
    intros (Ps & Ns & HPs & HNs & Hinv & Hn & Hlen & HL & HLe).
    assert (Hgen : ∀ f its Ps Ns, Forall2 I its.1 Ps → Forall2 I its.2 Ns → minv D Ps Ns →
      total Ps < f → f ≤ F → total Ps ≤ n → (∀ u, u ∈ L ↔ D u ∧ present u Ps Ns) →
      ∃ o its' n', merged_next key next peek f its = Some (o, its') ∧ merged_den F n' its' (tail L) ∧
        match o with
        | Some t => n' < n ∧ (head L = Some t ∨ (L = [] ∧ ¬ D t))
        | None => L = []
        end).
    2:{ eapply Hgen; eauto; lia. }
    clear its Ps Ns HPs HNs Hinv Hn HLe. induction f as [|f IH];
      intros its Ps Ns HPs HNs Hinv Hlt HfF Hn HLe; [lia|].
    cbn [merged_next]. destruct (peek_all_ok _ _ HPs) as (pos & -> & HPs'). cbn [mbind option_bind].
    destruct (lowest key (head <$> Ps)) as [[i t]|] eqn:Hlow.
    - destruct (merged_step _ _ _ _ Hinv Hlow) as (P' & HP' & Hinv' & Hf & Hp).
      destruct (next_at_ok _ _ _ _ _ HPs' HP') as (pos' & -> & HPs''). cbn [mbind option_bind].
      destruct (cancel_ok _ _ i t HNs) as (negs' & -> & HNs').
      { destruct Hinv as (_ & _ & Hl & _). rewrite <-Hl. apply lookup_lt_Some in HP'. lia. }
      cbn [mbind option_bind].
      pose proof (total_insert _ _ _ _ HP') as Htot.
      assert (HLlow : ∀ u, u ∈ L → ole (key t) (key u)).
      { intros u [_ Hu]%HLe. destruct (present_elem _ _ _ Hu) as (Q & HQ & HuQ).
        destruct Hinv as (HsPs & _). destruct (lowest_Some _ _ _ HsPs Hlow) as (_ & Hle & _). eauto. }
      destruct (cancel_l i t Ns).1 eqn:Hcl.
      + apply (IH (pos', negs') _ _ HPs'' HNs' Hinv'); [lia|lia|lia|].
        intros u. rewrite HLe. split; intros [Du Hu]; split; auto.
        * apply Hp; auto. split; auto. intros ->. by apply (Hf Du) in Hu.
        * by apply Hp in Hu as [? _].
      + eexists (Some t), _, _. split; [done|]. split.
        * exists (<[i:=P']> Ps), (cancel_l i t Ns).2. split; [done|]. split; [done|]. split; [done|].
          split; [done|]. split; [lia|]. split; [by apply ksorted_tail|].
          intros u. destruct (decide (u ∈ L)) as [HuL|HuL].
          -- destruct L as [|x L]; [by apply elem_of_nil in HuL|]. cbn [tail].
             assert (Dx : D x ∧ present x Ps Ns) by (apply HLe; left).
             assert (D t) as Dt.
             { destruct (olt_total (key t) (key x)) as [Hx|[Hx|Hx]].
               - apply (HD _ _ Hx); tauto.
               - apply (inj key) in Hx as ->. tauto.
               - exfalso. apply (HLlow x); [left|done]. }
             assert (t ∈ x :: L) as HtL by (apply HLe; split; auto; by apply Hf).
             assert (x = t) as ->.
             { assert (head (x :: L) = Some t) as [= ->] by (by apply ksorted_head). done. }
             apply HLe in HuL as HuL'. destruct HuL' as [Du Hu].
             rewrite Hp by done. pose proof (ksorted_notin _ _ HL).
             apply elem_of_cons in HuL. naive_solver.
          -- split; [intros Hu; destruct L; [by apply elem_of_nil in Hu|]; by destruct HuL; right|].
             intros [Du Hu]. exfalso. apply HuL, HLe. apply Hp in Hu as [? _]; auto.
        * split; [lia|]. destruct (decide (D t)) as [Dt|Dt].
          -- left. apply ksorted_head; auto. apply HLe. split; auto. by apply Hf.
          -- right. split; auto. destruct L as [|x L]; auto. exfalso. apply Dt.
             assert (Dx : D x ∧ present x Ps Ns) by (apply HLe; left).
             destruct (olt_total (key t) (key x)) as [Hx|[Hx|Hx]].
             ++ apply (HD _ _ Hx). tauto.
             ++ apply (inj key) in Hx as ->. tauto.
             ++ exfalso. apply (HLlow x); [left|done].
    - assert (L = []) as ->.
      { destruct L as [|t L]; auto. assert (D t ∧ present t Ps Ns) as [_ Hp] by (apply HLe; left).
        destruct (present_elem _ _ _ Hp) as (P & HP & Ht).
        rewrite (lowest_None _ Hlow P HP) in Ht. by apply elem_of_nil in Ht. }
      eexists None, _, (total Ps). split; [done|]. split; [|done]. exists Ps, Ns.
      split; [done|]. split; [done|]. split; [done|]. split; [done|]. split; [lia|]. done.
  Qed.

  (** the part of the output in [D] comes first and is right *)
  Theorem merged_collect_upto F its Ps Ns L :
    Forall2 I its.1 Ps → Forall2 I its.2 Ns → minv D Ps Ns → total Ps < F →
    KSorted L → (∀ u, u ∈ L ↔ D u ∧ present u Ps Ns) →
    ∃ L2, collect (merged_next key next peek F) F its = Some (L ++ L2) ∧ ∀ u, u ∈ L2 → ¬ D u.
  Proof.
    intros HPs HNs Hinv HF HL HLe.
    assert (Hgen : ∀ f n its L, merged_den F n its L → n < f →
      ∃ L2, collect (merged_next key next peek F) f its = Some (L ++ L2) ∧ ∀ u, u ∈ L2 → ¬ D u).
    2:{ eapply Hgen; [|exact HF]. exists Ps, Ns. split_and!; auto. }
    clear its Ps Ns L HPs HNs Hinv HF HL HLe. induction f as [|f IH]; intros n its L Hden Hlt; [lia|].
    cbn [collect]. destruct (merged_next_ok _ _ _ _ Hden) as (o & its' & n' & -> & Hden' & Ho).
    cbn [mbind option_bind]. destruct o as [t|].
    - destruct Ho as [Hn Ho]. destruct (IH n' its' (tail L) Hden' ltac:(lia)) as (L2 & -> & HL2).
      cbn [mbind option_bind]. destruct Ho as [Hh|[-> Ht]].
      + exists L2. split; auto. destruct L as [|x L]; [done|]. cbn in Hh. by injection Hh as ->.
      + exists (t :: L2). split; auto. intros u [->|Hu]%elem_of_cons; auto.
    - subst L. exists []. split; [done|]. intros u Hu. by apply elem_of_nil in Hu.
  Qed.
  End initial.

  Theorem merged_collect F its Ps Ns L :
    Forall2 I its.1 Ps → Forall2 I its.2 Ns → minv (λ _, True) Ps Ns → total Ps < F →
    KSorted L → (∀ u, u ∈ L ↔ present u Ps Ns) →
    collect (merged_next key next peek F) F its = Some L.
  Proof.
    intros HPs HNs Hinv HF HL HLe.
    destruct (merged_collect_upto (λ _, True) ltac:(done) F its Ps Ns L) as (L2 & -> & HL2); auto.
    - naive_solver.
    - destruct L2 as [|x L2]; [by rewrite app_nil_r|]. exfalso. by apply (HL2 x ltac:(left)).
  Qed.

  (** ** The change iterator *)

  (** additions and removals of each triple differ by at most one *)
  Definition cinv (Ps Ns : list (list triple)) : Prop :=
    Forall (λ P, KSorted P) Ps ∧ Forall (λ N, KSorted N) Ns ∧
    ∀ u, occurs u Ps ≤ S (occurs u Ns) ∧ occurs u Ns ≤ S (occurs u Ps).
  Definition net_change (c : bool * triple) (Ps Ns : list (list triple)) : Prop :=
    if c.1 then occurs c.2 Ps = S (occurs c.2 Ns) else occurs c.2 Ns = S (occurs c.2 Ps).
  Definition ckey (c : bool * triple) : K := key c.2.

  Definition change_den (F : nat) (its : list St * list St) (L : list (bool * triple)) : Prop :=
    ∃ Ps Ns, Forall2 I its.1 Ps ∧ Forall2 I its.2 Ns ∧ cinv Ps Ns ∧ total Ps + total Ns < F ∧
      SSorted (ckey <$> L) ∧ ∀ c, c ∈ L ↔ net_change c Ps Ns.

  Lemma change_head L c (P : bool * triple → Prop) :
    SSorted (ckey <$> L) → (∀ c, c ∈ L ↔ P c) → P c → (∀ c', P c' → c' ≠ c → olt (ckey c) (ckey c')) →
    head L = Some c ∧ SSorted (ckey <$> tail L) ∧ ∀ c', c' ∈ tail L ↔ P c' ∧ c' ≠ c.
  Proof.
    intros HL HLe Hc Hlt. destruct L as [|x L].
    { apply HLe in Hc. by apply elem_of_nil in Hc. }
    cbn in HL. apply ssorted_cons in HL as [HL Hx].
    assert (x = c) as ->.
    { assert (c ∈ x :: L) as [->|Hin]%elem_of_cons by (by apply HLe); [done|].
      destruct (decide (x = c)) as [|Hne]; auto. exfalso.
      assert (olt (ckey x) (ckey c)) by (apply Hx, elem_of_list_fmap; eauto).
      assert (olt (ckey c) (ckey x)) by (apply Hlt; auto; apply HLe; left). ord_absurd. }
    split; [done|]. split; [done|]. cbn. intros c'. rewrite <-HLe, elem_of_cons. split.
    - intros Hin. split; auto. intros ->.
      assert (olt (ckey c) (ckey c)) by (apply Hx, elem_of_list_fmap; eauto). ord_absurd.
    - naive_solver.
  Qed.

  Lemma low_occurs Ps i t u :
    Forall (λ P, KSorted P) Ps → lowest key (head <$> Ps) = Some (i, t) → olt (key u) (key t) → occurs u Ps = 0.
  Proof.
    intros Hs Hl Hlt. destruct (decide (occurs u Ps = 0)) as [|Hne]; auto. exfalso.
    apply occurs_elem in Hne as (P & HP & Hu).
    destruct (lowest_Some _ _ _ Hs Hl) as (_ & Hle & _). by apply (Hle P u HP Hu).
  Qed.
  Lemma none_occurs Ps u : lowest key (head <$> Ps) = None → occurs u Ps = 0.
  Proof.
    intros Hl. destruct (decide (occurs u Ps = 0)) as [|Hne]; auto. exfalso.
    apply occurs_elem in Hne as (P & HP & Hu). rewrite (lowest_None _ Hl P HP) in Hu.
    by apply elem_of_nil in Hu.
  Qed.
  Lemma low_step Ps i t : Forall (λ P, KSorted P) Ps → lowest key (head <$> Ps) = Some (i, t) →
    ∃ P', Ps !! i = Some (t :: P') ∧ Forall (λ P, KSorted P) (<[i:=P']> Ps) ∧
      total Ps = S (total (<[i:=P']> Ps)) ∧
      occurs t Ps = S (occurs t (<[i:=P']> Ps)) ∧ ∀ u, u ≠ t → occurs u (<[i:=P']> Ps) = occurs u Ps.
  Proof.
    intros Hs Hl. destruct (lowest_Some _ _ _ Hs Hl) as ([P' HP'] & _ & _).
    assert (Hsorted : KSorted (t :: P')) by (by eapply Forall_lookup_1 in HP'; [|exact Hs]).
    exists P'. split; [done|]. split_and!.
    - apply Forall_insert; auto. by apply ksorted_cons in Hsorted as [? _].
    - by eapply total_insert.
    - eapply occurs_insert; eauto using ksorted_notin.
    - intros u Hu. by eapply occurs_insert_ne.
  Qed.
  Lemma low_lt Ps i t u :
    Forall (λ P, KSorted P) Ps → lowest key (head <$> Ps) = Some (i, t) →
    occurs u Ps ≠ 0 → u ≠ t → olt (key t) (key u).
  Proof.
    intros Hs Hl (P & HP & Hu)%occurs_elem Hne.
    destruct (lowest_Some _ _ _ Hs Hl) as (_ & Hle & _).
    destruct (proj1 (ole_alt _ _) (Hle P u HP Hu)) as [?|E]; auto. by apply (inj key) in E.
  Qed.

  Lemma change_next_ok F its L : change_den F its L →
    ∃ its', change_next key next peek F its = Some (head L, its') ∧ change_den F its' (tail L).
  Proof.
    intros (Ps & Ns & HPs & HNs & Hinv & Hlen & HL & HLe).
    assert (Hgen : ∀ f its Ps Ns, Forall2 I its.1 Ps → Forall2 I its.2 Ns → cinv Ps Ns →
      total Ps + total Ns < f → f ≤ F → (∀ c, c ∈ L ↔ net_change c Ps Ns) →
      ∃ its', change_next key next peek f its = Some (head L, its') ∧ change_den F its' (tail L)).
    2:{ eapply Hgen; eauto. }
    clear its Ps Ns HPs HNs Hinv Hlen HLe. induction f as [|f IH];
      intros its Ps Ns HPs HNs (HsP & HsN & Hbal) Hlen HfF HLe; [lia|].
    cbn [change_next].
    destruct (peek_all_ok _ _ HPs) as (pos & -> & HPs'). cbn [mbind option_bind].
    destruct (peek_all_ok _ _ HNs) as (neg & -> & HNs'). cbn [mbind option_bind].
    (* emitting an addition or a removal *)
    assert (Hemit_pos : ∀ i t, lowest key (head <$> Ps) = Some (i, t) → occurs t Ns = 0 →
      (∀ u, occurs u Ns ≠ 0 → olt (key t) (key u)) →
      ∃ its', ('(t, pos') ← next_at next i pos; Some (Some (true, t), (pos', neg))) =
                Some (head L, its') ∧ change_den F its' (tail L)).
    { intros i t Hlow HtN HlN. destruct (low_step _ _ _ HsP Hlow) as (P' & HP' & HsP' & Htot & Hot & Hou).
      destruct (next_at_ok _ _ _ _ _ HPs' HP') as (pos' & -> & HPs''). cbn [mbind option_bind].
      pose proof (Hbal t) as Hbt.
      destruct (change_head L (true, t) (λ c, net_change c Ps Ns)) as (-> & HLt & HLt'); auto.
      { unfold net_change. cbn. lia. }
      { intros [b u] Hn Hne. unfold ckey. cbn. destruct b; unfold net_change in Hn; cbn in Hn.
        - apply (low_lt Ps i); [done..|lia|congruence].
        - apply HlN. lia. }
      eexists. split; [done|]. exists (<[i:=P']> Ps), Ns. split_and!; auto; [|cbn; lia|].
      - split_and!; auto. intros u. destruct (decide (u = t)) as [->|Hne]; [lia|]. rewrite Hou by done. apply Hbal.
      - intros [b u]. rewrite HLt'. unfold net_change. cbn.
        destruct (decide (u = t)) as [->|Hne].
        + destruct b; split; try lia; try naive_solver; intros [? ?]; lia.
        + rewrite Hou by done. split; [naive_solver|]. intros ?. split; [done|congruence]. }
    assert (Hemit_neg : ∀ j t, lowest key (head <$> Ns) = Some (j, t) → occurs t Ps = 0 →
      (∀ u, occurs u Ps ≠ 0 → olt (key t) (key u)) →
      ∃ its', ('(t, neg') ← next_at next j neg; Some (Some (false, t), (pos, neg'))) =
                Some (head L, its') ∧ change_den F its' (tail L)).
    { intros j t Hlow HtP HlP. destruct (low_step _ _ _ HsN Hlow) as (N' & HN' & HsN' & Htot & Hot & Hou).
      destruct (next_at_ok _ _ _ _ _ HNs' HN') as (neg' & -> & HNs''). cbn [mbind option_bind].
      pose proof (Hbal t) as Hbt.
      destruct (change_head L (false, t) (λ c, net_change c Ps Ns)) as (-> & HLt & HLt'); auto.
      { unfold net_change. cbn. lia. }
      { intros [b u] Hn Hne. unfold ckey. cbn. destruct b; unfold net_change in Hn; cbn in Hn.
        - apply HlP. lia.
        - apply (low_lt Ns j); [done..|lia|congruence]. }
      eexists. split; [done|]. exists Ps, (<[j:=N']> Ns). split_and!; auto; [|cbn; lia|].
      - split_and!; auto. intros u. destruct (decide (u = t)) as [->|Hne]; [lia|]. rewrite Hou by done. apply Hbal.
      - intros [b u]. rewrite HLt'. unfold net_change. cbn.
        destruct (decide (u = t)) as [->|Hne].
        + destruct b; split; try lia; try naive_solver; intros [? ?]; lia.
        + rewrite Hou by done. split; [naive_solver|]. intros ?. split; [done|congruence]. }
    destruct (lowest key (head <$> Ps)) as [[i t]|] eqn:HlP, (lowest key (head <$> Ns)) as [[j u]|] eqn:HlN.
    - destruct (decide (olt (key t) (key u))) as [Hlt|Hge].
      { apply (Hemit_pos i t); auto.
        - by eapply low_occurs.
        - intros v Hv. destruct (decide (v = u)) as [->|Hne]; [done|].
          trans (key u); [done|]. by apply (low_lt Ns j). }
      destruct (decide (olt (key u) (key t))) as [Hgt|Hle].
      { apply (Hemit_neg j u); auto.
        - by eapply low_occurs.
        - intros v Hv. destruct (decide (v = t)) as [->|Hne]; [done|].
          trans (key t); [done|]. by apply (low_lt Ps i). }
      assert (t = u) as <-.
      { destruct (olt_total (key t) (key u)) as [?|[E|?]]; [done| |done]. by apply (inj key). }
      destruct (low_step _ _ _ HsP HlP) as (P' & HP' & HsP' & HtotP & HotP & HouP).
      destruct (low_step _ _ _ HsN HlN) as (N' & HN' & HsN' & HtotN & HotN & HouN).
      destruct (next_at_ok _ _ _ _ _ HPs' HP') as (pos' & -> & HPs''). cbn [mbind option_bind].
      destruct (next_at_ok _ _ _ _ _ HNs' HN') as (neg' & -> & HNs''). cbn [mbind option_bind].
      apply (IH (pos', neg') _ _ HPs'' HNs''); [| lia | lia |].
      + split_and!; auto. intros u. destruct (decide (u = t)) as [->|Hne].
        * specialize (Hbal t). lia.
        * rewrite HouP, HouN by done. apply Hbal.
      + intros [b u]. rewrite HLe. unfold net_change. cbn. destruct (decide (u = t)) as [->|Hne].
        * destruct b; lia.
        * rewrite HouP, HouN by done. done.
    - apply (Hemit_pos i t); auto; intros; [by apply none_occurs|]. by rewrite none_occurs in *.
    - apply (Hemit_neg j u); auto; intros; [by apply none_occurs|]. by rewrite none_occurs in *.
    - assert (L = []) as ->.
      { destruct L as [|[b t] L]; auto. assert (net_change (b, t) Ps Ns) as Hn by (apply HLe; left).
        unfold net_change in Hn. cbn in Hn. rewrite !none_occurs in Hn by done. by destruct b. }
      eexists. split; [done|]. exists Ps, Ns. split; [done|]. split; [done|]. split; [done|].
      split; [lia|]. split; done.
  Qed.

  Lemma occurs_total (Ps : list (list triple)) (L : list triple) :
    NoDup L → (∀ u, u ∈ L → occurs u Ps ≠ 0) → length L ≤ total Ps.
  Proof.
    intros Hnd Hp.
    assert (L ⊆+ mjoin Ps) as Hsub.
    { apply NoDup_submseteq; auto. intros u Hu%Hp%occurs_elem.
      destruct Hu as (P & HP & HuP). apply elem_of_list_join. eauto. }
    apply submseteq_length in Hsub.
    assert (length (mjoin Ps) = total Ps) as <-; [|done].
    clear. induction Ps as [|P Ps IH]; [done|]. cbn. rewrite app_length. f_equal. apply IH.
  Qed.

  Theorem change_collect F its Ps Ns L :
    Forall2 I its.1 Ps → Forall2 I its.2 Ns → cinv Ps Ns → total Ps + total Ns < F →
    SSorted (ckey <$> L) → (∀ c, c ∈ L ↔ net_change c Ps Ns) →
    collect (change_next key next peek F) F its = Some L.
  Proof.
    intros HPs HNs Hinv HF HL HLe.
    apply (collect_next_ok _ (change_den F)).
    - apply change_next_ok.
    - exists Ps, Ns. split_and!; auto.
    - eapply Nat.le_lt_trans; [|exact HF].
      rewrite <-(fmap_length snd).
      assert (total Ps + total Ns = total (Ps ++ Ns)) as ->.
      { clear. induction Ps as [|P Ps IH]; [done|]. cbn. lia. }
      apply occurs_total.
      + apply (NoDup_fmap_1 key). rewrite <-list_fmap_compose. apply ssorted_nodup, HL.
      + intros u ([b u'] & -> & Hn%HLe)%elem_of_list_fmap. cbn.
        assert (occurs u' (Ps ++ Ns) = occurs u' Ps + occurs u' Ns) as ->.
        { clear. induction Ps as [|P Ps IH]; [done|]. cbn. lia. }
        unfold net_change in Hn. destruct b; cbn in Hn; lia.
  Qed.
End facts.
