(** Importing layers into a layer store. *)
From Verif Require Import Prelude ListFacts Succinct TripleFiles Merge Layer StackFacts WfFacts SameFacts Builder Rollup RollupSame
  Squash MergeBase Names Spec BuilderFacts HistoryFacts SquashFacts MergeBaseFacts ReachFacts ApiFacts SquashApi Store SpecStore StoreFacts StoreLoadFacts
  StoreCallFacts.

Definition shaped (c : list (lname * layer)) : Prop := ∀ i x l, c !! i = Some (x, l) → (l_neg l = None ↔ S i = length c).
Lemma shaped_tail e c : shaped (e :: c) → shaped c.
Proof. intros H i x l E. rewrite (H (S i) x l E). cbn [length]. lia. Qed.
Lemma shaped_base x l : shaped [(x, l)] → l_neg l = None.
Proof. intros H. by apply (H 0 x l). Qed.
Lemma shaped_child x l e c : shaped ((x, l) :: e :: c) → is_Some (l_neg l).
Proof. intros H. destruct (l_neg l) eqn:E; [by eauto|]. apply (H 0 x l eq_refl) in E. cbn [length] in E. lia. Qed.
Lemma chain_here_stored s x l c : shaped ((x, l) :: c) → chain_here s ((x, l) :: c) = true → stored s x ((x, l) :: c).
Proof.
  revert x l. induction c as [|[p k] c IH]; intros x l Hs; cbn [chain_here];
    intros [[E1 E2]%bool_decide_eq_true Hc]%andb_true_iff.
  - by apply stored_base; [done|apply (shaped_base x)|done].
  - apply (stored_child s x l p); [done|by eapply shaped_child|done|]. apply IH; [by eapply shaped_tail|done].
Qed.
Lemma stored_shaped s x c : stored s x c → shaped c.
Proof.
  induction 1 as [x l E1 E2 E3|x l p c E1 E2 E3 Hc IH]; intros i y k.
  - destruct i; [|done]. intros [= <- <-]. done.
  - destruct i as [|i]; cbn.
    + intros [= <- <-]. destruct E2 as [? E2]. rewrite E2. destruct (stored_ne _ _ _ Hc) as (? & ? & ->). split; [done|]. cbn. lia.
    + intros E. rewrite (IH i y k E). lia.
Qed.
Lemma stored_packable s x c : good s → stored s x c → packable c.
Proof.
  intros Hg Hc. split; [destruct (stored_ne _ _ _ Hc) as (? & ? & ->); done|]. split; [by eapply g_wf|]. split; [by eapply stored_shaped|].
  intros y l ->. destruct (stored_ne _ _ _ Hc) as (? & ? & [= <- <- <-]). by eapply g_based.
Qed.

Definition import_post (pk : list (list (lname * layer))) (ns : list lname) (s0 s : store) (r : outcome unit) : Prop :=
  r = Ok tt ∧ (∀ n, n ∈ ns → s0 !! n = None ∧ is_Some (s !! n)) ∧
  ∀ n l anc, ((n, l) :: anc) ∈ pk → n ∈ ns → stored s n ((n, l) :: anc).
Definition untouched_yet (ns : list lname) (pk : list (list (lname * layer))) (s : store) : Prop :=
  ∀ n l anc, ((n, l) :: anc) ∈ pk → n ∈ ns → s_files s n = None ∧ s_parent s n = None.
Lemma pack_ok_tail c pk : pack_ok (c :: pk) → packable c ∧ pack_ok pk ∧
  ∀ n l anc n' l' anc', c = (n, l) :: anc → ((n', l') :: anc') ∈ pk → n' ≠ n.
Proof.
  intros [Hp Hn]. apply Forall_cons in Hp as [Hc Hp]. destruct c as [|[n l] anc]; [by destruct Hc|]. cbn in Hn. apply NoDup_cons in Hn as [Hx Hn].
  split; [done|]. split; [by split|]. intros ? ? ? n' l' anc' [= <- <- <-] Hin ->. apply Hx. apply elem_of_list_fmap. exists (n, l'). split; [done|].
  apply elem_of_list_omap. by exists ((n, l') :: anc').
Qed.
Lemma write_pack_safe (ns : list lname) (pk : list (list (lname * layer))) (O : gset lname) (s : store) :
  pack_ok pk → (∀ n, n ∈ ns → n ∈ O ∧ is_Some (s !! n)) → untouched_yet ns pk s →
  safe (write_pack ns pk) O s (λ _ s' r, r = Ok tt ∧ ∀ n l anc, ((n, l) :: anc) ∈ pk → n ∈ ns → stored s' n ((n, l) :: anc)).
Proof.
  revert s. induction pk as [|c pk IH]; intros s Hok Hns Hu.
  { cbn [write_pack safe]. intros s' _ _. split; [done|]. by intros ? ? ? ?%elem_of_nil. }
  destruct (pack_ok_tail _ _ Hok) as (Hc & Hok' & Hne). destruct c as [|[n l] anc]; [by destruct Hc|]. cbn [write_pack].
  destruct (decide (n ∈ ns)) as [Hn|Hn].
  2:{ eapply safe_mono; [apply IH; [done|done|]|].
      - intros n' l' anc' Hin. apply (Hu n' l' anc'). by right.
      - intros O' s' r _ _ _ [Hr H]. split; [done|]. intros n' l' anc' [[= -> -> ->]|Hin]%elem_of_cons; [done|by apply H]. }
  destruct Hc as (_ & Hwf & Hsh & Hb). change (shaped ((n, l) :: anc)) in Hsh.
  destruct (Hns n Hn) as [HO Hd]. destruct (Hu n l anc ltac:(left) Hn) as [Hf Hp]. cbn [safe]. intros s1 c1 He1 Hg1 _ Hch.
  destruct (ext_own _ _ _ He1 n HO) as [E1 E2]. rewrite Hf in E1. rewrite Hp in E2.
  assert (∀ s', (∀ n, is_Some (s1 !! n) → is_Some (s' !! n)) → ext ∅ s1 s' →
    (∀ x, x ≠ n → x ∈ O → s_files s' x = s_files s1 x ∧ s_parent s' x = s_parent s1 x) → stored s' n ((n, l) :: anc) →
    safe (write_pack ns pk) O s' (λ _ s2 r, r = Ok tt ∧ ∀ n0 l0 anc0, ((n0, l0) :: anc0) ∈ ((n, l) :: anc) :: pk → n0 ∈ ns → stored s2 n0 ((n0, l0) :: anc0))) as Hrest.
  { intros s' Hdom He Ho Hst. eapply safe_mono; [apply IH; [done| |]|].
    - intros m Hm. destruct (Hns m Hm). split; [done|]. apply Hdom. by apply (ext_dom _ _ _ He1).
    - intros n' l' anc' Hin Hn'. pose proof (Hne n l anc n' l' anc' eq_refl Hin) as Hnn. destruct (Hns n' Hn') as [HO' _].
      destruct (Ho n' Hnn HO') as [-> ->]. destruct (ext_own _ _ _ He1 n' HO') as [-> ->]. apply (Hu n' l' anc'); [by right|done].
    - intros O' s2 r _ He2 _ [Hr H]. split; [done|]. intros n' l' anc' [[= -> -> ->]|Hin]%elem_of_cons Hn'; [|by apply H].
      by apply (ext_stored _ _ _ _ _ He2). }
  destruct anc as [|[p k] anc].
  - cbn [safe]. intros s2 He2 Hg2 _. destruct (ext_own _ _ _ He2 n HO) as [F1 F2]. rewrite E1 in F1. rewrite E2 in F2.
    assert (is_Some (s2 !! n)) as Hd2 by (apply (ext_dom _ _ _ He2), (ext_dom _ _ _ He1); done).
    assert (write_ok O s2 (WFiles n l)) as Hwo.
    { split; [done|]. split; [done|]. split; [done|]. rewrite F2. intros _. split; [exact Hwf|by apply (Hb n)]. }
    split; [done|]. destruct (write_files_eq s2 n l Hd2) as (W1 & _ & _ & W4).
    assert (ext ∅ s2 (write_store (WFiles n l) s2)) as He3 by (eapply write_ext; [done|set_solver]). apply Hrest.
    + intros m Hm. apply write_dom. by apply (ext_dom _ _ _ He2).
    + eapply ext_trans; [by eapply ext_empty|done].
    + intros x Hx Hxo. rewrite W4, W1, decide_False by done. apply (ext_own _ _ _ He2 x Hxo).
    + apply stored_base; [by rewrite W4, decide_True|by apply (shaped_base n)|by rewrite W1].
  - assert (stored s1 p ((p, k) :: anc)) as Hp1 by (apply chain_here_stored; [by eapply shaped_tail|done]).
    pose proof (shaped_child _ _ _ _ Hsh) as Hneg.
    cbn [safe]. intros s2 He2 Hg2 _. destruct (ext_own _ _ _ He2 n HO) as [F1 F2]. rewrite E1 in F1. rewrite E2 in F2.
    assert (is_Some (s2 !! n)) as Hd2 by (apply (ext_dom _ _ _ He2), (ext_dom _ _ _ He1); done).
    assert (write_ok O s2 (WParent n p)) as Hwo.
    { split; [done|]. split; [done|]. split; [done|]. split; [eexists; by apply (ext_stored _ _ _ _ _ He2)|]. intros l' Hl'. congruence. }
    split; [done|]. destruct (write_parent_eq s2 n p Hd2) as (W1 & _ & _ & W4). set (s3 := write_store (WParent n p) s2) in *.
    assert (ext ∅ s2 s3) as He3 by (eapply write_ext; [done|set_solver]).
    intros s4 He4 Hg4 _. destruct (ext_own _ _ _ He4 n HO) as [G1 G2]. rewrite W1, F1 in G1. rewrite W4, decide_True in G2 by done.
    assert (is_Some (s4 !! n)) as Hd4 by (apply (ext_dom _ _ _ He4); by apply write_dom).
    assert (stored s4 p ((p, k) :: anc)) as Hp4.
    { apply (ext_stored _ _ _ _ _ He4), (ext_stored _ _ _ _ _ He3), (ext_stored _ _ _ _ _ He2). done. }
    assert (write_ok O s4 (WFiles n l)) as Hwo4.
    { split; [done|]. split; [done|]. split; [done|]. rewrite G2. split; [done|]. intros c Hc. rewrite (stored_unique _ _ _ _ Hc Hp4). exact Hwf. }
    split; [done|]. destruct (write_files_eq s4 n l Hd4) as (V1 & _ & _ & V4). set (s5 := write_store (WFiles n l) s4) in *.
    assert (ext ∅ s4 s5) as He5 by (eapply write_ext; [done|set_solver]). apply Hrest.
    + intros m Hm. apply write_dom, (ext_dom _ _ _ He4), write_dom. by apply (ext_dom _ _ _ He2).
    + eapply ext_trans; [by eapply ext_empty|]. eapply ext_trans; [done|]. eapply ext_trans; [by eapply ext_empty|done].
    + intros x Hx Hxo. rewrite V4, V1, decide_False by done. destruct (ext_own _ _ _ He4 x Hxo) as [-> ->].
      rewrite W1, W4, decide_False by done. apply (ext_own _ _ _ He2 x Hxo).
    + apply (stored_child _ n l p); [by rewrite V4, decide_True|done|by rewrite V1|]. by apply (ext_stored _ _ _ _ _ He5).
Qed.
Lemma make_dirs_safe {A : Type} (ns done : list lname) (p : prog A) (O : gset lname) (s0 s : store) (Q : gset lname → store → outcome A → Prop) :
  ext ∅ s0 s → (∀ n, n ∈ done → n ∈ O ∧ s0 !! n = None ∧ is_Some (s !! n) ∧ s_files s n = None ∧ s_parent s n = None) →
  (∀ O' s', ext ∅ s0 s' → (∀ n, n ∈ done ++ ns → n ∈ O' ∧ s0 !! n = None ∧ is_Some (s' !! n) ∧ s_files s' n = None ∧ s_parent s' n = None) → safe p O' s' Q) →
  safe (make_dirs ns p) O s Q.
Proof.
  revert done O s. induction ns as [|n ns IH]; intros dn O s He Hd HQ; cbn [make_dirs].
  - apply HQ; [done|]. by rewrite app_nil_r.
  - cbn [safe]. intros s1 m He1 Hg1 Hm Hb%bool_decide_eq_true. subst m. destruct (new_dir_eq n s1 Hm) as (E1 & E2 & _ & _).
    assert (ext ∅ s0 s1) as He01 by (eapply ext_trans; [done|by eapply ext_empty]).
    apply (IH (dn ++ [n])).
    + eapply ext_trans; [done|by apply new_dir_ext].
    + intros x [Hx|Hx]%elem_of_app.
      * destruct (Hd x Hx) as (H1 & H2 & H3 & H4 & H5). destruct (ext_own _ _ _ He1 x H1) as [F1 F2]. split; [set_solver|]. split; [done|].
        split; [apply (ext_dom _ _ _ (new_dir_ext ∅ n s1 Hm)), (ext_dom _ _ _ He1); done|]. rewrite E1, E2. by rewrite F1, F2.
      * apply elem_of_list_singleton in Hx as ->. split; [set_solver|]. split.
        { destruct (s0 !! n) eqn:Es; [|done]. destruct (ext_dom _ _ _ He01 n) as [??]; [by eauto|congruence]. }
        split; [unfold new_dir; rewrite lookup_insert; by eauto|]. rewrite E1, E2. unfold s_files, s_parent. by rewrite Hm.
    + intros O' s' He' H. apply HQ; [done|]. intros x Hx. apply H. by rewrite <-app_assoc.
Qed.
Lemma do_import_safe (pk : list (list (lname * layer))) (ns : list lname) (O : gset lname) (s : store) : pack_ok pk →
  safe (do_import pk ns) O s (λ _ s' r, import_post pk ns s s' r).
Proof.
  intros Hok. unfold do_import. apply (make_dirs_safe ns [] _ O s s); [apply ext_refl|by intros ? ?%elem_of_nil|]. cbn [app].
  intros O' s' He H. eapply safe_mono; [apply write_pack_safe; [done| |]|].
  - intros n Hn. by destruct (H n Hn) as (? & _ & ? & _).
  - intros n l anc _ Hn. by destruct (H n Hn) as (_ & _ & _ & ? & ?).
  - intros O'' s2 r _ He2 _ [-> H']. split; [done|]. split; [|done]. intros n Hn. destruct (H n Hn) as (_ & ? & ? & _). split; [done|].
    by apply (ext_dom _ _ _ He2).
Qed.
