(** Readers without locks change nothing for the others. *)
From Verif Require Import Prelude Names LabelConc LabelSpec LabelConcFacts LabelNoLock SpecNoLock.

Lemma step_caller s e s' : lstep s (Some e) s' → s_threads s !! caller e ≠ None.
Proof.
  intros Hs. inversion Hs; subst; cbn [caller]; try done;
    match goal with H : s_threads _ !! _ = Some _ |- _ => rewrite H; discriminate end.
Qed.

Lemma no_gets_app a b : no_gets (a ++ b) = no_gets a ++ no_gets b.
Proof. apply filter_app. Qed.
Lemma nexec_apart tr s : nexec tr s → apart s.1 s.2.
Proof.
  induction 1 as [|tr s e s' _ [IH1 IH2] Hs]; [split; intros t; cbn; [intros p|]; rewrite lookup_empty; [done|intros [? ?]; done]|].
  destruct Hs; cbn in *; [done|..]; (split; [done|]); intros u; rewrite ?lookup_insert_is_Some, ?lookup_delete_is_Some;
    try (intros [->|[_ ?]]); try (intros [_ ?]); auto; apply IH2; eauto.
Qed.
Lemma other_no_get s e s' : lstep s (Some e) s' → (∀ t p, s_threads s !! t = Some p → ¬ reading p) → is_get e = false.
Proof.
  intros Hs Hn. inversion Hs; subst; cbn; try done;
    match goal with H : s_threads _ !! _ = Some _ |- _ => destruct (Hn _ _ H); exact I end.
Qed.
Lemma nexec_lexec tr s : nexec tr s → lexec (no_gets tr) s.1.
Proof.
  induction 1 as [|tr s e s' Hx IH Hs]; [constructor|]. pose proof (nexec_apart tr s Hx) as Ha.
  rewrite no_gets_app. destruct Hs; cbn [fst option_list] in *;
    try (change (no_gets []) with (@nil lev); rewrite app_nil_r; exact IH);
    try (match goal with |- context [no_gets [?x]] => change (no_gets [x]) with (@nil lev) end; rewrite app_nil_r; exact IH).
  replace (no_gets (option_list e)) with (option_list e); [by eapply lexec_step|].
  destruct e as [e|]; [|done]. change (option_list (Some e)) with [e]. unfold no_gets. rewrite filter_cons, decide_True; [done|].
  apply (other_no_get s e s'); [done|]. apply Ha.
Qed.

Lemma quiet_exec i d s es s' tr : nquiet i d s es s' → nexec tr s → nexec (tr ++ es) s'.
Proof.
  intros H. revert tr. induction H as [s _|s e s1 es s' _ Hs _ IH]; intros tr Hx; [by rewrite app_nil_r|].
  rewrite app_assoc. apply IH. by eapply nexec_step.
Qed.
Lemma quiet_reader i d s es s' t n : nquiet i d s es s' → ∀ tr got, nexec tr s → s.2 !! t = Some (RRead n i got) → got `prefix_of` d →
  (∀ e, e ∈ es → caller e ≠ t) → ∃ got', s'.2 !! t = Some (RRead n i got') ∧ got' `prefix_of` d.
Proof.
  induction 1 as [s _|s e s1 es s' Hd Hs Hq IH]; intros tr got Hx Ht Hp He; [eauto|].
  assert (Hx1 : nexec (tr ++ option_list e) s1) by (by eapply nexec_step).
  assert (He' : ∀ e0, e0 ∈ es → caller e0 ≠ t). { intros e0 ?. apply He, elem_of_app. by right. }
  assert (∃ got1, s1.2 !! t = Some (RRead n i got1) ∧ got1 `prefix_of` d) as (got1 & Ht1 & Hp1); [|by apply (IH _ got1 Hx1)].
  destruct Hs as [s e sx rd Hs Ha|s rd u m Hu1 Hu2|s rd u m Hu Hm|s rd u m j Hu Hm|s rd u m j g nd a rest Hu Hj Hdr Hne|s rd u m j g nd Hu Hj Hl];
    cbn [fst snd] in *.
  - eauto.
  - destruct (decide (u = t)) as [->|]; [congruence|]. rewrite lookup_insert_ne by done. eauto.
  - destruct (decide (u = t)) as [->|]; [congruence|]. rewrite lookup_delete_ne by done. eauto.
  - destruct (decide (u = t)) as [->|]; [congruence|]. rewrite lookup_insert_ne by done. eauto.
  - destruct (decide (u = t)) as [->|]; [|rewrite lookup_insert_ne by done; eauto].
    rewrite Ht in Hu. injection Hu as <- <- <-. rewrite lookup_insert. eexists. split; [done|].
    rewrite Hj in Hd. cbn in Hd. injection Hd as <-. destruct Hp as [r Hr]. rewrite Hr, drop_app in Hdr.
    rewrite Hr, Hdr. exists rest. by rewrite app_assoc.
  - destruct (decide (u = t)) as [->|]; [|rewrite lookup_delete_ne by done; eauto].
    exfalso. apply (He (EvGet t m (Some j) (get_result (get_label_from_data m g)))); [|done]. apply elem_of_app. left. left.
Qed.
Lemma quiet_read i d s es s' t n tr e s'' : nexec tr s → nquiet i d s es s' → s.2 !! t = Some (RRead n i []) →
  (∀ e, e ∈ es → caller e ≠ t) → nstep s' (Some e) s'' → caller e = t →
  e = EvGet t n (Some i) (get_result (get_label_from_data n d)).
Proof.
  intros Hx Hq Ht He Hs Hc. destruct (quiet_reader i d s es s' t n Hq tr [] Hx Ht (prefix_nil _) He) as (got & Hg & [r Hr]).
  assert (Hd : i_data <$> s_inodes s'.1 !! i = Some d). { clear -Hq. by induction Hq. }
  pose proof (nexec_apart _ _ (quiet_exec i d s es s' tr Hq Hx)) as [Ha1 Ha2].
  inversion Hs as [s0 e0 s1 rd Hl Hap| |s0 rd u m Hu Hm| | |s0 rd u m j g nd Hu Hj Hlen]; subst; cbn [fst snd caller] in *.
  - destruct Hap as [Hap1 Hap2]. assert (s_threads s0 !! caller e = None) as Hn by (apply Ha2; rewrite Hg; eauto).
    exfalso. by apply (step_caller s0 e s1 Hl).
  - rewrite Hg in Hu. done.
  - rewrite Hg in Hu. injection Hu as <- <- <-. rewrite Hj in Hd. cbn in Hd. injection Hd as Hd. rewrite Hd, app_length in Hlen.
    assert (r = []) as ->; [destruct r; [done|cbn in Hlen; lia]|]. by rewrite app_nil_r.
Qed.

(** ** A reader is told that there is no label only if there is none *)
Lemma history_kept c es c' : history name_reg c es c' → (is_Some c ∨ ∃ e n t i l, e ∈ es ∧ e = EvCreate t n i (Ok l)) → is_Some c'.
Proof.
  induction 1 as [c|c e c1 es c' Hr _ IH]; [intros [?|(e & n & t & i & l & H & _)]; [done|by apply elem_of_nil in H]|].
  intros [Hc|(e' & n & t & i & l & [->|He]%elem_of_cons & E)]; apply IH.
  - left. destruct Hc as [l ->]. inversion Hr as [? ? ? Hq| | | |]; subst; try (by eexists). inversion Hq; by eexists.
  - left. subst. inversion Hr as [? ? ? Hq| | | |]; subst. inversion Hq; by eexists.
  - right. eauto 10.
Qed.
Lemma nexec_split tr s : nexec tr s → ∀ pre e post, tr = pre ++ e :: post → ∃ s0 s1, nexec pre s0 ∧ nstep s0 (Some e) s1.
Proof.
  induction 1 as [|tr s o s' Hx IH Hs]; intros pre e post E; [by destruct pre|].
  destruct o as [x|]; [|change (option_list None) with (@nil lev) in E; rewrite app_nil_r in E; by apply (IH pre e post)].
  change (option_list (Some x)) with [x] in E.
  destruct post as [|y post _] using rev_ind.
  - apply app_inj_tail in E as [-> ->]. eauto.
  - rewrite app_comm_cons, app_assoc in E. apply app_inj_tail in E as [E ->]. by apply (IH pre e post).
Qed.
Lemma deleted_dec n tr : deleted n tr ∨ ¬ deleted n tr.
Proof.
  destruct (existsb (λ e, match e with EvDelete _ m true => bool_decide (m = n) | _ => false end) tr) eqn:E.
  - left. apply existsb_exists in E as (e & He & E). destruct e as [| | |t m b]; try discriminate E. destruct b; [|discriminate E].
    apply bool_decide_eq_true in E as ->. exists t. by apply elem_of_list_In.
  - right. intros [t Ht]. apply elem_of_list_In in Ht.
    assert (existsb (λ e, match e with EvDelete _ m true => bool_decide (m = n) | _ => false end) tr = true) as E'; [|by rewrite E in E'].
    apply existsb_exists. exists (EvDelete t n true). split; [done|]. by apply bool_decide_eq_true.
Qed.
Lemma absent_read tr s pre t n r post : nexec tr s → tr = pre ++ EvGet t n None r :: post →
  r = Ok None ∧ ((∃ u i l, EvCreate u n i (Ok l) ∈ pre) → deleted n pre).
Proof.
  intros Hx E. destruct (nexec_split tr s Hx pre _ post E) as (s0 & s1 & Hx0 & Hs). pose proof (nexec_apart pre s0 Hx0) as Ha.
  assert (Hd : r = Ok None ∧ s_dir s0.1 !! n = None).
  { inversion Hs as [? ? ? ? Hl| | | | |]; subst; [|done..]. exfalso. pose proof (other_no_get _ _ _ Hl (proj1 Ha)) as Hf. discriminate Hf. }
  split; [apply Hd|]. intros (u & i & l & Hin). destruct (deleted_dec n pre) as [?|Hn]; [done|]. exfalso. pose proof (nexec_lexec pre s0 Hx0) as Hl.
  destruct (name_history (no_gets pre) s0.1 n Hl) as (ms & _ & _ & _ & Hh).
  { intros [v Hv]. apply Hn. exists v. by apply elem_of_list_filter in Hv as [_ ?]. }
  destruct (history_kept _ _ _ Hh) as [l' E'].
  - right. exists (EvCreate u n i (Ok l)), n, u, i, l. split; [|done]. unfold on_name, no_gets. rewrite !elem_of_list_filter. done.
  - unfold name_state in E'. destruct Hd as [_ Hd]. by rewrite Hd in E'.
Qed.
