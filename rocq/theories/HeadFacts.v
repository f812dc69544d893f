(** Named graphs. *)
From Verif Require Import Prelude Names NamesFacts LabelSeq LabelConc LabelSpec LabelConcFacts LabelSeqFacts Head HeadSpec.

(** ** layers only come *)
Definition hdom (s : hstate) : Prop := ∀ x y, h_parents s !! x = Some y → x ∈ h_layers s ∧ y ∈ h_layers s.
Lemma hstep_old s it s' x : hstep s it s' → x ∈ h_layers s → h_parents s' !! x = h_parents s !! x ∧ x ∈ h_layers s'.
Proof.
  intros Hst Hx. destruct Hst; cbn [h_parents h_layers hgoto hleave]; try done.
  - split; [|set_solver]. destruct p as [p|]; [|done]. apply lookup_insert_ne. by intros ->.
  - by destruct (after_get op l).
  - by destruct (after_set op (bool_decide (is_Some r))).
Qed.
Lemma ancestor_back s it s' a x : hstep s it s' → hdom s → x ∈ h_layers s → ancestor s' a x → ancestor s a x.
Proof.
  intros Hst Hdom Hx. unfold ancestor. induction 1 as [|x y z Hxy _ IH]; [done|].
  destruct (hstep_old _ _ _ _ Hst Hx) as [E _]. rewrite E in Hxy. eapply rtc_l; [exact Hxy|]. apply IH. by apply (Hdom x y).
Qed.
Lemma hstep_parents s it s' x y : hstep s it s' →
  (∀ x y, h_parents s !! x = Some y → x ∈ h_layers s) →
  h_parents s !! x = Some y → h_parents s' !! x = Some y.
Proof.
  intros Hst Hdom Hx. destruct Hst; cbn [h_parents hgoto hleave]; try done.
  - destruct p as [p|]; [|done]. rewrite lookup_insert_ne; [done|]. intros ->. by apply Hdom in Hx.
  - by destruct (after_get op l).
  - by destruct (after_set op (bool_decide (is_Some r))).
Qed.
Lemma ancestor_step s it s' a x : hstep s it s' →
  (∀ x y, h_parents s !! x = Some y → x ∈ h_layers s) → ancestor s a x → ancestor s' a x.
Proof.
  intros Hst Hdom. unfold ancestor. induction 1 as [|x y z Hxy _ IH]; [done|].
  eapply rtc_l; [|exact IH]. by eapply hstep_parents.
Qed.

(** ** the callers *)
Definition hthread_ok (s : hstate) (its : list hitem) (t : tid) (p : hpc) : Prop :=
  match p with
  | HGet op => True
  | HWalk op l a cur => lb_name l = op_name op ∧ lb_layer l = Some a ∧ ∃ n x, op = SetHead n x ∧ rtc (λ x y, h_parents s !! x = Some y) x cur
  | HSet op l => lb_name l = op_name op ∧
      match op with
      | SetHead n x => lb_layer l = None ∨ ∃ a, lb_layer l = Some a ∧ ancestor s a x
      | ForceHead _ _ => True
      | ForceVersion _ _ v => lb_version l = v
      | HeadVersion _ => False
      end
  end.
(** what a step shows, given the callers *)
Definition item_ok (s : hstate) (it : hitem) : Prop :=
  match it_lev it with
  | Some (EvSet t l nl i (Ok (Some r))) =>
      ∃ op x, it_ret it = Some (t, op, match op with ForceHead _ _ => RDone | _ => RBool true end) ∧
        op_name op = lb_name l ∧ op_layer op = Some x ∧ with_updated_layer l (Some x) = Some nl ∧
        match op with
        | SetHead _ _ => lb_layer l = None ∨ ∃ a, lb_layer l = Some a ∧ ancestor s a x
        | ForceVersion _ _ v => lb_version l = v
        | _ => True
        end
  | _ => ∀ t op r, it_ret it = Some (t, op, r) → r ≠ RBool true ∧ r ≠ RDone
  end.
Record hinv (its : list hitem) (s : hstate) : Prop := {
  hinv_dom x y : h_parents s !! x = Some y → x ∈ h_layers s ∧ y ∈ h_layers s;
  hinv_thread t p : h_threads s !! t = Some p → hthread_ok s its t p;
  hinv_item it : it ∈ its → item_ok s it }.

Definition hnames (its : list hitem) : Prop :=
  ∀ it t n i l, it ∈ its → it_lev it = Some (EvGet t n i (Ok (Some l))) → lb_name l = n.

Lemma hthread_step s it s' its its' t p : hstep s it s' → 
  (∀ x y, h_parents s !! x = Some y → x ∈ h_layers s) → hthread_ok s its t p → hthread_ok s' its' t p.
Proof.
  intros Hst Hdom. destruct p as [op|op l a cur|op l]; cbn [hthread_ok]; [done| |].
  - intros (Hn & Hl & n & x & -> & Hr). split; [done|]. split; [done|]. exists n, x. split; [done|].
    by apply (ancestor_step _ _ _ _ _ Hst Hdom).
  - intros [Hn Hop]. split; [done|]. destruct op; try done. destruct Hop as [?|(a & ? & ?)]; [auto|].
    right. exists a. split; [done|]. by eapply ancestor_step.
Qed.
Lemma item_step s it s' it0 : hstep s it s' →
  (∀ x y, h_parents s !! x = Some y → x ∈ h_layers s) → item_ok s it0 → item_ok s' it0.
Proof.
  intros Hst Hdom. unfold item_ok. destruct (it_lev it0) as [[|t l nl i [[r|]| |]| |]|]; try done.
  intros (op & x & H1 & H2 & H3 & H4 & H5). exists op, x. split_and!; try done.
  destruct op; try done. destruct H5 as [?|(a & ? & ?)]; [auto|]. right. exists a. split; [done|]. by eapply ancestor_step.
Qed.

Lemma hinv_step its s it s' : hinv its s → hnames (its ++ [it]) → hstep s it s' → hinv (its ++ [it]) s'.
Proof.
  intros [Hdom Hthr Hit] Hnames Hst.
  assert (∀ x y, h_parents s !! x = Some y → x ∈ h_layers s) as Hdom' by (intros x y Hx; by destruct (Hdom x y Hx)).
  assert (∀ x y, h_parents s' !! x = Some y → x ∈ h_layers s' ∧ y ∈ h_layers s') as Hd'.
  { destruct Hst; cbn [h_parents h_layers hgoto hleave]; try done.
    - intros y z. destruct p as [p|].
      + destruct (decide (y = x)) as [->|Hne]; [rewrite lookup_insert; intros [= <-]; set_solver|].
        rewrite lookup_insert_ne by done. intros Hy. specialize (Hdom y z Hy). set_solver.
      + intros Hy. specialize (Hdom y z Hy). set_solver.
    - by destruct (after_get op l).
    - by destruct (after_set op (bool_decide (is_Some r))). }
  assert (∀ t p, h_threads s !! t = Some p → hthread_ok s' (its ++ [it]) t p) as Hkeep.
  { intros t p Hp. eapply hthread_step; [done|done|]. by apply Hthr. }
  assert (∀ t p u q, hthread_ok s' (its ++ [it]) t p → <[t := p]> (h_threads s) !! u = Some q → hthread_ok s' (its ++ [it]) u q) as Hins.
  { intros t p u q Hp. destruct (decide (u = t)) as [->|Hne]; [rewrite lookup_insert; by intros [= <-]|].
    rewrite lookup_insert_ne by done. apply Hkeep. }
  assert (∀ t u q, delete t (h_threads s) !! u = Some q → hthread_ok s' (its ++ [it]) u q) as Hdel.
  { intros t u q. destruct (decide (u = t)) as [->|Hne]; [by rewrite lookup_delete|].
    rewrite lookup_delete_ne by done. apply Hkeep. }
  split; [done| |].
  - pose proof Hst as Hst0. destruct Hst as [s x p H1 H2|s e He|s t op Ht Hl|s t op i l Ht|s t op i Ht|s t op i k Ht
      |s t op l a Ht|s t op l a cur p Ht Hne Hp|s t op l a cur Ht Hne Hp|s t op l layer nl i r Ht Hl Hu|s t op l layer nl i k Ht Hl Hu|s t op l layer Ht Hl Hu|s];
      cbn [h_threads hgoto hleave]; intros u q; try apply Hkeep; try apply Hdel; try (apply Hins; done).
    + assert (lb_name l = op_name op) as Hn.
      { eapply Hnames; [apply elem_of_app; right; by left|done]. }
      assert (match after_get op l with inl p => ∀ s0, hthread_ok s0 (its ++ [HItem (Some (EvGet t (op_name op) i (Ok (Some l)))) (returns t op (after_get op l))]) t p | inr _ => True end) as Hok.
      { destruct op as [n x|n x|n x v|n]; cbn [after_get].
        - destruct (lb_layer l) as [a|] eqn:El; intros s0; cbn [hthread_ok]; [|auto].
          split; [done|]. split; [done|]. exists n, x. split; [done|]. apply rtc_refl.
        - done.
        - destruct (N.eqb_spec (lb_version l) v); done.
        - done. }
      destruct (after_get op l) as [p|r]; cbn [continue hgoto hleave h_threads]; [|apply Hdel]. apply Hins. apply Hok.
    + apply Hins. destruct (Hthr _ _ Ht) as (Hn & Hla & n & x & -> & Hr). cbn [hthread_ok]. split; [done|].
      right. exists a. done.
    + apply Hins. destruct (Hthr _ _ Ht) as (Hn & Hla & n & x & -> & Hr). cbn [hthread_ok hgoto h_parents].
      split; [done|]. split; [done|]. exists n, x. split; [done|]. eapply rtc_r; [exact Hr|done].
    + destruct (after_set op (bool_decide (is_Some r))) as [p|b] eqn:Ea; cbn [continue hgoto hleave h_threads]; [|apply Hdel].
      apply Hins. destruct op; cbn [after_set] in Ea; try done. destruct (bool_decide (is_Some r)); [done|]. by injection Ea as <-.
    + by rewrite lookup_empty.
  - intros it0 [Hin|Hin]%elem_of_app; [eapply item_step; [done|done|by apply Hit]|].
    apply elem_of_list_singleton in Hin. subst it0. eapply item_step; [done|done|].
    clear Hkeep Hins Hdel Hd'.
    destruct Hst as [s x p H1 H2|s e He|s t op Ht Hl|s t op i l Ht|s t op i Ht|s t op i k Ht
      |s t op l a Ht|s t op l a cur p Ht Hne Hp|s t op l a cur Ht Hne Hp|s t op l layer nl i r Ht Hl Hu|s t op l layer nl i k Ht Hl Hu|s t op l layer Ht Hl Hu|s];
      unfold item_ok; cbn [it_lev it_ret]; try naive_solver.
    + destruct e as [|t l nl i [[r|]| |]| |]; try done. by destruct (He t l nl i (Ok (Some r))).
    + intros t0 op0 r0. destruct op as [n x|n x|n x v|n]; cbn [after_get returns]; repeat case_match; cbn [returns]; naive_solver.
    + destruct r as [r|].
      * rewrite bool_decide_true by eauto. destruct (Hthr _ _ Ht) as [Hn Hop]. exists op, layer.
        split; [by destruct op|]. split; [done|]. split; [done|]. split; [done|]. destruct op; try done. by injection Hl as ->.
      * rewrite bool_decide_false by (by intros []). intros t0 op0 r0. destruct op; cbn [after_set returns]; naive_solver.
Qed.

(** ** the register *)
Lemma levs_app its its' : levs (its ++ its') = levs its ++ levs its'.
Proof. apply omap_app. Qed.
Lemma levs_cons it its : levs (it :: its) = option_list (it_lev it) ++ levs its.
Proof. unfold levs. cbn [omap list_omap]. by destruct (it_lev it). Qed.
Lemma label_after_app n pre post c : label_after n (pre ++ post) c →
  ∃ d, label_after n pre d ∧ history name_reg d (on_name n (levs post)) c.
Proof.
  unfold label_after. rewrite levs_app. unfold on_name. rewrite filter_app. apply history_split.
Qed.
Lemma label_after_at n pre it post e c : label_after n (pre ++ it :: post) c → it_lev it = Some e → ev_name e = n →
  ∃ d d', label_after n pre d ∧ name_reg d e d' ∧ history name_reg d' (on_name n (levs post)) c.
Proof.
  intros H He Hn. destruct (label_after_app _ _ _ _ H) as (d & Hd & Hh). exists d.
  rewrite levs_cons, He in Hh. change (option_list (Some e)) with [e] in Hh. unfold on_name in Hh.
  rewrite filter_app, filter_cons, filter_nil, decide_True in Hh by done. cbn [app] in Hh. inversion Hh; subst. eauto.
Qed.
Lemma history_same l es c : history name_reg (Some l) es (Some c) → lb_version c = lb_version l → c = l.
Proof.
  intros H. remember (Some l) as x eqn:Ex. remember (Some c) as y eqn:Ey. revert l c Ex Ey.
  induction H as [d|d e d' es d'' Hr Hh IH]; intros l c -> E2 Hv; [congruence|]. subst d''.
  pose proof (reg_version _ _ _ Hr) as Hrv. destruct d' as [l1|]; [|done]. destruct Hrv as (Hv1 & _).
  pose proof (history_version _ _ _ Hh) as (Hv2 & _).
  assert (lb_version l1 = lb_version l) as E by lia. assert (c = l1) as -> by (apply (IH _ _ eq_refl eq_refl); congruence).
  inversion Hr as [c0 e0 c0' Hr'| | | |]; subst; [|done]. inversion Hr'; subst; try done.
  match goal with H : updates _ _ |- _ => destruct H; lia end.
Qed.

(** ** what the callers saw *)
Definition walked (n : bytes) (its : list hitem) (s : hstate) (p : hpc) : Prop :=
  match p with
  | HGet op => match op_layer op with Some x => x ∈ h_layers s | None => True end
  | HWalk op l a cur =>
      (∃ x, op_layer op = Some x ∧ x ∈ h_layers s ∧ (ancestor s a x → ancestor s a cur)) ∧ (op_name op = n → seen n its l)
  | HSet op l => match op_layer op with Some x => x ∈ h_layers s | None => True end ∧ (op_name op = n → seen n its l)
  end.
Lemma got_reg d t m i l d' : name_reg d (EvGet t m i (Ok (Some l))) d' → d = Some l.
Proof. intros Hr. inversion Hr as [? ? ? Hr'| | | |]; subst. by inversion Hr'. Qed.
Lemma seen_more n its it l : seen n its l → seen n (its ++ [it]) l.
Proof. intros (pre & post & -> & H). exists pre, (post ++ [it]). by rewrite app_assoc. Qed.
Lemma serves_app n its its' : serves n (its ++ its') → serves n its.
Proof.
  intros [H1 [c H2]]. split.
  - intros it t m i l Hin. apply H1. apply elem_of_app. by left.
  - destruct (label_after_app _ _ _ _ H2) as (d & Hd & _). by exists d.
Qed.
Lemma hexec_inv n its s : hexec its s → serves n its →
  hinv its s ∧ ∀ t p, h_threads s !! t = Some p → walked n its s p.
Proof.
  induction 1 as [|its s it s' Hex IH Hst]; intros Hsv.
  - split; [|by intros t p; cbn [hstate_init h_threads]; rewrite lookup_empty].
    split; cbn [hstate_init h_parents h_threads]; [|..|by intros it ?%elem_of_nil]; intros *; by rewrite lookup_empty.
  - destruct IH as [Hinv Hw]; [by eapply serves_app|]. pose proof Hinv as [Hdom Hthr _].
    assert (hinv (its ++ [it]) s') as Hinv'.
    { eapply hinv_step; [done| |done]. intros it0 t m i l Hin. by apply (serves_names _ _ Hsv). }
    split; [done|].
    assert (∀ x, x ∈ h_layers s → x ∈ h_layers s') as Hlay by (intros x Hx; by apply (hstep_old _ _ _ _ Hst Hx)).
    assert (∀ x y, h_parents s !! x = Some y → x ∈ h_layers s) as Hdom' by (intros x y Hx; by destruct (Hdom x y Hx)).
    assert (∀ p, walked n its s p → walked n (its ++ [it]) s' p) as Hk.
    { intros [op|op l a cur|op l]; cbn [walked].
      - destruct (op_layer op); [|done]. apply Hlay.
      - intros [(x & Hx & Hxl & Ha) Hs]. split; [|intros Hn; by apply seen_more, Hs].
        exists x. split; [done|]. split; [by apply Hlay|]. intros Ha'.
        eapply ancestor_step; [done|done|]. apply Ha. by eapply ancestor_back.
      - intros [Hx Hs]. split; [|intros Hn; by apply seen_more, Hs]. destruct (op_layer op); [|done]. by apply Hlay. }
    assert (∀ t p u q, walked n (its ++ [it]) s' p → <[t := p]> (h_threads s) !! u = Some q → walked n (its ++ [it]) s' q) as Hins.
    { intros t p u q Hp. destruct (decide (u = t)) as [->|Hne]; [rewrite lookup_insert; by intros [= <-]|].
      rewrite lookup_insert_ne by done. intros Hq. by eapply Hk, Hw. }
    assert (∀ t u q, delete t (h_threads s) !! u = Some q → walked n (its ++ [it]) s' q) as Hdel.
    { intros t u q. destruct (decide (u = t)) as [->|Hne]; [by rewrite lookup_delete|].
      rewrite lookup_delete_ne by done. intros Hq. by eapply Hk, Hw. }
    assert (∀ t q, h_threads s !! t = Some q → walked n (its ++ [it]) s' q) as Hold.
    { intros t q Hq. by eapply Hk, Hw. }
    pose proof Hst as Hst0. destruct Hst as [s x p H1 H2|s e He|s t op Ht Hl|s t op i l Ht|s t op i Ht|s t op i k Ht
      |s t op l a Ht|s t op l a cur p Ht Hne Hp|s t op l a cur Ht Hne Hp|s t op l layer nl i r Ht Hl Hu|s t op l layer nl i k Ht Hl Hu|s t op l layer Ht Hl Hu|s];
      cbn [h_threads hgoto hleave]; intros u q; try apply Hold; try apply Hdel; try (apply Hins; done).
    + assert (op_name op = n → seen n (its ++ [HItem (Some (EvGet t (op_name op) i (Ok (Some l)))) (returns t op (after_get op l))]) l) as Hseen.
      { intros Hn. destruct (serves_history _ _ Hsv) as [c Hc].
        destruct (label_after_at _ _ _ [] _ _ Hc eq_refl) as (d & d' & Hd & Hr & _); [done|].
        apply got_reg in Hr. subst d. eexists its, _. split; [done|exact Hd]. }
      pose proof (Hold _ _ Ht) as Hop. cbn [walked] in Hop.
      destruct op as [m x|m x|m x v|m]; cbn [after_get continue hgoto hleave h_threads] in *.
      * destruct (lb_layer l) as [a|]; cbn [continue hgoto hleave h_threads] in *; apply Hins; [|done].
        split; [|done]. exists x. done.
      * by apply Hins.
      * destruct (lb_version l =? v)%N; cbn [continue hgoto hleave h_threads] in *; [by apply Hins|apply Hdel].
      * apply Hdel.
    + apply Hins. destruct (Hold _ _ Ht) as [(x & Hx & Hxl & _) Hs]. split; [by rewrite Hx|done].
    + apply Hins. destruct (Hold _ _ Ht) as [(x & Hx & Hxl & Ha) Hs]. split; [|done]. exists x. split; [done|]. split; [done|].
      intros Hax. specialize (Ha Hax). unfold ancestor in Ha |- *. cbn [hgoto h_parents] in *.
      inversion Ha as [|? y ? Hy Hrest]; subst; [done|]. congruence.
    + destruct (after_set op (bool_decide (is_Some r))) as [p|b] eqn:Ea; cbn [continue hgoto hleave h_threads]; [|apply Hdel].
      apply Hins. destruct op; cbn [after_set] in Ea; try done. destruct (bool_decide (is_Some r)); [done|]. injection Ea as <-.
      destruct (Hold _ _ Ht) as [Hx _]. exact Hx.
    + by rewrite lookup_empty.
Qed.

Inductive hruns : hstate → list hitem → hstate → Prop :=
  | hruns_nil s : hruns s [] s
  | hruns_step s it s' its s'' : hstep s it s' → hruns s' its s'' → hruns s (it :: its) s''.
Lemma hruns_snoc s its s' it s'' : hruns s its s' → hstep s' it s'' → hruns s (its ++ [it]) s''.
Proof. induction 1 as [|s i s1 its s2 Hs _ IH]; intros Hst; cbn [app]; econstructor; eauto. constructor. Qed.
Lemma hexec_split pre post s : hexec (pre ++ post) s → ∃ s1, hexec pre s1 ∧ hruns s1 post s.
Proof.
  revert s. induction post as [|it post IH] using rev_ind; intros s.
  - rewrite app_nil_r. intros H. exists s. split; [done|constructor].
  - rewrite app_assoc. intros H. inversion H as [E|its s0 it0 s' Hex Hst E].
    + destruct (pre ++ post); discriminate E.
    + apply app_inj_tail in E. destruct E as [-> ->]. subst. destruct (IH _ Hex) as (s1 & H1 & H2).
      exists s1. split; [done|]. by eapply hruns_snoc.
Qed.
Lemma hstep_dom s it s' : hstep s it s' → hdom s → hdom s'.
Proof.
  intros Hst Hdom. destruct Hst; try done.
  - intros y z. cbn [h_parents h_layers]. destruct p as [p|].
    + destruct (decide (y = x)) as [->|Hne]; [rewrite lookup_insert; intros [= <-]; set_solver|].
      rewrite lookup_insert_ne by done. intros Hy. specialize (Hdom y z Hy). set_solver.
    + intros Hy. specialize (Hdom y z Hy). set_solver.
  - by destruct (after_get op l).
  - by destruct (after_set op (bool_decide (is_Some r))).
Qed.
Lemma ancestor_runs s its s' a x : hruns s its s' → hdom s → x ∈ h_layers s → ancestor s' a x → ancestor s a x.
Proof.
  induction 1 as [|s it s1 its s2 Hst _ IH]; intros Hdom Hx Ha; [done|].
  eapply ancestor_back; [done|done|done|]. apply IH; [by eapply hstep_dom| |done]. by apply (hstep_old _ _ _ _ Hst Hx).
Qed.

Lemma updated_layer l y nl : with_updated_layer l y = Some nl → lb_layer nl = y.
Proof. unfold with_updated_layer. case_match; [done|]. by intros [= <-]. Qed.
Lemma name_reg_det c e c1 c2 : name_reg c e c1 → name_reg c e c2 → c1 = c2.
Proof.
  intros Hr H3. inversion Hr as [? ? ? Hr'| | | |]; subst; inversion H3 as [? ? ? H3'| | | |]; subst; try done;
    try (inversion Hr'; subst); try (inversion H3'; subst); done.
Qed.
Lemma history_det c es c1 c2 : history name_reg c es c1 → history name_reg c es c2 → c1 = c2.
Proof.
  intros H1. revert c2. induction H1 as [c|c e d es c1 Hr _ IH]; intros c2 H2; inversion H2; subst; [done|].
  apply IH. match goal with H : name_reg c e ?c' |- _ => by rewrite (name_reg_det _ _ _ _ Hr H) end.
Qed.
(** a call that returned success made the update at that point *)
Lemma success_item its s n pre it post t op r :
  hexec its s → serves n its → its = pre ++ it :: post → op_name op = n →
  it_ret it = Some (t, op, r) → r = RBool true ∨ r = RDone →
  ∃ l nl i x, it_lev it = Some (EvSet t l nl i (Ok (Some nl))) ∧ label_after n pre (Some l) ∧
    op_layer op = Some x ∧ lb_layer nl = Some x ∧ updates l nl ∧
    match op with
    | SetHead _ _ => lb_layer l = None ∨ ∃ a, lb_layer l = Some a ∧ ancestor s a x
    | ForceVersion _ _ v => lb_version l = v
    | _ => True
    end.
Proof.
  intros Hex Hsv E Hn Hret Hr. destruct (hexec_inv n _ _ Hex Hsv) as [[_ _ Hit] _].
  specialize (Hit it). rewrite E in Hit. specialize (Hit ltac:(set_solver)). unfold item_ok in Hit.
  assert ((∀ t op r, it_ret it = Some (t, op, r) → r ≠ RBool true ∧ r ≠ RDone) → False) as Hno.
  { intros H. destruct (H _ _ _ Hret). naive_solver. }
  destruct (it_lev it) as [[|u l nl i [[x'|]| |]| |]|] eqn:El; try done.
  destruct Hit as (op' & x & Hret' & Hname & Hlay & Hu & Hop). rewrite Hret in Hret'. injection Hret' as <- <- Hr'.
  destruct (serves_history _ _ Hsv) as [c Hc]. rewrite E in Hc.
  destruct (label_after_at _ _ _ _ _ _ Hc El) as (d & d' & Hd & Hreg & _); [cbn [ev_name]; congruence|].
  inversion Hreg as [? ? ? Hreg'| | | |]; subst. inversion Hreg'; subst.
  exists l, x', i, x. split; [done|]. split; [done|]. split; [done|]. split; [|done].
  by apply updated_layer in Hu.
Qed.
(** every update was made by a call that returned success *)
Lemma update_returns its s n it t l nl i r : hexec its s → serves n its → it ∈ its →
  it_lev it = Some (EvSet t l nl i (Ok (Some r))) →
  ∃ op, op_name op = lb_name l ∧ op_layer op = lb_layer nl ∧
    it_ret it = Some (t, op, match op with ForceHead _ _ => RDone | _ => RBool true end).
Proof.
  intros Hex Hsv Hin El. destruct (hexec_inv n _ _ Hex Hsv) as [[_ _ Hit] _]. specialize (Hit it Hin). unfold item_ok in Hit.
  rewrite El in Hit. destruct Hit as (op & x & Hret & Hname & Hlay & Hu & _). exists op. split; [done|]. split; [|done].
  rewrite Hlay. symmetry. by eapply updated_layer.
Qed.

Lemma seen_changed n pre l c : seen n pre l → label_after n pre (Some c) → c ≠ l → (lb_version l < lb_version c)%N.
Proof.
  intros (p1 & p2 & -> & Hl) Hc Hne. destruct (label_after_app _ _ _ _ Hc) as (d & Hd & Hh).
  rewrite (history_det _ _ _ _ Hd Hl) in Hh.
  pose proof (history_version _ _ _ Hh) as (Hv & _).
  destruct (decide (lb_version c = lb_version l)) as [E|E]; [|lia]. by destruct Hne; eapply history_same.
Qed.

(** [set_head] returned false: the head was not an ancestor, or was changed by another call *)
Lemma set_head_false its s n pre it post t x :
  hexec its s → serves n its → its = pre ++ it :: post → it_ret it = Some (t, SetHead n x, RBool false) →
  ∃ l, seen n pre l ∧ ((∃ a, lb_layer l = Some a ∧ ¬ ancestor s a x) ∨
                        (∃ c, label_after n pre (Some c) ∧ (lb_version l < lb_version c)%N)).
Proof.
  intros Hex Hsv E Hret. rewrite E in Hex, Hsv. destruct (hexec_split _ _ _ Hex) as (s1 & Hex1 & Hr1).
  assert (serves n pre) as Hsv1 by (by eapply serves_app).
  destruct (hexec_inv n _ _ Hex1 Hsv1) as [Hinv Hw]. pose proof Hinv as [Hdom Hthr _].
  inversion Hr1 as [|? ? s2 ? ? Hst Hr2]; subst.
  destruct (serves_history _ _ Hsv) as [c Hc].
  inversion Hst as [ | | |? t' op i l Ht Ei|?? op i Ht|?? op i k Ht| | |? t' op l a cur Ht Hne Hp|? t' op l layer nl i r Ht Hl Hu|?? op l layer nl i k Ht Hl Hu|?? op l layer Ht Hl Hu|];
    subst; cbn [it_ret] in Hret; try discriminate Hret.
  - destruct op as [m y|m y|m y v|m]; cbn [after_get] in Hret; [destruct (lb_layer l)|..]; try discriminate Hret.
    destruct (lb_version l =? v)%N; discriminate Hret.
  - injection Hret as -> ->. destruct (Hw _ _ Ht) as [(y & Hy & Hyl & Ha) Hs]. injection Hy as <-. exists l.
    split; [by apply Hs|]. left. destruct (Hthr _ _ Ht) as (_ & Hla & _). exists a. split; [done|]. intros Hax.
    apply (ancestor_runs _ _ _ _ _ Hr1 Hdom Hyl) in Hax. specialize (Ha Hax). inversion Ha; subst; [done|]. congruence.
  - destruct op as [m y|m y|m y v|m]; cbn [after_set returns] in Hret; try discriminate Hret.
    2:{ destruct (bool_decide (is_Some r)); discriminate Hret. }
    injection Hret as -> -> -> Hb. destruct r as [r|]; [by rewrite bool_decide_true in Hb by eauto|].
    destruct (Hw _ _ Ht) as [_ Hs]. specialize (Hs eq_refl). exists l. split; [done|]. right.
    destruct (Hthr _ _ Ht) as [Hln _].
    destruct (label_after_at _ _ _ _ _ _ Hc eq_refl) as (d & d' & Hd & Hreg & _); [done|].
    inversion Hreg as [? ? ? Hreg'| | | |]; subst. inversion Hreg'; subst.
    eexists. split; [exact Hd|]. by eapply seen_changed.
Qed.
(** [force_set_head_version] returned false: at that point the version is another one *)
Lemma force_version_false its s n pre it post t x v :
  hexec its s → serves n its → its = pre ++ it :: post → it_ret it = Some (t, ForceVersion n x v, RBool false) →
  ∃ c, label_after n pre (Some c) ∧ lb_version c ≠ v.
Proof.
  intros Hex Hsv E Hret. rewrite E in Hex, Hsv. destruct (hexec_split _ _ _ Hex) as (s1 & Hex1 & Hr1).
  assert (serves n pre) as Hsv1 by (by eapply serves_app).
  destruct (hexec_inv n _ _ Hex1 Hsv1) as [Hinv Hw]. pose proof Hinv as [Hdom Hthr _].
  inversion Hr1 as [|? ? s2 ? ? Hst Hr2]; subst.
  destruct (serves_history _ _ Hsv) as [c Hc].
  inversion Hst as [ | | |? t' op i l Ht Ei|?? op i Ht|?? op i k Ht| | |? t' op l a cur Ht Hne Hp|? t' op l layer nl i r Ht Hl Hu|?? op l layer nl i k Ht Hl Hu|?? op l layer Ht Hl Hu|];
    subst; cbn [it_ret] in Hret; try discriminate Hret.
  - destruct op as [m y|m y|m y w|m]; cbn [after_get] in Hret; [destruct (lb_layer l)|..]; try discriminate Hret.
    destruct (N.eqb_spec (lb_version l) w) as [|Hv]; [discriminate Hret|]. injection Hret as -> -> -> ->.
    destruct (label_after_at _ _ _ _ _ _ Hc eq_refl) as (d & d' & Hd & Hreg & _); [done|].
    apply got_reg in Hreg. subst d. by exists l.
  - injection Hret as -> ->. destruct (Hthr _ _ Ht) as (_ & _ & m & y & [=] & _).
  - destruct op as [m y|m y|m y w|m]; cbn [after_set returns] in Hret; try discriminate Hret.
    { destruct (bool_decide (is_Some r)); discriminate Hret. }
    injection Hret as -> -> -> -> Hb. destruct r as [r|]; [by rewrite bool_decide_true in Hb by eauto|].
    destruct (Hw _ _ Ht) as [_ Hs]. specialize (Hs eq_refl). destruct (Hthr _ _ Ht) as [Hln Hv].
    destruct (label_after_at _ _ _ _ _ _ Hc eq_refl) as (d & d' & Hd & Hreg & _); [done|].
    inversion Hreg as [? ? ? Hreg'| | | |]; subst. inversion Hreg'; subst.
    eexists. split; [exact Hd|]. assert (lb_version l < lb_version c0)%N by (by eapply seen_changed). lia.
Qed.

(** ** the chain of heads *)
Lemma heads_app n its its' : heads n (its ++ its') = heads n its ++ heads n its'.
Proof. unfold heads. by rewrite levs_app, omap_app. Qed.
Lemma ancestor_trans s a b c : ancestor s a b → ancestor s b c → ancestor s a c.
Proof. unfold ancestor. intros H1 H2. by etrans. Qed.
(** the current layer is an extension of all heads so far *)
Lemma only_prefix n its it : only_set_head n (its ++ [it]) → only_set_head n its.
Proof. intros H it0 t op r Hin. apply H. set_solver. Qed.
Lemma sorted_mono {A} (R R' : A → A → Prop) l : (∀ x y, R x y → R' x y) → StronglySorted R l → StronglySorted R' l.
Proof. intros HR. induction 1; constructor; [done|]. eapply Forall_impl; eauto. Qed.
Lemma sorted_snoc {A} (R : A → A → Prop) l x : StronglySorted R l → (∀ y, y ∈ l → R y x) → StronglySorted R (l ++ [x]).
Proof.
  induction 1 as [|y l Hl IH Hy]; intros Hx; cbn [app]; [repeat constructor|]. constructor.
  - apply IH. intros z Hz. apply Hx. by right.
  - apply Forall_app. split; [done|]. apply Forall_cons. split; [apply Hx; by left|constructor].
Qed.
Lemma heads_chain its s n c : hexec its s → serves n its → label_after n its c → only_set_head n its →
  StronglySorted (ancestor s) (heads n its) ∧
  ∀ h, h ∈ heads n its → ∃ l x, c = Some l ∧ lb_layer l = Some x ∧ ancestor s h x.
Proof.
  intros Hex. revert c. induction Hex as [|its s it s' Hex IH Hst]; intros c Hsv Hc Ho.
  { split; [constructor|]. by intros h ?%elem_of_nil. }
  pose proof (serves_app _ _ _ Hsv) as Hsv0. destruct (label_after_app _ _ _ _ Hc) as (d & Hd & Hh).
  destruct (IH d Hsv0 Hd (only_prefix _ _ _ Ho)) as [IH1 IH2].
  destruct (hexec_inv n _ _ Hex Hsv0) as [[Hdom _ _] _].
  assert (∀ a b, ancestor s a b → ancestor s' a b) as Hup.
  { intros a b. apply (ancestor_step _ _ _ _ _ Hst). intros x y Hx. by destruct (Hdom x y Hx). }
  pose proof (sorted_mono _ _ _ Hup IH1) as IH1'. rewrite heads_app.
  assert (hexec (its ++ [it]) s') as Hex' by (by econstructor).
  assert (∃ e, heads n [it] = option_list e ∧
     match e with
     | None => c = d ∨ (d = None ∧ ∃ l, c = Some l)
     | Some x => ∃ l nl, d = Some l ∧ c = Some nl ∧ lb_layer nl = Some x ∧ (lb_layer l = None ∨ ∃ a, lb_layer l = Some a ∧ ancestor s' a x)
     end) as (e & -> & He).
  { unfold heads. rewrite levs_cons in Hh |- *. cbn [levs omap list_omap] in Hh |- *. rewrite app_nil_r in Hh |- *.
    destruct (it_lev it) as [e|] eqn:El; [change (option_list (Some e)) with [e] in Hh |- *|].
    2:{ exists None. split; [done|]. inversion Hh; auto. }
    unfold on_name in Hh. rewrite filter_cons, filter_nil in Hh. exists (head_of n e). split; [cbn; by destruct (head_of n e)|].
    case_decide as Hn.
    - inversion Hh as [|? ? d' ? ? Hr Hh']; subst. inversion Hh'; subst.
      inversion Hr as [? ? ? Hr'| | | |]; subst; cbn [head_of]; try (by left).
      inversion Hr'; subst; cbn [head_of]; try (by left); [right; eauto|]. cbn [ev_name] in *.
      rewrite decide_True by done.
      destruct (update_returns _ _ (lb_name l) it t l nl i nl Hex' Hsv ltac:(set_solver) El) as (op & Hon & Hol & Hret).
      destruct (Ho it t op _ ltac:(set_solver) Hret Hon) as [[x ->]| ->].
      + destruct (success_item (its ++ [it]) s' (lb_name l) its it [] t (SetHead (lb_name l) x) (RBool true) Hex' Hsv eq_refl eq_refl Hret (or_introl eq_refl))
          as (l1 & nl1 & i1 & x1 & El1 & _ & Hx1 & Hlay & _ & Hop).
        rewrite El in El1. injection El1 as <- <- <-. injection Hx1 as <-. rewrite Hlay. exists l, nl. done.
      + destruct (success_item (its ++ [it]) s' (lb_name l) its it [] t (HeadVersion (lb_name l)) (RBool true) Hex' Hsv eq_refl eq_refl Hret (or_introl eq_refl))
          as (l1 & nl1 & i1 & x1 & El1 & _ & Hx1 & _). done.
    - inversion Hh; subst. destruct e as [|t l nl i [[r|]| |]| |]; cbn [head_of ev_name] in *; auto.
      rewrite decide_False by done. auto. }
  destruct e as [x|]; [change (option_list (Some x)) with [x]|change (option_list (@None lname)) with (@nil lname); rewrite app_nil_r].
  - destruct He as (l & nl & -> & -> & Hnl & Hl).
    assert (∀ h, h ∈ heads n its → ancestor s' h x) as Hall.
    { intros h Hin. destruct (IH2 h Hin) as (l0 & y & [= <-] & Hy & Ha). destruct Hl as [Hl|(a & Hl & Hax)]; [congruence|].
      rewrite Hy in Hl. injection Hl as ->. eapply ancestor_trans; [by apply Hup|done]. }
    split; [by apply sorted_snoc|]. intros h [Hin|Hin]%elem_of_app.
    + exists nl, x. auto.
    + apply elem_of_list_singleton in Hin. subst h. exists nl, x. split; [done|]. split; [done|]. apply rtc_refl.
  - split; [done|]. intros h Hin. destruct (IH2 h Hin) as (l0 & y & Ed & Hy & Ha).
    destruct He as [->|[-> _]]; [|done]. exists l0, y. auto.
Qed.

(** ** the label stores serve named graphs *)
Lemma levs_elem it e its : it ∈ its → it_lev it = Some e → e ∈ levs its.
Proof. intros H1 H2. apply elem_of_list_omap. eauto. Qed.
Lemma directory_names tr s t m i l : lexec tr s → EvGet t m i (Ok (Some l)) ∈ tr → lb_name l = m.
Proof.
  induction 1 as [|tr s e s' Hex IH Hst]; [by intros ?%elem_of_nil|]. intros [Hin|Hin]%elem_of_app; [by apply IH|].
  destruct e as [e|]; [|by apply elem_of_nil in Hin]. apply elem_of_list_singleton in Hin. subst e.
  inversion Hst as [| | | | | | | |? ? ? i' d nd Ht Hi Ed Ei| | | | | | | | | | | | | | | | |]; subst.
  match goal with H : get_result ?x = Ok (Some ?l) |- _ => destruct x as [l1|k|] eqn:Ex; cbn [get_result] in H; try discriminate H end.
  - match goal with H : Ok _ = Ok _ |- _ => injection H as -> end. apply get_label_from_data_spec in Ex. by destruct Ex.
  - by destruct k.
Qed.
Lemma directory_serves n its tr s : lexec tr s → ¬ deleted n tr → levs its = tr → serves n its.
Proof.
  intros Hex Hd <-. split.
  - intros it t m i l Hin He. by eapply (directory_names _ _ _ _ _ _ Hex), levs_elem.
  - by eapply name_register.
Qed.
Lemma cached_serves n its cs : Forall call_ok cs.*2 → Forall (λ c, c ≠ CDelete n) cs.*2 →
  levs its = events cs (fst (run cd_call (CD ∅ ∅) cs.*2)) → serves n its.
Proof.
  intros Hc Hd E. split.
  - intros it t m i l Hin He. apply (cd_names cs ∅ (CD ∅ ∅) t m i l dir_cd_init Hc). rewrite <-E. by eapply levs_elem.
  - unfold label_after. rewrite E. by apply cached_history.
Qed.
Lemma memory_serves n its cs :
  (N.of_nat (length cs) ≤ u64_max)%N → Forall call_ok cs.*2 → Forall (λ c, ¬ is_delete c) cs.*2 →
  honest cs.*2 (fst (run mem_call ∅ cs.*2)) →
  levs its = events cs (fst (run mem_call ∅ cs.*2)) → serves n its.
Proof.
  intros Hl Hc Hnd Hh. rewrite (memory_events cs Hl Hc Hnd Hh). apply cached_serves; [done|].
  eapply Forall_impl; [exact Hnd|]. intros c Hx ->. by apply Hx.
Qed.

Lemma head_version_current its s n pre it post t x v :
  hexec its s → serves n its → its = pre ++ it :: post → it_ret it = Some (t, HeadVersion n, RHead x v) →
  label_after n pre (Some (Label n x v)).
Proof.
  intros Hex Hsv E Hret. rewrite E in Hex, Hsv. destruct (hexec_split _ _ _ Hex) as (s1 & Hex1 & Hr1).
  inversion Hr1 as [|? ? s2 ? ? Hst Hr2]; subst.
  destruct (serves_history _ _ Hsv) as [c Hc].
  inversion Hst as [ | | |? t' op i l Ht Ei|?? op i Ht|?? op i k Ht| | |? t' op l a cur Ht Hne Hp|? t' op l layer nl i r Ht Hl Hu|?? op l layer nl i k Ht Hl Hu|?? op l layer Ht Hl Hu|];
    subst; cbn [it_ret] in Hret; try discriminate Hret.
  - destruct op as [m y|m y|m y w|m]; cbn [after_get] in Hret; [destruct (lb_layer l)|..]; try discriminate Hret.
    { destruct (lb_version l =? w)%N; discriminate Hret. }
    injection Hret as -> -> <- <-.
    destruct (label_after_at _ _ _ _ _ _ Hc eq_refl) as (d & d' & Hd & Hreg & _); [done|].
    apply got_reg in Hreg. subst d.
    assert (lb_name l = n) as Hn.
    { apply (serves_names _ _ Hsv _ t n i l (proj2 (elem_of_app _ _ _) (or_intror (elem_of_list_here _ _)))). done. }
    destruct l as [m a v]. cbn [lb_name lb_layer lb_version] in *. by subst m.
  - destruct op; cbn [after_set returns] in Hret; try discriminate Hret. destruct (bool_decide (is_Some r)); discriminate Hret.
Qed.

(** ** the label after the returning step *)
Lemma label_after_snoc n pre it c : label_after n pre c →
  (∀ e, it_lev it = Some e → ev_name e ≠ n) → label_after n (pre ++ [it]) c.
Proof.
  intros Hc Hn. unfold label_after. rewrite levs_app. unfold on_name. rewrite filter_app.
  unfold levs at 2. cbn [omap list_omap]. destruct (it_lev it) as [e|].
  - rewrite filter_cons, decide_False, filter_nil, app_nil_r by (by apply Hn). done.
  - by rewrite filter_nil, app_nil_r.
Qed.
Lemma label_after_prefix n pre it post c : label_after n (pre ++ it :: post) c → ∃ d, label_after n (pre ++ [it]) d.
Proof.
  change (it :: post) with ([it] ++ post). rewrite app_assoc. intros H. destruct (label_after_app _ _ _ _ H) as (d & Hd & _). eauto.
Qed.
Lemma history_one c e d : history name_reg c [e] d → name_reg c e d.
Proof. intros H. inversion H as [|? ? ? ? ? Hr Hh]; subst. inversion Hh; by subst. Qed.
Lemma label_after_one n pre it e c d : label_after n pre c → label_after n (pre ++ [it]) d →
  it_lev it = Some e → ev_name e = n → name_reg c e d.
Proof.
  intros Hc Hd He Hn. destruct (label_after_app _ _ _ _ Hd) as (c' & Hc' & Hh).
  rewrite (history_det _ _ _ _ Hc' Hc) in Hh. rewrite levs_cons, He in Hh.
  change (option_list (Some e) ++ levs []) with [e] in Hh. unfold on_name in Hh.
  rewrite filter_cons, filter_nil, decide_True in Hh by done. by apply history_one.
Qed.
Lemma success_after its s n pre it post t op r :
  hexec its s → serves n its → its = pre ++ it :: post → op_name op = n →
  it_ret it = Some (t, op, r) → r = RBool true ∨ r = RDone →
  ∃ l nl x, label_after n pre (Some l) ∧ label_after n (pre ++ [it]) (Some nl) ∧ lb_name l = n ∧
    op_layer op = Some x ∧ lb_layer nl = Some x ∧ updates l nl ∧
    match op with
    | SetHead _ _ => lb_layer l = None ∨ ∃ a, lb_layer l = Some a ∧ ancestor s a x
    | ForceVersion _ _ v => lb_version l = v
    | _ => True
    end.
Proof.
  intros Hex Hsv E Hn Hret Hr.
  destruct (success_item _ _ _ _ _ _ _ _ _ Hex Hsv E Hn Hret Hr) as (l & nl & i & x & He & Hl & Hx & Hnl & Hu & Hop).
  assert (it ∈ its) as Hin by (subst; set_solver).
  destruct (update_returns _ _ _ _ _ _ _ _ _ Hex Hsv Hin He) as (op' & Hn' & _ & Hret').
  rewrite Hret in Hret'. injection Hret' as <- _. rewrite Hn in Hn'.
  destruct (serves_history _ _ Hsv) as [c Hc]. rewrite E in Hc. destruct (label_after_prefix _ _ _ _ _ Hc) as [d Hd].
  pose proof (label_after_one _ _ _ _ _ _ Hl Hd He (eq_sym Hn')) as Hreg.
  assert (d = Some nl) as ->.
  { inversion Hreg as [? ? ? Hreg'| | | |]; subst. by inversion Hreg'; subst. }
  exists l, nl, x. by repeat (split; [done|]).
Qed.
Lemma set_head_forward its s n pre it post t x :
  hexec its s → serves n its → its = pre ++ it :: post → it_ret it = Some (t, SetHead n x, RBool true) →
  ∃ l nl, label_after n pre (Some l) ∧ label_after n (pre ++ [it]) (Some nl) ∧
    updates l nl ∧ lb_layer nl = Some x ∧ (lb_layer l = None ∨ ∃ a, lb_layer l = Some a ∧ ancestor s a x).
Proof.
  intros Hex Hsv E Hret. destruct (success_after its s n pre it post t (SetHead n x) (RBool true) Hex Hsv E eq_refl Hret ltac:(auto)) as (l & nl & y & H1 & H2 & _ & [= <-] & H3 & H4 & H5).
  by exists l, nl.
Qed.
Lemma force_version_true its s n pre it post t x v :
  hexec its s → serves n its → its = pre ++ it :: post → it_ret it = Some (t, ForceVersion n x v, RBool true) →
  ∃ l, label_after n pre (Some l) ∧ lb_version l = v ∧ label_after n (pre ++ [it]) (Some (Label n (Some x) (v + 1))).
Proof.
  intros Hex Hsv E Hret. destruct (success_after its s n pre it post t (ForceVersion n x v) (RBool true) Hex Hsv E eq_refl Hret ltac:(auto)) as (l & nl & y & H1 & H2 & Hn & [= <-] & H3 & [H4 H4'] & H5).
  exists l. split; [done|]. split; [done|]. destruct nl as [m a w]. cbn [lb_name lb_layer lb_version] in *. by subst.
Qed.
Lemma force_head_done its s n pre it post t x :
  hexec its s → serves n its → its = pre ++ it :: post → it_ret it = Some (t, ForceHead n x, RDone) →
  ∃ l, label_after n pre (Some l) ∧ label_after n (pre ++ [it]) (Some (Label n (Some x) (lb_version l + 1))).
Proof.
  intros Hex Hsv E Hret. destruct (success_after its s n pre it post t (ForceHead n x) (RDone) Hex Hsv E eq_refl Hret ltac:(auto)) as (l & nl & y & H1 & H2 & Hn & [= <-] & H3 & [H4 H4'] & H5).
  exists l. split; [done|]. destruct nl as [m a w]. cbn [lb_name lb_layer lb_version] in *. by subst.
Qed.
(** a step that returns anything else leaves the label alone *)
Lemma no_success its s n pre it post c d :
  hexec its s → serves n its → its = pre ++ it :: post → (∀ t op, it_ret it ≠ Some (t, op, RBool true) ∧ it_ret it ≠ Some (t, op, RDone)) →
  label_after n pre (Some c) → label_after n (pre ++ [it]) d → d = Some c.
Proof.
  intros Hex Hsv E Hret Hc Hd. destruct (it_lev it) as [e|] eqn:He.
  - destruct (decide (ev_name e = n)) as [Hn|Hn].
    + pose proof (label_after_one _ _ _ _ _ _ Hc Hd He Hn) as Hreg.
      inversion Hreg as [? ? ? Hreg'| | | |]; subst; try done. inversion Hreg'; subst; try done.
      destruct (update_returns _ _ _ it _ _ _ _ _ Hex Hsv ltac:(set_solver) He) as (op & _ & _ & Hr).
      destruct (Hret t op). destruct op; done.
    + apply (history_det _ _ _ _ Hd). apply label_after_snoc; [done|]. intros e' He'. congruence.
  - apply (history_det _ _ _ _ Hd). apply label_after_snoc; [done|]. intros e' He'. congruence.
Qed.
Lemma force_version_refused its s n pre it post t x v :
  hexec its s → serves n its → its = pre ++ it :: post → it_ret it = Some (t, ForceVersion n x v, RBool false) →
  ∃ c, label_after n pre (Some c) ∧ lb_version c ≠ v ∧ label_after n (pre ++ [it]) (Some c).
Proof.
  intros Hex Hsv E Hret. destruct (force_version_false _ _ _ _ _ _ _ _ _ Hex Hsv E Hret) as (c & Hc & Hv).
  exists c. split; [done|]. split; [done|].
  destruct (serves_history _ _ Hsv) as [d Hd]. rewrite E in Hd. destruct (label_after_prefix _ _ _ _ _ Hd) as [d' Hd'].
  rewrite <-(no_success _ _ _ _ _ _ _ _ Hex Hsv E ltac:(intros; rewrite Hret; by split) Hc Hd'). done.
Qed.
