(** The calls on a layer store, one by one. *)
From Verif Require Import Prelude ListFacts Succinct TripleFiles Merge Layer StackFacts WfFacts SameFacts Builder Rollup RollupSame
  Squash MergeBase Names Spec BuilderFacts HistoryFacts SquashFacts MergeBaseFacts ReachFacts ApiFacts SquashApi Store SpecStore StoreFacts StoreLoadFacts.

(** ** Walking *)
Lemma stored_files s x c : stored s x c → Forall (λ e, s_files s e.1 = Some e.2) c.
Proof. induction 1; (apply Forall_cons; split; [done|done || constructor]). Qed.
Lemma disk_layers_ok s c ls : Forall (λ e, s_files s e.1 = Some e.2) c → disk_layers s c.*1 = Ok ls → ls = c.*2.
Proof.
  intros Hc. unfold disk_layers. assert (mapM (s_files s) c.*1 = Some c.*2) as ->; [|by intros [= <-]].
  induction Hc as [|e c He Hc IH]; [done|]. cbn. rewrite He. cbn. by rewrite IH.
Qed.
Lemma disk_layers_total s c : Forall (λ e, s_files s e.1 = Some e.2) c → disk_layers s c.*1 = Ok c.*2.
Proof.
  intros Hc. unfold disk_layers. assert (mapM (s_files s) c.*1 = Some c.*2) as ->; [|done].
  induction Hc as [|e c He Hc IH]; [done|]. cbn. rewrite He. cbn. by rewrite IH.
Qed.
Lemma names_upto_ok fuel s x upto ns c : names_upto fuel s x upto = Ok ns → stored s x c →
  ∃ c1 c2, c = c1 ++ c2 ∧ c1.*1 = ns ∧ c1 ≠ [] ∧ stored s upto c2.
Proof.
  revert x ns c. induction fuel as [|f IH]; [done|]. intros x ns c. cbn [names_upto]. intros E Hc.
  destruct (stored_ne _ _ _ Hc) as (l & c' & ->). destruct (s_parent s x) as [p|] eqn:Ep; [|done].
  pose proof (stored_tail _ _ _ _ _ Hc Ep) as Hp. destruct (decide (p = upto)) as [->|Hne].
  - injection E as <-. by exists [(x, l)], c'.
  - destruct (names_upto f s p upto) as [ns'|k|] eqn:E'; try done. cbn in E. injection E as <-.
    destruct (IH p ns' c' E' Hp) as (c1 & c2 & -> & <- & H1 & H2). by exists ((x, l) :: c1), c2.
Qed.
Lemma walk_upto_ok fuel s x upto ns c : walk_upto fuel s x upto = Ok ns → stored s x c →
  ∃ c1 c2, c = c1 ++ c2 ∧ c1.*1 = ns ∧ stored s upto c2.
Proof.
  revert x ns c. induction fuel as [|f IH]; [done|]. intros x ns c. cbn [walk_upto]. intros E Hc.
  destruct (decide (x = upto)) as [->|Hne]; [injection E as <-; by exists [], c|].
  destruct (stored_ne _ _ _ Hc) as (l & c' & ->). destruct (s_parent s x) as [p|] eqn:Ep; [|done].
  pose proof (stored_tail _ _ _ _ _ Hc Ep) as Hp.
  destruct (walk_upto f s p upto) as [ns'|k|] eqn:E'; try done. cbn in E. injection E as <-.
  destruct (IH p ns' c' E' Hp) as (c1 & c2 & -> & <- & H2). by exists ((x, l) :: c1), c2.
Qed.
Lemma walk_ok fuel s x ns c : walk fuel s x = Some ns → stored s x c → ns = c.*1.
Proof.
  revert x ns c. induction fuel as [|f IH]; [done|]. intros x ns c. cbn [walk]. intros E Hc.
  destruct (stored_ne _ _ _ Hc) as (l & c' & ->). destruct (s_parent s x) as [p|] eqn:Ep.
  - pose proof (stored_tail _ _ _ _ _ Hc Ep) as Hp. destruct (walk f s p) as [ns'|] eqn:E'; [|done]. cbn in E. injection E as <-.
    cbn. f_equal. by eapply IH.
  - injection E as <-. inversion Hc; subst; [done|congruence].
Qed.

(** Chains of parents *)
Lemma stored_ancestry s x c : stored s x c → ancestry s x c.*1.
Proof. induction 1; cbn; by econstructor. Qed.
Lemma ancestry_ne s x ns : ancestry s x ns → ∃ ns', ns = x :: ns'.
Proof. destruct 1; eauto. Qed.
Lemma ancestry_unique s x ns ns' : ancestry s x ns → ancestry s x ns' → ns = ns'.
Proof.
  intros H. revert ns'. induction H as [x Hp|x p ns Hp Ha IH]; intros ns' H'; inversion H'; subst; try congruence.
  f_equal. apply IH. congruence.
Qed.
Lemma ancestry_suffix s x ns1 y ns2 : ancestry s x (ns1 ++ y :: ns2) → ancestry s y (y :: ns2).
Proof.
  intros H. remember (ns1 ++ y :: ns2) as ns eqn:E. revert ns1 E.
  induction H as [x Hp|x p ns Hp Ha IH]; intros [|z ns1] E; cbn in E; injection E.
  - intros <- <-. by constructor.
  - intros E1. by destruct ns1.
  - intros <- <-. by econstructor.
  - intros E1 _. by eapply IH.
Qed.
Lemma ancestry_nodup s x ns : ancestry s x ns → NoDup ns.
Proof.
  induction 1 as [x Hp|x p ns Hp Ha IH]; [repeat constructor; by intros ?%elem_of_nil|]. constructor; [|done].
  intros (ns1 & ns2 & ->)%elem_of_list_split. pose proof (ancestry_suffix _ _ _ _ _ Ha) as H1.
  assert (ancestry s x (x :: ns1 ++ x :: ns2)) as H2 by by econstructor.
  pose proof (ancestry_unique _ _ _ _ H1 H2) as E. apply (f_equal length) in E. cbn in E. rewrite app_length in E. cbn in E. lia.
Qed.
Lemma ancestry_dom s x ns y : ancestry s x ns → y ∈ ns → is_Some (s !! y) ∨ s_parent s y = None.
Proof.
  induction 1 as [x Hp|x p ns Hp Ha IH]; [intros ->%elem_of_list_singleton; by right|].
  intros [->|Hy]%elem_of_cons; [|by apply IH]. left. unfold s_parent in Hp. by destruct (s !! x).
Qed.
Lemma ancestry_length s x ns : ancestry s x ns → length ns ≤ fuel_of s.
Proof.
  intros H. pose proof (ancestry_nodup _ _ _ H) as Hnd.
  assert (∀ ns1 y, ns = ns1 ++ [y] → ns1 ⊆ elements (dom s)) as Hd.
  { clear Hnd. induction H as [x Hp|x p ns Hp Ha IH]; intros ns1 y E z Hz.
    - destruct ns1 as [|? [|]]; [by apply elem_of_nil in Hz|done..].
    - destruct ns1 as [|w ns1]; [by apply elem_of_nil in Hz|]. injection E as <- ->. apply elem_of_cons in Hz as [->|Hz].
      + apply elem_of_elements, elem_of_dom. unfold s_parent in Hp. by destruct (s !! x).
      + by apply (IH ns1 y eq_refl z Hz). }
  destruct ns as [|y ns _] using rev_ind; [cbn; lia|]. rewrite app_length. cbn. unfold fuel_of.
  enough (length ns ≤ size s) by lia. apply NoDup_app in Hnd as (Hnd & _).
  rewrite <-(size_list_to_set (C:=gset (list N)) ns) by done. rewrite <-(size_dom (D:=gset (list N)) s). apply subseteq_size.
  intros z. rewrite elem_of_list_to_set. intros Hz. apply elem_of_elements. by apply (Hd ns y eq_refl).
Qed.
Lemma ancestry_rtc s x ns a : ancestry s x ns → a ∈ ns ↔ rtc (child_of s) x a.
Proof.
  intros H. induction H as [x Hp|x p ns Hp Ha IH]; (split; [intros [->|Hin]%elem_of_cons; [apply rtc_refl|]|intros Hr]).
  - by apply elem_of_nil in Hin.
  - apply rtc_inv in Hr as [->|(y & Hy & _)]; [left|]. unfold child_of in Hy. congruence.
  - eapply rtc_l; [exact Hp|]. by apply IH.
  - apply rtc_inv in Hr as [->|(y & Hy & Hr)]; [left|]. unfold child_of in Hy. assert (y = p) as -> by congruence. right. by apply IH.
Qed.
Lemma ancestry_tc s x ns a : ancestry s x ns → a ∈ tail ns ↔ tc (child_of s) x a.
Proof.
  intros H. destruct H as [x Hp|x p ns Hp Ha]; cbn; split.
  - by intros ?%elem_of_nil.
  - intros Ht. exfalso. unfold child_of in *. inversion Ht; congruence.
  - intros Hin. eapply tc_rtc_r; [by apply tc_once|]. by apply (ancestry_rtc _ _ _ _ Ha).
  - intros Ht. apply (ancestry_rtc _ _ _ _ Ha). inversion Ht as [? y Hy|? y z Hy Ht']; subst; unfold child_of in Hy.
    + assert (a = p) as -> by congruence. apply rtc_refl.
    + assert (y = p) as -> by congruence. by apply tc_rtc.
Qed.
Lemma walk_total fuel s x ns : ancestry s x ns → length ns ≤ fuel → walk fuel s x = Some ns.
Proof.
  intros H. revert fuel. induction H as [x Hp|x p ns Hp Ha IH]; intros [|f] Hf; cbn in Hf; try lia; cbn [walk]; rewrite Hp; [done|].
  by rewrite IH by lia.
Qed.
Lemma is_ancestor_total fuel s x ns a : ancestry s x ns → length ns ≤ fuel → is_ancestor fuel s x a = Ok (bool_decide (a ∈ ns)).
Proof.
  intros H. revert fuel. induction H as [x Hp|x p ns Hp Ha IH]; intros [|f] Hf; cbn in Hf; try lia; cbn [is_ancestor]; rewrite Hp;
    (destruct (decide (a = x)) as [->|Hne]; [by rewrite bool_decide_eq_true_2 by left|]).
  - rewrite bool_decide_eq_false_2; [done|]. intros ?%elem_of_list_singleton. done.
  - rewrite IH by lia. f_equal. apply bool_decide_ext. rewrite elem_of_cons. naive_solver.
Qed.
Lemma names_upto_total fuel s x ns1 upto ns2 : ancestry s x (ns1 ++ upto :: ns2) → ns1 ≠ [] → length ns1 ≤ fuel →
  names_upto fuel s x upto = Ok ns1.
Proof.
  revert fuel x. induction ns1 as [|y ns1 IH]; [done|]. intros [|f] x H _ Hf; cbn in Hf; [lia|].
  pose proof (ancestry_nodup _ _ _ H) as Hnd. inversion H as [? Hp E|? p ? Hp Ha E]; subst; [by destruct ns1|].
  cbn [names_upto]. rewrite Hp. destruct (ancestry_ne _ _ _ Ha) as [ns' E]. destruct ns1 as [|z ns1].
  - cbn in E. injection E as ->. by rewrite decide_True.
  - cbn in E. injection E as -> _. rewrite decide_False; [by rewrite (IH f p Ha) by (done || cbn in *; lia)|].
    intros ->. cbn in Hnd. apply NoDup_cons in Hnd as [_ Hnd]. apply NoDup_cons in Hnd as [Hn _]. apply Hn, elem_of_app. right. left.
Qed.
Lemma names_upto_none fuel s x ns upto : ancestry s x ns → upto ∉ tail ns → length ns ≤ fuel →
  names_upto fuel s x upto = Err NotFound.
Proof.
  intros H. revert fuel. induction H as [x Hp|x p ns Hp Ha IH]; intros [|f] Hu Hf; cbn in Hf; try lia; cbn [names_upto]; rewrite Hp; [done|].
  destruct (ancestry_ne _ _ _ Ha) as [ns' ->]. cbn in Hu, IH. rewrite decide_False by (intros ->; apply Hu; left).
  rewrite IH; [done| |cbn in Hf; lia]. intros ?. apply Hu. by right.
Qed.
Lemma walk_upto_total fuel s x ns1 upto ns2 : ancestry s x (ns1 ++ upto :: ns2) → length ns1 < fuel → walk_upto fuel s x upto = Ok ns1.
Proof.
  revert fuel x. induction ns1 as [|y ns1 IH]; intros [|f] x H Hf; cbn in Hf; try lia; cbn [walk_upto].
  - destruct (ancestry_ne _ _ _ H) as [ns' E]. injection E as -> _. by rewrite decide_True.
  - pose proof (ancestry_nodup _ _ _ H) as Hnd. inversion H as [? Hp E|? p ? Hp Ha E]; subst; [by destruct ns1|].
    rewrite decide_False; [|intros ->; apply NoDup_cons in Hnd as [Hn _]; apply Hn, elem_of_app; right; left].
    rewrite Hp, (IH f p Ha) by lia. done.
Qed.
Lemma walk_upto_none fuel s x ns upto : ancestry s x ns → upto ∉ ns → length ns ≤ fuel → walk_upto fuel s x upto = Err NotFound.
Proof.
  intros H. revert fuel. induction H as [x Hp|x p ns Hp Ha IH]; intros [|f] Hu Hf; cbn in Hf; try lia; cbn [walk_upto];
    (rewrite decide_False by (intros ->; apply Hu; left)); rewrite Hp; [done|].
  rewrite IH; [done| |lia]. intros ?. apply Hu. by right.
Qed.

(** ** Writing the files of a new layer *)
Lemma stored_app_inv s x c1 c2 : stored s x (c1 ++ c2) → c2 ≠ [] → ∃ y, stored s y c2.
Proof. destruct c2 as [|[y l] c2]; [done|]. intros H _. exists y. by eapply stored_suffix. Qed.
Lemma put_child_safe (O : gset lname) (s : store) (n : lname) (l : layer) (p : lname) (cp : list (lname * layer)) (Q : gset lname → store → outcome lname → Prop) :
  n ∈ O → is_Some (s !! n) → s_files s n = None → s_parent s n = Some p → stored s p cp →
  is_Some (l_neg l) → wf (l :: cp.*2) →
  (∀ s', ext ∅ s s' → good s' → stored s' n ((n, l) :: cp) → Q O s' (Ok n)) →
  safe (Put (WFiles n l) (Ret (Ok n))) O s Q.
Proof.
  intros Hn Hd Hf Hp Hcp Hneg Hw HQ. cbn [safe]. intros s' He Hg _. destruct (ext_own _ _ _ He n Hn) as [E1 E2].
  assert (is_Some (s' !! n)) as Hd' by by eapply ext_dom.
  assert (write_ok O s' (WFiles n l)) as Hwo.
  { split; [done|]. split; [done|]. split; [congruence|]. rewrite E2, Hp. split; [done|]. intros c Hc.
    apply (ext_stored _ _ _ _ _ He) in Hcp. by rewrite (stored_unique _ _ _ _ Hc Hcp). }
  split; [done|]. intros s'' He' Hg'.
  assert (ext ∅ s' (write_store (WFiles n l) s')) as He2 by (eapply write_ext; [done|set_solver]).
  apply HQ; [|done|].
  - eapply ext_trans; [by eapply ext_empty|]. eapply ext_trans; [done|by eapply ext_empty].
  - apply (ext_stored _ _ _ _ _ He'). destruct (write_files_eq s' n l Hd') as (W1 & _ & _ & W4). econstructor.
    + by rewrite W4, decide_True.
    + done.
    + rewrite W1, E2. done.
    + apply (ext_stored _ _ _ _ _ He2), (ext_stored _ _ _ _ _ He), Hcp.
Qed.
Lemma put_base_safe (O : gset lname) (s : store) (n : lname) (l : layer) (Q : gset lname → store → outcome lname → Prop) :
  n ∈ O → is_Some (s !! n) → s_files s n = None → s_parent s n = None →
  l_neg l = None → wf [l] → (l_nvmap l = None → l_pmap l = None → base_of l) →
  (∀ s', ext ∅ s s' → good s' → stored s' n [(n, l)] → Q O s' (Ok n)) →
  safe (Put (WFiles n l) (Ret (Ok n))) O s Q.
Proof.
  intros Hn Hd Hf Hp Hneg Hw Hb HQ. cbn [safe]. intros s' He Hg _. destruct (ext_own _ _ _ He n Hn) as [E1 E2].
  assert (is_Some (s' !! n)) as Hd' by by eapply ext_dom.
  assert (write_ok O s' (WFiles n l)) as Hwo.
  { split; [done|]. split; [done|]. split; [congruence|]. rewrite E2, Hp. done. }
  split; [done|]. intros s'' He' Hg'.
  assert (ext ∅ s' (write_store (WFiles n l) s')) as He2 by (eapply write_ext; [done|set_solver]).
  apply HQ; [|done|].
  - eapply ext_trans; [by eapply ext_empty|]. eapply ext_trans; [done|by eapply ext_empty].
  - apply (ext_stored _ _ _ _ _ He'). destruct (write_files_eq s' n l Hd') as (W1 & _ & _ & W4). constructor.
    + by rewrite W4, decide_True.
    + done.
    + rewrite W1, E2. done.
Qed.
Lemma alloc_safe {A : Type} (O : gset lname) (s : store) (k : lname → prog A) (Q : gset lname → store → outcome A → Prop) :
  (∀ n s', ext ∅ s s' → good s' → s !! n = None → is_Some (s' !! n) → s_files s' n = None → s_parent s' n = None →
    safe (k n) ({[n]} ∪ O) s' Q) →
  safe (Alloc k) O s Q.
Proof.
  intros Hk. cbn [safe]. intros s' n He Hg Hn. destruct (new_dir_eq n s' Hn) as (E1 & E2 & _ & _). apply Hk.
  - eapply ext_trans; [by eapply ext_empty|by apply new_dir_ext].
  - by apply new_dir_good.
  - destruct (s !! n) eqn:E; [|done]. destruct (ext_dom _ _ _ He n) as [??]; [by eauto|congruence].
  - unfold new_dir. rewrite lookup_insert. by eauto.
  - rewrite E1. unfold s_files. by rewrite Hn.
  - rewrite E2. unfold s_parent. by rewrite Hn.
Qed.

(** ** Creating layers *)
Lemma create_child_safe cached p O s : safe (create_child cached p) O s (λ O' s' r,
  match r with
  | Ok (n, L) => n ∈ O' ∧ s !! n = None ∧ is_Some (s' !! n) ∧ s_files s' n = None ∧ s_parent s' n = Some p ∧ l_name L = Some p ∧ valid s' L
  | _ => ¬ live p s
  end).
Proof.
  unfold create_child. eapply safe_bind; [apply get_existing_safe|]. intros O1 s1 r HO1 He1 Hg1 Hr. destruct r as [L|k|]; try done.
  destruct Hr as [Hn HL]. apply alloc_safe. intros n s2 He2 Hg2 Hn0 Hd Hf Hp. cbn [safe]. intros s3 He3 Hg3 _.
  destruct (ext_own _ _ _ He3 n) as [E1 E2]; [set_solver|].
  assert (is_Some (s3 !! n)) as Hd3 by by eapply ext_dom.
  assert (write_ok ({[n]} ∪ O1) s3 (WParent n p)) as Hwo.
  { split; [set_solver|]. split; [done|]. split; [congruence|]. split; [|intros l; congruence].
    destruct (valid_top _ _ _ HL Hn) as (c & Hc & _). exists c. by eapply (ext_stored _ _ _ _ _ He3), (ext_stored _ _ _ _ _ He2). }
  split; [done|]. intros s4 He4 Hg4. destruct (write_parent_eq s3 n p Hd3) as (W1 & _ & _ & W4).
  destruct (ext_own _ _ _ He4 n) as [F1 F2]; [set_solver|].
  split_and!; [set_solver| | | | |done|].
  - destruct (s !! n) eqn:E; [|done]. destruct (ext_dom _ _ _ He1 n) as [??]; [by eauto|congruence].
  - apply (ext_dom _ _ _ He4). by apply write_dom.
  - rewrite F1, W1. congruence.
  - rewrite F2, W4. by rewrite decide_True.
  - apply (valid_ext _ _ _ _ He4). eapply (valid_ext ∅); [eapply write_ext; [done|set_solver]|].
    by apply (valid_ext _ _ _ _ He3), (valid_ext _ _ _ _ He2).
Qed.

Lemma calls_ok_iff st cs : calls_ok st cs = true ↔ Forall (op_ok st) cs.
Proof. unfold calls_ok. by rewrite bool_decide_eq_true. Qed.
Lemma committed_neg_some st A R l : st ≠ [] → committed st A R l → is_Some (l_neg l).
Proof. intros Hne Hc. pose proof (cm_neg _ _ _ _ Hc) as H. rewrite decide_False in H by done. destruct H as (T & tf & _ & -> & _). by eauto. Qed.
Lemma committed_neg_none A R l : committed [] A R l → l_neg l = None.
Proof. intros Hc. pose proof (cm_neg _ _ _ _ Hc) as H. by rewrite decide_True in H. Qed.

Notation nvorder := (list (obj * nat) → list (obj * nat)).
Notation prorder := (list (str * nat) → list (str * nat)).
Definition base_post (nvord : nvorder) (prord : prorder) (cs : list op) (s0 s : store) (r : outcome lname) : Prop :=
  match r with
  | Ok n => s0 !! n = None ∧ ∃ l, stored s n [(n, l)] ∧ Forall (op_ok []) cs ∧ build nvord prord [] cs = Some [l]
  | _ => False
  end.
Lemma new_base_safe nvord prord cs O s : hash_order nvord → hash_order prord →
  safe (new_base nvord prord cs) O s (λ _ s' r, base_post nvord prord cs s s' r).
Proof.
  intros Hn Hp. unfold new_base. apply alloc_safe. intros n s' He Hg Hn0 Hd Hf Hpa. unfold build_on. cbn [safe].
  intros Hcs%calls_ok_iff. destruct (build_ok [] cs nvord prord wf_nil Hcs Hn Hp) as (l & E & Hc). rewrite E.
  pose proof (committed_wf _ _ _ _ wf_nil Hc) as Hw.
  apply put_base_safe; try done; [set_solver|by eapply committed_neg_none| |].
  - intros _ _. apply (commits_base cs). split; [done|]. by exists nvord, prord.
  - intros s'' He' Hg' Hst. split; [done|]. by exists l.
Qed.
Definition child_post (nvord : nvorder) (prord : prorder) (x : lname) (cs : list op) (s0 s : store) (r : outcome lname) : Prop :=
  match r with
  | Ok n => s0 !! n = None ∧ ∃ l cx, stored s x cx ∧ stored s n ((n, l) :: cx) ∧ Forall (op_ok cx.*2) cs ∧
      build nvord prord cx.*2 cs = Some (l :: cx.*2)
  | _ => ¬ live x s0
  end.
Lemma same_ops_ok st st' cs : wf st → wf st' → same_layer st st' → Forall (op_ok st) cs → Forall (op_ok st') cs.
Proof. intros Hw Hw' Hs H. eapply Forall_impl; [exact H|]. intros c Hc. unfold op_ok in *. by rewrite <-(same_op_vt st st'). Qed.
Lemma fmap_ne {A B} (f : A → B) l : l ≠ [] → f <$> l ≠ [].
Proof. by destruct l. Qed.
Lemma stored_ne' s x c : stored s x c → c.*2 ≠ [].
Proof. intros H. destruct (stored_ne _ _ _ H) as (? & ? & ->). done. Qed.
Lemma new_child_safe cached nvord prord x cs O s : hash_order nvord → hash_order prord →
  safe (new_child cached nvord prord x cs) O s (λ _ s' r, child_post nvord prord x cs s s' r).
Proof.
  intros Hn Hp. unfold new_child. eapply safe_bind; [apply create_child_safe|]. intros O1 s1 r HO1 He1 Hg1 Hr.
  destruct r as [[n L]|k|]; try done. destruct Hr as (Ho & Hn0 & Hd & Hf & Hpa & HnL & HL). unfold build_on. cbn [safe].
  intros Hcs%calls_ok_iff. destruct (valid_top _ _ _ HL HnL) as (cx & Hcx & Hw & Hs & _ & Hne).
  pose proof (g_wf _ Hg1 _ _ Hcx) as Hwx.
  destruct (same_commit (layers L) cx.*2 cs nvord prord nvord prord) as (l & E1 & E2 & W1 & W2 & _); try done; [by apply fmap_ne|by eapply stored_ne'|].
  rewrite E1. assert (Forall (op_ok cx.*2) cs) as Hcs' by by apply (same_ops_ok (layers L)).
  destruct (build_ok cx.*2 cs nvord prord Hwx Hcs' Hn Hp) as (l' & E & Hc). assert (l' = l) as -> by congruence.
  eapply put_child_safe; try done; [by eapply committed_neg_some; [by eapply stored_ne'|]|].
  intros s' He' Hg' Hst. split; [done|]. exists l, cx. split_and!; try done. by apply (ext_stored _ _ _ _ _ He').
Qed.

(** ** Rollups *)
Lemma rollup_dicts_shape ls nvms pms pos neg l : rollup_dicts ls nvms pms pos neg = Some l → l_neg l = neg ∧ is_Some (l_nvmap l).
Proof.
  unfold rollup_dicts. destruct (node_iters _); [|done]. destruct (value_iters _); [|done]. destruct (pred_iters _); [|done].
  cbn [mbind option_bind]. intros [= <-]. cbn. by eauto.
Qed.
Lemma rollup_shape st l : rollup st = Some l → is_Some (l_nvmap l).
Proof.
  unfold rollup. destruct (triples st); [|done]. cbn [mbind option_bind]. destruct (build_tfiles _ _); [|done]. cbn [mbind option_bind].
  intros H. by apply rollup_dicts_shape in H as [_ ?].
Qed.
Lemma rollup_upto_shape mem disk l : rollup_upto mem disk = Some l → is_Some (l_neg l).
Proof.
  unfold rollup_upto. destruct (rollup_changes _) as [[pos neg]|]; [|done]. cbn [mbind option_bind].
  intros H. apply rollup_dicts_shape in H as [-> _]. by eauto.
Qed.
Lemma imprecise_shape mem l : imprecise_rollup_upto mem = Some l → is_Some (l_neg l).
Proof.
  unfold imprecise_rollup_upto. destruct (rollup_changes _) as [[pos neg]|]; [|done]. cbn [mbind option_bind].
  intros H. apply rollup_dicts_shape in H as [-> _]. by eauto.
Qed.
Definition stands_for (s : store) (x r : lname) : Prop :=
  ∃ cx cr, stored s x cx ∧ stored s r cr ∧ same_layer cr.*2 cx.*2 ∧ (r = x ∨ shorter cr cx).
Lemma stands_for_ext O s s' x r : ext O s s' → stands_for s x r → stands_for s' x r.
Proof. intros He (cx & cr & H1 & H2 & H3). exists cx, cr. split; [by eapply ext_stored|]. split; [by eapply ext_stored|done]. Qed.
Lemma stands_for_refl s x c : stored s x c → stands_for s x x.
Proof. intros H. exists c, c. split; [done|]. split; [done|]. split; [apply same_refl|by left]. Qed.
Lemma stands_for_rollup s x r : good s → s_rollup s x = Some r → stands_for s x r.
Proof. intros Hg Hr. destruct (g_roll _ Hg _ _ Hr) as (cx & cr & ? & ? & ? & ? & _). exists cx, cr. auto. Qed.
Lemma register_safe (cached : bool) (x r : lname) (P : store → Prop) (O : gset lname) (s : store) : stands_for s x r → (∀ s s', ext ∅ s s' → P s → P s') → P s →
  safe (register_rollup cached x r) O s (λ _ s' q, q = Ok r ∧ stands_for s' x r ∧ P s').
Proof.
  intros Hst HP HPs. unfold register_rollup.
  assert (∀ s1, stands_for s1 x r → P s1 → safe (if cached then Put (WInvalidate x) (Ret (Ok r)) else Ret (Ok r)) O s1
    (λ _ s' q, q = Ok r ∧ stands_for s' x r ∧ P s')) as Hinv.
  { intros s1 Hst1 HP1. destruct cached; cbn [safe].
    - intros s2 He2 Hg2 _. split; [done|]. cbn. intros s3 He3 Hg3. split; [done|]. split.
      + by apply (stands_for_ext _ _ _ _ _ He3), (stands_for_ext _ _ _ _ _ He2).
      + apply (HP s2); [by eapply ext_empty|]. apply (HP s1); [by eapply ext_empty|done].
    - intros s2 He2 Hg2. split; [done|]. split; [by eapply stands_for_ext|]. apply (HP s1); [by eapply ext_empty|done]. }
  destruct (decide (x = r)) as [->|Hne]; [by apply Hinv|]. cbn [safe]. intros s1 He1 Hg1 Hnn.
  apply (stands_for_ext _ _ _ _ _ He1) in Hst. destruct Hst as (cx & cr & H1 & H2 & H3 & [->|H4]); [done|].
  assert (write_ok O s1 (WRollup x r)) as Hwo by by exists cx, cr.
  assert (ext ∅ s1 (write_store (WRollup x r) s1)) as He2 by (eapply write_ext; [done|set_solver]).
  split; [done|]. apply Hinv.
  - apply (stands_for_ext _ _ _ _ _ He2). exists cx, cr. auto.
  - apply (HP s1); [done|]. apply (HP s); [by eapply ext_empty|done].
Qed.
Lemma stored_single s x c : stored s x c → s_parent s x = None → ∃ l, c = [(x, l)] ∧ l_neg l = None.
Proof. inversion 1; subst; intros; [eauto|congruence]. Qed.

Lemma perform_rollup_safe L x O s : good s → l_name L = Some x → valid s L →
  safe (perform_rollup L) O s (λ _ s' q, match q with Ok r => stands_for s' x r ∧ (∃ l, stored s' r [(r, l)]) | _ => False end).
Proof.
  intros Hg HnL HL. unfold perform_rollup. assert (name_of L = x) as -> by (unfold name_of; by rewrite HnL).
  destruct (valid_top _ _ _ HL HnL) as (cx & Hcx & Hw & Hs & Hpa & Hne).
  rewrite Hpa, <-(stored_second _ _ _ Hcx). destruct (s_parent s x) as [p|] eqn:Ep.
  2: { cbn [safe]. intros s' He Hg'. destruct (stored_single _ _ _ Hcx Ep) as (l & -> & _). apply (ext_stored _ _ _ _ _ He) in Hcx.
       split; [by eapply stands_for_refl|by exists l]. }
  cbn [safe]. intros s1 c He1 Hg1 _. apply (ext_stored _ _ _ _ _ He1) in Hcx.
  match goal with |- safe (match _ with _ => _ end) _ _ ?Q0 => set (Q := Q0) end.
  match goal with |- context [Alloc ?k] => assert (safe (Alloc k) O s1 Q) as Hmake end.
  { apply alloc_safe. intros n s2 He2 Hg2 Hn0 Hd Hf Hpn. destruct (rollup_same _ Hw) as (l & E & Hneg & Hwl & Hsl). rewrite E.
    apply put_base_safe; try done; [set_solver|intros H; destruct (rollup_shape _ _ E) as [??]; congruence|].
    intros s3 He3 Hg3 Hst. split; [|by exists l]. exists cx, [(n, l)].
    split; [apply (ext_stored _ _ _ _ _ He3), (ext_stored _ _ _ _ _ He2), Hcx|]. split; [done|]. split; [cbn; by eapply same_trans|].
    right. apply (ext_parent _ _ _ He1) in Ep. destruct (stored_ne _ _ _ Hcx) as (lx & c' & ->).
    pose proof (stored_tail _ _ _ _ _ Hcx Ep) as Ht. destruct (stored_ne _ _ _ Ht) as (? & ? & ->).
    split; [cbn; lia|]. eexists. cbn. by rewrite app_nil_r. }
  destruct (s_rollup s1 x) as [r|] eqn:Er; [|done]. destruct (s_parent s1 r) as [q|] eqn:Eq; [done|].
  cbn [safe]. intros s2 He2 Hg2. pose proof (stands_for_rollup _ _ _ Hg1 Er) as Hst. split; [by eapply stands_for_ext|].
  destruct Hst as (_ & cr & _ & Hcr & _). destruct (stored_single _ _ _ Hcr Eq) as (l & -> & _). exists l. by eapply ext_stored.
Qed.
Lemma do_rollup_safe cached x O s : safe (do_rollup cached x) O s (λ _ s' q,
  match q with Ok r => stands_for s' x r ∧ (∃ l, stored s' r [(r, l)]) | _ => ¬ live x s end).
Proof.
  unfold do_rollup. eapply safe_bind; [apply get_existing_safe|]. intros O1 s1 q HO1 He1 Hg1 Hq. destruct q as [L|k|]; try done.
  destruct Hq as [HnL HL]. eapply safe_bind; [by eapply perform_rollup_safe|]. intros O2 s2 q HO2 He2 Hg2 Hq. destruct q as [r|k|]; try done.
  destruct Hq as [Hst Hr]. assert (name_of L = x) as -> by (unfold name_of; by rewrite HnL).
  eapply safe_mono; [eapply (register_safe cached x r (λ s, ∃ l, stored s r [(r, l)])); [done| |done]|].
  - intros s3 s4 He [l Hl]. exists l. by eapply ext_stored.
  - intros O' s' q HO' He' Hg' (-> & ? & ?). done.
Qed.

Lemma above_ok L b mem : above L b = Ok mem → ∃ Lb, L = mem ++ Lb ∧ l_name Lb = Some b.
Proof.
  revert mem. induction L as [|e L IH]; [done|]. cbn [above]. intros mem. destruct (decide (n_name e = b)) as [<-|Hne].
  - intros [= <-]. by exists (e :: L).
  - destruct (above L b) as [m|k|] eqn:E; try done. cbn. intros [= <-]. destruct (IH m eq_refl) as (Lb & -> & ?). by exists Lb.
Qed.
Lemma layers_upto_ok L b mem : layers_upto L b = Ok mem → ∃ Lb, L = mem ++ Lb ∧ l_name Lb = Some b.
Proof. unfold layers_upto. destruct L as [|e L]; [done|]. case_decide; [done|]. apply above_ok. Qed.

Definition upto_ok (s : store) (x upto r : lname) : Prop :=
  stands_for s x r ∧ (r = x ∨ s_parent s r = Some upto) ∧ (x = upto ∨ proper_ancestor s x upto).
Lemma proper_ext O s s' x a : ext O s s' → proper_ancestor s x a → proper_ancestor s' x a.
Proof. intros He (top & ca & H1 & H2 & H3). exists top, ca. split; [by eapply ext_stored|]. split; [by eapply ext_stored|done]. Qed.
Lemma upto_ok_ext O s s' x upto r : ext O s s' → upto_ok s x upto r → upto_ok s' x upto r.
Proof.
  intros He (H1 & H2 & H3). split; [by eapply stands_for_ext|]. split; [destruct H2; [by left|right]; by eapply ext_parent|].
  destruct H3; [by left|right]. by eapply proper_ext.
Qed.
Lemma parent_proper s x p c : stored s x c → s_parent s x = Some p → proper_ancestor s x p.
Proof.
  intros H Hp. destruct (stored_ne _ _ _ H) as (l & c' & ->). exists [(x, l)], c'. split; [done|]. split; [by eapply stored_tail|done].
Qed.
Lemma rollup_proper s x r upto : stands_for s x r → r ≠ x → s_parent s r = Some upto → proper_ancestor s x upto.
Proof.
  intros (cx & cr & H1 & H2 & _ & [->|[Hl [c1 ->]]]) Hne Hp; [done|]. destruct (stored_ne _ _ _ H2) as (l & c' & ->). cbn [tail] in *.
  exists c1, c'. split; [done|]. split; [by eapply stored_tail|]. intros ->. cbn in Hl. lia.
Qed.
Definition upto_post (x upto : lname) (s0 s : store) (q : outcome lname) : Prop :=
  match q with
  | Ok r => upto_ok s x upto r
  | _ => proper_ancestor s0 x upto → is_Some (s_rollup s x)
  end.
(** the bound of a partial rollup *)
Lemma below_sub ns y : below ns y ⊆ tail ns.
Proof.
  destruct ns as [|z ns]; [done|]. revert z. induction ns as [|w ns IH]; intros z u; cbn [below tail]; case_decide; try done.
  intros Hu. right. by apply (IH w).
Qed.
Lemma tail_sub {A} (l : list A) : tail l ⊆ l.
Proof. destruct l; [done|]. by apply list_subseteq_cons. Qed.
Lemma safe_bound_cons ns e e' L upto : safe_bound ns (e :: e' :: L) upto =
  if decide (n_name e' = upto) then upto
  else if decide (n_name e' ∈ ns) then safe_bound (below ns (n_name e')) (e' :: L) upto
  else n_name e.
Proof. done. Qed.
Lemma safe_bound_in ns L upto : L ≠ [] →
  safe_bound ns L upto ∈ n_name <$> L ∧ (safe_bound ns L upto = upto ∨ l_name L = Some (safe_bound ns L upto) ∨ safe_bound ns L upto ∈ ns).
Proof.
  revert ns. induction L as [|e L IH]; [done|]. intros ns _. destruct L as [|e' L]; [|rewrite safe_bound_cons].
  { cbn. split; [left|right; by left]. }
  destruct (decide (n_name e' = upto)) as [E|Hne]; [split; [rewrite <-E; right; left|by left]|].
  destruct (decide (n_name e' ∈ ns)) as [Hin|]; [|split; [left|right; by left]].
  destruct (IH (below ns (n_name e'))) as [H1 H2]; [done|]. set (b := safe_bound (below _ _) _ _) in *. clearbody b. split; [by right|].
  destruct H2 as [H2|[H2|H2]]; [by left|right; right; injection H2 as <-; done|right; right]. by apply tail_sub, (below_sub _ (n_name e')).
Qed.
Lemma above_total L b : b ∈ n_name <$> L → ∃ mem, above L b = Ok mem.
Proof.
  induction L as [|e L IH]; [by intros ?%elem_of_nil|]. cbn [above]. intros Hb. case_decide as Hd; [by eexists|].
  destruct IH as [m ->]; [|by eexists]. rewrite fmap_cons in Hb. apply elem_of_cons in Hb as [->|]; done.
Qed.
Lemma bound_ok s L x c1 cu upto : valid s L → l_name L = Some x → stored s x (c1 ++ cu) → stored s upto cu → c1 ≠ [] →
  is_Some (s_rollup s x) ∨ let b := safe_bound c1.*1 L upto in
    (∃ mem, layers_upto L b = Ok mem) ∧ ∃ d1, stored s b (d1 ++ cu).
Proof.
  intros HL Hn Hx Hu Hne. destruct L as [|e L]; [done|]. injection Hn as <-.
  destruct HL as [(c & H1 & _ & _ & H4 & H5 & H6) HL]. pose proof (stored_unique _ _ _ _ H1 Hx) as ->.
  destruct (n_rollup e); [left; auto|right]. destruct (H5 eq_refl) as [_ Hl'].
  destruct c1 as [|[x0 l0] c1]; [done|]. pose proof (stored_head _ _ _ _ Hx) as [E0 _]. cbn in E0. subst x0. clear Hne.
  assert (∃ p, fst <$> head (c1 ++ cu) = Some p ∧ (p = upto ∨ p ∈ c1.*1)) as (p & Ep & Hp).
  { destruct c1 as [|[p l] c1]; [destruct (stored_ne _ _ _ Hu) as (? & ? & ->); exists upto; split; [done|by left]|].
    exists p. split; [done|]. right. left. }
  assert (n_parent e = Some p) as Hpe by (rewrite H4, <-Ep; cbn; by destruct (c1 ++ cu)).
  rewrite Hpe in Hl'. destruct L as [|e' L]; [done|]. injection Hl' as Epp. rewrite <-Epp in Ep, Hp. clear p Hpe Epp.
  pose proof (stored_nodup _ _ _ Hx) as Hnd. cbn in Hnd. apply NoDup_cons in Hnd as [Hnx _]. rewrite fmap_app in Hnx.
  assert (upto ∈ cu.*1) as Huu by (destruct (stored_ne _ _ _ Hu) as (? & ? & ->); left).
  assert (let b := safe_bound ((n_name e, l0) :: c1).*1 (e :: e' :: L) upto in
    b ∈ n_name <$> e' :: L ∧ (b = upto ∨ b ∈ c1.*1)) as [B1 B2].
  { rewrite safe_bound_cons. cbn zeta. destruct (decide (n_name e' = upto)) as [E|Hne]; [split; [rewrite <-E; left|by left]|].
    destruct Hp as [?|Hp]; [done|]. rewrite decide_True by (by right).
    destruct (safe_bound_in (below ((n_name e, l0) :: c1).*1 (n_name e')) (e' :: L) upto) as [H H']; [done|]. set (b := safe_bound (below _ _) _ _) in *. clearbody b. split; [done|].
    destruct H' as [?|[[= <-]|H']]; [by left|by right|]. right. by apply below_sub in H'. }
  set (b := safe_bound _ _ _) in *. clearbody b. cbn beta zeta in *.
  assert (n_name e ≠ b) as Hxb.
  { intros E. rewrite E in Hnx. apply Hnx, elem_of_app. destruct B2 as [->|?]; [by right|by left]. }
  split.
  - unfold layers_upto. rewrite decide_False by done. apply above_total. by right.
  - destruct B2 as [->|B2]; [by exists []|]. apply elem_of_list_fmap in B2 as ([b' l] & -> & (c2 & c3 & ->)%elem_of_list_split).
    exists ((b', l) :: c3). cbn [fst]. eapply (stored_suffix s (n_name e) ((n_name e, l0) :: c2)). cbn in Hx |- *. by rewrite <-app_assoc in Hx.
Qed.
Lemma shortcut_safe (L : loaded) (x : lname) (cx : list (lname * layer)) (upto : lname) (O : gset lname) (s : store) (make : prog lname) (Q := λ (_ : gset lname) (s' : store) (q : outcome lname), upto_post x upto s s' q) :
  l_name L = Some x → valid s L → stored s x cx →
  (∀ s', ext O s s' → good s' → fst <$> cx !! 1 ≠ Some upto → x ≠ upto → safe make O s' Q) →
  safe (upto_shortcut L upto (λ r, Ret (Ok r)) make) O s Q.
Proof.
  intros HnL HL Hcx Hmake. unfold upto_shortcut. assert (name_of L = x) as -> by (unfold name_of; by rewrite HnL).
  destruct (valid_top _ _ _ HL HnL) as (cx' & Hcx' & Hw & Hs & Hpa & Hne). pose proof (stored_unique _ _ _ _ Hcx Hcx') as <-.
  assert (x = upto ∨ proper_ancestor s x upto → safe (Ret (Ok x)) O s Q) as Hself.
  { intros Hu. cbn. intros s' He Hg. split; [|split; [by left|]].
    - eapply stands_for_refl. by eapply ext_stored.
    - destruct Hu as [->|Hu]; [by left|right]. by eapply proper_ext. }
  destruct (decide (x = upto)) as [|Hxu]; [by apply Hself; left|]. destruct (decide (l_parent L = Some upto)) as [Hpu|Hpu];
    [apply Hself; right; rewrite Hpa, <-(stored_second _ _ _ Hcx) in Hpu; by eapply parent_proper|].
  cbn [safe]. intros s1 c He1 Hg1 _. rewrite Hpa in Hpu.
  destruct (s_rollup s1 x) as [r|] eqn:Er; [|by apply Hmake]. destruct (s_parent s1 r) as [q|] eqn:Eq;
    [|intros s2 He2 Hg2 _; apply (ext_rollup _ _ _ He2); by eexists].
  destruct (decide (q = upto)) as [->|]; [|by apply Hmake]. cbn [safe]. intros s2 He2 Hg2. apply (upto_ok_ext _ _ _ _ _ _ He2).
  pose proof (stands_for_rollup _ _ _ Hg1 Er) as Hst. split; [done|]. split; [by right|]. right.
  destruct (decide (r = x)) as [->|Hrx]; [|by eapply rollup_proper]. by eapply parent_proper; [eapply ext_stored|].
Qed.
Lemma layers_app L L' : layers (L ++ L') = layers L ++ layers L'.
Proof. apply fmap_app. Qed.
(** the loaded layers above a bound, on top of the layers of the bound as they are on disk *)
Lemma valid_split s mem Lb b x cx : good s → valid s (mem ++ Lb) → l_name (mem ++ Lb) = Some x → l_name Lb = Some b → stored s x cx →
  ∃ cb, stored s b cb ∧ wf (layers mem ++ cb.*2) ∧ same_layer (layers mem ++ cb.*2) cx.*2.
Proof.
  intros Hg HL Hn Hb Hcx. destruct (valid_top _ _ _ HL Hn) as (cx' & Hcx' & Hw & Hs & _ & _).
  pose proof (stored_unique _ _ _ _ Hcx Hcx') as <-.
  destruct (valid_top _ _ _ (valid_app _ _ _ HL) Hb) as (cb & Hcb & Hwb & Hsb & _ & _). exists cb. split; [done|].
  rewrite layers_app in Hw, Hs. destruct (same_app _ _ cb.*2 Hw) as [W1 W2]; [by eapply g_wf|done|]. split; [done|].
  eapply same_trans; [by apply same_sym|done].
Qed.
Lemma perform_upto_safe cached L x upto O s : l_name L = Some x → valid s L →
  safe (perform_rollup_upto cached L upto) O s (λ _ s' q, upto_post x upto s s' q).
Proof.
  intros HnL HL. unfold perform_rollup_upto. destruct (valid_top _ _ _ HL HnL) as (cx & Hcx & _).
  apply (shortcut_safe _ _ cx); [done|done|done|]. intros s1 He1 Hg1 Hpu Hxu.
  apply (valid_ext _ _ _ _ He1) in HL. apply (ext_stored _ _ _ _ _ He1) in Hcx.
  assert (proper_ancestor s x upto → proper_ancestor s1 x upto) as Hpr by apply (proper_ext _ _ _ _ _ He1).
  eapply safe_bind; [apply create_child_safe|]. intros O2 s2 q HO2 He2 Hg2 Hq.
  assert (¬ live upto s1 → ¬ proper_ancestor s x upto) as Hnl by (intros Hnl (? & ? & _ & Hu & _)%Hpr; apply Hnl; by eexists).
  destruct q as [[n Lu]|k|]; [|by intros ?%Hnl..]. clear Hnl.
  destruct Hq as (Ho & Hn0 & Hd & Hf & Hpn & HnU & HU).
  cbn [safe]. intros s3 c3 He3 Hg3 _. assert (name_of L = x) as -> by (unfold name_of; by rewrite HnL).
  assert (ext ∅ s1 s3) as H13 by (eapply ext_trans; [done|by eapply ext_empty]).
  apply (valid_ext _ _ _ _ H13) in HL. apply (ext_stored _ _ _ _ _ H13) in Hcx.
  assert (∀ s', s' = s3 → ¬ (∃ ns, names_upto (fuel_of s3) s3 x upto = Ok ns) → ¬ proper_ancestor s x upto) as Hnl.
  { intros _ _ Hno (top & ca & Hx & Hu & Hne)%Hpr%(proper_ext _ _ _ _ _ H13). apply Hno. destruct (stored_ne _ _ _ Hu) as (l & cu' & ->).
    apply stored_ancestry in Hx. rewrite fmap_app in Hx. pose proof (ancestry_length _ _ _ Hx) as Hlen. rewrite app_length in Hlen. cbn in Hlen, Hx.
    exists top.*1. eapply names_upto_total; [exact Hx|by apply fmap_ne|cbn in *; lia]. }
  destruct (names_upto (fuel_of s3) s3 x upto) as [ns|k|] eqn:Ens;
    [|by cbn [pbind safe]; intros ? _ _ ?; destruct (Hnl s3 eq_refl); [by intros [? ?]|]..]. cbn [pbind]. clear Hnl.
  destruct (names_upto_ok _ _ _ _ _ _ Ens Hcx) as (c1 & cu & -> & <- & Hc1 & Hcu).
  assert (2 ≤ length c1) as Hlen.
  { destruct c1 as [|? [|]]; [done| |cbn; lia]. destruct (stored_ne _ _ _ Hcu) as (? & ? & ->). by destruct Hpu. }
  cbn [safe]. intros s4 c4 He4 Hg4 _.
  apply (valid_ext _ _ _ _ He4) in HL. apply (ext_stored _ _ _ _ _ He4) in Hcx. apply (ext_stored _ _ _ _ _ He4) in Hcu.
  pose proof (bound_ok s4 L x c1 cu upto HL HnL Hcx Hcu Hc1) as Hbok. set (b := safe_bound c1.*1 L upto) in *. clearbody b. cbn zeta in Hbok.
  assert (∀ (Q : Prop) s', ext O2 s4 s' → (is_Some (s_rollup s' x) → Q) →
    (¬ ((∃ mem, layers_upto L b = Ok mem) ∧ ∃ d1, stored s4 b (d1 ++ cu)) → Q)) as Hfail.
  { intros Q s' He Hq Hno. destruct Hbok as [Hr|Hb]; [|done]. by apply Hq, (ext_rollup _ _ _ He). }
  assert (∀ d1, stored s4 b (d1 ++ cu) → walk_upto (fuel_of s4) s4 b upto = Ok d1.*1) as Hwalk.
  { intros d1 Hb%stored_ancestry. rewrite fmap_app in Hb. destruct (stored_ne _ _ _ Hcu) as (l & cu' & ->).
    pose proof (ancestry_length _ _ _ Hb) as Hl. rewrite app_length in Hl. cbn in Hl, Hb. eapply walk_upto_total; [exact Hb|cbn in *; lia]. }
  destruct (walk_upto (fuel_of s4) s4 b upto) as [ds|k|] eqn:Eds;
    [|cbn [obind pbind safe]; intros s' He _ _; apply (Hfail _ s' He); [done|intros (_ & d1 & Hb); by specialize (Hwalk d1 Hb)]..]. cbn [obind].
  assert (∀ d1, stored s4 b (d1 ++ cu) → disk_layers s4 ds = Ok d1.*2) as Hdisk.
  { intros d1 Hb. specialize (Hwalk d1 Hb). injection Hwalk as ->. apply disk_layers_total.
    apply stored_files in Hb. by apply Forall_app in Hb as [??]. }
  destruct (disk_layers s4 ds) as [disk|k|] eqn:Edisk;
    [|cbn [obind pbind safe]; intros s' He _ _; apply (Hfail _ s' He); [done|intros (_ & d1 & Hb); by specialize (Hdisk d1 Hb)]..]. cbn [pbind].
  destruct (layers_upto L b) as [mem|k|] eqn:Emem;
    [|cbn [obind pbind safe]; intros s' He _ _; apply (Hfail _ s' He); [done|intros ([mem Hb] & _); done]..]. clear Hfail Hwalk Hdisk Hbok.
  cbn [pbind]. cbn [safe]. intros Hm%bool_decide_eq_true.
  destruct (layers_upto_ok _ _ _ Emem) as (Lb & -> & HnB).
  destruct (valid_split s4 mem Lb b x _ Hg4 HL HnL HnB Hcx) as (cb & Hcb & Hwm & Hsm).
  destruct (walk_upto_ok _ _ _ _ _ _ Eds Hcb) as (d1 & cu' & -> & <- & Hcu'). rewrite (stored_unique _ _ _ _ Hcu' Hcu) in *. clear cu' Hcu'.
  apply disk_layers_ok in Edisk as ->. 2: { pose proof (stored_files _ _ _ Hcb) as Hx. by apply Forall_app in Hx as [??]. }
  rewrite fmap_app in Hwm, Hsm. destruct (rollup_upto_same _ _ _ Hwm Hm) as (l & E & Hwl & Hsl). rewrite E.
  assert (ext O2 s2 s4) as H24 by by eapply ext_trans.
  destruct (ext_own _ _ _ H24 n Ho) as [E1 E2].
  eapply (put_child_safe _ _ _ _ upto cu); [done|by eapply ext_dom|congruence|congruence|done|by eapply rollup_upto_shape|done|].
  intros s5 He5 Hg5 Hst. apply (ext_stored _ _ _ _ _ He5) in Hcx. split.
  - exists (c1 ++ cu), ((n, l) :: cu). split; [done|]. split; [done|]. split; [cbn; by eapply same_trans|].
    right. split; [rewrite app_length; cbn; lia|by exists c1].
  - split; [right; rewrite (stored_parent _ _ _ _ Hst); by destruct (stored_ne _ _ _ Hcu) as (? & ? & ->)|right].
    exists c1, cu. split; [done|]. split; [|done]. by apply (ext_stored _ _ _ _ _ He5).
Qed.
Lemma perform_imprecise_safe cached L x upto O s : l_name L = Some x → valid s L →
  safe (perform_imprecise cached L upto) O s (λ _ s' q, upto_post x upto s s' q).
Proof.
  intros HnL HL. unfold perform_imprecise. destruct (valid_top _ _ _ HL HnL) as (cx & Hcx & _).
  apply (shortcut_safe _ _ cx); [done|done|done|]. intros s1 He1 Hg1 Hpu Hxu.
  apply (valid_ext _ _ _ _ He1) in HL. apply (ext_stored _ _ _ _ _ He1) in Hcx.
  assert (proper_ancestor s x upto → proper_ancestor s1 x upto) as Hpr by apply (proper_ext _ _ _ _ _ He1).
  eapply safe_bind; [apply create_child_safe|]. intros O2 s2 q HO2 He2 Hg2 Hq.
  assert (¬ live upto s1 → ¬ proper_ancestor s x upto) as Hnl by (intros Hnl (? & ? & _ & Hu & _)%Hpr; apply Hnl; by eexists).
  destruct q as [[n Lu]|k|]; [|by intros ?%Hnl..]. clear Hnl.
  destruct Hq as (Ho & Hn0 & Hd & Hf & Hpn & HnU & HU).
  cbn [safe]. intros s3 c3 He3 Hg3 _. assert (name_of L = x) as -> by (unfold name_of; by rewrite HnL).
  assert (ext ∅ s1 s3) as H13 by (eapply ext_trans; [done|by eapply ext_empty]).
  apply (valid_ext _ _ _ _ H13) in HL. apply (ext_stored _ _ _ _ _ H13) in Hcx.
  assert (∀ s', s' = s3 → ¬ (∃ ns, names_upto (fuel_of s3) s3 x upto = Ok ns) → ¬ proper_ancestor s x upto) as Hnl.
  { intros _ _ Hno (top & ca & Hx & Hu & Hne)%Hpr%(proper_ext _ _ _ _ _ H13). apply Hno. destruct (stored_ne _ _ _ Hu) as (l & cu' & ->).
    apply stored_ancestry in Hx. rewrite fmap_app in Hx. pose proof (ancestry_length _ _ _ Hx) as Hlen. rewrite app_length in Hlen. cbn in Hlen, Hx.
    exists top.*1. eapply names_upto_total; [exact Hx|by apply fmap_ne|cbn in *; lia]. }
  destruct (names_upto (fuel_of s3) s3 x upto) as [ns|k|] eqn:Ens;
    [|by cbn [pbind safe]; intros ? _ _ ?; destruct (Hnl s3 eq_refl); [by intros [? ?]|]..]. cbn [pbind]. clear Hnl.
  destruct (names_upto_ok _ _ _ _ _ _ Ens Hcx) as (c1 & cu & -> & <- & Hc1 & Hcu).
  assert (2 ≤ length c1) as Hlen.
  { destruct c1 as [|? [|]]; [done| |cbn; lia]. destruct (stored_ne _ _ _ Hcu) as (? & ? & ->). by destruct Hpu. }
  cbn [safe]. intros Hb%bool_decide_eq_true.
  pose proof (bound_ok s3 L x c1 cu upto HL HnL Hcx Hcu Hc1) as Hbok. cbn zeta in Hbok. rewrite Hb in Hbok |- *. clear Hb.
  assert (∀ (Q : Prop) s', ext O2 s3 s' → (is_Some (s_rollup s' x) → Q) → (¬ (∃ mem, layers_upto L upto = Ok mem) → Q)) as Hfail.
  { intros Q s' He Hq Hno. destruct Hbok as [Hr|[Hb _]]; [|done]. by apply Hq, (ext_rollup _ _ _ He). }
  destruct (layers_upto L upto) as [mem|k|] eqn:Emem;
    [|cbn [obind pbind safe]; intros s' He _ _; apply (Hfail _ s' He); [done|intros [mem Hb]; done]..]. clear Hfail Hbok. cbn [pbind].
  destruct (layers_upto_ok _ _ _ Emem) as (Lb & -> & HnB).
  destruct (valid_split s3 mem Lb upto x _ Hg3 HL HnL HnB Hcx) as (cb & Hcb & Hwm & Hsm).
  rewrite (stored_unique _ _ _ _ Hcb Hcu) in *.
  destruct (imprecise_rollup_same _ _ Hwm) as (l & E & Hwl & Hsl). rewrite E.
  destruct (ext_own _ _ _ He3 n Ho) as [E1 E2].
  eapply (put_child_safe _ _ _ _ upto cu); [done|by apply (ext_dom _ _ _ He3)|congruence|congruence|done|by eapply imprecise_shape|done|].
  intros s5 He5 Hg5 Hst. apply (ext_stored _ _ _ _ _ He5) in Hcx. split.
  - exists (c1 ++ cu), ((n, l) :: cu). split; [done|]. split; [done|]. split; [cbn; by eapply same_trans|].
    right. split; [rewrite app_length; cbn; lia|by exists c1].
  - split; [right; rewrite (stored_parent _ _ _ _ Hst); by destruct (stored_ne _ _ _ Hcu) as (? & ? & ->)|right].
    exists c1, cu. split; [done|]. split; [|done]. by apply (ext_stored _ _ _ _ _ He5).
Qed.
Lemma do_rollup_upto_safe cached x upto O s : safe (do_rollup_upto cached x upto) O s (λ _ s' q, upto_post x upto s s' q).
Proof.
  unfold do_rollup_upto. eapply safe_bind; [apply get_existing_safe|]. intros O1 s1 q HO1 He1 Hg1 Hq.
  assert (¬ live x s → ¬ proper_ancestor s x upto) as Hnl by (intros Hnl (? & ? & ? & _); apply Hnl; by eexists).
  destruct q as [L|k|]; [|by intros ?%Hnl..].
  destruct Hq as [HnL HL]. eapply safe_bind; [by eapply perform_upto_safe|]. intros O2 s2 q HO2 He2 Hg2 Hq.
  destruct q as [r|k|]; [|intros ?; apply Hq; by apply (proper_ext _ _ _ _ _ He1)..].
  assert (name_of L = x) as -> by (unfold name_of; by rewrite HnL).
  eapply safe_mono; [eapply (register_safe cached x r (λ s, upto_ok s x upto r)); [apply Hq| |done]|].
  - intros s3 s4 He. by eapply upto_ok_ext.
  - intros O' s' q HO' He' Hg' (-> & ? & ?). done.
Qed.
Lemma do_imprecise_safe cached x upto O s : safe (do_imprecise cached x upto) O s (λ _ s' q, upto_post x upto s s' q).
Proof.
  unfold do_imprecise. eapply safe_bind; [apply get_existing_safe|]. intros O1 s1 q HO1 He1 Hg1 Hq.
  assert (¬ live x s → ¬ proper_ancestor s x upto) as Hnl by (intros Hnl (? & ? & ? & _); apply Hnl; by eexists).
  destruct q as [L|k|]; [|by intros ?%Hnl..].
  destruct Hq as [HnL HL]. eapply safe_bind; [by eapply perform_imprecise_safe|]. intros O2 s2 q HO2 He2 Hg2 Hq.
  destruct q as [r|k|]; [|intros ?; apply Hq; by apply (proper_ext _ _ _ _ _ He1)..].
  assert (name_of L = x) as -> by (unfold name_of; by rewrite HnL).
  eapply safe_mono; [eapply (register_safe cached x r (λ s, upto_ok s x upto r)); [apply Hq| |done]|].
  - intros s3 s4 He. by eapply upto_ok_ext.
  - intros O' s' q HO' He' Hg' (-> & ? & ?). done.
Qed.

(** ** Squashing and merging *)
Lemma same_holds st st' vt : same_layer st st' → holds st vt ↔ holds st' vt.
Proof.
  intros Hs. unfold holds. split; intros (u & H1 & H2); exists u.
  - by rewrite <-(same_den _ _ _ _ Hs), <-(sl_view _ _ Hs).
  - by rewrite (same_den _ _ _ _ Hs), (sl_view _ _ Hs).
Qed.
Lemma same_squash st st' : wf st → wf st' → same_layer st st' →
  ∃ l V, squash st = Some l ∧ squash st' = Some l ∧ committed [] V [] l.
Proof.
  intros Hw Hw' Hs. destruct (shown_list st Hw) as [V HV]. destruct (squash_committed st V Hw HV) as (l & E & Hc).
  destruct (squash_committed st' V Hw') as (l' & E' & Hc'); [intros vt; by rewrite HV, same_holds|].
  exists l, V. split; [done|]. split; [|done]. rewrite E'. f_equal. by eapply committed_unique; [apply wf_nil|..].
Qed.
Definition squash_post (x : lname) (s0 s : store) (q : outcome lname) : Prop :=
  match q with
  | Ok n => s0 !! n = None ∧ ∃ cx l, stored s x cx ∧ stored s n [(n, l)] ∧ squash cx.*2 = Some l
  | _ => ¬ live x s0
  end.
Lemma do_squash_safe cached x O s : safe (do_squash cached x) O s (λ _ s' q, squash_post x s s' q).
Proof.
  unfold do_squash. eapply safe_bind; [apply get_existing_safe|]. intros O1 s1 q HO1 He1 Hg1 Hq. destruct q as [L|k|]; try done.
  destruct Hq as [HnL HL]. destruct (valid_top _ _ _ HL HnL) as (cx & Hcx & Hw & Hs & _).
  destruct (same_squash _ cx.*2 Hw) as (l & V & E & E' & Hc); [by eapply g_wf|done|]. rewrite E.
  apply alloc_safe. intros n s2 He2 Hg2 Hn0 Hd Hf Hp.
  apply put_base_safe; try done; [set_solver|by eapply committed_neg_none|by eapply committed_wf; [apply wf_nil|]|intros; by exists V|].
  intros s3 He3 Hg3 Hst. split; [destruct (s !! n) eqn:Es; [destruct (ext_dom _ _ _ He1 n) as [??]; [by eauto|congruence]|done]|].
  exists cx, l. split; [apply (ext_stored _ _ _ _ _ He3), (ext_stored _ _ _ _ _ He2), Hcx|done].
Qed.
Definition squash_upto_post (x upto : lname) (s0 s : store) (q : outcome lname) : Prop :=
  match q with
  | Ok n => s0 !! n = None ∧ ∃ top cu l, stored s x (top ++ cu) ∧ stored s upto cu ∧ top ≠ [] ∧ stored s n ((n, l) :: cu) ∧
      squash_upto top.*2 cu.*2 = Some l
  | _ => ¬ proper_ancestor s0 x upto
  end.
Lemma do_squash_upto_safe cached x upto O s : safe (do_squash_upto cached x upto) O s (λ _ s' q, squash_upto_post x upto s s' q).
Proof.
  unfold do_squash_upto. eapply safe_bind; [apply get_existing_safe|]. intros O1 s1 q HO1 He1 Hg1 Hq.
  assert (¬ live x s → ¬ proper_ancestor s x upto) as Hnl by (intros Hn (? & ? & ? & _); apply Hn; by eexists).
  destruct q as [L|k|]; [|by apply Hnl..]. clear Hnl.
  destruct Hq as [HnL HL]. cbn [safe]. intros s2 c2 He2 Hg2 _.
  assert ((∃ top cu, stored s x (top ++ cu) ∧ stored s upto cu ∧ top ≠ []) → ∃ top cu,
    stored s2 x (top ++ cu) ∧ stored s2 upto cu ∧ top ≠ []) as Hlive.
  { intros (top & cu & ? & ? & ?). exists top, cu. split; [|split; [|done]]; by apply (ext_stored _ _ _ _ _ He2), (ext_stored _ _ _ _ _ He1). }
  assert (∀ s' : store, (¬ ∃ top cu, stored s2 x (top ++ cu) ∧ stored s2 upto cu ∧ top ≠ []) →
    ¬ proper_ancestor s x upto) as Hfail.
  { intros s' Hn Hl. by apply Hn, Hlive. }
  destruct (s2 !! upto) as [du|] eqn:Eu; [|cbn [safe pbind lift obind]; intros s' _ _; apply (Hfail s'); intros (top & cu & _ & [? Hd]%stored_is_dom & _); congruence].
  destruct (valid_top _ _ _ HL HnL) as (cx & Hcx & Hw & Hs & _). apply (ext_stored _ _ _ _ _ He2) in Hcx.
  assert (name_of L = x) as -> by (unfold name_of; by rewrite HnL).
  assert (∀ cu, stored s2 upto cu → walk (fuel_of s2) s2 upto = Some cu.*1) as Hwalk.
  { intros cu Hcu%stored_ancestry. apply walk_total; [done|by eapply ancestry_length]. }
  destruct (walk (fuel_of s2) s2 upto) as [bs|] eqn:Ew; [|cbn [safe pbind lift obind]; intros s' _ _; apply (Hfail s'); intros (top & cu & _ & Hcu & _); by specialize (Hwalk cu Hcu)]. cbn [lift pbind].
  assert (∀ cu, stored s2 upto cu → disk_layers s2 bs = Ok cu.*2) as Hdisk.
  { intros cu Hcu. specialize (Hwalk cu Hcu). injection Hwalk as ->. by eapply disk_layers_total, stored_files. }
  destruct (disk_layers s2 bs) as [base|k|] eqn:Eb; [|cbn [safe pbind lift obind]; intros s' _ _; apply (Hfail s'); intros (top & cu & _ & Hcu & _); by specialize (Hdisk cu Hcu)..]. cbn [pbind].
  assert (∀ top cu, stored s2 x (top ++ cu) → stored s2 upto cu → top ≠ [] → names_upto (fuel_of s2) s2 x upto = Ok top.*1) as Hnames.
  { intros top cu Hx Hcu Hne. destruct (stored_ne _ _ _ Hcu) as (l & cu' & ->). apply stored_ancestry in Hx. rewrite fmap_app in Hx.
    pose proof (ancestry_length _ _ _ Hx) as Hlen. rewrite app_length in Hlen. cbn in Hlen, Hx.
    eapply names_upto_total; [exact Hx|by apply fmap_ne|cbn in *; lia]. }
  destruct (names_upto (fuel_of s2) s2 x upto) as [ns|k|] eqn:Ens;
    [|cbn [safe pbind lift obind]; intros s' _ _; apply (Hfail s'); intros (top & cu & Hx & Hcu & Hne); by specialize (Hnames top cu Hx Hcu Hne)..]. cbn [obind].
  assert (∀ top cu, stored s2 x (top ++ cu) → stored s2 upto cu → top ≠ [] → disk_layers s2 ns = Ok top.*2) as Htop.
  { intros top cu Hx Hcu Hne. specialize (Hnames top cu Hx Hcu Hne). injection Hnames as ->. apply disk_layers_total.
    apply stored_files in Hx. by apply Forall_app in Hx as [??]. }
  destruct (disk_layers s2 ns) as [top|k|] eqn:Et;
    [|cbn [safe pbind lift obind]; intros s' _ _; apply (Hfail s'); intros (top & cu & Hx & Hcu & Hne); by specialize (Htop top cu Hx Hcu Hne)..]. cbn [pbind].
  clear Hwalk Hdisk Hnames Htop Hfail Hlive.
  destruct (names_upto_ok _ _ _ _ _ _ Ens Hcx) as (c1 & cu & -> & <- & Hc1 & Hcu).
  apply (walk_ok _ _ _ _ _ Ew) in Hcu as Ebs. subst bs.
  apply disk_layers_ok in Eb as ->; [|by eapply stored_files].
  apply disk_layers_ok in Et as ->. 2: { pose proof (stored_files _ _ _ Hcx) as Hx. by apply Forall_app in Hx as [??]. }
  pose proof (g_wf _ Hg2 _ _ Hcx) as Hwx. rewrite fmap_app in Hwx. pose proof (g_wf _ Hg2 _ _ Hcu) as Hwu.
  destruct (shown_ok _ Hwx) as (T & ET & _). destruct (shown_ok _ Hwu) as (T0 & ET0 & _).
  destruct (squash_upto_answers _ _ T T0 id id Hwx) as (l & E & _ & Hbuild); [by eapply stored_ne'|done|done|by intros m|by intros m|].
  destruct (added_values cu.*2 (filter (λ vt, vt ∉ T0) T)) as (_ & _ & _ & _ & Hok1 & _).
  destruct (added_values cu.*2 (filter (λ vt, vt ∉ T) T0)) as (_ & _ & _ & _ & _ & Hok2).
  destruct (build_ok cu.*2 _ id id Hwu (proj2 (Forall_app _ _ _) (conj Hok1 Hok2))) as (l' & E' & Hc); [by intros m|by intros m|].
  rewrite Hbuild in E'. injection E' as <-. pose proof (committed_wf _ _ _ _ Hwu Hc) as Hwl.
  pose proof (committed_neg_some _ _ _ _ (stored_ne' _ _ _ Hcu) Hc) as Hneg.
  apply alloc_safe. intros n s3 He3 Hg3 Hn0 Hd Hf Hp. rewrite E. cbn [safe]. intros s4 He4 Hg4 _.
  destruct (ext_own _ _ _ He4 n) as [E1 E2]; [set_solver|].
  apply (ext_dom _ _ _ He4) in Hd.
  assert (write_ok ({[n]} ∪ O1) s4 (WFiles n l)) as Hwo.
  { split; [set_solver|]. split; [done|]. split; [congruence|]. rewrite E2, Hp. intros Hnone. destruct Hneg. congruence. }
  split; [done|]. intros s5 He5 Hg5 _. destruct (ext_own _ _ _ He5 n) as [F1 F2]; [set_solver|].
  destruct (write_files_eq s4 n l Hd) as (W1 & _ & _ & W4). rewrite W4, decide_True in F1 by done. rewrite W1, E2, Hp in F2.
  assert (ext ∅ s4 (write_store (WFiles n l) s4)) as He45 by (eapply write_ext; [done|set_solver]).
  assert (ext ∅ s2 s5) as H25.
  { eapply ext_trans; [done|]. eapply ext_trans; [by eapply ext_empty|]. eapply ext_trans; [done|by eapply ext_empty]. }
  apply (ext_stored _ _ _ _ _ H25) in Hcu. apply (ext_stored _ _ _ _ _ H25) in Hcx.
  assert (is_Some (s5 !! n)) as Hd5 by (apply (ext_dom _ _ _ He5); by apply write_dom).
  assert (write_ok ({[n]} ∪ O1) s5 (WParent n upto)) as Hwo5.
  { split; [set_solver|]. split; [done|]. split; [done|]. split; [by exists cu|]. intros k Hk. assert (k = l) as -> by congruence.
    split; [done|]. intros c Hcc. by rewrite (stored_unique _ _ _ _ Hcc Hcu). }
  split; [done|]. intros s6 He6 Hg6. assert (ext ∅ s5 (write_store (WParent n upto) s5)) as He56 by (eapply write_ext; [done|set_solver]).
  assert (∀ y c, stored s5 y c → stored s6 y c) as Hup.
  { intros y c Hy. by apply (ext_stored _ _ _ _ _ He6), (ext_stored _ _ _ _ _ He56). }
  split.
  { destruct (s !! n) eqn:Es; [|done]. destruct (ext_dom _ _ _ He1 n) as [? Hx]; [by eauto|].
    destruct (ext_dom _ _ _ He2 n) as [??]; [by eauto|congruence]. }
  exists c1, cu, l. split; [by apply Hup|]. split; [by apply Hup|]. split; [done|]. split; [|done].
  apply (ext_stored _ _ _ _ _ He6). destruct (write_parent_eq s5 n upto Hd5) as (V1 & _ & _ & V4). econstructor.
  - by rewrite V1.
  - done.
  - by rewrite V4, decide_True.
  - by apply (ext_stored _ _ _ _ _ He56).
Qed.
Definition merge_post (xs : list lname) (s0 s : store) (q : outcome lname) : Prop :=
  match q with
  | Ok n => s0 !! n = None ∧ ∃ ls l, Forall2 (λ x l, stored s x [(x, l)]) xs ls ∧ Forall base_of ls ∧ merge_base_layers ls = Some l ∧ stored s n [(n, l)]
  | _ => ¬ Forall (λ x, ∃ l, stored s0 x [(x, l)]) xs
  end.
Lemma merge_inputs_ok s xs ls : good s → merge_inputs s xs = Ok ls → Forall2 (λ x l, stored s x [(x, l)]) xs ls.
Proof.
  intros Hg. revert ls. induction xs as [|x xs IH]; intros ls; cbn [merge_inputs]; [intros [= <-]; constructor|].
  destruct (s_parent s x) eqn:Ep; [done|]. destruct (base_files s x) as [l|] eqn:Eb; [|done].
  destruct (merge_inputs s xs) as [ls'|k|] eqn:E; try done. cbn. intros [= <-]. constructor; [|by apply IH].
  apply base_files_iff in Eb as [??]. by constructor.
Qed.
Lemma merge_inputs_total s xs : Forall (λ x, ∃ l, stored s x [(x, l)]) xs → ∃ ls, merge_inputs s xs = Ok ls.
Proof.
  induction 1 as [|x xs [l Hx] _ [ls IH]]; [by exists []|]. cbn [merge_inputs].
  assert (s_parent s x = None ∧ base_files s x = Some l) as [-> ->].
  { inversion Hx; subst; [by rewrite base_files_iff|]. match goal with H : stored _ _ [] |- _ => inversion H end. }
  rewrite IH. by exists (l :: ls).
Qed.
Lemma do_merge_safe xs O s : safe (do_merge xs) O s (λ _ s' q, merge_post xs s s' q).
Proof.
  unfold do_merge. cbn [safe]. intros s1 c1 He1 Hg1 _.
  assert (Forall (λ x, ∃ l, stored s x [(x, l)]) xs → ∃ ls, merge_inputs s1 xs = Ok ls) as Hlive.
  { intros Hf. eapply merge_inputs_total, Forall_impl; [exact Hf|]. intros x [l Hx]. exists l. by apply (ext_stored _ _ _ _ _ He1). }
  destruct (merge_inputs s1 xs) as [ls|k|] eqn:E; [|intros s2 _ _ Hf; by destruct (Hlive Hf)..]. cbn [pbind safe].
  intros Hm%bool_decide_eq_true. pose proof (merge_inputs_ok _ _ _ Hg1 E) as Hf.
  assert (Forall base_of ls ∧ Forall (λ l, wf [l]) ls) as [Hb Hwl].
  { clear -Hf Hm Hg1. induction Hf as [|x l xs ls Hx Hf IH]; [by split|]. apply Forall_cons in Hm as [[??] Hm].
    destruct (IH Hm). split; (apply Forall_cons; split; [|done]); [by eapply g_based|]. by apply (g_wf _ Hg1 _ _ Hx). }
  apply alloc_safe. intros n s2 He2 Hg2 Hn0 Hd Hfn Hp.
  assert (∃ V : list vtriple, ∀ vt, vt ∈ V ↔ ∃ k, k ∈ ls ∧ holds [k] vt) as [V HV].
  { clear -Hwl. induction ls as [|k ls IH]; [exists []; intros vt; split; [by intros ?%elem_of_nil|by intros (? & ?%elem_of_nil & _)]|].
    apply Forall_cons in Hwl as [Hk Hls]. destruct (IH Hls) as [V HV]. destruct (shown_list [k] Hk) as [V1 HV1]. exists (V1 ++ V).
    intros vt. rewrite elem_of_app, HV, HV1. setoid_rewrite elem_of_cons. naive_solver. }
  rewrite Forall_forall in Hb, Hwl. destruct (merge_base_committed ls V Hb Hwl HV) as (l & El & Hc). rewrite El.
  apply put_base_safe; try done; [set_solver|by eapply committed_neg_none|by eapply committed_wf; [apply wf_nil|]|intros; by exists V|].
  intros s3 He3 Hg3 Hst. split; [destruct (s !! n) eqn:Es; [destruct (ext_dom _ _ _ He1 n) as [??]; [by eauto|congruence]|done]|].
  exists ls, l. split; [|split; [by rewrite Forall_forall|done]]. eapply Forall2_impl; [exact Hf|]. intros x k Hx.
  by apply (ext_stored _ _ _ _ _ He3), (ext_stored _ _ _ _ _ He2).
Qed.
