(** A caller that sets a head by force and loses every race. *)
From Verif Require Import Prelude Names LabelConc LabelSpec Head HeadSpec HeadFacts SpecProgress.

Section starve.
  Context (n : bytes) (x : lname).
  Definition at_round (k : nat) : label := Label n (match k with O => None | _ => Some x end) (N.of_nat k).
  Definition got (t : tid) (l : label) : hitem := HItem (Some (EvGet t n (Some 0) (Ok (Some l)))) None.
  Definition round (k : nat) : list hitem :=
    [HItem None None; got 2 (at_round k);
     HItem (Some (EvSet 2 (at_round k) (at_round (S k)) (Some 0) (Ok (Some (at_round (S k)))))) (Some (2, ForceHead n x, RDone));
     HItem (Some (EvSet 1 (at_round k) (at_round (S k)) (Some 0) (Ok None))) None; got 1 (at_round (S k))].
  Definition opening : list hitem :=
    [HItem None None; HItem (Some (EvCreate 0 n (Some 0) (Ok (at_round 0)))) None; HItem None None; got 1 (at_round 0)].
  Fixpoint rounds (k : nat) : list hitem := match k with O => opening | S k => rounds k ++ round k end.
  Definition waiting (k : nat) : hstate := HState {[x]} ∅ {[1 := HSet (ForceHead n x) (at_round k)]}.

  Lemma next_label k : (N.of_nat k < u64_max)%N → with_updated_layer (at_round k) (Some x) = Some (at_round (S k)).
  Proof. intros H. unfold with_updated_layer. cbn [lb_version at_round lb_name]. destruct (N.leb_spec u64_max (N.of_nat k)); [lia|]. unfold at_round. do 2 f_equal. lia. Qed.
  Lemma hexec_snoc its s it s' : hexec its s → hstep s it s' → hexec (its ++ [it]) s'.
  Proof. apply hexec_step. Qed.
  Lemma round_exec its k : (N.of_nat k < u64_max)%N → hexec its (waiting k) → hexec (its ++ round k) (waiting (S k)).
  Proof.
    intros Hk H. pose proof (next_label k Hk) as Hn.
    assert (Hl : x ∈ h_layers (waiting k)) by (cbn; set_solver).
    apply (hexec_step _ _ (HItem None None) (hgoto (waiting k) 2 (HGet (ForceHead n x)))) in H; [|apply h_call; [reflexivity|exact Hl]].
    eapply hexec_step in H; [|eapply (h_get _ 2 (ForceHead n x) (Some 0) (at_round k)); reflexivity].
    eapply hexec_step in H; [|eapply (h_set _ 2 (ForceHead n x) (at_round k) x (at_round (S k)) (Some 0) (Some (at_round (S k)))); [reflexivity|reflexivity|exact Hn]].
    eapply hexec_step in H; [|eapply (h_set _ 1 (ForceHead n x) (at_round k) x (at_round (S k)) (Some 0) None); [reflexivity|reflexivity|exact Hn]].
    eapply hexec_step in H; [|eapply (h_get _ 1 (ForceHead n x) (Some 0) (at_round (S k))); reflexivity].
    rewrite <-!app_assoc in H. cbn [continue after_get after_set hgoto hleave h_layers h_parents h_threads waiting] in H.
    rewrite bool_decide_true in H by done. rewrite bool_decide_false in H by (by intros [? ?]).
    unfold continue, hgoto, hleave, waiting in H. cbn [h_layers h_parents h_threads] in H.
    rewrite !insert_insert, delete_insert, insert_singleton in H by done. exact H.
  Qed.
  Lemma rounds_exec k : (N.of_nat k ≤ u64_max)%N → hexec (rounds k) (waiting k).
  Proof.
    induction k as [|k IH]; intros Hk; [|apply round_exec; [lia|apply IH; lia]].
    pose proof hexec_nil as H.
    eapply hexec_step in H; [|eapply (h_commit _ x None); [cbn; set_solver|done]].
    eapply hexec_step in H; [|eapply (h_other _ (EvCreate 0 n (Some 0) (Ok (at_round 0)))); done].
    eapply hexec_step in H; [|eapply (h_call _ 1 (ForceHead n x)); [reflexivity|cbn; set_solver]].
    eapply hexec_step in H; [|eapply (h_get _ 1 (ForceHead n x) (Some 0) (at_round 0)); reflexivity].
    unfold continue, after_get, hgoto, hstate_init in H. cbn [h_layers h_parents h_threads] in H.
    rewrite insert_insert, (right_id_L ∅ (∪)) in H. exact H.
  Qed.
  Lemma levs_app a b : levs (a ++ b) = levs a ++ levs b.
  Proof. apply omap_app. Qed.
  Lemma history_more R c es d es' e : history R c es d → history R d es' e → history R c (es ++ es') e.
  Proof. induction 1 as [|? ? ? ? ? ? _ IH]; [done|]. intros ?. econstructor; [done|]. by apply IH. Qed.
  Lemma on_name_self es : Forall (λ e, ev_name e = n) es → on_name n es = es.
  Proof. induction 1 as [|e es He _ IH]; [done|]. unfold on_name in *. rewrite filter_cons_True by done. by rewrite IH. Qed.
  Lemma on_name_else m es : m ≠ n → Forall (λ e, ev_name e = n) es → on_name m es = [].
  Proof. intros Hm. induction 1 as [|e es He _ IH]; [done|]. unfold on_name in *. rewrite filter_cons_False; [exact IH|]. rewrite He. auto. Qed.
  Lemma rounds_name k : Forall (λ e, ev_name e = n) (levs (rounds k)).
  Proof. induction k as [|k IH]; [by repeat constructor|]. cbn [rounds]. rewrite levs_app. apply Forall_app. split; [exact IH|]. by repeat constructor. Qed.
  Lemma at_round_ne k : at_round (S k) ≠ at_round k.
  Proof. intros E. apply (f_equal lb_version) in E. cbn [at_round lb_version] in E. lia. Qed.
  Lemma rounds_history k : history name_reg None (levs (rounds k)) (Some (at_round k)).
  Proof.
    induction k as [|k IH].
    - econstructor; [apply name_file, reg_create|]. econstructor; [apply name_file, (reg_get (at_round 0))|]. constructor.
    - cbn [rounds]. rewrite levs_app. eapply history_more; [exact IH|].
      econstructor; [apply name_file, (reg_get (at_round k))|].
      econstructor; [apply name_file, reg_set; split; [reflexivity|]; cbn [at_round lb_version]; lia|].
      econstructor; [apply name_file, reg_set_other, at_round_ne|].
      econstructor; [apply name_file, (reg_get (at_round (S k)))|]. constructor.
  Qed.
  Lemma rounds_gets k it t m i l : it ∈ rounds k → it_lev it = Some (EvGet t m i (Ok (Some l))) → lb_name l = m.
  Proof.
    intros Hin E. induction k as [|k IH].
    - cbn [rounds] in Hin. unfold opening in Hin. repeat (apply elem_of_cons in Hin as [->|Hin]; [first [discriminate E|by injection E as <- <- <- <-]|]). by apply elem_of_nil in Hin.
    - cbn [rounds] in Hin. apply elem_of_app in Hin as [Hin|Hin]; [by apply IH|]. unfold round in Hin.
      repeat (apply elem_of_cons in Hin as [->|Hin]; [first [discriminate E|by injection E as <- <- <- <-]|]). by apply elem_of_nil in Hin.
  Qed.
  Lemma rounds_served k s : served (rounds k, s).
  Proof.
    intros m. split; [cbn [fst]; apply rounds_gets|]. unfold label_after. cbn [fst]. destruct (decide (m = n)) as [->|Hm].
    - exists (Some (at_round k)). rewrite on_name_self by apply rounds_name. apply rounds_history.
    - exists None. rewrite on_name_else by (done || apply rounds_name). constructor.
  Qed.
  Lemma rounds_lost k : length (filter (λ it, lost 1 it = true) (rounds k)) = k.
  Proof. induction k as [|k IH]; [reflexivity|]. cbn [rounds]. rewrite filter_app, app_length, IH. change (length (filter (λ it, lost 1 it = true) (round k))) with 1. lia. Qed.
  Lemma rounds_running k it op r : it ∈ rounds k → it_ret it ≠ Some (1, op, r).
  Proof.
    intros Hin E. induction k as [|k IH].
    - cbn [rounds] in Hin. unfold opening in Hin. repeat (apply elem_of_cons in Hin as [->|Hin]; [discriminate E|]). by apply elem_of_nil in Hin.
    - cbn [rounds] in Hin. apply elem_of_app in Hin as [Hin|Hin]; [by apply IH|]. unfold round in Hin.
      repeat (apply elem_of_cons in Hin as [->|Hin]; [discriminate E|]). by apply elem_of_nil in Hin.
  Qed.
  Lemma starves k : (N.of_nat k ≤ u64_max)%N → ∃ its s, hexec its s ∧ served (its, s) ∧ (∀ it op r, it ∈ its → it_ret it ≠ Some (1, op, r)) ∧
    h_threads s = {[1 := HSet (ForceHead n x) (at_round k)]} ∧ length (filter (λ it, lost 1 it = true) its) = k.
  Proof.
    intros Hk. exists (rounds k), (waiting k). split; [by apply rounds_exec|]. split; [apply rounds_served|].
    split; [intros; by apply (rounds_running k)|]. split; [reflexivity|apply rounds_lost].
  Qed.
  Lemma starves_exists k : (N.of_nat k ≤ u64_max)%N → ∃ its s l, hexec its s ∧ served (its, s) ∧ (∀ it op r, it ∈ its → it_ret it ≠ Some (1, op, r)) ∧
    h_threads s = {[1 := HSet (ForceHead n x) l]} ∧ length (filter (λ it, lost 1 it = true) its) = k.
  Proof. intros Hk. destruct (starves k Hk) as (its & s & H). by exists its, s, (at_round k). Qed.
End starve.

(** who loses, loses to someone *)
Lemma history_changed c es d : history name_reg c es d → ∀ l, c = Some l → d ≠ Some l → ∃ u nl i, EvSet u l nl i (Ok (Some nl)) ∈ es.
Proof.
  induction 1 as [c|c e c1 es d Hr Hh IH]; intros l E Hne; [done|]. subst c.
  assert (c1 = Some l ∨ ∃ u nl i, e = EvSet u l nl i (Ok (Some nl))) as [->|(u & nl & i & ->)].
  { inversion Hr as [? ? ? Hg| | | |]; subst; [|by left]. inversion Hg; subst; [by left|right; by eexists _, _, _|by left]. }
  - destruct (IH l eq_refl Hne) as (u & nl & i & Hin). exists u, nl, i. by right.
  - exists u, nl, i. left.
Qed.
Lemma lost_to its s n pre it post t l nl i : hexec its s → serves n its → its = pre ++ it :: post →
  it_lev it = Some (EvSet t l nl i (Ok None)) → lb_name l = n → ∃ e u nl' j, e ∈ pre ∧ it_lev e = Some (EvSet u l nl' j (Ok (Some nl'))).
Proof.
  intros Hex Hsv E El Hn. rewrite E in Hex, Hsv. destruct (hexec_split _ _ _ Hex) as (s1 & Hex1 & Hr1).
  assert (serves n pre) as Hsv1 by (by eapply serves_app).
  destruct (hexec_inv n _ _ Hex1 Hsv1) as [Hinv Hw]. pose proof Hinv as [_ Hthr _].
  inversion Hr1 as [|? ? s2 ? ? Hst Hr2]; subst.
  destruct (serves_history _ _ Hsv) as [c Hc].
  destruct (label_after_at _ _ _ _ _ _ Hc El) as (d & d' & Hd & Hreg & _); [done|].
  assert (∃ c0, d = Some c0 ∧ c0 ≠ l) as (c0 & -> & Hne).
  { inversion Hreg as [? ? ? Hreg'| | | |]; subst. inversion Hreg'; subst. by eexists. }
  assert (seen (lb_name l) pre l) as (p1 & p2 & -> & Hl).
  { inversion Hst as [|? e He| |? t' op j l' Ht|?? op j Ht|?? op j k Ht| | | |? t' op l' layer nl' j r Ht Ho Hu|?? op l' layer nl' j k Ht Ho Hu| |]; subst; cbn [it_lev] in El; try discriminate El.
    - injection El as ->. by destruct (He t l nl i (Ok None)).
    - injection El as -> -> -> -> ->. destruct (Hthr _ _ Ht) as [Hln _]. destruct (Hw _ _ Ht) as [_ Hs]. apply Hs. by symmetry. }
  destruct (label_after_app _ _ _ _ Hd) as (d1 & Hd1 & Hh). rewrite (history_det _ _ _ _ Hd1 Hl) in Hh.
  destruct (history_changed _ _ _ Hh l eq_refl) as (u & nl' & j & Hin); [congruence|].
  apply elem_of_list_filter in Hin as [_ Hin]. apply elem_of_list_omap in Hin as (e & Hin & Ee).
  exists e, u, nl', j. split; [|done]. apply elem_of_app. by right.
Qed.
