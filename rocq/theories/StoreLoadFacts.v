(** Loading layers by name. *)
From Verif Require Import Prelude ListFacts Succinct TripleFiles Merge Layer StackFacts WfFacts SameFacts Builder Rollup RollupSame
  Squash MergeBase Names Spec BuilderFacts HistoryFacts MergeBaseFacts ReachFacts ApiFacts Store SpecStore StoreFacts.

Definition cur (y : lname) (r : option (lname * option lname)) : lname := match r with Some (rl, _) => rl | None => y end.
Definition entry_ok (s : store) (y : lname) (r : option (lname * option lname)) : Prop :=
  match r with
  | None => True
  | Some (rl, op) => ∃ cy cr, stored s y cy ∧ stored s rl cr ∧ same_layer cr.*2 cy.*2 ∧ length cr < length cy ∧
      op = fst <$> cy !! 1 ∧ s_stands s rl = true ∧ is_Some (s_rollup s y)
  end.
Inductive todo_ok (s : store) (x : lname) : lname → todo → Prop :=
  | todo_nil : todo_ok s x x []
  | todo_cons a y r rest : s_parent s (cur y r) = Some a → entry_ok s y r → todo_ok s x y rest → todo_ok s x a ((y, r) :: rest).
Lemma entry_ext O s s' y r : ext O s s' → entry_ok s y r → entry_ok s' y r.
Proof.
  intros He. destruct r as [[rl op]|]; [|done]. intros (cy & cr & H1 & H2 & H3 & H4 & H5 & H6 & H7). exists cy, cr.
  split_and!; try done; [by eapply ext_stored..|by eapply ext_stands|by eapply ext_rollup].
Qed.
Lemma todo_ext O s s' x a td : ext O s s' → todo_ok s x a td → todo_ok s' x a td.
Proof. intros He. induction 1; constructor; eauto using ext_parent, entry_ext. Qed.

(** The program keeps to the name it was asked for; [live] says that the layer was there at the start *)
Lemma todo_stored s x td y r : good s → todo_ok s x y td → entry_ok s y r → (∃ c, stored s x c) → ∃ c, stored s (cur y r) c.
Proof.
  intros Hg Ht He Hx. destruct r as [[rl op]|]; [destruct He as (cy & cr & _ & ? & _); by exists cr|].
  destruct Ht as [|y' z r' rest Hp _ _]; [done|]. by eapply g_par.
Qed.

Lemma safe_put_cache {A : Type} (cached : bool) (L : loaded) (p : prog A) (O : gset lname) (s : store) (Q : gset lname → store → outcome A → Prop) : valid s L → safe p O s Q → safe (cache_put cached L p) O s Q.
Proof.
  intros HL Hp. unfold cache_put. destruct cached; [|done]. cbn. intros s' He Hg _. split; [by eapply valid_ext|]. by eapply safe_ext.
Qed.

Lemma wrap_valid s x op L rl : valid s L → l_name L = Some rl → entry_ok s x (Some (rl, op)) → good s →
  valid s (wrap x op L) ∧ l_name (wrap x op L) = Some x.
Proof.
  intros HL Hn (cy & cr & H1 & H2 & H3 & H4 & H5 & H6 & H7) Hg. destruct L as [|e L]; [done|]. cbn [wrap]. split; [|done].
  destruct HL as [(c & K1 & K2 & K3 & K4 & K5 & K6) HL]. injection Hn as E. rewrite E in K1.
  pose proof (stored_unique _ _ _ _ K1 H2) as ->. split; [|done]. exists cy. cbn. split_and!; try done.
  by eapply same_trans.
Qed.

Section find.
  Context (cached : bool) (x : lname) (s0 : store).
  Definition live : Prop := ∃ c, stored s0 x c.
  Definition found_ok (O : gset lname) (s : store) (r : outcome (option loaded * todo)) : Prop :=
    match r with
    | Ok (Some anc, td) => ∃ a, l_name anc = Some a ∧ valid s anc ∧ todo_ok s x a td
    | Ok (None, (y, rl) :: td) => entry_ok s y rl ∧ todo_ok s x y td ∧ (live → ∃ l, s_files s (cur y rl) = Some l ∧ l_neg l = None)
    | _ => ¬ live
    end.
  Lemma find_start_safe O s fuel y r rest : ext ∅ s0 s → entry_ok s y r → todo_ok s x y rest →
    (live → ∃ c, stored s (cur y r) c ∧ length c ≤ fuel) →
    safe (find_start cached fuel ((y, r) :: rest)) O s found_ok.
  Proof.
    revert s y r rest. induction fuel as [|f IH]; intros s y r rest H0 Hent Htd Hl.
    { cbn. intros s' _ _ Hlive. destruct (Hl Hlive) as (c & Hc & Hlen). destruct (stored_ne _ _ _ Hc) as (? & ? & ->). cbn in Hlen. lia. }
    cbn [find_start]. fold (cur y r). cbn [safe]. intros s' c He Hg Hc.
    assert (ext ∅ s0 s') as H0' by (eapply ext_trans; [done|by eapply ext_empty]).
    apply (entry_ext _ _ _ _ _ He) in Hent. apply (todo_ext _ _ _ _ _ _ He) in Htd.
    assert (live → ∃ c, stored s' (cur y r) c ∧ length c ≤ S f) as Hl'.
    { intros Hli. destruct (Hl Hli) as (c' & ? & ?). exists c'. split; [by eapply (ext_stored _ _ _ _ _ He)|done]. }
    clear Hl He H0. destruct (cache_get cached c (cur y r)) as [L|] eqn:EL.
    { assert (l_name L = Some (cur y r) ∧ valid s' L) as [Hn HL].
      { unfold cache_get in EL. destruct cached; [|done]. by apply Hc. }
      assert (∀ L', l_name L' = Some y → valid s' L' → safe (Ret (Ok (Some L', rest))) O s' found_ok) as Hret.
      { intros L' Hn' HL'. cbn. intros s'' He Hg'. exists y. split; [done|]. split; [by eapply valid_ext|by eapply todo_ext]. }
      destruct r as [[rl op]|]; [|by apply Hret]. cbn [cur] in *.
      destruct (wrap_valid s' y op L rl) as [W1 W2]; try done.
      destruct (decide (1 < length L)) as [Hlen|_]; [|by apply Hret].
      destruct op as [p|]; [by apply Hret|]. destruct Hent as (cy & cr & H1 & H2 & H3 & H4 & H5 & H6 & H7).
      destruct (stored_ne _ _ _ H2) as (? & ? & ->). cbn in H4.
      destruct cy as [|? [|]]; cbn in H4, H5; try lia; done. }
    destruct (s_rollup s' (cur y r)) as [rl|] eqn:Er.
    - destruct (g_roll s' Hg _ _ Er) as (cx & cr & H1 & H2 & H3 & [H4 _] & H5).
      rewrite decide_False by (intros ->; pose proof (stored_unique _ _ _ _ H1 H2) as ->; lia).
      destruct r as [[rl' op']|].
      { destruct Hent as (? & ? & _ & _ & _ & _ & _ & Hst & _). apply (g_stand s' Hg) in Hst. cbn in Er. congruence. }
      cbn [cur] in *. apply IH; try done.
      + exists cx, cr. split_and!; try done; by apply stored_second.
      + intros Hli. destruct (Hl' Hli) as (c' & Hc' & Hlen). pose proof (stored_unique _ _ _ _ Hc' H1) as ->. exists cr. split; [done|lia].
    - destruct (s_parent s' (cur y r)) as [p|] eqn:Ep.
      + apply IH; try done; [by constructor|]. intros Hli. destruct (Hl' Hli) as (c' & Hc' & Hlen). cbn [cur].
        destruct (stored_ne _ _ _ Hc') as (l & c'' & ->). exists c''. split; [by eapply stored_tail|cbn in Hlen; lia].
      + cbn. intros s'' He Hg'. split; [by eapply entry_ext|]. split; [by eapply todo_ext|]. intros Hli.
        destruct (Hl' Hli) as (c' & Hc' & _). inversion Hc'; subst; [|congruence]. exists l. split; [by eapply ext_files|done].
  Qed.

  Definition got (O : gset lname) (s : store) (y : lname) (r : outcome loaded) : Prop :=
    match r with Ok L => l_name L = Some y ∧ valid s L | _ => ¬ live end.
  Lemma load_base_safe O s y r : good s → entry_ok s y r → (live → ∃ l, s_files s (cur y r) = Some l ∧ l_neg l = None) →
    safe (load_base cached y r) O s (λ O s r, got O s y r).
  Proof.
    intros _ Hent Hl.
    assert (∀ s' l, good s' → base_files s' (cur y r) = Some l → stored s' (cur y r) [(cur y r, l)]) as Hst.
    { intros s' l Hg [Hf Hn]%base_files_iff. constructor; try done. by eapply g_basepar. }
    assert (∀ s', ext O s s' → base_files s' (cur y r) = None → ¬ live) as Hno.
    { intros s' He Hb Hli. destruct (Hl Hli) as (l & Hf & Hn). apply (ext_files _ _ _ He) in Hf.
      assert (base_files s' (cur y r) = Some l) by by apply base_files_iff. congruence. }
    assert (∀ s' l, good s' → base_files s' (cur y r) = Some l → valid s' [Lent (cur y r) None false l]) as Hv.
    { intros s' l Hg Hb. split; [|done]. exists [(cur y r, l)]. cbn. split_and!; try done; [by apply Hst|by eapply (g_wf s' Hg _ [(cur y r, l)]); apply Hst|].
      intros _. by apply base_files_iff in Hb as [??]. }
    destruct r as [[rl op]|]; cbn [load_base cur] in *; cbn [safe]; intros s' c He Hg Hc; apply (entry_ext _ _ _ _ _ He) in Hent.
    - destruct (base_files s' rl) as [l|] eqn:Eb; [|intros s'' _ _; by eapply Hno].
      pose proof (Hv s' l Hg Eb) as HL. destruct (wrap_valid s' y op [Lent rl None false l] rl HL eq_refl Hent Hg) as [W1 W2].
      apply safe_put_cache; [done|]. apply safe_put_cache; [done|]. cbn [safe got]. intros s'' He' Hg'. split; [done|]. by apply (valid_ext _ _ _ _ He').
    - destruct (base_files s' y) as [l|] eqn:Eb; [|intros s'' _ _; by eapply Hno].
      pose proof (Hv s' l Hg Eb) as HL. apply safe_put_cache; [done|]. intros s'' He' Hg'. split; [done|]. by apply (valid_ext _ _ _ _ He').
  Qed.
  Lemma load_children_safe O s a anc td : ext ∅ s0 s → good s → l_name anc = Some a → valid s anc → todo_ok s x a td →
    safe (load_children cached anc td) O s (λ O s r, got O s x r).
  Proof.
    intros H0 _. revert s a anc H0. induction td as [|[y r] rest IH]; intros s a anc H0 Hn Ha Htd.
    { inversion Htd; subst. cbn. intros s' He Hg. split; [done|]. by eapply valid_ext. }
    assert (∀ s', ext O s s' → good s' → child_files s' (cur y r) = None → ¬ live) as Hno.
    { intros s' He Hg Hcf [c Hx]. apply (ext_stored _ _ _ _ _ H0) in Hx. apply (ext_stored _ _ _ _ _ He) in Hx.
      apply (todo_ext _ _ _ _ _ _ He) in Htd. inversion Htd; subst.
      destruct (todo_stored s' x rest y r) as [c' Hc']; try done; [by exists c|].
      inversion Hc'; subst; [congruence|].
      assert (child_files s' (cur y r) = Some l) by by apply child_files_iff. congruence. }
    assert (∀ s' l, ext O s s' → good s' → child_files s' (cur y r) = Some l →
      valid s' (Lent (cur y r) (l_name anc) false l :: anc)) as Hv.
    { intros s' l He Hg [Hf Hneg]%child_files_iff. apply (valid_ext _ _ _ _ He) in Ha. split; [|done].
      apply (todo_ext _ _ _ _ _ _ He) in Htd. inversion Htd as [|? ? ? ? Hp Hent Hrest]; subst.
      destruct (valid_top s' anc a Ha Hn) as (c & Hc & Hwa & Hsa & _ & _).
      assert (stored s' (cur y r) ((cur y r, l) :: c)) as Hst by by econstructor.
      pose proof (g_wf _ Hg _ _ Hst) as Hw. cbn in Hw.
      destruct (same_app [l] c.*2 (layers anc) Hw Hwa) as [W1 W2]; [by apply same_sym|].
      exists ((cur y r, l) :: c). cbn [n_name n_parent n_rollup n_layer fst snd fmap list_fmap]. split_and!; try done; [by apply same_sym|].
      rewrite Hn, <-(stored_second _ _ _ Hst). done. }
    assert (∀ s', ext O s s' → ext ∅ s0 s') as H0' by (intros s' He; eapply ext_trans; [done|by eapply ext_empty]).
    inversion Htd as [|? ? ? ? Hp Hent Hrest]; subst.
    destruct r as [[rl op]|]; cbn [load_children].
    - destruct op as [p|].
      2: { destruct Hent as (cy & cr & H1 & H2 & H3 & H4 & H5 & H6 & H7). destruct (stored_ne _ _ _ H2) as (? & ? & ->). cbn in H4.
           destruct cy as [|? [|]]; cbn in H4, H5; try lia; done. }
      cbn [safe]. intros s' c He Hg Hc. cbn [cur] in *. destruct (child_files s' rl) as [l|] eqn:Ec; [|intros s'' _ _; by eapply Hno].
      pose proof (Hv s' l He Hg Ec) as HL.
      destruct (wrap_valid s' y (Some p) (Lent rl (l_name anc) false l :: anc) rl HL eq_refl) as [W1 W2]; [by eapply entry_ext|done|].
      apply safe_put_cache; [done|]. apply safe_put_cache; [done|]. eapply IH; [auto|done|done|by eapply todo_ext].
    - cbn [safe]. intros s' c He Hg Hc. cbn [cur] in *. destruct (child_files s' y) as [l|] eqn:Ec; [|intros s'' _ _; by eapply Hno].
      pose proof (Hv s' l He Hg Ec) as HL. apply safe_put_cache; [done|]. eapply IH; [auto| |done|by eapply todo_ext]. done.
  Qed.
End find.

(** ** [get_layer] *)
Definition get_ok (x : lname) (s0 : store) (O : gset lname) (s : store) (r : outcome (option loaded)) : Prop :=
  match r with Ok (Some L) => l_name L = Some x ∧ valid s L | _ => ¬ live x s0 end.
Lemma get_layer_safe cached x O s : safe (get_layer cached x) O s (get_ok x s).
Proof.
  unfold get_layer. cbn [safe]. intros s' c He Hg Hc.
  assert (live x s → live x s') as Hlive by (intros [c0 ?]; exists c0; by eapply ext_stored).
  apply (safe_mono _ _ _ (get_ok x s')).
  2: { intros O' s'' r _ _ _. destruct r as [[L|]|k|]; cbn; naive_solver. }
  destruct (cache_get cached c x) as [L|] eqn:EL.
  { assert (l_name L = Some x ∧ valid s' L) as [Hn HL] by (unfold cache_get in EL; destruct cached; [by apply Hc|done]).
    cbn. intros s'' He' Hg'. split; [done|]. by eapply valid_ext. }
  destruct (s' !! x) as [d|] eqn:Ed.
  2: { cbn. intros s'' _ _ [c0 H0]. apply stored_is_dom in H0 as [??]. congruence. }
  eapply safe_bind.
  { apply (find_start_safe cached x s'); [apply ext_refl|done|constructor|]. intros [c0 H0]. exists c0. split; [done|].
    pose proof (stored_length _ _ _ H0). lia. }
  intros O' s1 r HO He1 Hg1 Hr. destruct r as [[[anc|] td]|k|]; try done.
  - destruct Hr as (a & Hn & Ha & Ht). eapply safe_bind; [by eapply (load_children_safe cached x s')|].
    intros O'' s2 r HO' He2 Hg2 Hr. destruct r as [L|k|]; cbn; try done. intros s3 He3 Hg3. destruct Hr. split; [done|by eapply valid_ext].
  - destruct td as [|[y r] td]; [by cbn; intros|]. destruct Hr as (Hent & Ht & Hl).
    eapply safe_bind; [by apply (load_base_safe cached x s')|]. intros O'' s2 r2 HO' He2 Hg2 Hr. destruct r2 as [anc|k|]; try done.
    destruct Hr as [Hn Ha]. eapply safe_bind.
    { eapply (load_children_safe cached x s'); [by eapply ext_trans|done|done|done|by eapply todo_ext]. }
    intros O3 s3 r3 HO3 He3 Hg3 Hr. destruct r3 as [L|k|]; cbn; try done. intros s4 He4 Hg4. destruct Hr. split; [done|by eapply valid_ext].
Qed.
Lemma get_existing_safe cached x O s : safe (get_existing cached x) O s (λ O s' r,
  match r with Ok L => l_name L = Some x ∧ valid s' L | _ => ¬ live x s end).
Proof.
  unfold get_existing. eapply safe_bind; [apply get_layer_safe|]. intros O' s' r HO He Hg Hr.
  destruct r as [[L|]|k|]; cbn in *; try done. intros s'' He' _. destruct Hr. split; [done|by eapply valid_ext].
Qed.
