(** Calls on named graphs end. *)
From Verif Require Import Prelude Names SpecText NamesFacts LabelConc LabelSpec LabelConcFacts Head HeadSpec HeadFacts SpecProgress LabelProgress.

(** ** the label as the calls on it leave it *)
Definition val (c : option label) (e : lev) : option label :=
  match e with
  | EvCreate _ _ _ (Ok l) => Some l
  | EvSet _ _ nl _ (Ok (Some _)) => Some nl
  | _ => c
  end.
Definition cur (n : bytes) (its : list hitem) : option label := foldl val None (on_name n (levs its)).
Lemma name_reg_val c e c' : name_reg c e c' → c' = val c e.
Proof. intros H. inversion H as [? ? ? Hr| | | |]; subst; [|done..]. by inversion Hr; subst. Qed.
Lemma history_val c es c' : history name_reg c es c' → c' = foldl val c es.
Proof. induction 1 as [c|c e c' es c'' Hr _ IH]; [done|]. cbn [foldl]. by rewrite IH, (name_reg_val _ _ _ Hr). Qed.
Lemma serves_cur n its : serves n its → label_after n its (cur n its).
Proof. intros [_ [c Hc]]. by rewrite (history_val _ _ _ Hc) in Hc. Qed.
Lemma on_name_snoc n its it : on_name n (levs (its ++ [it])) = on_name n (levs its) ++ on_name n (option_list (it_lev it)).
Proof. rewrite levs_app, levs_cons, app_nil_r. unfold on_name. by rewrite filter_app. Qed.
Lemma cur_snoc n its it : cur n (its ++ [it]) = foldl val (cur n its) (on_name n (option_list (it_lev it))).
Proof. unfold cur. by rewrite on_name_snoc, foldl_app. Qed.
Lemma cur_keep n its it : (∀ e c, it_lev it = Some e → val c e = c) → cur n (its ++ [it]) = cur n its.
Proof.
  intros H. rewrite cur_snoc. unfold on_name. destruct (it_lev it) as [e|]; [|done]. change (option_list (Some e)) with [e].
  rewrite filter_cons. case_decide; [|done]. cbn [foldl filter list_filter]. by apply H.
Qed.
Lemma cur_reg n its it e : serves n (its ++ [it]) → it_lev it = Some e → ev_name e = n → name_reg (cur n its) e (cur n (its ++ [it])).
Proof.
  intros Hs He Hn. apply (label_after_one n its it e); [|by apply serves_cur|done|done].
  apply serves_cur. by apply serves_app in Hs.
Qed.

(** ** parents come first *)
Lemma ranks its s : hexec its s → ∃ f : lname → nat, ∀ x y, h_parents s !! x = Some y → f y < f x.
Proof.
  intros He. assert (hdom s ∧ ∃ f : lname → nat, ∀ x y, h_parents s !! x = Some y → f y < f x) as [_ H]; [|exact H].
  induction He as [|its s it s' Hex IH Hst]; [split; [intros x y H; cbn [hstate_init h_parents] in H; by rewrite lookup_empty in H|exists (λ _, 0); intros x y H; cbn [hstate_init h_parents] in H; by rewrite lookup_empty in H]|].
  destruct IH as [Hd (f & Hf)]. split; [by apply (hstep_dom s it)|].
  destruct Hst; try (by exists f).
  - destruct p as [p|]; [|by exists f]. exists (λ y, if decide (y = x) then f p + 1 else f y).
    intros y z. cbn [h_parents]. intros [[<- <-]|[Hne Hyz]]%lookup_insert_Some.
    + rewrite (decide_True (P := x = x)) by done. rewrite decide_False by (intros ->; done). lia.
    + destruct (Hd y z Hyz) as [_ Hz]. rewrite (decide_False (P := z = x)) by (intros ->; contradiction). rewrite decide_False by congruence. by apply Hf.
  - exists f. by destruct (after_get op l).
  - exists f. by destruct (after_set op (bool_decide (is_Some r))).
Qed.
Lemma rank_down (f : lname → nat) s x y : (∀ x y, h_parents s !! x = Some y → f y < f x) → rtc (λ x y, h_parents s !! x = Some y) x y → f y ≤ f x.
Proof. intros Hf. induction 1 as [|x y z H _ IH]; [done|]. pose proof (Hf _ _ H). lia. Qed.

Section cost.
Context (f : lname → nat).
Definition cap_op (op : hop) : nat := match op with SetHead _ x => f x + 3 | _ => 3 end.
Definition pc_op (p : hpc) : hop := match p with HGet op | HWalk op _ _ _ | HSet op _ => op end.
Definition cap (p : hpc) : nat := cap_op (pc_op p).
Definition hcost (its : list hitem) (p : hpc) : nat :=
  match p with
  | HGet (SetHead _ x) => f x + 3
  | HGet _ => 2
  | HWalk _ _ _ y => f y + 2
  | HSet (ForceHead n _) l => if decide (cur n its = Some l) then 1 else 3
  | HSet _ _ => 1
  end.
Lemma hcost_pos its p : 1 ≤ hcost its p.
Proof. destruct p as [[]| |[]]; cbn [hcost]; try lia. case_decide; lia. Qed.
Lemma hcost_keep its it p : (∀ e c, it_lev it = Some e → val c e = c) → hcost (its ++ [it]) p = hcost its p.
Proof. intros H. destruct p as [|?|[]]; try done. cbn [hcost]. by rewrite cur_keep. Qed.
Lemma hcost_cap s its its' t p : hinv its s → (∀ x y, h_parents s !! x = Some y → f y < f x) → h_threads s !! t = Some p → hcost its' p ≤ cap p.
Proof.
  intros Hi Hf Ht. destruct p as [op|op l a y|op l]; unfold cap; cbn [hcost pc_op cap_op].
  - destruct op; cbn [cap_op]; lia.
  - destruct (hinv_thread its s Hi t _ Ht) as (_ & _ & n & x & -> & Hr). cbn [cap_op]. pose proof (rank_down f s x y Hf Hr). lia.
  - destruct op; cbn [cap_op]; try lia. case_decide; lia.
Qed.
Lemma msum_le {A} (g h : A → nat) (m : gmap nat A) : (∀ t p, m !! t = Some p → g p ≤ h p) → msum g m ≤ msum h m.
Proof.
  induction m as [|t p m Hm IH] using map_ind; intros H; [done|]. rewrite !msum_insert by done.
  pose proof (H t p (lookup_insert _ _ _)). assert (msum g m ≤ msum h m); [|lia].
  apply IH. intros u q Hq. apply (H u q). rewrite lookup_insert_ne; [done|]. intros ->. by rewrite Hm in Hq.
Qed.
Definition total (C : nat) (x : list hitem * hstate) : nat := msum (hcost x.1) (h_threads x.2) + size (h_threads x.2) * C.
Definition ranked (s : hstate) : Prop := ∀ x y, h_parents s !! x = Some y → f y < f x.

(** a call leaves *)
Lemma total_leave C its s its' s' t p :
  hinv its' s' → ranked s' → msum cap (h_threads s) < C → h_threads s !! t = Some p → h_threads s' = delete t (h_threads s) →
  total C (its', s') < total C (its, s) ∧ msum cap (h_threads s') < C.
Proof.
  intros Hi Hf HC Ht Hs'. pose proof (msum_delete cap _ t p Ht) as Hm. rewrite <- Hs' in Hm. split; [|lia].
  unfold total. cbn [fst snd]. assert (msum (hcost its') (h_threads s') ≤ msum cap (h_threads s')) as Hle.
  { apply msum_le. intros u q Hq. by apply (hcost_cap s' its' its' u). }
  assert (size (h_threads s) = S (size (h_threads s'))) as ->; [|lia].
  rewrite Hs', map_size_delete_Some by done. assert (size (h_threads s) ≠ 0); [|lia]. intros E.
  apply map_size_empty_iff in E. by rewrite E in Ht.
Qed.
(** or goes on *)
Lemma total_move C its it s s' t p q :
  (∀ e c, it_lev it = Some e → val c e = c) → msum cap (h_threads s) < C → h_threads s !! t = Some p →
  h_threads s' = <[t := q]> (h_threads s) → hcost its q < hcost its p → pc_op q = pc_op p →
  total C (its ++ [it], s') < total C (its, s) ∧ msum cap (h_threads s') < C.
Proof.
  intros Hv HC Ht Hs' Hc Hop. rewrite Hs'. pose proof (msum_over cap _ t p q Ht) as H1. unfold cap in H1 at 1 3. rewrite Hop in H1.
  split; [|lia]. unfold total. cbn [fst snd]. rewrite Hs'. pose proof (msum_over (hcost its) _ t p q Ht) as H2.
  assert (msum (hcost (its ++ [it])) (<[t := q]> (h_threads s)) ≤ msum (hcost its) (<[t := q]> (h_threads s))) as H3.
  { apply msum_le. intros u r _. by rewrite hcost_keep. }
  assert (size (<[t := q]> (h_threads s)) = size (h_threads s)) as ->; [|lia].
  by rewrite map_size_insert_Some.
Qed.

Lemma total_step C its s it s' :
  hinv its s → hinv (its ++ [it]) s' → served (its ++ [it], s') → ranked s → msum cap (h_threads s) < C →
  heads_go_on (its, s) (its ++ [it], s') → total C (its ++ [it], s') < total C (its, s) ∧ msum cap (h_threads s') < C.
Proof.
  intros Hi Hi' Hsv Hf HC (it' & E & Hst & Hch & Hne & Hly & Hno). cbn [fst snd] in *. apply app_inj_2 in E as [_ E]; [|done].
  injection E as <-. unfold ranked in Hf.
  destruct Hst as [s x p Hx Hp|s e He|s t op Ht Hop|s t op i l Ht|s t op i Ht|s t op i k Ht|s t op l a Ht|s t op l a y p Ht Hya Hp|s t op l a y Ht Hya Hp|s t op l layer nl i r Ht Hop Hnl|s t op l layer nl i k Ht Hop Hnl|s t op l layer Ht Hop Hnl|s].
  - exfalso. cbn [h_layers] in Hly. set_solver.
  - exfalso. by destruct Hch.
  - exfalso. specialize (Hno t Ht). cbn [hgoto h_threads] in Hno. by rewrite lookup_insert in Hno.
  - assert (cur (op_name op) its = Some l) as Hcur.
    { pose proof (cur_reg (op_name op) its _ _ (Hsv _) eq_refl eq_refl) as Hr. by apply got_reg in Hr. }
    destruct (after_get op l) as [q|r] eqn:Eg; cbn [continue].
    + apply (total_move C its _ s _ t (HGet op) q); [by intros e c [= <-]|done|done|done| |].
      * destruct op as [n x|n x|n x v|n]; cbn [after_get] in Eg.
        -- destruct (lb_layer l); injection Eg as <-; cbn [hcost]; lia.
        -- injection Eg as <-. cbn [hcost op_name] in *. rewrite decide_True by done. lia.
        -- case_match; [|done]. injection Eg as <-. cbn [hcost]. lia.
        -- done.
      * destruct op as [n x|n x|n x v|n]; cbn [after_get] in Eg; repeat case_match; try done; by injection Eg as <-.
    + by apply (total_leave C its s _ _ t (HGet op)).
  - by apply (total_leave C its s _ _ t (HGet op)).
  - by apply (total_leave C its s _ _ t (HGet op)).
  - apply (total_move C its _ s _ t (HWalk op l a a) (HSet op l)); [by intros e c [=]|done|done|done| |done].
    destruct (hinv_thread its s Hi t _ Ht) as (_ & _ & n & x & -> & Hr). cbn [hcost]. lia.
  - apply (total_move C its _ s _ t (HWalk op l a y) (HWalk op l a p)); [by intros e c [=]|done|done|done| |done].
    cbn [hcost]. pose proof (Hf _ _ Hp). lia.
  - by apply (total_leave C its s _ _ t (HWalk op l a y)).
  - destruct (after_set op (bool_decide (is_Some r))) as [q|b] eqn:Es; cbn [continue].
    + destruct op as [n x|n x|n x v|n]; cbn [after_set] in Es; try done. destruct r as [r|]; [done|]. cbn in Es. injection Es as <-.
      apply (total_move C its _ s _ t (HSet (ForceHead n x) l) (HGet (ForceHead n x))); [by intros e c [= <-]|done|done|done| |done].
      cbn [hcost]. rewrite decide_False; [lia|].
      destruct (hinv_thread its s Hi t _ Ht) as (Hn & _). cbn [op_name] in Hn.
      pose proof (cur_reg n its _ _ (Hsv _) eq_refl Hn) as Hr. intros Hc. rewrite Hc in Hr.
      inversion Hr as [? ? ? Hr'| | | |]; subst. by inversion Hr'.
    + by apply (total_leave C its s _ _ t (HSet op l)).
  - by apply (total_leave C its s _ _ t (HSet op l)).
  - by apply (total_leave C its s _ _ t (HSet op l)).
  - cbn [h_threads]. unfold total. cbn [fst snd h_threads]. change (msum (hcost (its ++ [HItem None None])) ∅) with 0. rewrite map_size_empty.
    change (msum cap ∅) with 0. split; [|lia]. apply map_choose in Hne as (t & p & Ht). rewrite (msum_delete _ _ t p Ht).
    pose proof (hcost_pos its p). lia.
Qed.
End cost.

Lemma go_parents x y : heads_go_on x y → h_parents y.2 = h_parents x.2.
Proof.
  intros (it & _ & Hst & _ & _ & Hly & _). destruct Hst as [s x0 p Hx Hp| | | | | | | | | | | |s]; try done; cbn [h_layers h_parents] in *.
  - exfalso. set_solver.
  - by destruct (after_get op l).
  - by destruct (after_set op (bool_decide (is_Some r))).
Qed.
Lemma go_more k x y : nsteps heads_go_on k x y → ∃ more, y.1 = x.1 ++ more.
Proof.
  induction 1 as [x|k x y z (it & E & _) _ (more & IH)]; [exists []; by rewrite app_nil_r|].
  exists ([it] ++ more). rewrite IH, E. by rewrite <- app_assoc.
Qed.
Lemma served_back k x y : nsteps heads_go_on k x y → served y → served x.
Proof. intros H Hy n. destruct (go_more k x y H) as (more & E). specialize (Hy n). rewrite E in Hy. by apply serves_app in Hy. Qed.
Lemma heads_end_total f C k x y : nsteps heads_go_on k x y → served y → hexec x.1 x.2 → ranked f x.2 → msum (cap f) (h_threads x.2) < C → k ≤ total f C x.
Proof.
  induction 1 as [x|k x y z H1 H2 IH]; intros Hz Hex Hr HC; [lia|].
  pose proof (served_back _ _ _ H2 Hz) as Hy. destruct H1 as (it & E & H1). destruct x as [its s], y as [its' s']. cbn [fst snd] in *. subst its'.
  assert (hexec (its ++ [it]) s') as Hex' by (by apply (hexec_step its s); destruct H1).
  assert (heads_go_on (its, s) (its ++ [it], s')) as Hgo by (by exists it).
  destruct (hexec_inv [] _ _ Hex' (Hy [])) as [Hi' _].
  assert (serves [] its) as Hs0 by (by apply (serves_app [] its [it]), Hy).
  destruct (hexec_inv [] _ _ Hex Hs0) as [Hi _].
  destruct (total_step f C its s it s' Hi Hi' Hy Hr HC Hgo) as [Hlt HC'].
  assert (ranked f s') as Hr' by (pose proof (go_parents _ _ Hgo) as Ep; cbn [snd] in Ep; unfold ranked; by rewrite Ep).
  specialize (IH Hz Hex' Hr' HC'). lia.
Qed.
Lemma heads_end its s : hexec its s → ∃ b, ∀ k y, nsteps heads_go_on k (its, s) y → served y → k ≤ b.
Proof.
  intros Hex. destruct (ranks its s Hex) as (f & Hf). exists (total f (S (msum (cap f) (h_threads s))) (its, s)).
  intros k y Hk Hy. apply (heads_end_total f _ k (its, s) y Hk Hy); [done|done|]. cbn [snd]. lia.
Qed.

(** ** and the label store can always answer *)
Lemma serves_none n its ret : serves n its → serves n (its ++ [HItem None ret]).
Proof.
  intros [H1 [c H2]]. split.
  - intros it t m i l [Hin|Hin]%elem_of_app Hl; [by apply (H1 it t m i l)|]. apply elem_of_list_singleton in Hin as ->. done.
  - exists c. by apply label_after_snoc.
Qed.
Lemma serves_more n its e ret c' : serves n its → (ev_name e = n → name_reg (cur n its) e c') →
  (∀ t m i l, e = EvGet t m i (Ok (Some l)) → lb_name l = m) → serves n (its ++ [HItem (Some e) ret]).
Proof.
  intros Hs Hr Hn. split.
  - intros it t m i l [Hin|Hin]%elem_of_app Hl; [by apply (serves_names n its Hs it t m i l)|].
    apply elem_of_list_singleton in Hin as ->. injection Hl as ->. by apply (Hn t m i).
  - destruct (decide (ev_name e = n)) as [E|E].
    + exists c'. unfold label_after. rewrite on_name_snoc. cbn [it_lev]. change (option_list (Some e)) with [e].
      unfold on_name at 2. rewrite filter_cons, decide_True, filter_nil by done.
      apply (history_snoc name_reg None _ (cur n its)); [by apply serves_cur|by apply Hr].
    + exists (cur n its). apply label_after_snoc; [by apply serves_cur|]. by intros e' [= <-].
Qed.
Lemma name_reg_named n c e c' : name_reg c e c' → ev_name e = n → (∀ l, c = Some l → lb_name l = n) → ∀ l, c' = Some l → lb_name l = n.
Proof.
  intros Hr Hn Hc l Hl. inversion Hr as [? ? ? Hr'| | | |]; subst; try done; try (by apply Hc).
  inversion Hr' as [| | |? ? ? ? [Hu _]| |]; subst; cbn [ev_name] in *; try done; try (by apply Hc).
Qed.
Lemma history_named n c es c' : history name_reg c es c' → Forall (λ e, ev_name e = n) es → (∀ l, c = Some l → lb_name l = n) → ∀ l, c' = Some l → lb_name l = n.
Proof.
  induction 1 as [c|c e c' es c'' Hr _ IH]; intros He Hc; [done|]. apply Forall_cons in He as [He Hes].
  apply IH; [done|]. by apply (name_reg_named n c e).
Qed.
Lemma cur_name n its l : serves n its → cur n its = Some l → lb_name l = n.
Proof.
  intros Hs. apply (history_named n None (on_name n (levs its))); [by apply serves_cur| |done].
  apply Forall_forall. intros e He. unfold on_name in He. by apply elem_of_list_filter in He as [? _].
Qed.
Lemma heads_go its s : hexec its s → served (its, s) → h_threads s ≠ ∅ → ∃ y, heads_go_on (its, s) y ∧ served y.
Proof.
  intros Hex Hsv Hne. pose proof Hne as (t & p & Ht)%map_choose. destruct (hexec_inv [] _ _ Hex (Hsv [])) as [Hi _].
  pose proof (hinv_thread its s Hi t p Ht) as Hp.
  assert (∀ it s', hstep s it s' → h_layers s' = h_layers s → (it_lev it = None ∨ h_threads s' !! t ≠ Some p) →
    (h_threads s' = delete t (h_threads s) ∨ ∃ q, h_threads s' = <[t := q]> (h_threads s)) → (∀ n, serves n (its ++ [it])) →
    ∃ y, heads_go_on (its, s) y ∧ served y) as K.
  { intros it s' Hst Hly Hch Hth Hs. exists (its ++ [it], s'). split; [|done]. exists it. split; [done|]. split; [done|].
    cbn [fst snd]. split; [destruct Hch as [?|Hch]; [by right|left; by intros ->]|]. split; [done|]. split; [done|].
    intros u Hu. destruct Hth as [-> | (q & ->)].
    - destruct (decide (u = t)) as [->|?]; [by rewrite lookup_delete|by rewrite lookup_delete_ne].
    - rewrite lookup_insert_ne; [done|]. intros ->. by rewrite Ht in Hu. }
  destruct p as [op|op l a y|op l].
  - destruct (cur (op_name op) its) as [l|] eqn:Ec.
    + apply (K _ _ (h_get s t op None l Ht)).
      * by destruct (after_get op l).
      * right. destruct (after_get op l) as [q|r] eqn:Eg; cbn [continue hgoto hleave h_threads].
        -- rewrite lookup_insert. intros E. injection E as ->. destruct op; cbn [after_get] in Eg; repeat case_match; done.
        -- by rewrite lookup_delete.
      * destruct (after_get op l) as [q|r]; [right; by exists q|by left].
      * pose proof (cur_name _ _ _ (Hsv (op_name op)) Ec) as Hn. intros n. apply (serves_more n its _ _ (Some l) (Hsv n)).
        -- cbn [ev_name]. intros <-. rewrite Ec. apply name_file. rewrite <- Hn at 1. apply reg_get.
        -- by intros ? ? ? ? [= <- <- <- <-].
    + apply (K _ _ (h_get_none s t op None Ht)).
      * done.
      * right. cbn [hleave h_threads]. by rewrite lookup_delete.
      * by left.
      * intros n. apply (serves_more n its _ _ None (Hsv n)); [|done]. cbn [ev_name]. intros <-. rewrite Ec. apply name_get_absent.
  - destruct (decide (y = a)) as [->|Hya].
    + apply (K _ _ (h_walk_found s t op l a Ht)); [done|by left|right; by eexists|]. intros n. by apply serves_none.
    + destruct (h_parents s !! y) as [z|] eqn:Ey.
      * apply (K _ _ (h_walk_up s t op l a y z Ht Hya Ey)); [done|by left|right; by eexists|]. intros n. by apply serves_none.
      * apply (K _ _ (h_walk_end s t op l a y Ht Hya Ey)); [done|by left|by left|]. intros n. by apply serves_none.
  - destruct Hp as [Hn Hop]. destruct (op_layer op) as [x|] eqn:Eo; [|by destruct op].
    destruct (with_updated_layer l (Some x)) as [nl|] eqn:Eu.
    2:{ apply (K _ _ (h_set_panic s t op l x Ht Eo Eu)); [done|by left|by left|]. intros n. by apply serves_none. }
    destruct (cur (op_name op) its) as [c|] eqn:Ec.
    + destruct (decide (c = l)) as [->|Hc].
      * apply (K _ _ (h_set s t op l x nl None (Some nl) Ht Eo Eu)).
        -- by destruct (after_set op _).
        -- right. destruct (after_set op _) as [q|r] eqn:Eg; cbn [continue hgoto hleave h_threads].
           ++ rewrite lookup_insert. intros E. injection E as ->. by destruct op.
           ++ by rewrite lookup_delete.
        -- destruct (after_set op _) as [q|r]; [right; by exists q|by left].
        -- intros n. apply (serves_more n its _ _ (Some nl) (Hsv n)); [|done]. cbn [ev_name]. rewrite Hn. intros <-. rewrite Ec.
           apply name_file, reg_set. unfold with_updated_layer in Eu. case_match; [done|]. by injection Eu as <-.
      * apply (K _ _ (h_set s t op l x nl None None Ht Eo Eu)).
        -- by destruct (after_set op _).
        -- right. destruct (after_set op _) as [q|r] eqn:Eg; cbn [continue hgoto hleave h_threads].
           ++ rewrite lookup_insert. intros E. injection E as ->. by destruct op.
           ++ by rewrite lookup_delete.
        -- destruct (after_set op _) as [q|r]; [right; by exists q|by left].
        -- intros n. apply (serves_more n its _ _ (Some c) (Hsv n)); [|done]. cbn [ev_name]. rewrite Hn. intros <-. rewrite Ec.
           by apply name_file, reg_set_other.
    + apply (K _ _ (h_set_err s t op l x nl None NotFound Ht Eo Eu)).
      * done.
      * right. cbn [hleave h_threads]. by rewrite lookup_delete.
      * by left.
      * intros n. apply (serves_more n its _ _ None (Hsv n)); [|done]. cbn [ev_name]. rewrite Hn. intros <-. rewrite Ec. apply name_set_absent.
Qed.
Lemma heads_finish its s : hexec its s → served (its, s) → ∃ its' s', rtc heads_go_on (its, s) (its', s') ∧ served (its', s') ∧ h_threads s' = ∅.
Proof.
  intros Hex Hsv. destruct (heads_end its s Hex) as (b & Hb).
  assert (∀ k, (∃ y, nsteps heads_go_on k (its, s) y ∧ rtc heads_go_on (its, s) y ∧ served y ∧ hexec y.1 y.2) ∨
    ∃ y, rtc heads_go_on (its, s) y ∧ served y ∧ h_threads y.2 = ∅) as H.
  { induction k as [|k [(y & Hk & Hrk & Hy & Hey)|H]]; [left; exists (its, s); split; [apply nsteps_O|done]| |by right].
    destruct (decide (h_threads y.2 = ∅)) as [Hz|Hnz]; [right; exists y; done|].
    destruct y as [its1 s1]. destruct (heads_go its1 s1 Hey Hy Hnz) as (z & Hz & Hsz). left. exists z.
    split; [by eapply nsteps_r|]. split; [by eapply rtc_r|]. split; [done|]. destruct Hz as (it & E & Hst & _). rewrite E. by apply (hexec_step its1 s1). }
  destruct (H (S b)) as [(y & Hk & _ & Hy & _)|([its' s'] & ? & ? & ?)]; [specialize (Hb _ _ Hk Hy); lia|by exists its', s'].
Qed.

(** ** for concrete runs *)
Lemma go_leave its s t p it : h_threads s !! t = Some p → hstep s it (hleave s t) → heads_go_on (its, s) (its ++ [it], hleave s t).
Proof.
  intros Ht Hst. exists it. split; [done|]. split; [done|]. cbn [fst snd hleave h_threads h_layers].
  split; [left; intros E; apply (f_equal (λ s, h_threads s !! t)) in E; cbn [hleave h_threads] in E; by rewrite lookup_delete, Ht in E|].
  split; [intros E; by rewrite E in Ht|]. split; [done|].
  intros u Hu. destruct (decide (u = t)) as [->|?]; [by rewrite lookup_delete|by rewrite lookup_delete_ne].
Qed.
Lemma go_goto its s t p q it : h_threads s !! t = Some p → q ≠ p → hstep s it (hgoto s t q) → heads_go_on (its, s) (its ++ [it], hgoto s t q).
Proof.
  intros Ht Hq Hst. exists it. split; [done|]. split; [done|]. cbn [fst snd hgoto h_threads h_layers].
  split; [left; intros E; apply (f_equal (λ s, h_threads s !! t)) in E; cbn [hgoto h_threads] in E; rewrite lookup_insert, Ht in E; by injection E|].
  split; [intros E; by rewrite E in Ht|]. split; [done|].
  intros u Hu. rewrite lookup_insert_ne; [done|]. intros ->. by rewrite Ht in Hu.
Qed.
