(** When loading gives the same layer again. *)
From Verif Require Import Prelude Names LayerIds.
From stdpp Require Import gmap.

(** ** While a layer is cached and in use *)
Section same.
Context (x : lname) (i : nat).
Fixpoint fine (Q : outcome (option nat) → Prop) (p : iprog) : Prop :=
  match p with
  | IRet r => Q r
  | IStuck => True
  | IRead y k => (y = x → fine Q (k (Some i))) ∧ (y ≠ x → ∀ w, fine Q (k w))
  | IUp j k => fine Q (k true) ∧ (j ≠ i → fine Q (k false))
  | IRem y p => y ≠ x ∧ fine Q p
  | IDisk k => ∀ d, fine Q (k d)
  | IFiles _ k => ∀ b, fine Q (k b)
  | IPeek _ k => ∀ c, fine Q (k c)
  | INew _ k => ∀ j, fine Q (k j)
  | ICache y _ p => y ≠ x ∧ fine Q p
  end.
Lemma fine_from_cache Q y k : (y = x → fine Q (k (Some i))) → (y ≠ x → ∀ w, fine Q (k w)) → fine Q (from_cache y k).
Proof.
  intros H1 H2. unfold from_cache. cbn [fine]. split.
  - intros Hy. split; [by apply H1|]. by intros [].
  - intros Hy [j|]; [|by apply H2]. cbn [fine]. split; [by apply H2|]. intros _. split; [done|]. by apply H2.
Qed.
Notation todo := (lname * option (lname * option lname))%type (only parsing).
Definition clean (e : todo) : Prop := fst e ≠ x ∧ match snd e with Some (r, _) => r ≠ x | None => True end.
Lemma fine_build rest : ∀ a, Forall clean rest → fine (λ _, True) (build a rest).
Proof.
  induction rest as [|[orig [[r op]|]] rest IH]; intros a Hc; cbn [build fine]; [done| |].
  - apply Forall_cons in Hc. destruct Hc as [[Ho Hr] Hc]. cbn [fst snd] in *. destruct op; [|done].
    cbn [fine]. intros [|]; [|done]. cbn [fine]. intros j. split; [done|]. intros j'. split; [done|]. by apply IH.
  - apply Forall_cons in Hc. destruct Hc as [[Ho _] Hc]. cbn [fst snd] in *. intros [|]; [|done]. cbn [fine].
    intros j. split; [done|]. by apply IH.
Qed.
Lemma fine_base e rest : clean e → Forall clean rest → fine (λ _, True) (build_base e rest).
Proof.
  intros [Ho Hr] Hc. destruct e as [orig [[r op]|]]; cbn [fst snd build_base fine] in *; intros [|]; try done; cbn [fine].
  - intros j. split; [done|]. intros j'. split; [done|]. by apply fine_build.
  - intros j. split; [done|]. by apply fine_build.
Qed.
Lemma fine_find fuel : ∀ e rest, (snd e ≠ None → fst e ≠ x) → Forall clean rest → fine (λ _, True) (find_ancestor fuel e rest).
Proof.
  induction fuel as [|fuel IH]; intros e rest He Hc; cbn [find_ancestor]; [done|].
  set (cur := match snd e with Some (r, _) => r | None => fst e end).
  assert (∀ j, fine (λ _, True) match snd e with
            | None => build j rest
            | Some (_, op) => IPeek j (λ c, match c_parent c, op with
                  | Some _, None => IRet Panic
                  | _, _ => INew (Cell (fst e) (c_parent c) (Some j)) (λ j, build j rest)
                  end) end) as Hfound.
  { intros j. destruct (snd e) as [[r op]|]; [|by apply fine_build]. cbn [fine]. intros c.
    destruct (c_parent c), op; cbn [fine]; try done; intros j'; by apply fine_build. }
  apply fine_from_cache; [intros _; apply Hfound|]. intros Hcur [j|]; [apply Hfound|].
  assert (clean e) as Hce.
  { split.
    - destruct (snd e) as [[r op]|] eqn:Es; [by apply He|]. exact Hcur.
    - destruct (snd e) as [[r op]|] eqn:Es; [exact Hcur|done]. }
  cbn [fine]. intros d. destruct (d_rollup d cur) as [r|].
  - case_decide; [done|]. cbn [fine]. intros d'. apply IH; [done|done].
  - cbn [fine]. intros d'. destruct (d_parent d' cur) as [p|]; [|by apply fine_base].
    apply IH; [done|]. apply Forall_cons. done.
Qed.
Definition expected (k : icall) (r : outcome (option nat)) : Prop :=
  match k with ILoad y => y = x → r = Ok (Some i) | IRegister _ => True end.
Lemma fine_weaken (Q Q' : outcome (option nat) → Prop) p : (∀ r, Q r → Q' r) → fine Q p → fine Q' p.
Proof.
  intros HQ. induction p as [r| |y k IH|j k IH|y p IH|k IH|y k IH|j k IH|c k IH|y j p IH]; cbn [fine]; auto.
  - intros [H1 H2]. split; [intros Hy; by apply IH, H1|intros Hy w; by apply IH, H2].
  - intros [H1 H2]. split; [by apply IH|intros Hj; by apply IH, H2].
  - intros [H1 H2]. auto.
  - intros [H1 H2]. auto.
Qed.
Lemma fine_program fuel k : k ≠ IRegister x → fine (expected k) (icall_program fuel k).
Proof.
  intros Hk. destruct k as [y|y]; cbn [icall_program].
  - apply fine_from_cache.
    + intros ->. cbn [fine expected]. done.
    + intros Hy [j|]; cbn [fine expected]; [done|]. intros d. destruct (d_exists d y); [|by intros ?].
      apply (fine_weaken (λ _, True)); [by intros r _ ?|]. apply fine_find; [done|constructor].
  - cbn [fine expected]. split; [congruence|done].
Qed.
Definition settled (s : istate) : Prop :=
  i_cache s !! x = Some i ∧ ∀ t th, i_threads s !! t = Some th → fine (expected (t_call th)) (t_prog th).
Lemma settled_thread t s e s' : tstep t s e s' → settled s → in_use i s → e ≠ Some (IStart t (IRegister x)) →
  settled s' ∧ ∀ y r, e = Some (IDone t (ILoad y) r) → y = x → r = Ok (Some i).
Proof.
  intros Hstep [Hc Ht] Huse He.
  assert (Hput : ∀ (th : gmap nat ithread) k l p, (∀ t0 th0, th !! t0 = Some th0 → fine (expected (t_call th0)) (t_prog th0)) → fine (expected k) p →
    ∀ t0 th0, <[t := IThread k l p]> th !! t0 = Some th0 → fine (expected (t_call th0)) (t_prog th0)).
  { intros th k l p Hth Hp t0 th0 Hl. apply lookup_insert_Some in Hl. destruct Hl as [[_ <-]|[_ Hl]]; [done|by apply (Hth t0)]. }
  destruct Hstep; cbn [i_cache i_threads] in Hc, Ht; unfold settled; cbn [i_cache i_threads];
    try match goal with H : _ !! t = Some (IThread _ _ _) |- _ => pose proof (Ht t _ H) as Hf; cbn [t_call t_prog fine] in Hf end.
  - split; [split; [done|]|done]. apply Hput; [done|]. apply fine_program. intros ->. by apply He.
  - split; [split; [done|]|done]. apply Hput; [done|]. destruct Hf as [Hf1 Hf2]. destruct (decide (x0 = x)) as [->|Hne].
    + rewrite Hc. by apply Hf1.
    + by apply Hf2.
  - split; [split; [done|]|done]. apply Hput; [done|]. by destruct Hf.
  - split; [split; [done|]|done]. apply Hput; [done|]. destruct Hf as [_ Hf]. apply Hf. intros ->. 
    match goal with H : ¬ alive _ _ |- _ => apply H end. by left.
  - destruct Hf as [Hne Hf]. split; [split; [|]|done]; [by rewrite lookup_delete_ne|]. by apply Hput.
  - split; [split; [done|]|done]. by apply Hput.
  - split; [split; [done|]|done]. by apply Hput.
  - split; [split; [done|]|done]. by apply Hput.
  - split; [split; [done|]|done]. by apply Hput.
  - destruct Hf as [Hne Hf]. split; [split; [|]|done]; [by rewrite lookup_insert_ne|]. by apply Hput.
  - split; [split; [done|]|].
    + intros t0 th0 Hl. apply lookup_delete_Some in Hl. destruct Hl as [_ Hl]. by apply (Ht t0).
    + intros y r' [= -> ->] ->. by apply Hf.
Qed.
Lemma settled_exec s tr s' : iexec (in_use i) s tr s' → settled s → (∀ t, IStart t (IRegister x) ∉ tr) →
  settled s' ∧ ∀ t r, IDone t (ILoad x) r ∈ tr → r = Ok (Some i).
Proof.
  intros Hex Hs. induction Hex as [s Hu|s tr s' e s'' Hex IH Hstep Hu]; intros Hno.
  - split; [done|]. intros t r Hin. by apply elem_of_nil in Hin.
  - destruct IH as [Hs' Htr]; [done|intros t Hin; apply (Hno t), elem_of_app; by left|].
    assert (in_use i s') as Hu' by (by destruct Hex).
    assert (settled s'' ∧ ∀ t r, e = Some (IDone t (ILoad x) r) → r = Ok (Some i)) as [Hs'' He].
    { inversion Hstep; subst; [|split; [exact Hs'|done]..].
      destruct (settled_thread t s' e s'' H Hs' Hu') as [H1 H2].
      - intros ->. apply (Hno t), elem_of_app. right. change (option_list (Some (IStart t (IRegister x)))) with [IStart t (IRegister x)].
        by apply elem_of_list_singleton.
      - split; [done|]. intros t' r ->. inversion H; subst. by apply (H2 x r). }
    split; [done|]. intros t r Hin. apply elem_of_app in Hin. destruct Hin as [Hin|Hin]; [by apply (Htr t)|].
    apply (He t). destruct e as [e|]; [|by apply elem_of_nil in Hin].
    change (option_list (Some e)) with [e] in Hin. apply elem_of_list_singleton in Hin. by subst.
Qed.
End same.

(** ** One load by itself *)
Section by_itself.
Context (x : lname) (d : disk) (hs : list nat).
Definition kept (h : gmap nat cell) (l : list nat) (i : nat) : Prop := ∃ root, root ∈ hs ++ l ∧ holds h root i.
Notation post c r := (∀ i, r = Ok (Some i) → (c : gmap lname nat) !! x = Some i).
Fixpoint wp (h : gmap nat cell) (c : gmap lname nat) (l : list nat) (p : iprog) : Prop :=
  match p with
  | IRet r => post c r
  | IStuck => True
  | IRead y k => wp h c l (k (c !! y))
  | IUp i k => (kept h l i → wp h c (i :: l) (k true)) ∧ (¬ kept h l i → wp h c l (k false))
  | IRem y p => wp h (delete y c) l p
  | IDisk k => wp h c l (k d)
  | IFiles _ k => ∀ b, wp h c l (k b)
  | IPeek i k => ∀ e, h !! i = Some e → wp h c l (k e)
  | INew e k => ∀ j, h !! j = None → wp (<[j := e]> h) c (j :: l) (k j)
  | ICache y i p => wp h (<[y := i]> c) l p
  end.
Lemma wp_from_cache h c l y k : (∀ i, c !! y = Some i → kept h l i → wp h c (i :: l) (k (Some i))) →
  wp h (delete y c) l (k None) → wp h c l (from_cache y k).
Proof.
  intros H1 H2. unfold from_cache. cbn [wp]. destruct (c !! y) as [i|] eqn:E.
  - cbn [wp]. split; [intros Hk; by apply H1|]. intros _. exact H2.
  - by rewrite delete_notin in H2.
Qed.
Notation todo := (lname * option (lname * option lname))%type (only parsing).
Definition ends (rest : list todo) : Prop := ∃ rest' ro, rest = rest' ++ [(x, ro)].
Lemma ends_cons e rest : ends rest → ends (e :: rest).
Proof. intros (rest' & ro & ->). by exists (e :: rest'), ro. Qed.
Lemma ends_split e rest : ends (e :: rest) → (rest = [] ∧ fst e = x) ∨ ends rest.
Proof.
  intros ([|e' rest'] & ro & E); [left|right].
  - injection E as -> ->. done.
  - injection E as _ ->. by exists rest', ro.
Qed.
Lemma wp_build rest : ∀ a h c l, (rest = [] ∧ c !! x = Some a) ∨ ends rest → wp h c l (build a rest).
Proof.
  induction rest as [|[orig [[r op]|]] rest IH]; intros a h c l Hr; cbn [build].
  - destruct Hr as [[_ Hc]|(rest' & ro & E)]; [|by destruct rest']. cbn [wp]. intros i [= <-]. done.
  - destruct Hr as [[? _]|Hr]; [done|]. destruct op; [|by intros ?]. cbn [wp]. intros [|]; [|by intros ?]. cbn [wp].
    intros j _ j' _. apply IH. apply ends_split in Hr. destruct Hr as [[-> Hx]|Hr]; [left|by right].
    cbn [fst] in Hx. subst. split; [done|]. by rewrite lookup_insert.
  - destruct Hr as [[? _]|Hr]; [done|]. cbn [wp]. intros [|]; [|by intros ?]. cbn [wp].
    intros j _. apply IH. apply ends_split in Hr. destruct Hr as [[-> Hx]|Hr]; [left|by right].
    cbn [fst] in Hx. subst. split; [done|]. by rewrite lookup_insert.
Qed.
Lemma wp_base e rest h c l : ends (e :: rest) → wp h c l (build_base e rest).
Proof.
  intros Hr. apply ends_split in Hr.
  destruct e as [orig [[r op]|]]; cbn [build_base fst wp] in *; intros [|]; try (by intros ?); cbn [wp].
  - intros j _ j' _. apply wp_build. destruct Hr as [[-> ->]|Hr]; [left|by right]. split; [done|]. by rewrite lookup_insert.
  - intros j _. apply wp_build. destruct Hr as [[-> ->]|Hr]; [left|by right]. split; [done|]. by rewrite lookup_insert.
Qed.
Lemma wp_find fuel : ∀ e rest h c l, ends rest → wp h c l (find_ancestor fuel e rest).
Proof.
  induction fuel as [|fuel IH]; intros e rest h c l Hr; cbn [find_ancestor]; [done|].
  set (cur := match snd e with Some (r, _) => r | None => fst e end).
  apply wp_from_cache.
  - intros i _ _. destruct (snd e) as [[r op]|]; [|apply wp_build; by right]. cbn [wp]. intros e' _.
    destruct (c_parent e'), op; cbn [wp]; try (by intros ?); intros j _; apply wp_build; by right.
  - cbn [wp]. destruct (d_rollup d cur) as [r|].
    + case_decide; [by intros ?|]. cbn [wp]. by apply IH.
    + cbn [wp]. destruct (d_parent d cur) as [p|]; [apply IH|apply wp_base]; by apply ends_cons.
Qed.
Lemma wp_load fuel h c : (∀ r, d_rollup d x = Some r → d_rollup d r = None ∧ ∀ j, c !! r = Some j → ¬ kept h [] j) →
  wp h c [] (get_layer_ids fuel x).
Proof.
  intros Hroll. apply wp_from_cache.
  { intros i Hc _. cbn [wp]. intros i' [= <-]. done. }
  cbn [wp]. destruct (d_exists d x); [|by intros ?]. destruct fuel as [|fuel]; [done|]. cbn [find_ancestor snd fst].
  apply wp_from_cache.
  { intros i Hi. by rewrite lookup_delete in Hi. }
  cbn [wp]. destruct (d_rollup d x) as [r|] eqn:Er.
  - case_decide as Hne; [by intros ?|]. destruct (Hroll r eq_refl) as [Hrr Hdead]. cbn [wp].
    destruct fuel as [|fuel]; [done|]. cbn [find_ancestor snd fst]. apply wp_from_cache.
    { intros j Hj Hk. exfalso. rewrite !lookup_delete_ne in Hj by done. by apply (Hdead j). }
    cbn [wp]. rewrite Hrr. cbn [wp]. destruct (d_parent d r) as [p|].
    + apply wp_find. by exists [], (Some (r, d_parent d x)).
    + apply wp_base. by exists [], (Some (r, d_parent d x)).
  - cbn [wp]. destruct (d_parent d x) as [p|].
    + apply wp_find. by exists [], None.
    + apply wp_base. by exists [], None.
Qed.
Definition so_far (t : nat) (s0 : istate) (tr : list iev) (s : istate) : Prop :=
  (s = s0 ∧ tr = []) ∨
  (∃ k l p, i_handles s = hs ∧ i_disk s = d ∧ i_threads s = {[t := IThread k l p]} ∧ tr = [IStart t k] ∧
    (k = ILoad x → wp (i_heap s) (i_cache s) l p)) ∨
  (∃ k r, i_threads s = ∅ ∧ tr = [IStart t k; IDone t k r] ∧ (k = ILoad x → post (i_cache s) r) ∧
    ∀ i, r = Ok (Some i) → i ∈ i_handles s) ∨
  3 ≤ length tr.
Lemma so_far_alone t s0 tr s : i_handles s0 = hs → i_disk s0 = d → i_threads s0 = ∅ →
  (∀ fuel, wp (i_heap s0) (i_cache s0) [] (get_layer_ids fuel x)) → alone t s0 tr s → so_far t s0 tr s.
Proof.
  intros Hh Hd Ht Hwp Hal. induction Hal as [s|s tr s' e s'' Hal IH Hstep]; [by left|].
  specialize (IH Hh Hd Ht Hwp). destruct IH as [[-> ->]|[(k & l & p & Hh' & Hd' & Ht' & -> & Hp)|[(k & r & Ht' & -> & Hp & Hi)|Hlen]]].
  - right; left. inversion Hstep; subst; cbn [i_threads i_handles i_disk i_heap i_cache] in *;
      try match goal with H : _ !! t = Some _ |- _ => rewrite Ht, lookup_empty in H; discriminate H end.
    eexists _, _, _. split; [done|]. split; [done|]. split; [rewrite ?Ht; apply insert_empty|]. split; [done|]. intros ->. apply Hwp.
  - inversion Hstep; subst; cbn [i_threads i_handles i_disk i_heap i_cache] in *; subst;
      try match goal with H : {[t := _]} !! t = Some _ |- _ => rewrite lookup_singleton in H; injection H as ? ? ?; subst end.
    + rewrite lookup_singleton in H. discriminate H.
    + right; left. eexists _, _, _. rewrite insert_singleton. split_and!; try done.
    + right; left. eexists _, _, _. rewrite insert_singleton. split_and!; try done. intros E. specialize (Hp E). cbn [wp] in Hp. apply Hp.
      destruct H0 as [(root & H1 & H2)|(t0 & th & root & H1 & H2 & H3)]; cbn [i_threads i_handles i_heap] in *.
      * exists root. split; [apply elem_of_app; by left|done].
      * apply lookup_singleton_Some in H1. destruct H1 as [<- <-]. exists root. split; [apply elem_of_app; by right|done].
    + right; left. eexists _, _, _. rewrite insert_singleton. split_and!; try done. intros E. specialize (Hp E). cbn [wp] in Hp. apply Hp.
      intros (root & H1 & H2). apply H0. apply elem_of_app in H1. destruct H1 as [H1|H1]; [left; by exists root|right].
      eexists t, _, root. cbn [i_threads i_heap]. rewrite lookup_singleton. done.
    + right; left. eexists _, _, _. rewrite insert_singleton. split_and!; try done.
    + right; left. eexists _, _, _. rewrite insert_singleton. split_and!; try done.
    + right; left. eexists _, _, _. rewrite insert_singleton. split_and!; try done. intros E. by apply Hp.
    + right; left. eexists _, _, _. rewrite insert_singleton. split_and!; try done. intros E. specialize (Hp E). by apply Hp.
    + right; left. eexists _, _, _. rewrite insert_singleton. split_and!; try done. intros E. specialize (Hp E). by apply Hp.
    + right; left. eexists _, _, _. rewrite insert_singleton. split_and!; try done.
    + right; right; left. eexists _, _. rewrite delete_singleton. split_and!; try done. intros i ->. by left.
  - right; right; right. inversion Hstep; subst; cbn [i_threads] in *; subst;
      try match goal with H : _ !! t = Some _ |- _ => rewrite lookup_empty in H; discriminate H end.
    rewrite app_length. cbn. lia.
  - right; right; right. rewrite app_length. lia.
Qed.
End by_itself.

Lemma load_alone t s x i s' : alone t s [IStart t (ILoad x); IDone t (ILoad x) (Ok (Some i))] s' → i_threads s = ∅ →
  (∀ r, d_rollup (i_disk s) x = Some r → d_rollup (i_disk s) r = None ∧ ∀ j, i_cache s !! r = Some j → ¬ in_use j s) →
  settled x i s' ∧ in_use i s'.
Proof.
  intros Hal Ht Hroll.
  assert (∀ fuel, wp x (i_disk s) (i_handles s) (i_heap s) (i_cache s) [] (get_layer_ids fuel x)) as Hwp.
  { intros fuel. apply wp_load. intros r Hr. destruct (Hroll r Hr) as [H1 H2]. split; [done|].
    intros j Hj (root & Hroot & Hh). apply (H2 j Hj). rewrite app_nil_r in Hroot. by exists root. }
  destruct (so_far_alone x (i_disk s) (i_handles s) t s _ s' eq_refl eq_refl Ht Hwp Hal) as [[_ E]|[(k & l & p & _ & _ & _ & E & _)|[(k & r & Ht' & E & Hp & Hi)|Hl]]].
  - done.
  - done.
  - simplify_eq. split; [split|].
    + by apply Hp.
    + intros t0 th H. rewrite Ht' in H. by rewrite lookup_empty in H.
    + exists i. split; [by apply Hi|constructor].
  - cbn in Hl. lia.
Qed.
Lemma same_layer t s x i s1 tr s2 : alone t s [IStart t (ILoad x); IDone t (ILoad x) (Ok (Some i))] s1 → i_threads s = ∅ →
  (∀ r, d_rollup (i_disk s) x = Some r → d_rollup (i_disk s) r = None ∧ ∀ j, i_cache s !! r = Some j → ¬ in_use j s) →
  iexec (in_use i) s1 tr s2 → (∀ t', IStart t' (IRegister x) ∉ tr) →
  ∀ t' r, IDone t' (ILoad x) r ∈ tr → r = Ok (Some i).
Proof.
  intros Hal Ht Hroll Hex Hno. destruct (load_alone t s x i s1 Hal Ht Hroll) as [Hs _].
  by apply (settled_exec x i s1 tr s2).
Qed.

(** ** Executions by computation, for examples *)
Definition roots (s : istate) : list nat := i_handles s ++ mjoin (t_held <$> (snd <$> map_to_list (i_threads s))).
Lemma alive_roots s i : alive i s ↔ ∃ root, root ∈ roots s ∧ holds (i_heap s) root i.
Proof.
  unfold alive, in_use, roots. split.
  - intros [(h & H1 & H2)|(t & th & h & H1 & H2 & H3)].
    + exists h. split; [apply elem_of_app; by left|done].
    + exists h. split; [|done]. apply elem_of_app. right. apply elem_of_list_join. exists (t_held th). split; [done|].
      apply elem_of_list_fmap. exists th. split; [done|]. apply elem_of_list_fmap. exists (t, th). split; [done|]. by apply elem_of_map_to_list.
  - intros (root & H1 & H2). apply elem_of_app in H1. destruct H1 as [H1|H1]; [left; by exists root|right].
    apply elem_of_list_join in H1. destruct H1 as (l & Hl & H1). apply elem_of_list_fmap in H1. destruct H1 as (th & -> & H1).
    apply elem_of_list_fmap in H1. destruct H1 as ([t th'] & -> & H1). apply elem_of_map_to_list in H1. by exists t, th', root.
Qed.
(** does not find out when a root holds other layers *)
Definition alive_check (s : istate) (i : nat) : option bool :=
  if decide (i ∈ roots s) then Some true
  else if forallb (λ r, match i_heap s !! r with Some (Cell _ None None) | None => true | _ => false end) (roots s) then Some false
  else None.
Lemma alive_check_true s i : alive_check s i = Some true → alive i s.
Proof.
  unfold alive_check. case_decide as H; [|by destruct (forallb _ _)]. intros _. apply alive_roots. exists i. split; [done|constructor].
Qed.
Lemma alive_check_false s i : alive_check s i = Some false → ¬ alive i s.
Proof.
  unfold alive_check. case_decide as H; [done|]. destruct (forallb _ _) eqn:E; [|done]. intros _ Ha. apply alive_roots in Ha.
  destruct Ha as (root & Hr & Hh). rewrite forallb_forall in E. pose proof (E root (proj1 (elem_of_list_In _ _) Hr)) as Er.
  destruct Hh as [j|j k m c Hc Hp _|j k m c Hc Hp _]; [done| |]; rewrite Hc in Er; destruct c as [? [?|] [?|]]; discriminate.
Qed.
Definition do_step (t j : nat) (s : istate) : option (option iev * istate) :=
  match i_threads s !! t with
  | None => None
  | Some (IThread k l p) =>
      let at_ (h : gmap nat cell) (c : gmap lname nat) (l' : list nat) (p' : iprog) :=
        Some (None, IState h c (i_handles s) (i_disk s) (<[t := IThread k l' p']> (i_threads s))) in
      match p with
      | IStuck => None
      | IRet r => Some (Some (IDone t k r), IState (i_heap s) (i_cache s) (match r with Ok (Some i) => i :: i_handles s | _ => i_handles s end)
                    (i_disk s) (delete t (i_threads s)))
      | IRead y f => at_ (i_heap s) (i_cache s) l (f (i_cache s !! y))
      | IUp i f =>
          match alive_check s i with
          | Some true => at_ (i_heap s) (i_cache s) (i :: l) (f true)
          | Some false => at_ (i_heap s) (i_cache s) l (f false)
          | None => None
          end
      | IRem y p => at_ (i_heap s) (delete y (i_cache s)) l p
      | IDisk f => at_ (i_heap s) (i_cache s) l (f (i_disk s))
      | IFiles _ f => at_ (i_heap s) (i_cache s) l (f true)
      | IPeek i f => match i_heap s !! i with Some e => at_ (i_heap s) (i_cache s) l (f e) | None => None end
      | INew e f => match i_heap s !! j with None => at_ (<[j := e]> (i_heap s)) (i_cache s) (j :: l) (f j) | Some _ => None end
      | ICache y i p => at_ (i_heap s) (<[y := i]> (i_cache s)) l p
      end
  end.
Lemma do_step_ok t j s e s' : do_step t j s = Some (e, s') → tstep t s e s'.
Proof.
  unfold do_step. destruct s as [h c hs d th]. cbn [i_heap i_cache i_handles i_disk i_threads].
  destruct (th !! t) as [[k l p]|] eqn:Et; [|done]. intros E. destruct p as [r| |y f|i f|y p|f|y f|i f|e' f|y i p]; try done.
  - injection E as <- <-. by apply (t_done t h c hs d th k l).
  - injection E as <- <-. by apply t_read.
  - destruct (alive_check _ i) as [[|]|] eqn:Ea; [| |done]; injection E as <- <-.
    + apply (t_upgrade t h c hs d th k l i f); [done|]. by apply alive_check_true.
    + apply (t_dead t h c hs d th k l i f); [done|]. by apply alive_check_false.
  - injection E as <- <-. by apply t_remove.
  - injection E as <- <-. by apply t_disk.
  - injection E as <- <-. by apply (t_files t h c hs d th k l y f true).
  - destruct (h !! i) eqn:Eh; [|done]. injection E as <- <-. by apply (t_peek t h c hs d th k l i f).
  - destruct (h !! j) eqn:Eh; [done|]. injection E as <- <-. by apply (t_new t h c hs d th k l e' f j).
  - injection E as <- <-. by apply (t_cache t h c hs d th k l y i p).
Qed.
(** what to do: start a call, make some steps (with a number for new layers), drop the handle given last *)
Inductive todo_cmd := DoStart (t : nat) (k : icall) | DoSteps (t n j : nat) | DoDrop.
Fixpoint do_steps (t n j : nat) (s : istate) : option (list iev * istate) :=
  match n with
  | 0 => Some ([], s)
  | S n' => '(e, s') ← do_step t j s; '(tr, s'') ← do_steps t n' (match i_heap s' !! j with Some _ => S j | None => j end) s'; Some (option_list e ++ tr, s'')
  end.
Definition do_cmd (m : todo_cmd) (s : istate) : option (list iev * istate) :=
  match m with
  | DoStart t k => match i_threads s !! t with
                   | None => Some ([IStart t k], IState (i_heap s) (i_cache s) (i_handles s) (i_disk s) (<[t := IThread k [] (icall_program 100 k)]> (i_threads s)))
                   | Some _ => None end
  | DoSteps t n j => do_steps t n j s
  | DoDrop => match i_handles s with [] => None | _ :: hs => Some ([], IState (i_heap s) (i_cache s) hs (i_disk s) (i_threads s)) end
  end.
Fixpoint do_all (ms : list todo_cmd) (s : istate) : option (list iev * istate) :=
  match ms with
  | [] => Some ([], s)
  | m :: ms' => '(tr, s') ← do_cmd m s; '(tr', s'') ← do_all ms' s'; Some (tr ++ tr', s'')
  end.
Lemma iexec_app P s tr s' tr' s'' : iexec P s tr s' → iexec P s' tr' s'' → iexec P s (tr ++ tr') s''.
Proof.
  intros H1 H2. induction H2 as [s' H|s' tr' s'' e' s3 Hex IH Hs' Hp]; [by rewrite app_nil_r|].
  rewrite app_assoc. apply (iexec_step P s _ s''); [by apply IH|done|done].
Qed.
Lemma do_steps_alone t n : ∀ j s tr s' s0 tr0, alone t s0 tr0 s → do_steps t n j s = Some (tr, s') → alone t s0 (tr0 ++ tr) s'.
Proof.
  induction n as [|n IH]; intros j s tr s' s0 tr0 H0 E; cbn [do_steps] in E.
  - injection E as <- <-. by rewrite app_nil_r.
  - apply bind_Some in E. destruct E as ([e s1] & E1 & E). apply bind_Some in E. destruct E as ([tr1 s2] & E2 & E). injection E as <- <-.
    rewrite app_assoc. eapply IH; [|exact E2]. apply (alone_step t s0 tr0 s); [done|]. by apply do_step_ok with j.
Qed.
(** [P] depends on what the steps keep *)
Lemma alone_exec (P : istate → Prop) t s tr s' : (∀ s e s', tstep t s e s' → P s → P s') → P s → alone t s tr s' → iexec P s tr s' ∧ P s'.
Proof.
  intros HP Hs Hal. induction Hal as [s|s tr s' e s'' Hal IH Hstep]; [split; [by constructor|done]|].
  destruct (IH Hs) as [H1 H2]. assert (P s'') by (by apply (HP s' e)). split; [|done].
  apply (iexec_step P s tr s'); [done|by apply (i_thread t)|done].
Qed.
Lemma do_all_ok (ms : list todo_cmd) : ∀ s tr s', do_all ms s = Some (tr, s') → iexec (λ _, True) s tr s'.
Proof.
  induction ms as [|m ms IH]; intros s tr s' E; cbn [do_all] in E; [injection E as <- <-; by constructor|].
  apply bind_Some in E. destruct E as ([tr1 s1] & E1 & E). apply bind_Some in E. destruct E as ([tr2 s2] & E2 & E). injection E as <- <-.
  apply (iexec_app _ _ _ s1); [|by apply IH]. destruct m as [t k|t n j|]; cbn [do_cmd] in E1.
  - destruct (i_threads s !! t) eqn:Et; [done|]. injection E1 as <- <-. destruct s as [h c hs d th]. cbn [i_heap i_cache i_handles i_disk i_threads] in *.
    apply (iexec_step _ _ [] _ (Some (IStart t k)) _ (iexec_nil _ _ I)); [|done]. apply (i_thread t). by apply t_start.
  - apply (do_steps_alone t n j s tr1 s1 s []) in E1; [|constructor]. by apply (alone_exec (λ _, True) t).
  - destruct s as [h c hs d th]. cbn [i_handles i_heap i_cache i_disk i_threads] in E1. destruct hs as [|i hs]; [done|]. injection E1 as <- <-.
    apply (iexec_step _ _ [] _ None _ (iexec_nil _ _ I)); [|done]. apply (i_drop h c [] i hs).
Qed.
(** the steps of threads do not drop handles *)
Lemma holds_insert h i j k e : h !! k = None → holds h i j → holds (<[k := e]> h) i j.
Proof.
  intros Hk H. induction H as [i|i j m c Hc Hp _ IH|i j m c Hc Hp _ IH]; [constructor| |].
  - apply (holds_parent _ i j m c); [|done|done]. rewrite lookup_insert_ne; [done|]. intros ->. congruence.
  - apply (holds_inner _ i j m c); [|done|done]. rewrite lookup_insert_ne; [done|]. intros ->. congruence.
Qed.
Lemma in_use_tstep i t s e s' : tstep t s e s' → in_use i s → in_use i s'.
Proof.
  intros Hs (root & H1 & H2). destruct Hs; cbn [i_handles i_heap] in *; unfold in_use; cbn [i_handles i_heap]; try (by exists root).
  - exists root. split; [done|]. by apply holds_insert.
  - exists root. split; [|done]. destruct r as [[j|]| |]; try done. by right.
Qed.
Lemma do_call_alone t k n j s tr s' : do_all [DoStart t k; DoSteps t n j] s = Some (tr, s') → alone t s tr s'.
Proof.
  cbn [do_all do_cmd]. destruct (i_threads s !! t) eqn:Et; [done|]. cbn [mbind option_bind]. intros E.
  apply bind_Some in E. destruct E as ([tr2 s2] & E & E2). apply bind_Some in E. destruct E as ([tr1 s1] & E1 & E).
  injection E as <- <-. injection E2 as <- <-. rewrite app_nil_r.
  apply (do_steps_alone t n j _ tr1 s1 s [IStart t k]) in E1; [exact E1|].
  destruct s as [h c hs d th]. cbn [i_heap i_cache i_handles i_disk i_threads] in *.
  apply (alone_step t _ [] _ (Some (IStart t k)) _ (alone_nil t _)). by apply t_start.
Qed.
Lemma handle_in_use i s : i ∈ i_handles s → in_use i s.
Proof. intros H. exists i. split; [done|constructor]. Qed.
Lemma result_of {A} (o : option (list iev * A)) tr : fst <$> o = Some tr → ∃ s, o = Some (tr, s) ∧ snd <$> o = Some s.
Proof. destruct o as [[tr' s]|]; [|done]. intros [= ->]. by exists s. Qed.
