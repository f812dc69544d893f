(** C62: a layer that is in use is not loaded a second time. *)
From Verif Require Import Prelude Names LayerIds LayerIdsFacts.
From stdpp Require Import gmap.

(** A layer has been loaded while no other call was under way, and the layer made by rolling it up, if there is one, was
    not in use itself.  From then on, as long as somebody holds the layer, directly or through a layer above it, and it
    is not rolled up, every load gives this same layer, whatever else is loaded, rolled up and dropped by how many
    threads. *)
Theorem C62_same_partial t s x i s1 tr s2 :
  alone t s [IStart t (ILoad x); IDone t (ILoad x) (Ok (Some i))] s1 → i_threads s = ∅ →
  (∀ r, d_rollup (i_disk s) x = Some r → d_rollup (i_disk s) r = None ∧ ∀ j, i_cache s !! r = Some j → ¬ in_use j s) →
  iexec (in_use i) s1 tr s2 → (∀ t', IStart t' (IRegister x) ∉ tr) →
  ∀ t' r, IDone t' (ILoad x) r ∈ tr → r = Ok (Some i).
Proof. exact (same_layer t s x i s1 tr s2). Qed.
Print Assumptions C62_same_partial.

Definition ix : lname := [1%N].
Definition ir : lname := [2%N].
(** two layers without parents, the second made by rolling up the first *)
Definition idisk : disk := Disk (λ _, true) (λ _, None) (λ _, None).
Definition idisk_rolled : disk := Disk (λ _, true) (λ _, None) (λ x, if decide (x = ix) then Some ir else None).
(** A first load by itself, then two loads at a time, one of which begins before a handle is dropped: all give the same. *)
Definition ex_first : option (list iev * istate) := do_all [DoStart 0 (ILoad ix); DoSteps 0 9 0] (istate_init idisk).
Definition ex_then : option (list iev * istate) :=
  '(_, s) ← ex_first; do_all [DoStart 1 (ILoad ix); DoSteps 1 2 1; DoStart 2 (ILoad ix); DoSteps 2 3 1; DoDrop; DoSteps 1 1 1] s.
Example C62_example :
  (fst <$> ex_first) = Some [IStart 0 (ILoad ix); IDone 0 (ILoad ix) (Ok (Some 0))] ∧
  (fst <$> ex_then) = Some [IStart 1 (ILoad ix); IStart 2 (ILoad ix); IDone 2 (ILoad ix) (Ok (Some 0)); IDone 1 (ILoad ix) (Ok (Some 0))].
Proof. split; vm_compute; reflexivity. Qed.
(** The first of the two is a load by itself, so that the theorem is about what comes then. *)
Example C62_applies : ∃ s1 s2, alone 0 (istate_init idisk) [IStart 0 (ILoad ix); IDone 0 (ILoad ix) (Ok (Some 0))] s1 ∧
  iexec (in_use 0) s1 [IStart 1 (ILoad ix); IDone 1 (ILoad ix) (Ok (Some 0))] s2.
Proof.
  destruct (result_of ex_first _ (proj1 C62_example)) as (s1 & E1 & E1').
  pose proof (do_call_alone 0 (ILoad ix) 9 0 _ _ _ E1) as H1. exists s1.
  set (o := do_all [DoStart 1 (ILoad ix); DoSteps 1 3 1] s1).
  assert (fst <$> o = Some [IStart 1 (ILoad ix); IDone 1 (ILoad ix) (Ok (Some 0))]) as E2.
  { assert (s1 = default (istate_init idisk) (snd <$> ex_first)) as Es by (rewrite E1'; exact eq_refl).
    subst o. rewrite Es. vm_compute. reflexivity. }
  destruct (result_of o _ E2) as (s2 & E3 & _). exists s2. split; [exact H1|].
  apply (alone_exec (in_use 0) 1); [intros s e s'; apply in_use_tstep| |exact (do_call_alone 1 _ 3 1 _ _ _ E3)].
  apply handle_in_use. assert (i_handles <$> (snd <$> ex_first) = Some [0]) as Eh by (vm_compute; reflexivity).
  rewrite E1' in Eh. cbn [fmap option_fmap option_map] in Eh. injection Eh as ->. apply elem_of_list_singleton. reflexivity.
Qed.

(** Without the conditions it is refuted.  Two loads at a time give two copies. *)
Definition ex_together := do_all [DoStart 0 (ILoad ix); DoStart 1 (ILoad ix); DoSteps 0 3 0; DoSteps 1 3 0; DoSteps 0 6 0; DoSteps 1 6 1] (istate_init idisk).
Theorem C62_together_refuted : ∃ d x tr s i j, iexec (λ _, True) (istate_init d) tr s ∧
  tr = [IStart 0 (ILoad x); IStart 1 (ILoad x); IDone 0 (ILoad x) (Ok (Some i)); IDone 1 (ILoad x) (Ok (Some j))] ∧
  i ≠ j ∧ in_use i s ∧ in_use j s.
Proof.
  assert (fst <$> ex_together = Some [IStart 0 (ILoad ix); IStart 1 (ILoad ix); IDone 0 (ILoad ix) (Ok (Some 0)); IDone 1 (ILoad ix) (Ok (Some 1))]) as E.
  { vm_compute. reflexivity. }
  destruct (result_of ex_together _ E) as (s & E1 & E2).
  assert (i_handles <$> (snd <$> ex_together) = Some [1; 0]) as Eh by (vm_compute; reflexivity).
  rewrite E2 in Eh. cbn [fmap option_fmap option_map] in Eh. injection Eh as Eh.
  exists idisk, ix. eexists. exists s, 0, 1. split; [exact (do_all_ok _ _ _ _ E1)|]. split; [reflexivity|]. split; [lia|].
  split; apply handle_in_use; rewrite Eh; [apply (elem_of_list_lookup_2 _ 1)|apply (elem_of_list_lookup_2 _ 0)]; reflexivity.
Qed.
Print Assumptions C62_together_refuted.

(** A load that has found a dropped layer in the cache removes the entry of its name, also when another load has put a
    new layer there meanwhile: one who loads afterwards, while nobody else is loading and the layer is in use, gets a
    second copy. *)
Definition ex_race := do_all [DoStart 0 (ILoad ix); DoSteps 0 9 0; DoDrop; DoStart 1 (ILoad ix); DoSteps 1 1 1;
  DoStart 2 (ILoad ix); DoSteps 2 11 1; DoSteps 1 2 2] (istate_init idisk).
Definition ex_race_then := '(_, s) ← ex_race; do_all [DoStart 3 (ILoad ix); DoSteps 3 9 2] s.
Theorem C62_removed_refuted : ∃ d x tr s i j tr' s', iexec (λ _, True) (istate_init d) tr s ∧ IDone 2 (ILoad x) (Ok (Some i)) ∈ tr ∧
  iexec (in_use i) s tr' s' ∧ tr' = [IStart 3 (ILoad x); IDone 3 (ILoad x) (Ok (Some j))] ∧ i ≠ j ∧
  ∀ t, IStart t (IRegister x) ∉ tr ++ tr'.
Proof.
  assert (fst <$> ex_race = Some [IStart 0 (ILoad ix); IDone 0 (ILoad ix) (Ok (Some 0)); IStart 1 (ILoad ix); IStart 2 (ILoad ix); IDone 2 (ILoad ix) (Ok (Some 1))]) as E.
  { vm_compute. reflexivity. }
  destruct (result_of ex_race _ E) as (s & E1 & E2).
  assert (i_handles <$> (snd <$> ex_race) = Some [1]) as Eh by (vm_compute; reflexivity).
  rewrite E2 in Eh. cbn [fmap option_fmap option_map] in Eh. injection Eh as Eh.
  assert (fst <$> ex_race_then = Some [IStart 3 (ILoad ix); IDone 3 (ILoad ix) (Ok (Some 2))]) as E3.
  { vm_compute. reflexivity. }
  destruct (result_of ex_race_then _ E3) as (s' & E4 & _). unfold ex_race_then in E4. rewrite E1 in E4. cbn [mbind option_bind] in E4.
  exists idisk, ix. eexists. exists s, 1, 2. eexists. exists s'. split; [exact (do_all_ok _ _ _ _ E1)|].
  split; [apply (elem_of_list_lookup_2 _ 4); reflexivity|]. split.
  { apply (alone_exec (in_use 1) 3); [intros s0 e s0'; apply in_use_tstep| |exact (do_call_alone 3 _ 9 2 _ _ _ E4)].
    apply handle_in_use. rewrite Eh. apply elem_of_list_singleton. reflexivity. }
  split; [reflexivity|]. split; [lia|].
  intros t Hin. cbn [app] in Hin. repeat (apply elem_of_cons in Hin; destruct Hin as [Hin|Hin]; [discriminate Hin|]). by apply elem_of_nil in Hin.
Qed.
Print Assumptions C62_removed_refuted.

(** When the layer made by a rollup is in use itself, the layer that was rolled up is made anew by every load, also one
    call after the other. *)
Definition ex_rolled := do_all [DoStart 0 (ILoad ir); DoSteps 0 9 0; DoStart 1 (ILoad ix); DoSteps 1 10 1; DoStart 2 (ILoad ix); DoSteps 2 10 2] (istate_init idisk_rolled).
Theorem C62_rollup_refuted : ∃ d x y tr s i j k, iexec (λ _, True) (istate_init d) tr s ∧ d_rollup d x = Some y ∧
  tr = [IStart 0 (ILoad y); IDone 0 (ILoad y) (Ok (Some k)); IStart 1 (ILoad x); IDone 1 (ILoad x) (Ok (Some i));
        IStart 2 (ILoad x); IDone 2 (ILoad x) (Ok (Some j))] ∧
  i ≠ j ∧ in_use i s ∧ in_use j s.
Proof.
  assert (fst <$> ex_rolled = Some [IStart 0 (ILoad ir); IDone 0 (ILoad ir) (Ok (Some 0)); IStart 1 (ILoad ix); IDone 1 (ILoad ix) (Ok (Some 1));
        IStart 2 (ILoad ix); IDone 2 (ILoad ix) (Ok (Some 2))]) as E.
  { vm_compute. reflexivity. }
  destruct (result_of ex_rolled _ E) as (s & E1 & E2).
  assert (i_handles <$> (snd <$> ex_rolled) = Some [2; 1; 0]) as Eh by (vm_compute; reflexivity).
  rewrite E2 in Eh. cbn [fmap option_fmap option_map] in Eh. injection Eh as Eh.
  exists idisk_rolled, ix, ir. eexists. exists s, 1, 2, 0. split; [exact (do_all_ok _ _ _ _ E1)|].
  split; [vm_compute; reflexivity|]. split; [reflexivity|]. split; [lia|].
  split; apply handle_in_use; rewrite Eh; [apply (elem_of_list_lookup_2 _ 1)|apply (elem_of_list_lookup_2 _ 0)]; reflexivity.
Qed.
Print Assumptions C62_rollup_refuted.
