(** What [build_tfiles] writes: the invariant of a layer's triple files. *)
From Verif Require Import Prelude ListFacts Succinct SuccinctFacts TripleFiles.

Definition nonzero (t : triple) : Prop := t_s t ≠ 0 ∧ t_p t ≠ 0 ∧ t_o t ≠ 0.
#[global] Instance nonzero_dec t : Decision (nonzero t).
Proof. unfold nonzero. apply _. Defined.

(** the subject (or object) that a left-hand side stands for *)
Definition unmap (m : option (list nat)) (i : nat) : option nat :=
  match m with None => Some i | Some l => l !! (i - 1) end.

(** the (subject, predicate) pair number [i] *)
Definition dec_sp (subjects : option (list nat)) (SP : list (nat * nat)) (i : nat)
  : option (nat * nat) :=
  '(m, p) ← SP !! (i - 1); s ← unmap subjects m; if decide (p = 0) then None else Some (s, p).
(** the triple stored as entry [(i, o)] of sp_o; none for padding *)
Definition dec_spo subjects SP (e : nat * nat) : option triple :=
  '(s, p) ← dec_sp subjects SP e.1; Some (mkt s p e.2).
(** the triple stored as entry [(j, i)] of o_ps *)
Definition dec_ops subjects SP objects (e : nat * nat) : option triple :=
  if decide (e.2 = 0) then None
  else '(s, p) ← dec_sp subjects SP e.2; o ← unmap objects e.1; Some (mkt s p o).


(** ** The subject half *)

(** sp, spo contents and subject map that hold the triples [T] *)
Record spo_ok (subjects : option (list nat)) (nleft : nat) (SP SPO : list (nat * nat))
    (T : list triple) : Prop := {
  so_sp : SSorted SP;
  so_spo : SSorted SPO;
  so_left : ∀ m p, (m, p) ∈ SP → 1 ≤ m ≤ nleft;
  so_ix : ∀ i o, (i, o) ∈ SPO → 1 ≤ i ≤ length SP;
  so_stub : ∀ i o m p, (i, o) ∈ SPO → SP !! (i - 1) = Some (m, p) → o = 0 ↔ p = 0;
  so_subj : match subjects with
            | None => True
            | Some ss => length ss = nleft ∧ SSorted ss ∧ (∀ s, s ∈ ss → s ≠ 0) ∧
                         ∀ m p, (m, p) ∈ SP → p ≠ 0
            end;
  so_T : T = omap (dec_spo subjects SP) SPO }.

Record tfb_ok (sparse : bool) (b : tfb) (T : list triple) : Prop := {
  bo_sp : adjb_ok (tfb_sp b);
  bo_spo : adjb_ok (tfb_spo b);
  bo_coupled : b_last_left (tfb_spo b) = length (b_nums (tfb_sp b));
  bo_spo_ok : spo_ok (tfb_subjects b) (b_last_left (tfb_sp b)) (adjb_pairs (tfb_sp b))
                (adjb_pairs (tfb_spo b)) T;
  bo_sparse : is_Some (tfb_subjects b) ↔ sparse = true;
  bo_last_p : b_last_right (tfb_sp b) = tfb_last_p b;
  bo_last_s : match tfb_subjects b with
              | None => b_last_left (tfb_sp b) = tfb_last_s b
              | Some ss => (ss = [] ∧ tfb_last_s b = 0) ∨ last ss = Some (tfb_last_s b)
              end;
  bo_new : b_last_left (tfb_sp b) = 0 → tfb_sp b = adjb_new;
  bo_new' : b_last_left (tfb_sp b) = 0 → tfb_last_s b = 0 ∧ tfb_spo b = adjb_new }.

Lemma tfb_new_ok sparse : tfb_ok sparse (tfb_new sparse) [].
Proof.
  destruct sparse; split; cbn; auto using adjb_new_ok; try (by split); try done.
  - split; cbn; try apply ssorted_nil; try done; try set_solver.
    split_and!; try done; try apply ssorted_nil; set_solver.
  - split; cbn; try apply ssorted_nil; try done; try set_solver.
  - split; [intros [? [=]]|done].
Qed.

Lemma unmap_snoc ss s i : 1 ≤ i ≤ length ss → unmap (Some (ss ++ [s])) i = unmap (Some ss) i.
Proof. intros Hi. cbn. rewrite lookup_app_l; auto. lia. Qed.

(** the last thing written *)
Definition tfb_last (b : tfb) : triple := mkt (tfb_last_s b) (tfb_last_p b) (b_last_right (tfb_spo b)).

Lemma tfb_add_zero b t : ¬ nonzero t → tfb_add b t = Some b.
Proof.
  destruct t as [[s p] o]. unfold nonzero, t_s, t_p, t_o. cbn. intros Hz.
  rewrite decide_True; auto. destruct (decide (s = 0)), (decide (p = 0)), (decide (o = 0)); auto.
  tauto.
Qed.

Lemma tfb_add_same b T t sparse :
  tfb_ok sparse b T → nonzero t → olt (tfb_last b) t → tfb_last_s b = t_s t → tfb_last_p b = t_p t →
  ∃ b', tfb_add b t = Some b' ∧ tfb_ok sparse b' (T ++ [t]) ∧ tfb_last b' = t.
Proof.
  destruct t as [[s p] o]. unfold nonzero, tfb_last, t_s, t_p, t_o, mkt. cbn [fst snd].
  intros Hok (Hs0 & Hp0 & Ho0) Hlt Es Ep. destruct Hok.
  unfold tfb_add. rewrite decide_False by lia. rewrite decide_False by lia.
  rewrite decide_True by done.
  assert (tfb_sp b ≠ adjb_new) as Hne.
  { intros Heq. destruct bo_new'0 as [? _]; [by rewrite Heq|]. lia. }
  assert (1 ≤ length (b_nums (tfb_sp b))) as Hlen.
  { destruct bo_sp0 as [?|[? _]]; [done|lia]. }
  rewrite adjb_count_ok by done.
  destruct (adjb_push_ok (tfb_spo b) (length (b_nums (tfb_sp b))) o) as (spo' & -> & Hok' & Hl & Hr & Hp);
    [done|lia|lia|ord_num|].
  cbn. eexists. split; [done|]. split.
  2:{ cbn. by rewrite Hr. }
  assert (Hst : stubs (b_last_left (tfb_spo b)) (length (b_nums (tfb_sp b))) = []).
  { unfold stubs. rewrite bo_coupled0. by rewrite Nat.sub_diag. }
  rewrite Hst in Hp. cbn in Hp.
  pose proof (adjb_pairs_last (tfb_sp b) bo_sp0 Hne) as Hlast.
  set (n := length (b_nums (tfb_sp b))) in *.
  destruct bo_spo_ok0.
  assert (Hun : unmap (tfb_subjects b) (b_last_left (tfb_sp b)) = Some s).
  { destruct (tfb_subjects b) as [ss|] eqn:Hss; cbn; [|congruence].
    destruct so_subj0 as (Hlss & _). destruct bo_last_s0 as [[-> ?]|Hl2]; [lia|].
    rewrite last_lookup in Hl2. rewrite <-Hlss. rewrite <-Nat.sub_1_r in Hl2.
    rewrite Hl2. congruence. }
  split; cbn; auto; [|congruence|by rewrite <-Es|].
  - split; rewrite ?Hp; auto.
    + rewrite <-Hp. by apply adjb_sorted.
    + intros i o'. rewrite elem_of_app, elem_of_list_singleton.
      intros [?|[= -> ->]]; [eauto|]. rewrite adjb_pairs_length. subst n. lia.
    + intros i o' m p'. rewrite elem_of_app, elem_of_list_singleton.
      intros [?|[= -> ->]]; [eauto|]. rewrite Hlast. intros [= <- <-]. lia.
    + rewrite omap_app, so_T0. f_equal. cbn. unfold dec_spo, dec_sp. cbn.
      rewrite Hlast. cbn. rewrite Hun. cbn. rewrite decide_False by lia. cbn.
      unfold mkt. by rewrite bo_last_p0, Ep.
  - intros ?. exfalso. apply Hne. auto.
Qed.

(** growing the pair list and the subject list does not change what is decoded *)
Lemma dec_sp_grow subjects subjects' nleft SP SP' SPO T i :
  spo_ok subjects nleft SP SPO T →
  (∀ m, 1 ≤ m ≤ nleft → unmap subjects' m = unmap subjects m) →
  1 ≤ i ≤ length SP → dec_sp subjects' (SP ++ SP') i = dec_sp subjects SP i.
Proof.
  intros Hok Hun Hi. destruct Hok. unfold dec_sp. rewrite lookup_app_l by lia.
  destruct (SP !! (i - 1)) as [[m p]|] eqn:Hl; [|done]. cbn.
  rewrite Hun; [done|]. eapply so_left0, elem_of_list_lookup_2, Hl.
Qed.

Lemma tfb_add_new b T t sparse :
  tfb_ok sparse b T → nonzero t → olt (tfb_last b) t →
  ¬ (tfb_last_s b = t_s t ∧ tfb_last_p b = t_p t) →
  ∃ b', tfb_add b t = Some b' ∧ tfb_ok sparse b' (T ++ [t]) ∧ tfb_last b' = t.
Proof.
  destruct t as [[s p] o]. unfold nonzero, tfb_last, t_s, t_p, t_o, mkt. cbn [fst snd].
  intros Hok (Hs0 & Hp0 & Ho0) Hlt Hdiff. destruct Hok.
  unfold tfb_add. rewrite decide_False by lia. rewrite decide_False by ord_num.
  rewrite decide_False by done.
  set (subjects := match tfb_subjects b with
                   | Some ss => Some (if decide (s = tfb_last_s b) then ss else ss ++ [s])
                   | None => None
                   end).
  set (m := match subjects with Some ss => length ss | None => s end).
  assert (Hsp : tfb_last_s b < s ∨ (tfb_last_s b = s ∧ tfb_last_p b < p)) by ord_num.
  assert (Hm : b_last_left (tfb_sp b) ≤ m ∧ (tfb_last_s b < s → b_last_left (tfb_sp b) < m) ∧
               unmap subjects m = Some s ∧ 1 ≤ m ∧
               (∀ k, 1 ≤ k ≤ b_last_left (tfb_sp b) → unmap subjects k = unmap (tfb_subjects b) k)).
  { subst m subjects. destruct (tfb_subjects b) as [ss|].
    - destruct bo_spo_ok0, so_subj0 as (Hlss & _). case_decide as Hs.
      + subst s. destruct bo_last_s0 as [[-> ?]|Hl2]; [lia|].
        rewrite last_lookup in Hl2. rewrite <-Hlss. rewrite <-Nat.sub_1_r in Hl2.
        cbn. split_and!; auto; [lia|]. apply lookup_lt_Some in Hl2. lia.
      + rewrite app_length. cbn [length]. rewrite <-Hlss. split_and!; [lia|lia| |lia|].
        * cbn. rewrite lookup_app_r by lia. by replace (_ - _ - _) with 0 by lia.
        * intros. rewrite unmap_snoc by lia. done.
    - cbn. split_and!; auto; lia. }
  destruct Hm as (Hm1 & Hm2 & Hun & Hm0 & Hgrow).
  destruct (adjb_push_ok (tfb_sp b) m p) as (sp' & -> & Hok' & Hl & Hr & Hp);
    [done|lia|lia| |].
  { rewrite <-bo_last_p0 in Hsp. ord_num. }
  cbn [mbind option_bind].
  assert (sp' ≠ adjb_new) as Hne' by (intros ->; cbn in Hl; lia).
  rewrite adjb_count_ok by done.
  set (n := length (b_nums sp')).
  assert (Hn : n = length (adjb_pairs sp')) by (by rewrite adjb_pairs_length).
  assert (Hn0 : b_last_left (tfb_spo b) = length (adjb_pairs (tfb_sp b)))
    by (by rewrite adjb_pairs_length).
  assert (Hnn : n = length (adjb_pairs (tfb_sp b)) + length (stubs (b_last_left (tfb_sp b)) m) + 1).
  { rewrite Hn, Hp, !app_length. cbn. lia. }
  destruct (adjb_push_ok (tfb_spo b) n o) as (spo' & -> & Hok'' & Hl' & Hr' & Hp');
    [done|lia|lia|ord_num|].
  cbn [mbind option_bind].
  eexists. split; [done|]. split.
  2:{ cbn. by rewrite Hr'. }
  pose proof (adjb_pairs_last sp' Hok' Hne') as Hlast. fold n in Hlast. rewrite Hl, Hr in Hlast.
  (* the pair at a padding position *)
  assert (Hstub : ∀ k, b_last_left (tfb_spo b) < k < n →
            ∃ l, adjb_pairs sp' !! (k - 1) = Some (l, 0) ∧ b_last_left (tfb_sp b) < l < m).
  { intros k Hk. rewrite Hp, lookup_app_r by lia. rewrite lookup_app_l by lia.
    destruct (lookup_lt_is_Some_2 (stubs (b_last_left (tfb_sp b)) m) (k - 1 - length (adjb_pairs (tfb_sp b))))
      as [[l z] Hlz]; [lia|].
    rewrite Hlz. apply elem_of_list_lookup_2, stubs_spec in Hlz as [? Hz]. cbn in *. subst z. eauto. }
  assert (Hnosparse : is_Some (tfb_subjects b) → stubs (b_last_left (tfb_sp b)) m = []).
  { intros [ss Hss]. unfold stubs. subst m subjects. rewrite Hss in bo_spo_ok0 |- *.
    destruct bo_spo_ok0, so_subj0 as (Hlss & _). rewrite <-Hlss.
    case_decide; rewrite ?app_length; cbn; [by rewrite Nat.sub_diag|].
    by replace (_ + 1 - _ - 1) with 0 by lia. }
  pose proof bo_spo_ok0 as Hspo.
  destruct bo_spo_ok0.
  split; cbn; auto; try lia.
  - split; auto using adjb_sorted.
    + intros m' p'. rewrite Hl, Hp, !elem_of_app, elem_of_list_singleton, stubs_spec. cbn.
      intros [Hin|[?|[= -> ->]]]; [|lia|lia]. apply so_left0 in Hin. lia.
    + intros i o'. rewrite <-Hn, Hp', !elem_of_app, elem_of_list_singleton, stubs_spec. cbn.
      intros [Hin|[?|[= -> ->]]]; [|lia|lia]. apply so_ix0 in Hin. lia.
    + intros i o' m' p'. rewrite Hp', !elem_of_app, elem_of_list_singleton, stubs_spec. cbn.
      intros [Hin|[[Hi ->]|[= -> ->]]] Hlk.
      * pose proof (so_ix0 _ _ Hin). rewrite Hp, lookup_app_l in Hlk by lia. eauto.
      * destruct (Hstub i Hi) as (l & Hl0 & _). rewrite Hl0 in Hlk. injection Hlk as -> <-. done.
      * rewrite Hlast in Hlk. injection Hlk as -> ->. lia.
    + subst subjects. destruct (tfb_subjects b) as [ss|] eqn:Hss; [|done].
      destruct so_subj0 as (Hlss & Hsss & Hnz & Hpnz). split_and!.
      * rewrite Hl. done.
      * case_decide; auto. apply ssorted_snoc. split; auto.
        intros y Hy. destruct bo_last_s0 as [[-> ?]|Hlss2]; [by apply elem_of_nil in Hy|].
        apply elem_of_list_lookup in Hy as [k Hk]. rewrite last_lookup in Hlss2.
        destruct (decide (k = pred (length ss))) as [->|Hkn].
        { rewrite Hlss2 in Hk. injection Hk as <-. ord_num. }
        pose proof (ssorted_lookup _ _ _ _ _ Hsss Hk Hlss2) as Hlt2.
        apply lookup_lt_Some in Hk. specialize (Hlt2 ltac:(lia)). ord_num.
      * intros s'. case_decide; [auto|]. rewrite elem_of_app, elem_of_list_singleton.
        intros [?| ->]; auto.
      * intros m' p'. rewrite Hp, Hnosparse by eauto. cbn.
        rewrite elem_of_app, elem_of_list_singleton. intros [?|[= -> ->]]; eauto.
    + rewrite Hp', !omap_app. rewrite so_T0. f_equal; [|rewrite omap_none; [|]].
      * apply omap_ext_in. intros [i o'] Hin. unfold dec_spo. cbn.
        rewrite Hp. erewrite dec_sp_grow; eauto.
      * cbn. unfold dec_spo, dec_sp. cbn. rewrite Hlast. cbn. rewrite Hun. cbn.
        rewrite decide_False by lia. done.
      * intros [i o'] [Hi Ho']%stubs_spec. cbn in Hi, Ho'. unfold dec_spo, dec_sp. cbn.
        destruct (Hstub i Hi) as (l & -> & Hl1). cbn. destruct (unmap subjects l); done.
  - rewrite <-bo_sparse0. subst subjects. destruct (tfb_subjects b); [|done].
    split; eauto.
  - subst subjects m. destruct (tfb_subjects b) as [ss|]; [|done]. right.
    case_decide as Hs; [|by rewrite last_snoc].
    destruct bo_last_s0 as [[-> ?]|?]; [lia|]. by subst s.
Qed.

Lemma tfb_add_ok b T t sparse :
  tfb_ok sparse b T → nonzero t → olt (tfb_last b) t →
  ∃ b', tfb_add b t = Some b' ∧ tfb_ok sparse b' (T ++ [t]) ∧ tfb_last b' = t.
Proof.
  intros. destruct (decide (tfb_last_s b = t_s t ∧ tfb_last_p b = t_p t)) as [[??]|];
    eauto using tfb_add_same, tfb_add_new.
Qed.

Lemma tfb_add_all_ok b T ts sparse :
  tfb_ok sparse b T → (∀ t, t ∈ ts → nonzero t) → SSorted ts →
  (∀ t, t ∈ ts → olt (tfb_last b) t) →
  ∃ b', tfb_add_all b ts = Some b' ∧ tfb_ok sparse b' (T ++ ts).
Proof.
  revert b T. induction ts as [|t ts IH]; intros b T Hok Hnz Hs Hlt.
  { exists b. rewrite app_nil_r. done. }
  apply ssorted_cons in Hs as [Hs Ht].
  destruct (tfb_add_ok b T t sparse) as (b' & Hadd & Hok' & Hlast); auto.
  { apply Hnz. left. }
  { apply Hlt. left. }
  destruct (IH b' (T ++ [t])) as (b'' & Hall & Hok''); auto.
  { intros. apply Hnz. by right. }
  { rewrite Hlast. auto. }
  exists b''. cbn. rewrite Hadd. cbn. rewrite Hall. by rewrite <-app_assoc in Hok''.
Qed.

(** ** Facts of the subject half *)
Section spo.
  Context subjects nleft SP SPO T (Hok : spo_ok subjects nleft SP SPO T).

  Lemma unmap_mono m m' s s' :
    m < m' → 1 ≤ m → unmap subjects m = Some s → unmap subjects m' = Some s' → s < s'.
  Proof.
    destruct Hok. intros ?? Hm Hm'. destruct subjects as [ss|]; cbn in *; [|congruence].
    destruct so_subj0 as (_ & Hss & _). change (olt s s').
    eapply (ssorted_lookup ss); eauto. lia.
  Qed.
  Lemma unmap_is_Some m : 1 ≤ m ≤ nleft → is_Some (unmap subjects m).
  Proof.
    destruct Hok. intros Hm. destruct subjects as [ss|]; cbn in *; [|eauto].
    apply lookup_lt_is_Some. lia.
  Qed.
  Lemma dec_sp_mono i j a b :
    1 ≤ i → i < j → dec_sp subjects SP i = Some a → dec_sp subjects SP j = Some b → olt a b.
  Proof.
    intros Hi Hij Ha Hb. unfold dec_sp in Ha, Hb.
    destruct (SP !! (i - 1)) as [[m p]|] eqn:HA; [|done].
    destruct (SP !! (j - 1)) as [[m' p']|] eqn:HB; [|done]. cbn in *.
    destruct (unmap subjects m) as [s|] eqn:Hs; [|done].
    destruct (unmap subjects m') as [s'|] eqn:Hs'; [|done]. cbn in *.
    repeat case_decide; try done. injection Ha as <-. injection Hb as <-.
    assert (olt (m, p) (m', p')) as Hlt.
    { destruct Hok. eapply (ssorted_lookup SP); eauto. lia. }
    pose proof (so_left _ _ _ _ _ Hok m p (elem_of_list_lookup_2 _ _ _ HA)).
    destruct (decide (m = m')) as [->|].
    - rewrite Hs in Hs'. injection Hs' as ->. ord_num.
    - assert (s < s') by (eapply (unmap_mono m m'); eauto; ord_num). ord_num.
  Qed.
  Lemma dec_sp_inj i j a :
    1 ≤ i → 1 ≤ j → dec_sp subjects SP i = Some a → dec_sp subjects SP j = Some a → i = j.
  Proof.
    intros Hi Hj Ha Hb. destruct (lt_eq_lt_dec i j) as [[Hlt| ->]|Hlt]; auto.
    - pose proof (dec_sp_mono i j a a Hi Hlt Ha Hb). ord_absurd.
    - pose proof (dec_sp_mono j i a a Hj Hlt Hb Ha). ord_absurd.
  Qed.
  Lemma dec_spo_mono e e' t t' :
    e ∈ SPO → e' ∈ SPO → olt e e' →
    dec_spo subjects SP e = Some t → dec_spo subjects SP e' = Some t' → olt t t'.
  Proof.
    destruct e as [i o], e' as [i' o']. intros He He' Hlt. unfold dec_spo. cbn.
    destruct (dec_sp subjects SP i) as [[s p]|] eqn:Hi; [|done].
    destruct (dec_sp subjects SP i') as [[s' p']|] eqn:Hi'; [|done].
    cbn. intros [= <-] [= <-]. pose proof (so_ix _ _ _ _ _ Hok _ _ He).
    destruct (decide (i = i')) as [->|].
    - rewrite Hi in Hi'. injection Hi' as -> ->. unfold mkt. ord_num.
    - assert (olt (s, p) (s', p')) by (eapply (dec_sp_mono i i'); eauto; ord_num).
      unfold mkt. ord_num.
  Qed.
  Lemma spo_T_sorted : SSorted T.
  Proof.
    rewrite (so_T _ _ _ _ _ Hok). apply omap_ssorted; [|by destruct Hok].
    intros. by eapply (dec_spo_mono x y).
  Qed.
  Lemma dec_spo_is_Some i o : (i, o) ∈ SPO → o ≠ 0 → is_Some (dec_spo subjects SP (i, o)).
  Proof.
    intros Hin Ho. pose proof (so_ix _ _ _ _ _ Hok _ _ Hin) as Hix.
    destruct (lookup_lt_is_Some_2 SP (i - 1)) as [[m p] Hl]; [lia|].
    pose proof (so_stub _ _ _ _ _ Hok _ _ _ _ Hin Hl) as Hst.
    unfold dec_spo, dec_sp. cbn. rewrite Hl. cbn.
    destruct (unmap_is_Some m) as [s ->].
    { eapply (so_left _ _ _ _ _ Hok), elem_of_list_lookup_2, Hl. }
    cbn. rewrite decide_False by lia. cbn. eauto.
  Qed.
  Lemma dec_spo_Some i o t :
    (i, o) ∈ SPO → dec_spo subjects SP (i, o) = Some t → o ≠ 0 ∧ t_o t = o ∧
    dec_sp subjects SP i = Some (t_s t, t_p t).
  Proof.
    intros Hin. unfold dec_spo. cbn. destruct (dec_sp subjects SP i) as [[s p]|] eqn:Hd; [|done].
    cbn. intros [= <-]. split_and!; auto. unfold dec_sp in Hd.
    destruct (SP !! (i - 1)) as [[m p']|] eqn:Hl; [|done]. cbn in Hd.
    destruct (unmap subjects m); [|done]. cbn in Hd. case_decide as Hp; [done|].
    pose proof (so_stub _ _ _ _ _ Hok _ _ _ _ Hin Hl). tauto.
  Qed.
  Lemma dec_sp_Some i s p :
    dec_sp subjects SP i = Some (s, p) ↔
    p ≠ 0 ∧ ∃ m, SP !! (i - 1) = Some (m, p) ∧ unmap subjects m = Some s.
  Proof.
    unfold dec_sp. destruct (SP !! (i - 1)) as [[m p']|]; cbn.
    2:{ split; [done|]. intros (_ & ? & ? & _). done. }
    destruct (unmap subjects m) as [s'|] eqn:Hm; cbn.
    2:{ split; [done|]. intros (_ & m' & [= -> ->] & ?). congruence. }
    case_decide as Hp.
    - split; [done|]. intros (? & m' & [= -> ->] & ?). done.
    - split; [intros [= <- <-]; eauto|]. intros (_ & m' & [= -> ->] & ?). congruence.
  Qed.
  Lemma elem_of_spo_T s p o :
    (s, p, o) ∈ T ↔ ∃ i, (i, o) ∈ SPO ∧ dec_sp subjects SP i = Some (s, p).
  Proof.
    rewrite (so_T _ _ _ _ _ Hok), elem_of_list_omap. split.
    - intros ([i o'] & Hin & Hd). pose proof (dec_spo_Some _ _ _ Hin Hd) as (_ & <- & ?). eauto.
    - intros (i & Hin & Hd). exists (i, o). split; auto. unfold dec_spo. cbn. by rewrite Hd.
  Qed.
End spo.

(** ** The object half *)
Record ops_ok (subjects objects : option (list nat)) (nleft : nat) (SP OPS : list (nat * nat))
    (T : list triple) : Prop := {
  oo_sorted : SSorted OPS;
  oo_left : ∀ j k, (j, k) ∈ OPS → 1 ≤ j ≤ nleft;
  oo_obj : match objects with
           | None => True
           | Some os => length os = nleft ∧ SSorted os ∧ (∀ o, o ∈ os → o ≠ 0) ∧
                        ∀ j k, (j, k) ∈ OPS → k ≠ 0
           end;
  oo_dec : ∀ j k, (j, k) ∈ OPS → k ≠ 0 → is_Some (dec_ops subjects SP objects (j, k));
  oo_T_sorted : SSorted (okey <$> omap (dec_ops subjects SP objects) OPS);
  oo_T : ∀ t, t ∈ omap (dec_ops subjects SP objects) OPS ↔ t ∈ T }.

Lemma adjb_push_all_ok b prs :
  adjb_ok b → SSorted prs →
  (∀ l r, (l, r) ∈ prs → 0 < l ∧ 0 < r ∧ olt (b_last_left b, b_last_right b) (l, r)) →
  ∃ b', adjb_push_all b prs = Some b' ∧ adjb_ok b' ∧
    filter (λ e, e.2 ≠ 0) (adjb_pairs b') = filter (λ e, e.2 ≠ 0) (adjb_pairs b) ++ prs.
Proof.
  revert b. induction prs as [|[l r] prs IH]; intros b Hok Hs Hpos.
  { exists b. rewrite app_nil_r. done. }
  apply ssorted_cons in Hs as [Hs Hlt].
  destruct (Hpos l r) as (Hl & Hr & Hlr); [left|].
  destruct (adjb_push_ok b l r Hok Hl Hr Hlr) as (b' & Hpush & Hok' & Hl' & Hr' & Hp).
  destruct (IH b') as (b'' & Hall & Hok'' & Hp'); auto.
  { intros l' r' Hin. destruct (Hpos l' r') as (? & ? & _); [by right|].
    rewrite Hl', Hr'. auto. }
  exists b''. cbn. rewrite Hpush. cbn. split_and!; auto.
  rewrite Hp', Hp, !filter_app, <-!app_assoc. f_equal.
  rewrite (filter_none _ (stubs (b_last_left b) l)) by (intros x [_ ?]%stubs_spec; lia).
  rewrite filter_cons_True by (cbn; lia). done.
Qed.

(** Invariant of [push_sparse]: the pairs so far, with their objects, are [done]. *)
Record push_ok (b : adjb) (objects : list nat) (last_o ix : nat) (done : list (nat * nat)) : Prop := {
  po_b : adjb_ok b;
  po_ix : ix = b_last_left b;
  po_len : ix = length objects;
  po_sorted : SSorted objects;
  po_nz : ∀ o, o ∈ objects → o ≠ 0;
  po_last : (objects = [] ∧ last_o = 0) ∨ last objects = Some last_o;
  po_nostub : ∀ j k, (j, k) ∈ adjb_pairs b → k ≠ 0;
  po_done : (λ e, (objects !! (e.1 - 1), e.2)) <$> adjb_pairs b = (λ e, (Some e.1, e.2)) <$> done }.

Lemma push_sparse_ok b objects last_o ix done prs :
  push_ok b objects last_o ix done → SSorted prs →
  (∀ o k, (o, k) ∈ prs → 0 < o ∧ 0 < k ∧ olt (last_o, b_last_right b) (o, k)) →
  ∃ b' objects' last' ix', push_sparse b objects last_o ix prs = Some (b', objects') ∧
    push_ok b' objects' last' ix' (done ++ prs).
Proof.
  revert b objects last_o ix done.
  induction prs as [|[o k] prs IH]; intros b objects last_o ix done Hok Hs Hpos.
  { exists b, objects, last_o, ix. rewrite app_nil_r. split; auto. }
  apply ssorted_cons in Hs as [Hs Hlt].
  destruct (Hpos o k) as (Ho & Hk & Hok1); [left|].
  cbn [push_sparse].
  set (objects' := if decide (last_o < o) then objects ++ [o] else objects).
  set (ix' := if decide (last_o < o) then S ix else ix).
  destruct Hok.
  assert (Hlast_o : last_o ≤ o) by ord_num.
  destruct (adjb_push_ok b ix' k) as (b' & Hpush & Hok' & Hl' & Hr' & Hp); auto.
  { subst ix'. case_decide; [lia|]. destruct po_last0 as [[-> ?]|Hl]; [lia|].
    destruct objects; [done|]. cbn in po_len0. lia. }
  { subst ix'. case_decide; ord_num. }
  assert (Hst : stubs (b_last_left b) ix' = []).
  { unfold stubs. subst ix'. case_decide; by replace (_ - _ - 1) with 0 by lia. }
  rewrite Hst in Hp. cbn [app] in Hp.
  assert (Hlk : objects' !! (ix' - 1) = Some o).
  { subst ix' objects'. case_decide as Hd.
    - rewrite lookup_app_r by lia. by replace (_ - _ - _) with 0 by lia.
    - destruct po_last0 as [[-> ?]|Hl]; [lia|]. rewrite last_lookup in Hl.
      rewrite po_len0, Nat.sub_1_r, Hl. f_equal. lia. }
  assert (Hgrow : ∀ j k, (j, k) ∈ adjb_pairs b → objects' !! (j - 1) = objects !! (j - 1)).
  { intros j k' Hin. subst objects'. case_decide; auto. rewrite lookup_app_l; auto.
    apply adjb_pairs_bound in Hin; auto. lia. }
  destruct (IH b' objects' o ix' (done ++ [(o, k)])) as (b'' & objects'' & l'' & ix'' & Hall & Hok''); auto.
  { split; auto.
    - subst ix' objects'. case_decide; auto. rewrite app_length. cbn. lia.
    - subst objects'. case_decide; auto. apply ssorted_snoc. split; auto.
      intros y Hy. destruct po_last0 as [[-> ?]|Hl]; [by apply elem_of_nil in Hy|].
      apply elem_of_list_lookup in Hy as [i Hi]. rewrite last_lookup in Hl.
      destruct (decide (i = pred (length objects))) as [->|].
      { rewrite Hi in Hl. injection Hl as ->. ord_num. }
      pose proof (ssorted_lookup _ _ _ _ _ po_sorted0 Hi Hl) as Hx.
      apply lookup_lt_Some in Hi. specialize (Hx ltac:(lia)). ord_num.
    - subst objects'. intros y. case_decide; auto. rewrite elem_of_app, elem_of_list_singleton.
      intros [?| ->]; [auto|lia].
    - right. subst objects' ix'. case_decide as Hd; [by rewrite last_snoc|].
      rewrite last_lookup, <-po_len0, <-Nat.sub_1_r. done.
    - intros j k'. rewrite Hp, elem_of_app, elem_of_list_singleton.
      intros [?|[= -> ->]]; [eauto|lia].
    - rewrite Hp, !fmap_app. cbn. rewrite Hlk. f_equal.
      rewrite <-po_done0. apply list_fmap_ext. intros i [j k'] Hin%elem_of_list_lookup_2. cbn.
      by erewrite Hgrow. }
  { intros o' k' Hin. destruct (Hpos o' k') as (? & ? & _); [by right|].
    rewrite Hr'. auto. }
  exists b'', objects'', l'', ix''.
  rewrite <-app_assoc in Hok''. split; [|done].
  replace (if decide (last_o < o) then (objects ++ [o], o, S ix) else (objects, last_o, ix))
    with (objects', (if decide (last_o < o) then o else last_o), ix')
    by (subst objects' ix'; by case_decide).
  rewrite Hpush. cbn [mbind option_bind]. rewrite <-Hall. f_equal. case_decide; auto. lia.
Qed.

(** ** The whole *)
Record tf_ok (sparse : bool) (tf : tfiles) (T : list triple) : Prop := {
  fo_sp : adj_wf (tf_sp tf);
  fo_spo : adj_wf (tf_spo tf);
  fo_ops : adj_wf (tf_ops tf);
  fo_lr : left_count (tf_spo tf) = right_count (tf_sp tf);
  fo_spo_ok : spo_ok (tf_subjects tf) (left_count (tf_sp tf)) (adj_pairs (tf_sp tf))
                (adj_pairs (tf_spo tf)) T;
  fo_ops_ok : ops_ok (tf_subjects tf) (tf_objects tf) (left_count (tf_ops tf))
                (adj_pairs (tf_sp tf)) (adj_pairs (tf_ops tf)) T;
  fo_wt : tf_wt tf = adj_nums (tf_sp tf);
  fo_sparse : is_Some (tf_subjects tf) ↔ sparse = true;
  fo_osparse : is_Some (tf_objects tf) ↔ sparse = true }.

Section object_index.
  Context subjects nleft (SP SPO : list (nat * nat)) T (Hok : spo_ok subjects nleft SP SPO T).
  Let prs := osort ((λ pr : nat * nat, (pr.2, pr.1)) <$> filter (λ e, e.2 ≠ 0) SPO).

  Lemma prs_elem o i : (o, i) ∈ prs ↔ (i, o) ∈ SPO ∧ o ≠ 0.
  Proof.
    subst prs. rewrite elem_of_osort, elem_of_list_fmap. setoid_rewrite elem_of_list_filter.
    split.
    - intros ([i' o'] & [= -> ->] & ? & ?). auto.
    - intros [? ?]. exists (i, o). auto.
  Qed.
  Lemma prs_sorted : SSorted prs.
  Proof.
    apply osort_ssorted. apply NoDup_fmap_2.
    - intros [??] [??]. cbn. congruence.
    - apply NoDup_filter, ssorted_nodup. by destruct Hok.
  Qed.
  Lemma prs_pos o i : (o, i) ∈ prs → 0 < o ∧ 0 < i.
  Proof.
    intros [Hin ?]%prs_elem. pose proof (so_ix _ _ _ _ _ Hok _ _ Hin). lia.
  Qed.
  (** the triples in object order *)
  Let TO := omap (λ e : nat * nat, dec_spo subjects SP (e.2, e.1)) prs.
  Lemma TO_sorted : SSorted (okey <$> TO).
  Proof.
    assert (okey <$> TO = omap (λ e : nat * nat, okey <$> dec_spo subjects SP (e.2, e.1)) prs) as ->.
    { subst TO. clear. induction prs as [|e l IH]; [done|]. cbn.
      destruct (dec_spo _ _ _); cbn; by rewrite IH. }
    apply omap_ssorted; [|apply prs_sorted].
    intros [o i] [o' i'] a b [Ho ?]%prs_elem [Ho' ?]%prs_elem Hlt. cbn.
    intros (t & Ht & ->)%fmap_Some (t' & Ht' & ->)%fmap_Some.
    destruct (dec_spo_Some _ _ _ _ _ Hok _ _ _ Ho Ht) as (_ & E & Hd).
    destruct (dec_spo_Some _ _ _ _ _ Hok _ _ _ Ho' Ht') as (_ & E' & Hd').
    unfold okey. rewrite E, E'.
    destruct (decide (o = o')) as [->|].
    - assert (olt (t_s t, t_p t) (t_s t', t_p t')).
      { pose proof (so_ix _ _ _ _ _ Hok _ _ Ho).
        eapply (dec_sp_mono _ _ _ _ _ Hok i i'); eauto; ord_num. }
      ord_num.
    - ord_num.
  Qed.
  Lemma TO_elem t : t ∈ TO ↔ t ∈ T.
  Proof.
    subst TO. rewrite (so_T _ _ _ _ _ Hok), !elem_of_list_omap. split.
    - intros ([o i] & [Hin _]%prs_elem & Hd). eauto.
    - intros ([i o] & Hin & Hd). exists (o, i). split; [|done].
      apply prs_elem. split; auto. by destruct (dec_spo_Some _ _ _ _ _ Hok _ _ _ Hin Hd).
  Qed.
End object_index.

Lemma omap_filter_none {A B} (f : A → option B) (P : A → Prop) `{!∀ x, Decision (P x)} (l : list A) :
  (∀ x, x ∈ l → ¬ P x → f x = None) → omap f (filter P l) = omap f l.
Proof.
  induction l as [|x l IH]; intros Hf; [done|]. rewrite filter_cons. case_decide as Hp.
  - cbn. rewrite IH; [done|]. intros. apply Hf; auto. by right.
  - cbn. rewrite (Hf x) by (done || left). apply IH. intros. apply Hf; auto. by right.
Qed.

Lemma object_index_ok sparse subjects nleft SP spo T :
  adj_wf spo → spo_ok subjects nleft SP (adj_pairs spo) T →
  ∃ ops objects, build_object_index spo sparse = Some (ops, objects) ∧
    (is_Some objects ↔ sparse = true) ∧ adj_wf ops ∧
    ops_ok subjects objects (left_count ops) SP (adj_pairs ops) T.
Proof.
  intros Hwf Hok. unfold build_object_index, adj_stream_pairs.
  pose proof (prs_sorted _ _ _ _ _ Hok) as Hps. pose proof (prs_pos _ _ _ _ _ Hok) as Hpp.
  pose proof (prs_elem (adj_pairs spo)) as Hpe.
  pose proof (TO_sorted _ _ _ _ _ Hok) as HTs. pose proof (TO_elem _ _ _ _ _ Hok) as HTe.
  set (prs := osort _) in *. cbn zeta in *.
  assert (Hsplit : ∀ (j k : nat) b, adjb_ok b → (j, k) ∈ adj_pairs (adjb_finalize b) → 1 ≤ j ≤ left_count (adjb_finalize b)).
  { intros j k b Hb Hin. destruct (adjb_finalize_ok b Hb) as (_ & Hp & ->).
    rewrite Hp in Hin. by apply adjb_pairs_bound in Hin. }
  destruct sparse.
  - destruct (push_sparse_ok adjb_new [] 0 0 [] prs) as (b' & objects' & l' & ix' & -> & Hpo).
    { split; cbn; auto using adjb_new_ok, ssorted_nil; set_solver. }
    { done. }
    { intros o k Hin. destruct (Hpp o k Hin). split_and!; auto. cbn. ord_num. }
    cbn. eexists _, _. split; [done|]. split; [by split; eauto|]. destruct Hpo.
    destruct (adjb_finalize_ok b' po_b0) as (Hwf' & Hp' & Hlc). split; [done|].
    rewrite Hlc, Hp'. cbn [app] in po_done0.
    assert (Hdec : ∀ j k, (j, k) ∈ adjb_pairs b' →
              ∃ o, objects' !! (j - 1) = Some o ∧ (o, k) ∈ prs).
    { intros j k Hin. assert ((objects' !! (j - 1), k) ∈ (λ e : nat * nat, (Some e.1, e.2)) <$> prs) as Hx.
      { rewrite <-po_done0. apply elem_of_list_fmap. exists (j, k). auto. }
      apply elem_of_list_fmap in Hx as ([o k'] & [= Ho ->] & ?). eauto. }
    assert (HTO : omap (dec_ops subjects SP (Some objects')) (adjb_pairs b') =
                  omap (λ e : nat * nat, dec_spo subjects SP (e.2, e.1)) prs).
    { set (f := λ e : option nat * nat, o ← e.1; dec_spo subjects SP (e.2, o)).
      trans (omap f ((λ e, (objects' !! (e.1 - 1), e.2)) <$> adjb_pairs b')).
      - rewrite list_omap_fmap. apply omap_ext_in. intros [j k] Hin. cbn.
        destruct (Hdec j k Hin) as (o & Ho & Hpr). unfold f, dec_ops, dec_spo. cbn. rewrite Ho. cbn.
        destruct (Hpp _ _ Hpr). rewrite decide_False by lia. by destruct (dec_sp subjects SP k) as [[??]|].
      - rewrite po_done0, list_omap_fmap. done. }
    split; rewrite ?HTO; auto using adjb_sorted.
    + intros j k Hin. by apply adjb_pairs_bound in Hin.
    + split_and!; auto. lia.
    + intros j k Hin Hk. destruct (Hdec j k Hin) as (o & Ho & Hpr).
      apply Hpe in Hpr as [Hpr Hnz]. destruct (dec_spo_is_Some _ _ _ _ _ Hok _ _ Hpr Hnz) as [t Ht].
      unfold dec_ops. unfold dec_spo in Ht. cbn in *. rewrite decide_False by done.
      destruct (dec_sp subjects SP k) as [[??]|]; [|done]. cbn. rewrite Ho. cbn. eauto.
  - destruct (adjb_push_all_ok adjb_new prs) as (b' & -> & Hb' & Hp).
    { apply adjb_new_ok. }
    { done. }
    { intros o k Hin. destruct (Hpp o k Hin). split_and!; auto. cbn. ord_num. }
    cbn. eexists _, _. split; [done|]. split; [by split; intros [? ?] || intros ?|].
    destruct (adjb_finalize_ok b' Hb') as (Hwf' & Hp' & Hlc). split; [done|].
    rewrite Hlc, Hp'. cbn in Hp.
    assert (HTO : omap (dec_ops subjects SP None) (adjb_pairs b') =
                  omap (λ e : nat * nat, dec_spo subjects SP (e.2, e.1)) prs).
    { rewrite <-(omap_filter_none _ (λ e, e.2 ≠ 0)).
      - change (filter (λ e : nat * nat, e.2 ≠ 0) (adjb_pairs b') = prs) in Hp. rewrite Hp.
        apply omap_ext_in. intros [o k] Hin. unfold dec_ops, dec_spo. cbn.
        destruct (Hpp _ _ Hin). rewrite decide_False by lia. by destruct (dec_sp subjects SP k) as [[??]|].
      - intros [j k] _ Hk. unfold dec_ops. rewrite decide_True; auto. cbn in *. lia. }
    split; rewrite ?HTO; auto using adjb_sorted.
    + intros j k Hin. by apply adjb_pairs_bound in Hin.
    + intros j k Hin Hk.
      assert ((j, k) ∈ prs) as Hpr.
      { change (filter (λ e : nat * nat, e.2 ≠ 0) (adjb_pairs b') = prs) in Hp. rewrite <-Hp.
        apply elem_of_list_filter. auto. }
      apply Hpe in Hpr as [Hpr Hnz]. destruct (dec_spo_is_Some _ _ _ _ _ Hok _ _ Hpr Hnz) as [t Ht].
      unfold dec_ops. unfold dec_spo in Ht. cbn in *. rewrite decide_False by done.
      destruct (dec_sp subjects SP k) as [[??]|]; [|done]. cbn. eauto.
Qed.

(** Building from a strictly ascending list of triples with non-zero components succeeds. *)
Theorem build_tfiles_ok sparse T :
  SSorted T → (∀ t, t ∈ T → nonzero t) → ∃ tf, build_tfiles sparse T = Some tf ∧ tf_ok sparse tf T.
Proof.
  intros Hs Hnz. unfold build_tfiles.
  destruct (tfb_add_all_ok (tfb_new sparse) [] T sparse) as (b & -> & Hok); auto using tfb_new_ok.
  { intros t Ht. apply Hnz in Ht. destruct t as [[s p] o]. destruct sparse; cbn;
    unfold tfb_last, nonzero, t_s, t_p, t_o, mkt in *; cbn in *; ord_num. }
  cbn [app] in Hok. cbn [mbind option_bind]. unfold tfb_finalize.
  destruct Hok.
  destruct (adjb_finalize_ok _ bo_sp0) as (Hwf1 & Hp1 & Hlc1).
  destruct (adjb_finalize_ok _ bo_spo0) as (Hwf2 & Hp2 & Hlc2).
  rewrite <-Hp1, <-Hp2, <-Hlc1 in bo_spo_ok0.
  destruct (object_index_ok sparse _ _ _ _ _ Hwf2 bo_spo_ok0) as (ops & objects & -> & Hos & Hwf3 & Hoo).
  cbn. eexists. split; [done|]. split; cbn; auto.
  rewrite Hlc2, bo_coupled0. done.
Qed.
