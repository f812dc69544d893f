(** Orders, sorting and list facts used by the model.  No definition here models
    code of /repo except [osort] and [dedup], which stand for the standard library's
    [slice::sort] and [Vec::dedup]. *)
From stdpp Require Export base tactics sorting list numbers option sets gmap.
From Coq Require Export Lia.
From stdpp Require Export list.

#[global] Open Scope list_scope.
#[global] Open Scope nat_scope.

(** A decidable strict total order: what Rust's [Ord] gives. *)
Class Ord (A : Type) := {
  olt : relation A;
  olt_dec :> RelDecision olt;
  olt_irrefl :> Irreflexive olt;
  olt_trans :> Transitive olt;
  olt_total : ∀ x y, olt x y ∨ x = y ∨ olt y x }.

Lemma olt_irr {A} `{Ord A} (x : A) : olt x x → False.
Proof. apply olt_irrefl. Qed.

Definition ole {A} `{Ord A} (x y : A) : Prop := ¬ olt y x.

#[global] Instance ole_dec {A} `{Ord A} : RelDecision (ole (A:=A)).
Proof. intros x y. unfold ole. apply _. Defined.

Lemma ole_alt {A} `{Ord A} (x y : A) : ole x y ↔ olt x y ∨ x = y.
Proof.
  unfold ole. destruct (olt_total x y) as [Hl|[->|Hl]]; split; intros Hx; try tauto.
  - intros Hy. apply (olt_irr x). by trans y.
  - intros Hy. by apply (olt_irr y).
  - destruct Hx as [Hx|Hx]; subst.
    + destruct (olt_irr x). by trans y.
    + by destruct (olt_irr y).
Qed.

#[global] Instance ole_trans {A} `{Ord A} : Transitive (ole (A:=A)).
Proof.
  intros x y z. rewrite !ole_alt. intros [?| ->] [?| ->]; auto. left; by trans y.
Qed.
#[global] Instance ole_total {A} `{Ord A} : Total (ole (A:=A)).
Proof. intros x y. rewrite !ole_alt. destruct (olt_total x y) as [?|[?|?]]; auto. Qed.
#[global] Instance ole_antisymm {A} `{Ord A} : AntiSymm (=) (ole (A:=A)).
Proof.
  intros x y. rewrite !ole_alt. intros [Hx|Hx] [Hy|Hy]; auto.
  destruct (olt_irr x). by trans y.
Qed.

Lemma olt_asym {A} `{Ord A} (x y : A) : olt x y → olt y x → False.
Proof. intros ??. apply (olt_irr x). by trans y. Qed.
Lemma olt_neq {A} `{Ord A} (x y : A) : olt x y → x ≠ y.
Proof. intros ? ->. by apply (olt_irr y). Qed.

Ltac ord_absurd := exfalso;
  match goal with
  | H : olt ?x ?x |- _ => exact (olt_irr x H)
  | H1 : olt ?x ?y, H2 : olt ?y ?x |- _ => exact (olt_asym x y H1 H2)
  end.

(** Instances. *)
#[global] Instance ord_nat : Ord nat.
Proof.
  refine (Build_Ord nat lt _ _ _ _).
  intros x y. lia.
Defined.

Definition prod_lt {A B} `{Ord A, Ord B} (x y : A * B) : Prop :=
  olt x.1 y.1 ∨ (x.1 = y.1 ∧ olt x.2 y.2).
Lemma ord_eq_dec {A} `{Ord A} : EqDecision A.
Proof.
  intros x y. destruct (decide (olt x y)) as [|Hn]; [right; by apply olt_neq|].
  destruct (decide (olt y x)) as [|Hn']; [right; intros ->; ord_absurd|].
  left. destruct (olt_total x y) as [?|[?|?]]; naive_solver.
Defined.
#[global] Instance ord_prod {A B} `{HA : Ord A, HB : Ord B} : Ord (A * B).
Proof.
  refine (Build_Ord (A*B) (@prod_lt A B HA HB) _ _ _ _).
  - intros x y. unfold prod_lt. pose proof (ord_eq_dec x.1 y.1). apply _.
  - intros [x1 x2] [Hx|[_ Hx]]; cbn in *; exact (olt_irr _ Hx).
  - intros [x1 x2] [y1 y2] [z1 z2]; unfold prod_lt; cbn. intros [?|[-> ?]] [?|[-> ?]]; auto.
    + left; by trans y1.
    + right; split; auto. by trans y2.
  - intros [x1 x2] [y1 y2]; unfold prod_lt; cbn.
    destruct (olt_total x1 y1) as [?|[->|?]]; auto.
    destruct (olt_total x2 y2) as [?|[->|?]]; auto.
Defined.

#[global] Arguments olt {A _} _ _ : simpl never.
Lemma olt_nat (n m : nat) : olt n m ↔ n < m.
Proof. done. Qed.
Lemma olt_prod {A B} `{Ord A, Ord B} (x y : A * B) :
  olt x y ↔ olt x.1 y.1 ∨ (x.1 = y.1 ∧ olt x.2 y.2).
Proof. done. Qed.
(** expose the orders on numbers and pairs of numbers *)
Ltac ord_num_simpl :=
  unfold ole in *;
  repeat match goal with
  | H : context [@olt _ (@ord_prod ?A ?B ?HA ?HB) ?x ?y] |- _ =>
      change (@olt _ (@ord_prod A B HA HB) x y)
        with (@olt A HA (fst x) (fst y) ∨ (fst x = fst y ∧ @olt B HB (snd x) (snd y))) in H;
      cbn [fst snd] in H
  | |- context [@olt _ (@ord_prod ?A ?B ?HA ?HB) ?x ?y] =>
      change (@olt _ (@ord_prod A B HA HB) x y)
        with (@olt A HA (fst x) (fst y) ∨ (fst x = fst y ∧ @olt B HB (snd x) (snd y)));
      cbn [fst snd]
  | H : context [@eq (_ * _) (_, _) (_, _)] |- _ => rewrite pair_equal_spec in H
  | |- context [@eq (_ * _) (_, _) (_, _)] => rewrite pair_equal_spec
  | H : context [@olt _ ord_nat ?x ?y] |- _ => change (@olt _ ord_nat x y) with (x < y) in H
  | |- context [@olt _ ord_nat ?x ?y] => change (@olt _ ord_nat x y) with (x < y)
  end.
Ltac ord_num := ord_num_simpl; lia.

(** lexicographic order on lists: Rust's order on slices and strings *)
Fixpoint list_ltb {A} `{Ord A} (x y : list A) : bool :=
  match x, y with
  | [], [] => false
  | [], _ :: _ => true
  | _ :: _, [] => false
  | a :: x, b :: y => if decide (olt a b) then true else
                      if decide (olt b a) then false else list_ltb x y
  end.
Lemma list_ltb_cons {A} `{Ord A} (a b : A) x y :
  list_ltb (a :: x) (b :: y) = true ↔ olt a b ∨ (a = b ∧ list_ltb x y = true).
Proof.
  cbn. destruct (olt_total a b) as [Hl|[->|Hl]].
  - rewrite decide_True by done. tauto.
  - rewrite !decide_False by (intros ?; ord_absurd). split; [tauto|].
    intros [?|?]; [ord_absurd|tauto].
  - rewrite decide_False by (intros ?; ord_absurd). rewrite decide_True by done.
    split; [done|]. intros [?|[-> ?]]; ord_absurd.
Qed.
#[global] Instance ord_list {A} `{HA : Ord A} : Ord (list A).
Proof.
  refine (Build_Ord (list A) (λ x y, @list_ltb A HA x y = true) _ _ _ _).
  - intros x y. apply _.
  - intros x. unfold complement. induction x as [|a x IH]; [done|].
    rewrite list_ltb_cons. intros [?|?]; [ord_absurd|tauto].
  - intros x. induction x as [|a x IH]; intros [|b y] [|c z]; try done.
    rewrite !list_ltb_cons. intros [?|[-> ?]] [?|[-> ?]]; eauto.
    left. by trans b.
  - intros x. induction x as [|a x IH]; intros [|b y]; auto.
    rewrite !list_ltb_cons.
    destruct (olt_total a b) as [Hab|[->|Hab]]; auto.
    destruct (IH y) as [?|[->|?]]; auto.
Defined.

Definition sum_lt {A B} `{Ord A, Ord B} (x y : A + B) : Prop :=
  match x, y with
  | inl a, inl b => olt a b
  | inl _, inr _ => True
  | inr _, inl _ => False
  | inr a, inr b => olt a b
  end.
#[global] Instance ord_sum {A B} `{HA : Ord A, HB : Ord B} : Ord (A + B).
Proof.
  refine (Build_Ord (A+B) (@sum_lt A B HA HB) _ _ _ _).
  - intros [] []; cbn; apply _.
  - intros []; unfold complement; cbn; intros ?; ord_absurd.
  - intros [] [] []; cbn; try done; apply olt_trans.
  - intros [a|a] [b|b]; cbn; auto; destruct (olt_total a b) as [?|[->|?]]; auto.
Defined.

(** Sorting, and removal of consecutive repetitions. *)
Definition osort {A} `{Ord A} (l : list A) : list A := merge_sort ole l.

Fixpoint dedup {A} `{EqDecision A} (l : list A) : list A :=
  match l with
  | [] => []
  | x :: l' => match dedup l' with
               | [] => [x]
               | y :: r => if decide (x = y) then y :: r else x :: y :: r
               end
  end.

Notation SSorted := (StronglySorted olt).

Section sorted.
  Context {A : Type} `{Ord A}.
  Implicit Types l : list A.

  Lemma ssorted_nodup l : SSorted l → NoDup l.
  Proof.
    induction 1 as [|x l Hs IH Hall]; constructor; auto.
    intros Hin. rewrite Forall_forall in Hall. by apply (olt_irr x), Hall.
  Qed.

  (** Two strictly ascending lists with the same elements are equal. *)
  Lemma ssorted_ext l1 l2 :
    SSorted l1 → SSorted l2 → (∀ x, x ∈ l1 ↔ x ∈ l2) → l1 = l2.
  Proof.
    intros Hs1. revert l2. induction Hs1 as [|x l1 Hs IH Hall]; intros l2 Hs2 Heq.
    - destruct l2 as [|y l2]; auto. exfalso. apply (not_elem_of_nil y), Heq. left.
    - destruct Hs2 as [|y l2 Hs2 Hall2].
      { exfalso. apply (not_elem_of_nil x), Heq. left. }
      rewrite Forall_forall in Hall, Hall2.
      assert (x = y) as ->.
      { assert (x ∈ y :: l2) as [->|Hx]%elem_of_cons by (apply Heq; left); [done|].
        assert (y ∈ x :: l1) as [->|Hy]%elem_of_cons by (apply Heq; left); [done|].
        exfalso. eapply olt_asym; eauto. }
      f_equal. apply IH; auto. intros z. split; intros Hz.
      + assert (z ∈ y :: l2) as [->|?]%elem_of_cons by (apply Heq; by right); auto.
        apply Hall in Hz. ord_absurd.
      + assert (z ∈ y :: l1) as [->|?]%elem_of_cons by (apply Heq; by right); auto.
        apply Hall2 in Hz. ord_absurd.
  Qed.

  Lemma elem_of_osort l x : x ∈ osort l ↔ x ∈ l.
  Proof. unfold osort. by rewrite merge_sort_Permutation. Qed.
  Lemma osort_perm l : osort l ≡ₚ l.
  Proof. apply merge_sort_Permutation. Qed.
  Lemma osort_length l : length (osort l) = length l.
  Proof. apply Permutation_length, osort_perm. Qed.
  Lemma osort_sorted l : StronglySorted ole (osort l).
  Proof. apply StronglySorted_merge_sort; apply _. Qed.

  Lemma sorted_nodup_ssorted l : StronglySorted ole l → NoDup l → SSorted l.
  Proof.
    induction 1 as [|x l Hs IH Hall]; intros Hnd; constructor.
    - apply IH. by apply NoDup_cons in Hnd as [_ ?].
    - apply NoDup_cons in Hnd as [Hx _]. rewrite Forall_forall in *.
      intros y Hy. destruct (proj1 (ole_alt x y)) as [?| ->]; auto. done.
  Qed.
  Lemma osort_ssorted l : NoDup l → SSorted (osort l).
  Proof.
    intros Hnd. apply sorted_nodup_ssorted; [apply osort_sorted|].
    by rewrite osort_perm.
  Qed.
  Lemma ssorted_sorted l : SSorted l → StronglySorted ole l.
  Proof.
    induction 1 as [|x l Hs IH Hall]; constructor; auto.
    eapply Forall_impl; eauto. intros. apply ole_alt. auto.
  Qed.
  Lemma osort_id l : SSorted l → osort l = l.
  Proof.
    intros Hs. eapply StronglySorted_unique; [|apply osort_sorted|by apply ssorted_sorted|apply osort_perm].
    apply _.
  Qed.
  Lemma osort_unique l1 l2 : l1 ≡ₚ l2 → osort l1 = osort l2.
  Proof.
    intros Hp. apply (StronglySorted_unique ole); auto using osort_sorted.
    by rewrite !osort_perm.
  Qed.

  Lemma ssorted_app l1 l2 :
    SSorted (l1 ++ l2) ↔ SSorted l1 ∧ SSorted l2 ∧ ∀ x y, x ∈ l1 → y ∈ l2 → olt x y.
  Proof.
    split.
    - intros Hs. split_and!; eauto using StronglySorted_app_inv_l, StronglySorted_app_inv_r.
      intros. by eapply elem_of_StronglySorted_app.
    - intros (H1 & H2 & H12). induction H1 as [|x l1 Hs IH Hall]; cbn; auto.
      constructor.
      + apply IH. intros. apply H12; auto. by right.
      + apply Forall_app; split; auto. apply Forall_forall. intros. apply H12; auto. left.
  Qed.
  Lemma ssorted_cons x l : SSorted (x :: l) ↔ SSorted l ∧ ∀ y, y ∈ l → olt x y.
  Proof.
    split.
    - intros Hs. inversion Hs as [|? ? ? Hall]; subst. rewrite Forall_forall in Hall. auto.
    - intros [? ?]. constructor; auto. by apply Forall_forall.
  Qed.
  Lemma ssorted_nil : SSorted (@nil A).
  Proof. constructor. Qed.
  Lemma ssorted_singleton x : SSorted [x].
  Proof. repeat constructor. Qed.

  Lemma ssorted_filter (P : A → Prop) `{!∀ x, Decision (P x)} l :
    SSorted l → SSorted (filter P l).
  Proof.
    induction 1 as [|x l Hs IH Hall]; rewrite ?filter_nil, ?filter_cons; [constructor|].
    case_decide; auto. constructor; auto. rewrite Forall_forall in *.
    intros y [_ Hy]%elem_of_list_filter. auto.
  Qed.
End sorted.

Section dedup.
  Context {A : Type} `{Ord A} `{!EqDecision A}.
  Lemma elem_of_dedup (l : list A) x : x ∈ dedup l ↔ x ∈ l.
  Proof.
    induction l as [|y l IH]; [done|]. cbn. rewrite elem_of_cons, <-IH.
    destruct (dedup l) as [|z r]; [|case_decide; subst]; rewrite ?elem_of_cons; set_solver.
  Qed.
  Lemma dedup_ssorted (l : list A) : StronglySorted ole l → SSorted (dedup l).
  Proof.
    induction 1 as [|x l Hs IH Hall]; cbn; [constructor|].
    rewrite Forall_forall in Hall. setoid_rewrite <-elem_of_dedup in Hall.
    destruct (dedup l) as [|z r]; [repeat constructor|].
    assert (ole x z) as Hxz%ole_alt by (apply Hall; left).
    case_decide; auto. destruct Hxz as [Hxz|]; [|done].
    apply ssorted_cons; split; auto. intros y [->|Hy]%elem_of_cons; auto.
    trans z; auto. apply ssorted_cons in IH as [_ IH]. auto.
  Qed.
  Lemma dedup_osort_ssorted (l : list A) : SSorted (dedup (osort l)).
  Proof. apply dedup_ssorted, osort_sorted. Qed.
  Lemma elem_of_dedup_osort (l : list A) x : x ∈ dedup (osort l) ↔ x ∈ l.
  Proof. by rewrite elem_of_dedup, elem_of_osort. Qed.
  (** sort-and-dedup is a function of the set of elements *)
  Lemma dedup_osort_ext (l1 l2 : list A) :
    (∀ x, x ∈ l1 ↔ x ∈ l2) → dedup (osort l1) = dedup (osort l2).
  Proof.
    intros Heq. apply ssorted_ext; auto using dedup_osort_ssorted.
    intros x. by rewrite !elem_of_dedup_osort.
  Qed.
  Lemma dedup_id (l : list A) : SSorted l → dedup l = l.
  Proof.
    intros Hs. apply ssorted_ext; auto using dedup_ssorted, ssorted_sorted.
    intros x. apply elem_of_dedup.
  Qed.
End dedup.
