(** General facts about lists, used by the proofs only. *)
From Verif Require Import Prelude.

Lemma omap_ext_in {A B} (f g : A → option B) (l : list A) :
  (∀ x, x ∈ l → f x = g x) → omap f l = omap g l.
Proof.
  induction l as [|x l IH]; intros Hfg; [done|]. cbn. rewrite (Hfg x) by left.
  rewrite IH; [done|]. intros. apply Hfg. by right.
Qed.
Lemma omap_none {A B} (f : A → option B) (l : list A) : (∀ x, x ∈ l → f x = None) → omap f l = [].
Proof.
  induction l as [|x l IH]; intros Hf; [done|]. cbn. rewrite (Hf x) by left. apply IH.
  intros. apply Hf. by right.
Qed.
Lemma omap_ssorted {A B} `{Ord A, Ord B} (f : A → option B) (l : list A) :
  (∀ x y a b, x ∈ l → y ∈ l → olt x y → f x = Some a → f y = Some b → olt a b) →
  SSorted l → SSorted (omap f l).
Proof.
  intros Hf. induction l as [|x l IH]; intros Hs; [apply ssorted_nil|].
  apply ssorted_cons in Hs as [Hs Hx]. cbn.
  assert (SSorted (omap f l)) as HIH.
  { apply IH; auto. intros. eapply (Hf x0 y); eauto; by right. }
  destruct (f x) as [a|] eqn:Ha; [|done]. apply ssorted_cons. split; auto.
  intros b (y & Hy & Hb)%elem_of_list_omap. eapply (Hf x y); eauto; [left|by right].
Qed.
Lemma fmap_ssorted {A B} `{Ord A, Ord B} (f : A → B) (l : list A) :
  (∀ x y, x ∈ l → y ∈ l → olt x y → olt (f x) (f y)) → SSorted l → SSorted (f <$> l).
Proof.
  intros Hf. induction l as [|x l IH]; intros Hs; [apply ssorted_nil|].
  apply ssorted_cons in Hs as [Hs Hx]. cbn. apply ssorted_cons. split.
  - apply IH; auto. intros. apply Hf; auto; by right.
  - intros b (y & -> & Hy)%elem_of_list_fmap. apply Hf; auto; [left|by right].
Qed.
Lemma ssorted_lookup {A} `{Ord A} (l : list A) i j x y :
  SSorted l → l !! i = Some x → l !! j = Some y → i < j → olt x y.
Proof.
  intros Hs Hi Hj Hij. rewrite <-(take_drop_middle l i x Hi) in Hs.
  apply ssorted_app in Hs as (_ & Hs & _). apply ssorted_cons in Hs as [_ Hs]. apply Hs.
  apply elem_of_list_lookup. exists (j - S i). rewrite lookup_drop, <-Hj. f_equal. lia.
Qed.
Lemma ssorted_lookup_lt {A} `{Ord A} (l : list A) i j x y :
  SSorted l → l !! i = Some x → l !! j = Some y → olt x y → i < j.
Proof.
  intros Hs Hi Hj Hxy. destruct (lt_eq_lt_dec i j) as [[?| ->]|?]; auto.
  - rewrite Hi in Hj. injection Hj as ->. ord_absurd.
  - pose proof (ssorted_lookup l j i y x Hs Hj Hi ltac:(done)). ord_absurd.
Qed.
Lemma ssorted_snoc {A} `{Ord A} (l : list A) x :
  SSorted (l ++ [x]) ↔ SSorted l ∧ ∀ y, y ∈ l → olt y x.
Proof.
  rewrite ssorted_app. split.
  - intros (?&?&Hx). split; auto. intros. apply Hx; auto. by left.
  - intros [? Hx]. split_and!; auto using ssorted_singleton.
    intros y z ? ->%elem_of_list_singleton. auto.
Qed.
Lemma ssorted_drop {A} `{Ord A} (l : list A) n : SSorted l → SSorted (drop n l).
Proof. intros Hs. rewrite <-(take_drop n l) in Hs. by apply ssorted_app in Hs as (_&?&_). Qed.
Lemma ssorted_take {A} `{Ord A} (l : list A) n : SSorted l → SSorted (take n l).
Proof. intros Hs. rewrite <-(take_drop n l) in Hs. by apply ssorted_app in Hs as (?&_&_). Qed.


Lemma filter_none {A} (P : A → Prop) `{!∀ x, Decision (P x)} (l : list A) :
  (∀ x, x ∈ l → ¬ P x) → filter P l = [].
Proof.
  induction l as [|x l IH]; intros Hl; [done|]. rewrite filter_cons_False by (apply Hl; left).
  apply IH. intros. apply Hl. by right.
Qed.
Lemma filter_all {A} (P : A → Prop) `{!∀ x, Decision (P x)} (l : list A) :
  (∀ x, x ∈ l → P x) → filter P l = l.
Proof.
  induction l as [|x l IH]; intros Hl; [done|]. rewrite filter_cons_True by (apply Hl; left).
  f_equal. apply IH. intros. apply Hl. by right.
Qed.
Lemma list_omap_fmap {A B C} (f : A → B) (g : B → option C) (l : list A) :
  omap g (f <$> l) = omap (λ x, g (f x)) l.
Proof. induction l as [|x l IH]; [done|]. cbn. by rewrite IH. Qed.
Lemma drop_as_filter {A} (P : A → Prop) `{!∀ x, Decision (P x)} (l : list A) n :
  (∀ m x, l !! m = Some x → n ≤ m ↔ P x) → drop n l = filter P l.
Proof.
  revert n. induction l as [|x l IH]; intros n Hn; [by rewrite drop_nil|].
  rewrite filter_cons. pose proof (Hn 0 x eq_refl) as H0.
  destruct n as [|n].
  - rewrite decide_True by (apply H0; lia). rewrite drop_0. f_equal.
    rewrite <-(IH 0); [by rewrite drop_0|]. intros m y Hm. rewrite <-(Hn (S m) y Hm). lia.
  - rewrite decide_False by (rewrite <-H0; lia). cbn. apply IH.
    intros m y Hm. rewrite <-(Hn (S m) y Hm). lia.
Qed.
Lemma omap_filter {A B} (f : A → option B) (P : A → Prop) (Q : B → Prop)
    `{!∀ x, Decision (P x), !∀ x, Decision (Q x)} (l : list A) :
  (∀ x y, x ∈ l → f x = Some y → P x ↔ Q y) → omap f (filter P l) = filter Q (omap f l).
Proof.
  induction l as [|x l IH]; intros Hf; [done|]. rewrite filter_cons.
  assert (omap f (filter P l) = filter Q (omap f l)) as HIH.
  { apply IH. intros. apply (Hf x0); auto. by right. }
  change (omap f (x :: l)) with (match f x with Some y => y :: omap f l | None => omap f l end).
  destruct (f x) as [y|] eqn:Hy.
  - rewrite filter_cons. pose proof (Hf x y ltac:(left) Hy) as HPQ. case_decide.
    + rewrite decide_True by tauto. cbn. rewrite Hy. by f_equal.
    + rewrite decide_False by tauto. done.
  - case_decide; [|done]. cbn. by rewrite Hy.
Qed.
Lemma filter_filter_and {A} (P Q : A → Prop) `{!∀ x, Decision (P x), !∀ x, Decision (Q x)} (l : list A) :
  filter P (filter Q l) = filter (λ x, Q x ∧ P x) l.
Proof.
  induction l as [|x l IH]; [done|]. rewrite !(filter_cons _ x). repeat case_decide; rewrite ?filter_cons;
    repeat case_decide; try tauto; by rewrite IH.
Qed.
Lemma filter_ext_in {A} (P Q : A → Prop) `{!∀ x, Decision (P x), !∀ x, Decision (Q x)} (l : list A) :
  (∀ x, x ∈ l → P x ↔ Q x) → filter P l = filter Q l.
Proof.
  induction l as [|x l IH]; intros HPQ; [done|]. rewrite !filter_cons.
  rewrite IH by (intros; apply HPQ; by right).
  pose proof (HPQ x ltac:(left)). repeat case_decide; tauto.
Qed.
Lemma concat_ssorted {A B} `{Ord A, Ord B} (f : A → list B) (l : list A) :
  SSorted l → (∀ x, x ∈ l → SSorted (f x)) →
  (∀ x y a b, x ∈ l → y ∈ l → olt x y → a ∈ f x → b ∈ f y → olt a b) →
  SSorted (mjoin (f <$> l)).
Proof.
  induction l as [|x l IH]; intros Hs Hf Hxy; [apply ssorted_nil|].
  apply ssorted_cons in Hs as [Hs Hx]. cbn. apply ssorted_app. split_and!.
  - apply Hf. left.
  - apply IH; auto.
    + intros. apply Hf. by right.
    + intros ???? Hin Hin'. apply Hxy; by right.
  - intros a b Ha (lb & Hb & Hlb)%elem_of_list_join.
    apply elem_of_list_fmap in Hlb as (y & -> & Hy). eapply (Hxy x y); eauto; [left|by right].
Qed.
