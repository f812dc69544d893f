(** Iterators as lists: what it means for an iterator to deliver a list. *)
From Verif Require Import Prelude ListFacts TripleFiles.

(** [I st l]: iterator state [st] has exactly the elements [l] still to come. *)
Record iter_spec {St A} (next peek : St → option (option A * St)) (I : St → list A → Prop) : Prop := {
  is_next : ∀ st l, I st l → ∃ st', next st = Some (head l, st') ∧ I st' (tail l);
  is_peek : ∀ st l, I st l → ∃ st', peek st = Some (head l, st') ∧ I st' l }.

Lemma collect_ok {St A} (next peek : St → option (option A * St)) I st l fuel :
  iter_spec next peek I → I st l → length l < fuel → collect next fuel st = Some l.
Proof.
  intros Hspec. revert st l. induction fuel as [|fuel IH]; intros st l HI Hlen; [lia|].
  cbn. destruct (is_next _ _ _ Hspec st l HI) as (st' & -> & HI'). cbn.
  destruct l as [|x l]; [done|]. cbn in *. rewrite (IH st' l) by (done || lia). done.
Qed.

Lemma take_while_filter {A} `{Ord A} (P : A → Prop) `{!∀ x, Decision (P x)} (l : list A) :
  SSorted l → (∀ x y, x ∈ l → y ∈ l → olt x y → P y → P x) →
  take_while (λ x, bool_decide (P x)) l = filter P l.
Proof.
  induction l as [|x l IH]; intros Hs HP; [done|].
  apply ssorted_cons in Hs as [Hs Hx]. cbn [take_while]. rewrite filter_cons. case_decide as Hd.
  - rewrite bool_decide_eq_true_2 by done. f_equal. apply IH; auto.
    intros ?? Hin Hin'. apply HP; by right.
  - rewrite bool_decide_eq_false_2 by done. symmetry. apply filter_none.
    intros y Hy HPy. apply Hd. eapply (HP x y); auto; [left|by right].
Qed.
Lemma take_while_none {A} (P : A → Prop) `{!∀ x, Decision (P x)} (l : list A) :
  (∀ x, x ∈ l → ¬ P x) → take_while (λ x, bool_decide (P x)) l = [].
Proof.
  destruct l as [|x l]; intros HP; [done|]. cbn. rewrite bool_decide_eq_false_2; [done|].
  apply HP. left.
Qed.
