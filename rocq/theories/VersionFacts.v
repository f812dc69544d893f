(** A version stands for one state of a named graph. *)
From Verif Require Import Prelude Names LabelConc LabelSpec LabelConcFacts Head HeadSpec HeadFacts SpecVersions.

Lemma update_version d es d' : history name_reg d es d' → ∀ l l', d = Some l → d' = Some l' → lb_version l' = lb_version l →
  ∀ t k nl i r, EvSet t k nl i (Ok (Some r)) ∉ es.
Proof.
  induction 1 as [d|d e d1 es d' Hr Hh IH]; intros l l' E E' Ev t k nl i r Hin; [by apply elem_of_nil in Hin|]. subst d d'.
  pose proof (reg_version _ _ _ Hr) as Hv. destruct d1 as [l1|]; [|done]. destruct Hv as (Hv1 & _).
  pose proof (history_version _ _ _ Hh) as (Hv2 & _).
  apply elem_of_cons in Hin as [<-|Hin]; [|by apply (IH l1 l' eq_refl eq_refl ltac:(lia) t k nl i r)].
  inversion Hr as [? ? ? Hg| | | |]; subst. inversion Hg; subst. match goal with H : updates _ _ |- _ => destruct H; lia end.
Qed.
Lemma versions_unchanged its s n pre a mid b post t u x y v : hexec its s → serves n its → its = pre ++ a :: mid ++ b :: post →
  it_ret a = Some (t, HeadVersion n, RHead x v) → it_ret b = Some (u, ForceVersion n y v, RBool true) →
  label_after n (pre ++ a :: mid) (Some (Label n x v)) ∧ untouched n mid.
Proof.
  intros Hex Hsv E Ha Hb.
  pose proof (head_version_current its s n pre a (mid ++ b :: post) t x v Hex Hsv E Ha) as Hl.
  assert (its = (pre ++ a :: mid) ++ b :: post) as E' by (rewrite E, <-app_assoc; reflexivity).
  destruct (force_version_true its s n (pre ++ a :: mid) b post u y v Hex Hsv E' Hb) as (l & Hl2 & Hlv & _).
  destruct (label_after_app _ _ _ _ Hl2) as (d & Hd & Hh). rewrite (history_det _ _ _ _ Hd Hl) in Hh.
  assert (l = Label n x v) as -> by (apply (history_same _ _ _ Hh); done). split; [done|].
  intros it t' k nl i r Hin Eit Hk. apply (update_version _ _ _ Hh _ _ eq_refl eq_refl eq_refl t' k nl i r).
  apply elem_of_list_filter. split; [done|]. apply elem_of_list_omap. exists it. split; [by right|done].
Qed.
Lemma version_grows its s n pre a post t x v c : hexec its s → serves n its → its = pre ++ a :: post →
  it_ret a = Some (t, ForceVersion n x v, RBool true) → ∀ mid post', post = mid ++ post' → label_after n (pre ++ a :: mid) c → ∃ l, c = Some l ∧ (v < lb_version l)%N.
Proof.
  intros Hex Hsv E Ha mid post' -> Hc.
  destruct (force_version_true its s n pre a (mid ++ post') t x v Hex Hsv E Ha) as (_ & _ & _ & Hl).
  assert (pre ++ a :: mid = (pre ++ [a]) ++ mid) as Ep by (rewrite <-app_assoc; reflexivity). rewrite Ep in Hc.
  destruct (label_after_app _ _ _ _ Hc) as (d & Hd & Hh). rewrite (history_det _ _ _ _ Hd Hl) in Hh.
  pose proof (history_version _ _ _ Hh) as Hv. cbn in Hv. destruct c as [l|]; [|done]. destruct Hv as [Hv _]. exists l. split; [done|]. cbn in Hv. lia.
Qed.
Lemma version_once its s n pre a mid b post t u x y v : hexec its s → serves n its → its = pre ++ a :: mid ++ b :: post →
  it_ret a = Some (t, ForceVersion n x v, RBool true) → it_ret b = Some (u, ForceVersion n y v, RBool true) → False.
Proof.
  intros Hex Hsv E Ha Hb. assert (its = (pre ++ a :: mid) ++ b :: post) as E' by (rewrite E, <-app_assoc; reflexivity).
  destruct (force_version_true its s n (pre ++ a :: mid) b post u y v Hex Hsv E' Hb) as (l & Hl & Hv & _).
  destruct (version_grows its s n pre a (mid ++ b :: post) t x v _ Hex Hsv E Ha mid (b :: post) eq_refl Hl) as (l' & [= <-] & ?). lia.
Qed.
Lemma two_heads its s n pre a mid b post t u x y v : hexec its s → serves n its → its = pre ++ a :: mid ++ b :: post →
  it_ret a = Some (t, HeadVersion n, RHead x v) → it_ret b = Some (u, HeadVersion n, RHead y v) → x = y.
Proof.
  intros Hex Hsv E Ha Hb. pose proof (head_version_current its s n pre a (mid ++ b :: post) t x v Hex Hsv E Ha) as Hl.
  assert (its = (pre ++ a :: mid) ++ b :: post) as E' by (rewrite E, <-app_assoc; reflexivity).
  pose proof (head_version_current its s n (pre ++ a :: mid) b post u y v Hex Hsv E' Hb) as Hl2.
  destruct (label_after_app _ _ _ _ Hl2) as (d & Hd & Hh). rewrite (history_det _ _ _ _ Hd Hl) in Hh.
  apply history_same in Hh; [|done]. by injection Hh.
Qed.
