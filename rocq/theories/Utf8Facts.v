(** [from_utf8_lossy] and UTF-8. *)
From Verif Require Import Prelude Names SpecText NamesFacts SpecUtf8.
From Coq Require Import ZifyN ZifyNat.
Local Ltac Zify.zify_post_hook ::= Z.div_mod_to_equations.

Lemma bd_true (P : Prop) `{Decision P} : P → bool_decide P = true.
Proof. apply bool_decide_eq_true_2. Qed.
Lemma cont_true (b : nat) : 128 ≤ b < 192 → is_cont b = true.
Proof. intros. by apply bd_true. Qed.
Lemma range_true (lo hi b : nat) : lo ≤ b ≤ hi → in_range lo hi b = true.
Proof. intros. by apply bd_true. Qed.
Lemma range_false (lo hi b : nat) : ¬ (lo ≤ b ≤ hi) → in_range lo hi b = false.
Proof. intros. by apply bool_decide_eq_false_2. Qed.
Lemma next_char_utf8 c rest : scalar c → ∃ b r, utf8_char c ++ rest = b :: r ∧ next_char b r = (length (utf8_char c), true).
Proof.
  intros Hc. unfold utf8_char, scalar in *.
  destruct (decide (c < 128)%N) as [H1|H1]; [|destruct (decide (c < 2048)%N) as [H2|H2]; [|destruct (decide (c < 65536)%N) as [H3|H3]]];
    cbn [fmap list_fmap app length]; eexists _, _; (split; [reflexivity|]); unfold next_char; cbn [lookup_total list_lookup_total].
  - rewrite decide_True by lia. done.
  - rewrite decide_False by lia. rewrite range_true by lia. by rewrite cont_true by lia.
  - rewrite decide_False by lia. rewrite range_false by lia. rewrite range_true by lia.
    case_decide as E1; [|case_decide as E2]; rewrite range_true by lia; by rewrite cont_true by lia.
  - rewrite decide_False by lia. rewrite range_false by lia. rewrite range_false by lia. rewrite range_true by lia.
    case_decide as E1; [|case_decide as E2]; rewrite range_true by lia; rewrite cont_true by lia; by rewrite cont_true by lia.
Qed.
Lemma utf8_char_pos c : 1 ≤ length (utf8_char c).
Proof. unfold utf8_char. repeat case_decide; cbn; lia. Qed.
Lemma lossy_loop_text cs : ∀ f, Forall scalar cs → length (mjoin (utf8_char <$> cs)) ≤ f → lossy_loop f (mjoin (utf8_char <$> cs)) = mjoin (utf8_char <$> cs).
Proof.
  induction cs as [|c cs IH]; intros f Hs Hf; [by destruct f|]. apply Forall_cons in Hs as [Hc Hs].
  change (mjoin (utf8_char <$> c :: cs)) with (utf8_char c ++ mjoin (utf8_char <$> cs)) in *. rewrite app_length in Hf. pose proof (utf8_char_pos c).
  destruct f as [|f]; [lia|]. destruct (next_char_utf8 c (mjoin (utf8_char <$> cs)) Hc) as (b & r & E & En). rewrite E. cbn [lossy_loop]. rewrite En, <-E.
  rewrite take_app, drop_app. f_equal. apply IH; [done|lia].
Qed.
Lemma lossy_text s : utf8_text s → from_utf8_lossy s = s.
Proof. intros (cs & Hs & ->). by apply lossy_loop_text. Qed.

Lemma cont_inv b : is_cont b = true → 128 ≤ b < 192.
Proof. apply bool_decide_eq_true_1. Qed.
Lemma range_inv lo hi b : in_range lo hi b = true → lo ≤ b ≤ hi.
Proof. apply bool_decide_eq_true_1. Qed.
Lemma range_ninv lo hi b : in_range lo hi b = false → ¬ (lo ≤ b ≤ hi).
Proof. apply bool_decide_eq_false_1. Qed.
Lemma total_some (r : bytes) i : 128 ≤ r !!! i → r !! i = Some (r !!! i).
Proof. intros H. rewrite list_lookup_total_alt in *. destruct (r !! i); [done|]. cbn in H. lia. Qed.
Lemma next_char_inv b r n : next_char b r = (n, true) → ∃ c, scalar c ∧ take n (b :: r) = utf8_char c.
Proof.
  unfold next_char. set (n1 := r !!! 0). set (n2 := r !!! 1). set (n3 := r !!! 2).
  assert (128 ≤ n1 → r !! 0 = Some n1) as X1 by apply (total_some r 0). assert (128 ≤ n2 → r !! 1 = Some n2) as X2 by apply (total_some r 1).
  assert (128 ≤ n3 → r !! 2 = Some n3) as X3 by apply (total_some r 2). clearbody n1 n2 n3.
  unfold utf8_char, scalar. case_decide as Hb.
  { intros [= <-]. exists (N.of_nat b). split; [lia|]. cbn [take]. rewrite decide_True by lia. cbn. by rewrite Nat2N.id. }
  destruct (in_range 194 223 b) eqn:R1.
  { apply range_inv in R1. destruct (is_cont n1) eqn:C1; [|done]. apply cont_inv in C1. intros [= <-]. specialize (X1 ltac:(lia)).
    destruct r as [|a1 r]; [done|]. injection X1 as ->.
    exists (N.of_nat ((b - 192) * 64 + (n1 - 128))). split; [lia|]. cbn [take]. rewrite decide_False by lia. rewrite decide_True by lia. cbn [fmap list_fmap].
    f_equal; [lia|]. f_equal; lia. }
  apply range_ninv in R1. destruct (in_range 224 239 b) eqn:R2.
  { apply range_inv in R2. set (lead := (if decide (b = 224) then _ else _ : bool)). destruct lead eqn:L; [|done]. destruct (is_cont n2) eqn:C2; [|done]. apply cont_inv in C2.
    intros [= <-].
    assert (128 ≤ n1 < 192 ∧ (b = 224 → 160 ≤ n1) ∧ (b = 237 → n1 < 160)) as (C1 & H1 & H2).
    { unfold lead in L. case_decide; [|case_decide]; apply range_inv in L; lia. }
    specialize (X1 ltac:(lia)). specialize (X2 ltac:(lia)). destruct r as [|a1 [|a2 r]]; [done..|]. injection X1 as ->. injection X2 as ->.
    exists (N.of_nat b * 4096 - 917504 + (N.of_nat n1 - 128) * 64 + (N.of_nat n2 - 128))%N. clear L lead. split; [lia|]. cbn [take].
    rewrite decide_False by lia. rewrite decide_False by lia. rewrite decide_True by lia. cbn [fmap list_fmap]. f_equal; [lia|]. f_equal; [lia|]. f_equal; lia. }
  apply range_ninv in R2. destruct (in_range 240 244 b) eqn:R3; [|done].
  apply range_inv in R3. set (lead := (if decide (b = 240) then _ else _ : bool)). destruct lead eqn:L; [|done].
  destruct (is_cont n2) eqn:C2; [|done]. apply cont_inv in C2. destruct (is_cont n3) eqn:C3; [|done]. apply cont_inv in C3. intros [= <-].
  assert (128 ≤ n1 < 192 ∧ (b = 240 → 144 ≤ n1) ∧ (b = 244 → n1 < 144)) as (C1 & H1 & H2).
  { unfold lead in L. case_decide; [|case_decide]; apply range_inv in L; lia. }
  specialize (X1 ltac:(lia)). specialize (X2 ltac:(lia)). specialize (X3 ltac:(lia)). destruct r as [|a1 [|a2 [|a3 r]]]; [done..|]. injection X1 as ->. injection X2 as ->. injection X3 as ->.
  exists (N.of_nat b * 262144 - 62914560 + (N.of_nat n1 - 128) * 4096 + (N.of_nat n2 - 128) * 64 + (N.of_nat n3 - 128))%N. clear L lead. split; [lia|]. cbn [take].
  rewrite decide_False by lia. rewrite decide_False by lia. rewrite decide_False by lia. cbn [fmap list_fmap]. f_equal; [lia|]. f_equal; [lia|]. f_equal; [lia|]. f_equal; lia.
Qed.
Lemma lossy_loop_utf8 f : ∀ s, utf8_text (lossy_loop f s).
Proof.
  induction f as [|f IH]; intros s; [exists []; by split|]. destruct s as [|b r]; [exists []; by split|]. cbn [lossy_loop].
  destruct (next_char b r) as [n ok] eqn:E. destruct (IH (drop n (b :: r))) as (cs & Hs & Ec). rewrite Ec. destruct ok.
  - destruct (next_char_inv b r n E) as (c & Hc & ->). exists (c :: cs). split; [by constructor|done].
  - exists (65533%N :: cs). split; [constructor; [unfold scalar; lia|done]|]. change (mjoin (utf8_char <$> 65533%N :: cs)) with (utf8_char 65533 ++ mjoin (utf8_char <$> cs)). f_equal.
Qed.
Lemma lossy_valid s : utf8_text (from_utf8_lossy s).
Proof. apply lossy_loop_utf8. Qed.
Lemma lossy_iff s : from_utf8_lossy s = s ↔ utf8_text s.
Proof. split; [intros <-; apply lossy_valid|apply lossy_text]. Qed.
Lemma read_rollup_utf8 s n :
  utf8_text s → read_rollup s = Ok n →
  ∃ v e1 ns e2, s = v ++ e1 ++ ns ++ e2 ∧ no_lf v ∧ eol e1 ∧ name_text ns n ∧ name_ok n ∧ (eol e2 ∨ e2 = []).
Proof.
  intros Ha%lossy_iff. unfold read_rollup. rewrite Ha.
  destruct (text_lines s) as [|v [|ns [|]]] eqn:Ht; try done. intros Hn.
  apply string_to_name_spec in Hn as [Hn Hok]. apply text_lines_two in Ht as (e1 & e2 & -> & ? & He2 & ? & ?).
  exists v, e1, ns, e2. split_and!; try done. naive_solver.
Qed.
