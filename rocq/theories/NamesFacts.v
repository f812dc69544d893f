(** Facts about the text formats of [Names]. *)
From Verif Require Import Prelude ListFacts Names SpecText.
#[global] Open Scope nat_scope.

Lemma mjoin_app1 {A} (x : list A) xs : mjoin (x :: xs) = x ++ mjoin xs.
Proof. reflexivity. Qed.

Lemma num_digits_S f base n acc :
  num_digits (S f) base n acc
  = if (n <? base)%N then (n mod base)%N :: acc else num_digits f base (n / base)%N ((n mod base)%N :: acc).
Proof. reflexivity. Qed.


Lemma digits_value_app base ds1 ds2 a :
  digits_value base a (ds1 ++ ds2) = digits_value base (digits_value base a ds1) ds2.
Proof. revert a. induction ds1; intros; simpl; auto. Qed.

Lemma num_digits_acc f base n acc :
  num_digits f base n acc = num_digits f base n [] ++ acc.
Proof.
  revert n acc. induction f as [|f IH]; intros n acc; [done|].
  rewrite !num_digits_S. destruct (n <? base)%N; [done|].
  rewrite IH, (IH _ [(n mod base)%N]), <-app_assoc. done.
Qed.

Lemma num_digits_value f base n :
  (1 < base)%N → (n < base ^ N.of_nat f)%N → digits_value base 0 (num_digits f base n []) = n.
Proof.
  intros Hb. revert n. induction f as [|f IH]; intros n Hn.
  - change (base ^ N.of_nat 0)%N with 1%N in Hn. simpl. lia.
  - rewrite num_digits_S. destruct (N.ltb_spec n base) as [Hl|Hl].
    + simpl. rewrite N.mod_small by done. lia.
    + rewrite num_digits_acc, digits_value_app, IH.
      * simpl. pose proof (N.div_mod n base ltac:(lia)). lia.
      * apply N.div_lt_upper_bound; [lia|].
        rewrite Nat2N.inj_succ, N.pow_succ_r' in Hn. done.
Qed.

Lemma num_digits_lt f base n : (0 < base)%N → Forall (λ d, d < base)%N (num_digits f base n []).
Proof.
  intros Hb. revert n. induction f as [|f IH]; intros n; [constructor|].
  rewrite num_digits_S. destruct (n <? base)%N; [|rewrite num_digits_acc, Forall_app; split; [done|]];
    (constructor; [apply N.mod_lt; lia|constructor]).
Qed.

Lemma num_digits_length f k base n :
  (1 < base)%N → (n < base ^ N.of_nat k)%N → 0 < k → k ≤ f → 0 < length (num_digits f base n []) ≤ k.
Proof.
  intros Hb. revert k n. induction f as [|f IH]; intros k n Hn Hk Hf; [lia|].
  rewrite num_digits_S. destruct (N.ltb_spec n base) as [Hl|Hl]; [simpl; lia|].
  rewrite num_digits_acc, app_length. simpl.
  destruct k as [|k]; [lia|].
  destruct (decide (k = 0)) as [->|Hk0].
  { change (base ^ N.of_nat 1)%N with (base ^ 1)%N in Hn. rewrite N.pow_1_r in Hn. lia. }
  destruct (IH k (n / base)%N); try lia.
  apply N.div_lt_upper_bound; [lia|]. rewrite Nat2N.inj_succ, N.pow_succ_r' in Hn. done.
Qed.

(** ** Digits and characters *)
Lemma to_digit_char base d : (base ≤ 36)%N → (d < base)%N → to_digit base (digit_char d) = Some d.
Proof.
  intros Hb Hd. unfold to_digit, digit_char. destruct (N.ltb_spec d 10) as [Hl|Hl].
  - rewrite decide_True by lia. cbn [mbind option_bind].
    replace (N.of_nat (48 + N.to_nat d - 48)) with d by lia.
    destruct (N.ltb_spec d base); [done|lia].
  - rewrite decide_False, decide_True by lia. cbn [mbind option_bind].
    replace (N.of_nat (87 + N.to_nat d - 87)) with d by lia.
    destruct (N.ltb_spec d base); [done|lia].
Qed.
Lemma digit_char_range base d :
  (base ≤ 36)%N → (d < base)%N → 48 ≤ digit_char d ≤ 57 ∨ 97 ≤ digit_char d ≤ 122.
Proof. intros Hb Hd. unfold digit_char. destruct (N.ltb_spec d 10); lia. Qed.
Lemma digit_char_hex d : (d < 16)%N → 48 ≤ digit_char d ≤ 57 ∨ 97 ≤ digit_char d ≤ 102.
Proof. intros Hd. unfold digit_char. destruct (N.ltb_spec d 10); lia. Qed.

Lemma digits_value_ge base ds a : (0 < base)%N → (a ≤ digits_value base a ds)%N.
Proof.
  intros Hb. revert a. induction ds as [|d ds IH]; intros a; simpl; [lia|].
  etrans; [|apply IH]. nia.
Qed.
Lemma parse_digits_ok base mx a ds :
  (0 < base ≤ 36)%N → Forall (λ d, d < base)%N ds → (digits_value base a ds ≤ mx)%N →
  parse_digits base mx a (digit_char <$> ds) = Some (digits_value base a ds).
Proof.
  intros Hb Hds. revert a. induction Hds as [|d ds Hd Hds IH]; intros a Hv; [done|].
  rewrite fmap_cons. cbn [parse_digits].
  rewrite to_digit_char by (lia || done). cbn [mbind option_bind].
  simpl in Hv. pose proof (digits_value_ge base ds (a * base + d) ltac:(lia)).
  destruct (N.ltb_spec mx (a * base + d)%N); [lia|]. by apply IH.
Qed.

Lemma from_str_radix_nosign base mx b s :
  b ≠ 43 → from_str_radix base mx (b :: s) = parse_digits base mx 0 (b :: s).
Proof. intros Hb. unfold from_str_radix. do 44 (destruct b as [|b]; [done|]). done. Qed.

Lemma from_str_radix_ok base mx ds :
  (0 < base ≤ 36)%N → Forall (λ d, d < base)%N ds → ds ≠ [] → (digits_value base 0 ds ≤ mx)%N →
  from_str_radix base mx (digit_char <$> ds) = Some (digits_value base 0 ds).
Proof.
  intros Hb Hds Hne Hv. pose proof (parse_digits_ok _ _ _ _ Hb Hds Hv) as Hp.
  destruct ds as [|d ds]; [done|]. rewrite fmap_cons in Hp |- *.
  pose proof (digit_char_range base d ltac:(lia) ltac:(by inversion Hds)) as Hr.
  rewrite from_str_radix_nosign by lia. done.
Qed.

Lemma to_digit_spec base b d : to_digit base b = Some d ↔ digit_of base b d.
Proof.
  unfold to_digit, digit_of. split.
  - repeat case_decide; cbn [mbind option_bind]; try done;
      destruct (N.ltb_spec (N.of_nat (b - 48)) base) || idtac;
      destruct (N.ltb_spec (N.of_nat (b - 87)) base) || idtac;
      destruct (N.ltb_spec (N.of_nat (b - 55)) base) || idtac;
      intros [= <-]; lia.
  - intros [Hd [[-> ?]|[[-> ?]|[-> ?]]]].
    + rewrite decide_True by lia. cbn [mbind option_bind].
      replace (N.of_nat _) with d by lia. destruct (N.ltb_spec d base); [done|lia].
    + rewrite decide_False, decide_True by lia. cbn [mbind option_bind].
      replace (N.of_nat _) with d by lia. destruct (N.ltb_spec d base); [done|lia].
    + rewrite decide_False, decide_False, decide_True by lia. cbn [mbind option_bind].
      replace (N.of_nat _) with d by lia. destruct (N.ltb_spec d base); [done|lia].
Qed.

Lemma parse_digits_spec base mx a s v :
  (0 < base)%N → (a ≤ mx)%N →
  parse_digits base mx a s = Some v
  ↔ (∃ ds, Forall2 (digit_of base) s ds ∧ v = digits_value base a ds) ∧ (v ≤ mx)%N.
Proof.
  intros Hb. revert a. induction s as [|b s IH]; intros a Ha.
  - simpl. split.
    + intros [= ->]. split; [|done]. exists []. split; [constructor|done].
    + intros [[ds [Hf ->]] _]. inversion Hf. done.
  - cbn [parse_digits]. split.
    + intros Hp. destruct (to_digit base b) as [d|] eqn:Hd; [|done]. cbn [mbind option_bind] in Hp.
      destruct (N.ltb_spec mx (a * base + d)) as [?|Hle]; [done|].
      apply IH in Hp as [[ds [Hf ->]] Hv]; [|done]. split; [|done].
      exists (d :: ds). split; [|done]. constructor; [by apply to_digit_spec|done].
    + intros [[ds [Hf ->]] Hv]. apply Forall2_cons_inv_l in Hf as (d & ds' & Hd & Hf & ->).
      apply to_digit_spec in Hd. rewrite Hd. cbn [mbind option_bind].
      simpl in Hv. pose proof (digits_value_ge base ds' (a * base + d) Hb).
      destruct (N.ltb_spec mx (a * base + d)) as [?|Hle]; [lia|].
      apply IH; [done|]. split; [|done]. by exists ds'.
Qed.


Lemma digit_of_plus base d : ¬ digit_of base 43 d.
Proof. intros [? [?|[?|?]]]; lia. Qed.
Lemma from_str_radix_spec base mx s v :
  (0 < base)%N → from_str_radix base mx s = Some v ↔ number_text base s v ∧ (v ≤ mx)%N.
Proof.
  intros Hb. destruct s as [|b s].
  { simpl. split; [done|]. intros [(sign & ds & E & Hs & Hne & _) _].
    symmetry in E. apply app_nil in E as [_ ->]. done. }
  destruct (decide (b = 43)) as [->|Hne].
  - assert (number_text base (43 :: s) v ↔
            s ≠ [] ∧ ∃ dv, Forall2 (digit_of base) s dv ∧ v = digits_value base 0 dv) as Hn.
    { split.
      - intros (sign & ds & E & [->| ->] & Hne & dv & Hf & ->).
        + simpl in E. subst ds. apply Forall2_cons_inv_l in Hf as (d & ? & Hd & _).
          by apply digit_of_plus in Hd.
        + simpl in E. injection E as ->. split; [done|]. by exists dv.
      - intros [Hne (dv & Hf & ->)]. exists [43], s. repeat split; auto. by exists dv. }
    rewrite Hn. destruct s as [|c s]; [by split; [|intros [[? _] _]]|].
    change (from_str_radix base mx (43 :: c :: s)) with (parse_digits base mx 0 (c :: s)).
    rewrite parse_digits_spec by lia. naive_solver.
  - rewrite from_str_radix_nosign by done. rewrite parse_digits_spec by lia.
    split; intros [Hx Hv]; (split; [|done]).
    + exists [], (b :: s). repeat split; auto.
    + destruct Hx as (sign & ds & E & [->| ->] & Hd & dv & Hf & ->); [|naive_solver].
      simpl in E. subst ds. by exists dv.
Qed.


(** ** ASCII text *)
Notation ascii s := (Forall (λ b, b < 128) s).
Lemma number_text_ascii base s v : (base ≤ 36)%N → number_text base s v → ascii s.
Proof.
  intros Hb (sign & ds & -> & Hs & _ & dv & Hf & _). apply Forall_app. split.
  - destruct Hs as [->| ->]; repeat constructor; lia.
  - induction Hf as [|x d ? ? [? Hx]]; constructor; auto. lia.
Qed.
Lemma mjoin_ascii ws : Forall (λ w, ascii w) ws → ascii (mjoin ws).
Proof. induction 1; [constructor|]. rewrite mjoin_app1, Forall_app. done. Qed.
Lemma name_text_ascii s n : name_text s n → ascii s.
Proof.
  intros (ws & -> & _ & Hf). apply mjoin_ascii.
  induction Hf as [|w v ? ? [_ Hn]]; constructor; auto. by apply (number_text_ascii 16 _ v).
Qed.
Lemma next_char_ascii b r : b < 128 → next_char b r = (1, true).
Proof. intros. unfold next_char. by rewrite decide_True. Qed.
Lemma lossy_loop_small f b s : b < 128 → lossy_loop (S f) (b :: s) = b :: lossy_loop f s.
Proof. intros Hb. cbn [lossy_loop]. rewrite next_char_ascii by done. reflexivity. Qed.
Lemma lossy_loop_ascii f s : ascii s → length s ≤ f → lossy_loop f s = s.
Proof.
  revert s. induction f as [|f IH]; intros [|b s] Ha Hl; simpl in Hl; try done; try lia.
  inversion Ha; subst. rewrite lossy_loop_small, IH by (done || lia). done.
Qed.
Lemma lossy_ascii s : ascii s → from_utf8_lossy s = s.
Proof. intros. by apply lossy_loop_ascii. Qed.

Lemma next_char_big b r : 128 ≤ b → 1 ≤ (next_char b r).1.
Proof. intros. unfold next_char. repeat case_match; simpl; lia. Qed.
Lemma lossy_loop_inv f s : length s ≤ f → ascii (lossy_loop f s) → ascii s.
Proof.
  revert s. induction f as [|f IH]; intros [|b s] Hl Ha; simpl in Hl; try done; try lia.
  destruct (decide (b < 128)) as [Hb|Hb].
  - rewrite lossy_loop_small in Ha by done. inversion Ha; subst.
    constructor; [done|]. apply IH; [lia|done].
  - cbn [lossy_loop] in Ha. pose proof (next_char_big b s ltac:(lia)) as Hn.
    destruct (next_char b s) as [n ok]. simpl in Hn. apply Forall_app in Ha as [Ha _].
    destruct ok.
    + destruct n as [|n]; [lia|]. cbn [take] in Ha. inversion Ha; subst. done.
    + inversion Ha; subst. lia.
Qed.
Lemma lossy_inv s : ascii (from_utf8_lossy s) → ascii s.
Proof. by apply lossy_loop_inv. Qed.

Lemma char_boundary_ascii s i : ascii s → i ≤ length s → char_boundary s i = true.
Proof.
  intros Ha Hi. unfold char_boundary. case_match eqn:Hb.
  - rewrite Forall_lookup in Ha. specialize (Ha _ _ Hb). unfold is_cont.
    rewrite bool_decide_eq_false_2 by lia. done.
  - apply lookup_ge_None in Hb. apply bool_decide_eq_true_2. lia.
Qed.

(** ** Names *)
Lemma mjoin_len8 (ws : list bytes) : Forall (λ w, length w = 8) ws → length (mjoin ws) = 8 * length ws.
Proof. induction 1 as [|w ws Hw _ IH]; [done|]. rewrite mjoin_app1, app_length, IH, Hw. simpl. lia. Qed.
Lemma name_text_len s n : name_text s n → length s = 40.
Proof.
  intros (ws & -> & Hn & Hf). rewrite mjoin_len8.
  - apply Forall2_length in Hf. lia.
  - clear Hn. induction Hf as [|w v ? ? [? _]]; constructor; auto.
Qed.

Lemma string_word_ok s i v :
  8 * i + 8 ≤ length s → string_word s i = Ok v →
  length (take 8 (drop (8 * i) s)) = 8 ∧ number_text 16 (take 8 (drop (8 * i) s)) v ∧ (v ≤ u32_max)%N.
Proof.
  intros Hl. unfold string_word, slice. destruct (_ && _)%bool; [|done]. cbn [obind].
  replace (8 * i + 8 - 8 * i) with 8 by lia.
  destruct (from_str_radix _ _ _) as [n|] eqn:Hf; [|done]. intros [= ->].
  split; [rewrite take_length, drop_length; lia|].
  by apply from_str_radix_spec in Hf as [Ht Hv].
Qed.
Lemma string_word_text s i v :
  ascii s → 8 * i + 8 ≤ length s → number_text 16 (take 8 (drop (8 * i) s)) v → (v ≤ u32_max)%N →
  string_word s i = Ok v.
Proof.
  intros Ha Hl Ht Hv. unfold string_word, slice.
  rewrite !char_boundary_ascii by (done || lia). cbn [andb obind].
  replace (8 * i + 8 - 8 * i) with 8 by lia.
  by rewrite (proj2 (from_str_radix_spec 16 u32_max _ v ltac:(lia))).
Qed.
Lemma split5 (s : bytes) :
  length s = 40 →
  s = mjoin [take 8 (drop 0 s); take 8 (drop 8 s); take 8 (drop 16 s); take 8 (drop 24 s); take 8 (drop 32 s)].
Proof.
  intros Hl. do 40 (destruct s as [|? s]; [done|]). destruct s; [|done]. reflexivity.
Qed.

Lemma string_to_name_spec s n : string_to_name s = Ok n ↔ name_text s n ∧ name_ok n.
Proof.
  split.
  - unfold string_to_name. case_decide as Hl; [done|].
    assert (length s = 40) as Hlen by lia. clear Hl.
    pose proof (string_word_ok s 0) as H0. pose proof (string_word_ok s 1) as H1.
    pose proof (string_word_ok s 2) as H2. pose proof (string_word_ok s 3) as H3.
    pose proof (string_word_ok s 4) as H4.
    destruct (string_word s 0) as [n0| |]; try done. destruct (string_word s 1) as [n1| |]; try done.
    destruct (string_word s 2) as [n2| |]; try done. destruct (string_word s 3) as [n3| |]; try done.
    destruct (string_word s 4) as [n4| |]; try done. cbn [obind]. intros [= <-].
    destruct (H0 n0 ltac:(lia) eq_refl) as (L0 & T0 & B0).
    destruct (H1 n1 ltac:(lia) eq_refl) as (L1 & T1 & B1).
    destruct (H2 n2 ltac:(lia) eq_refl) as (L2 & T2 & B2).
    destruct (H3 n3 ltac:(lia) eq_refl) as (L3 & T3 & B3).
    destruct (H4 n4 ltac:(lia) eq_refl) as (L4 & T4 & B4).
    split; [|by split; [done|repeat constructor]].
    eexists. split; [apply (split5 s Hlen)|]. split; [done|].
    apply Forall2_cons_2; [by split|]. apply Forall2_cons_2; [by split|]. apply Forall2_cons_2; [by split|].
    apply Forall2_cons_2; [by split|]. apply Forall2_cons_2; [by split|]. constructor.
  - intros [Ht [Hn Hb]]. pose proof (name_text_ascii _ _ Ht) as Ha. pose proof (name_text_len _ _ Ht) as Hl.
    destruct Ht as (ws & -> & _ & Hf).
    do 5 (destruct n as [|? n]; [done|]). destruct n; [|done].
    repeat match goal with H : Forall2 _ _ (_ :: _) |- _ => apply Forall2_cons_inv_r in H as (? & ? & [? ?] & H & ?) end.
    apply Forall2_nil_inv_r in Hf. subst.
    repeat match goal with H : Forall _ (_ :: _) |- _ => apply Forall_cons in H as [? H] end.
    unfold string_to_name. rewrite decide_False by lia.
    repeat match goal with H : length ?w = 8 |- _ =>
      do 8 (destruct w as [|? w]; [done|]); destruct w; [|done]; clear H end.
    rewrite (string_word_text _ 0 n0) by (done || (rewrite Hl; lia)). cbn [obind].
    rewrite (string_word_text _ 1 n1) by (done || (rewrite Hl; lia)). cbn [obind].
    rewrite (string_word_text _ 2 n2) by (done || (rewrite Hl; lia)). cbn [obind].
    rewrite (string_word_text _ 3 n3) by (done || (rewrite Hl; lia)). cbn [obind].
    rewrite (string_word_text _ 4 n4) by (done || (rewrite Hl; lia)). cbn [obind].
    reflexivity.
Qed.

Lemma digit_of_char base d : (base ≤ 36)%N → (d < base)%N → digit_of base (digit_char d) d.
Proof. intros. apply to_digit_spec. by apply to_digit_char. Qed.
Lemma fmt_radix_text base n :
  (2 ≤ base ≤ 36)%N → (n < base ^ 64)%N → number_text base (fmt_radix base n) n.
Proof.
  intros Hb Hn. exists [], (fmt_radix base n). split; [done|]. split; [by left|]. split.
  - unfold fmt_radix. intros E. apply (f_equal length) in E. rewrite fmap_length in E.
    pose proof (num_digits_length 64 64 base n ltac:(lia) Hn ltac:(lia) ltac:(lia)) as Hl.
    rewrite E in Hl. simpl in Hl. lia.
  - exists (num_digits 64 base n []). split; [|symmetry; apply num_digits_value; lia || done].
    unfold fmt_radix. pose proof (num_digits_lt 64 base n ltac:(lia)) as Hd.
    induction Hd as [|d ds Hd _ IH]; [constructor|]. constructor; [|done]. apply digit_of_char; lia || done.
Qed.
Lemma digits_value_zeros base k ds : digits_value base 0 (replicate k 0%N ++ ds) = digits_value base 0 ds.
Proof. induction k; [done|]. simpl. rewrite N.add_0_r. done. Qed.

(** the digits of a word, filled up with zeroes *)
Definition word_digits (w : N) : list N :=
  replicate (8 - length (num_digits 64 16 w [])) 0%N ++ num_digits 64 16 w [].
Lemma word_digits_text w : pad_left 8 48 (fmt_radix 16 w) = digit_char <$> word_digits w.
Proof.
  unfold pad_left, fmt_radix, word_digits. rewrite fmap_length, fmap_app, fmap_replicate. done.
Qed.
Lemma word_digits_lt w : Forall (λ d, d < 16)%N (word_digits w).
Proof.
  unfold word_digits. apply Forall_app. split; [|apply num_digits_lt; lia].
  apply Forall_replicate. lia.
Qed.
Lemma word_lt w : (w ≤ u32_max)%N → (w < 16 ^ N.of_nat 8)%N.
Proof. intros. change (16 ^ N.of_nat 8)%N with 4294967296%N. unfold u32_max in *. lia. Qed.
Lemma word_digits_len w : (w ≤ u32_max)%N → length (word_digits w) = 8.
Proof.
  intros Hw. pose proof (num_digits_length 64 8 16 w ltac:(lia) (word_lt w Hw) ltac:(lia) ltac:(lia)).
  unfold word_digits. rewrite app_length, replicate_length. lia.
Qed.
Lemma word_digits_value w : (w ≤ u32_max)%N → digits_value 16 0 (word_digits w) = w.
Proof.
  intros Hw. unfold word_digits. rewrite digits_value_zeros. apply num_digits_value; [lia|].
  unfold u32_max in Hw. change (16 ^ N.of_nat 64)%N with
    115792089237316195423570985008687907853269984665640564039457584007913129639936%N. lia.
Qed.
Lemma digit_chars_of base ds : (base ≤ 36)%N → Forall (λ d, d < base)%N ds → Forall2 (digit_of base) (digit_char <$> ds) ds.
Proof. intros Hb. induction 1; constructor; auto using digit_of_char. Qed.
Lemma word_text w :
  (w ≤ u32_max)%N → length (pad_left 8 48 (fmt_radix 16 w)) = 8 ∧ number_text 16 (pad_left 8 48 (fmt_radix 16 w)) w.
Proof.
  intros Hw. rewrite word_digits_text. rewrite fmap_length, word_digits_len by done. split; [done|].
  exists [], (digit_char <$> word_digits w). split; [done|]. split; [by left|]. split.
  - intros E. apply (f_equal length) in E. rewrite fmap_length, word_digits_len in E by done. done.
  - exists (word_digits w). split; [apply digit_chars_of; [lia|apply word_digits_lt]|].
    by rewrite word_digits_value.
Qed.

Lemma name_to_string_text n : name_ok n → name_text (name_to_string n) n.
Proof.
  intros [Hl Hb]. eexists. split; [reflexivity|]. split; [done|]. clear Hl.
  induction Hb; constructor; auto using word_text.
Qed.
Lemma string_to_name_round n : name_ok n → string_to_name (name_to_string n) = Ok n.
Proof. intros Hn. apply string_to_name_spec. split; [by apply name_to_string_text|done]. Qed.
Lemma name_to_string_ascii n : name_ok n → ascii (name_to_string n).
Proof. intros Hn. by eapply name_text_ascii, name_to_string_text. Qed.
Lemma name_to_string_len n : name_ok n → length (name_to_string n) = 40.
Proof. intros Hn. by eapply name_text_len, name_to_string_text. Qed.
Lemma name_to_string_hex n :
  name_ok n → Forall (λ b, 48 ≤ b ≤ 57 ∨ 97 ≤ b ≤ 102) (name_to_string n).
Proof.
  intros [_ Hb]. unfold name_to_string. induction Hb as [|w n Hw _ IH]; [constructor|].
  rewrite fmap_cons, mjoin_app1. apply Forall_app. split; [|done].
  rewrite word_digits_text. pose proof (word_digits_lt w) as Hd.
  induction Hd; constructor; auto using digit_char_hex.
Qed.
Lemma bytes_to_name_round n : name_ok n → bytes_to_name (name_to_string n) = Ok n.
Proof.
  intros Hn. unfold bytes_to_name. rewrite name_to_string_len by done. rewrite decide_False by lia.
  rewrite lossy_ascii by (by apply name_to_string_ascii). by apply string_to_name_round.
Qed.

(** Horner's rule is injective on lists of digits of the same length *)
Lemma digits_value_inj base a b ds es :
  (0 < base)%N → length ds = length es → Forall (λ d, d < base)%N ds → Forall (λ d, d < base)%N es →
  digits_value base a ds = digits_value base b es → a = b ∧ ds = es.
Proof.
  intros Hb. revert es a b. induction ds as [|d ds IH]; intros [|e es] a b Hl Hd He Hv; try done.
  simpl in Hv, Hl. inversion Hd; inversion He; subst.
  apply IH in Hv as [Hv ->]; [|lia|done..].
  assert (a = b) by nia. subst. split; [done|]. f_equal. lia.
Qed.

(** *** Strings of 40 hexadecimal digits are names, in either case *)
Lemma is_hex_digit b : is_hex b → ∃ d, digit_of 16 b d ∧ (d < 16)%N ∧ digit_char d = lower b.
Proof.
  intros Hb. unfold digit_of, lower, digit_char. destruct Hb as [Hb|[Hb|Hb]].
  - exists (N.of_nat (b - 48)). split; [lia|]. split; [lia|]. rewrite decide_False by lia.
    destruct (N.ltb_spec (N.of_nat (b - 48)) 10); lia.
  - exists (N.of_nat (b - 87)). split; [lia|]. split; [lia|]. rewrite decide_False by lia.
    destruct (N.ltb_spec (N.of_nat (b - 87)) 10); lia.
  - exists (N.of_nat (b - 55)). split; [lia|]. split; [lia|]. rewrite decide_True by lia.
    destruct (N.ltb_spec (N.of_nat (b - 55)) 10); lia.
Qed.
Lemma hex_digits s :
  Forall is_hex s → ∃ ds, Forall2 (digit_of 16) s ds ∧ Forall (λ d, d < 16)%N ds ∧ digit_char <$> ds = lower <$> s.
Proof.
  induction 1 as [|b s Hb _ (ds & IH1 & IH2 & IH3)]; [by exists []|].
  destruct (is_hex_digit b Hb) as (d & ? & ? & ?). exists (d :: ds).
  split; [by constructor|]. split; [by constructor|]. rewrite !fmap_cons. by f_equal.
Qed.
Lemma digits_value_lt base a ds :
  (0 < base)%N → Forall (λ d, d < base)%N ds →
  (digits_value base a ds < (a + 1) * base ^ N.of_nat (length ds))%N.
Proof.
  intros Hb Hd. revert a. induction Hd as [|d ds Hd _ IH]; intros a.
  - simpl. rewrite N.mul_1_r. lia.
  - cbn [digits_value length]. specialize (IH (a * base + d)%N).
    rewrite Nat2N.inj_succ, N.pow_succ_r'. nia.
Qed.
Lemma hex_word w :
  length w = 8 → Forall is_hex w →
  ∃ v, number_text 16 w v ∧ (v ≤ u32_max)%N ∧ pad_left 8 48 (fmt_radix 16 v) = lower <$> w.
Proof.
  intros Hl Hw. destruct (hex_digits w Hw) as (ds & Hd1 & Hd2 & Hd3).
  assert (length ds = 8) as Hlen by (rewrite <-(Forall2_length _ _ _ Hd1); done).
  exists (digits_value 16 0 ds).
  assert (digits_value 16 0 ds ≤ u32_max)%N as Hv.
  { pose proof (digits_value_lt 16 0 ds ltac:(lia) Hd2) as Hlt. rewrite Hlen in Hlt.
    change ((0 + 1) * 16 ^ N.of_nat 8)%N with 4294967296%N in Hlt. unfold u32_max. lia. }
  split; [|split; [done|]].
  - exists [], w. split; [done|]. split; [by left|]. split; [by destruct w|]. by exists ds.
  - rewrite word_digits_text, <-Hd3. f_equal.
    destruct (digits_value_inj 16 0 0 (word_digits (digits_value 16 0 ds)) ds) as [_ Heq]; try done.
    + rewrite word_digits_len by done. done.
    + apply word_digits_lt.
    + by rewrite word_digits_value.
Qed.
Lemma hex_name s :
  length s = 40 → Forall is_hex s → ∃ n, string_to_name s = Ok n ∧ name_to_string n = lower <$> s.
Proof.
  intros Hl Hs. pose proof (split5 s Hl) as E.
  assert (∀ i, i ≤ 32 → length (take 8 (drop i s)) = 8 ∧ Forall is_hex (take 8 (drop i s))) as Hw.
  { intros i Hi. split; [rewrite take_length, drop_length; lia|]. by apply Forall_take, Forall_drop. }
  destruct (hex_word _ (proj1 (Hw 0 ltac:(lia))) (proj2 (Hw 0 ltac:(lia)))) as (v0 & T0 & B0 & L0).
  destruct (hex_word _ (proj1 (Hw 8 ltac:(lia))) (proj2 (Hw 8 ltac:(lia)))) as (v1 & T1 & B1 & L1).
  destruct (hex_word _ (proj1 (Hw 16 ltac:(lia))) (proj2 (Hw 16 ltac:(lia)))) as (v2 & T2 & B2 & L2).
  destruct (hex_word _ (proj1 (Hw 24 ltac:(lia))) (proj2 (Hw 24 ltac:(lia)))) as (v3 & T3 & B3 & L3).
  destruct (hex_word _ (proj1 (Hw 32 ltac:(lia))) (proj2 (Hw 32 ltac:(lia)))) as (v4 & T4 & B4 & L4).
  exists [v0; v1; v2; v3; v4]. split.
  - apply string_to_name_spec. split; [|split; [done|by repeat constructor]].
    eexists. split; [exact E|]. split; [done|].
    apply Forall2_cons_2; [split; [apply Hw; lia|done]|]. apply Forall2_cons_2; [split; [apply Hw; lia|done]|].
    apply Forall2_cons_2; [split; [apply Hw; lia|done]|]. apply Forall2_cons_2; [split; [apply Hw; lia|done]|].
    apply Forall2_cons_2; [split; [apply Hw; lia|done]|]. constructor.
  - rewrite E at 1. unfold name_to_string. rewrite !fmap_cons, fmap_nil, L0, L1, L2, L3, L4.
    rewrite !mjoin_app1. change (mjoin (M := list) (A := nat) []) with (@nil nat).
    rewrite !fmap_app. reflexivity.
Qed.
Lemma string_to_name_chars s n :
  string_to_name s = Ok n → length s = 40 ∧ Forall (λ b, is_hex b ∨ b = 43) s.
Proof.
  intros Hs. apply string_to_name_spec in Hs as [Ht _]. split; [by eapply name_text_len|].
  destruct Ht as (ws & -> & _ & Hf). induction Hf as [|w v ws n [_ Hn] _ IH]; [constructor|].
  rewrite mjoin_app1. apply Forall_app. split; [|done].
  destruct Hn as (sign & ds & -> & Hsg & _ & dv & Hf & _). apply Forall_app. split.
  - destruct Hsg as [->| ->]; [constructor|]. apply Forall_cons. split; [by right|constructor].
  - induction Hf as [|x d ? ? [? Hx]]; constructor; auto. left. unfold is_hex. lia.
Qed.
Lemma string_to_name_no_panic s : ascii s → string_to_name s ≠ Panic.
Proof.
  intros Ha. unfold string_to_name. case_decide as Hl; [done|].
  assert (∀ i, i < 5 → string_word s i ≠ Panic) as Hw.
  { intros i Hi. unfold string_word, slice. rewrite !char_boundary_ascii by (done || lia).
    cbn [andb obind]. by destruct (from_str_radix _ _ _). }
  pose proof (Hw 0 ltac:(lia)). pose proof (Hw 1 ltac:(lia)). pose proof (Hw 2 ltac:(lia)).
  pose proof (Hw 3 ltac:(lia)). pose proof (Hw 4 ltac:(lia)).
  repeat (match goal with |- context[string_word s ?i] => destruct (string_word s i); cbn [obind]; try done end).
Qed.

(** ** Lines *)
Notation no_lf s := (Forall (λ b, b ≠ 10) s).
Lemma lines_loop_other cur b s : b ≠ 10 → lines_loop cur (b :: s) = lines_loop (b :: cur) s.
Proof. intros Hb. cbn [lines_loop]. do 11 (destruct b as [|b]; [done|]). done. Qed.
Lemma lines_loop_line cur l s :
  no_lf l → lines_loop cur (l ++ 10 :: s) = strip_cr (reverse cur ++ l) :: lines_loop [] s.
Proof.
  intros Hl. revert cur. induction Hl as [|b l Hb _ IH]; intros cur.
  - rewrite app_nil_r. done.
  - rewrite <-app_comm_cons, lines_loop_other by done. rewrite IH, reverse_cons, <-app_assoc. done.
Qed.
Lemma lines_loop_end cur l : no_lf l → lines_loop cur l = match reverse l ++ cur with [] => [] | _ => [reverse cur ++ l] end.
Proof.
  intros Hl. revert cur. induction Hl as [|b l Hb _ IH]; intros cur.
  - rewrite app_nil_r. by destruct cur.
  - rewrite lines_loop_other by done. rewrite IH, reverse_cons, reverse_cons, <-!app_assoc. done.
Qed.
Lemma text_line l s : no_lf l → text_lines (l ++ 10 :: s) = strip_cr l :: text_lines s.
Proof. intros. unfold text_lines. by rewrite lines_loop_line. Qed.
Lemma text_last l : no_lf l → l ≠ [] → text_lines l = [l].
Proof.
  intros Hl Hne. unfold text_lines. rewrite lines_loop_end, app_nil_r by done.
  destruct (reverse l) eqn:E; [|done]. apply (f_equal reverse) in E. by rewrite reverse_involutive in E.
Qed.
Lemma strip_cr_app l : strip_cr (l ++ [13]) = l.
Proof. unfold strip_cr. rewrite reverse_app. simpl. apply reverse_involutive. Qed.
Lemma strip_cr_other l b : b ≠ 13 → strip_cr (l ++ [b]) = l ++ [b].
Proof.
  intros Hb. unfold strip_cr. rewrite reverse_app. simpl. do 14 (destruct b as [|b]; [done|]). done.
Qed.
Lemma strip_cr_id l : Forall (λ b, b ≠ 13) l → strip_cr l = l.
Proof.
  intros Hl. destruct l as [|b l _] using rev_ind; [done|]. apply Forall_app in Hl as [_ Hl].
  inversion Hl; subst. by apply strip_cr_other.
Qed.
Lemma strip_cr_cases l : l = strip_cr l ∨ l = strip_cr l ++ [13].
Proof.
  destruct l as [|b l _] using rev_ind; [by left|]. destruct (decide (b = 13)) as [->|Hb].
  - right. by rewrite strip_cr_app.
  - left. by rewrite strip_cr_other.
Qed.
Lemma first_line (s : bytes) : no_lf s ∨ ∃ l r, s = l ++ 10 :: r ∧ no_lf l.
Proof.
  induction s as [|b s [IH|(l & r & -> & Hl)]]; [left; constructor|..].
  - destruct (decide (b = 10)) as [->|Hb]; [right; exists [], s; by split|left; by constructor].
  - destruct (decide (b = 10)) as [->|Hb].
    + right. exists [], (l ++ 10 :: r). split; [done|constructor].
    + right. exists (b :: l), r. split; [done|by constructor].
Qed.

Lemma text_line_eol l e s :
  Forall (λ b, b ≠ 10 ∧ b ≠ 13) l → eol e → text_lines (l ++ e ++ s) = l :: text_lines s.
Proof.
  intros Hl He.
  assert (no_lf l) as H1 by (eapply Forall_impl; [exact Hl|by intros ? []]).
  assert (Forall (λ b, b ≠ 13) l) as H2 by (eapply Forall_impl; [exact Hl|by intros ? []]).
  destruct He as [->| ->].
  - simpl. rewrite text_line by done. by rewrite strip_cr_id.
  - replace (l ++ [13; 10] ++ s) with ((l ++ [13]) ++ 10 :: s) by (by rewrite <-app_assoc).
    rewrite text_line, strip_cr_app; [done|]. apply Forall_app. split; [done|]. by repeat constructor.
Qed.
Lemma text_lines_two s v n :
  text_lines s = [v; n] →
  ∃ e1 e2, s = v ++ e1 ++ n ++ e2 ∧ eol e1 ∧ (eol e2 ∨ e2 = [] ∧ n ≠ []) ∧ no_lf v ∧ no_lf n.
Proof.
  assert (∀ l, no_lf l → no_lf (strip_cr l)) as Hst.
  { intros l Hl. destruct (strip_cr_cases l) as [<-|E]; [done|]. rewrite E in Hl.
    by apply Forall_app in Hl as [? _]. }
  assert (∀ l r, ∃ e, l ++ 10 :: r = strip_cr l ++ e ++ r ∧ eol e) as He.
  { intros l r. destruct (strip_cr_cases l) as [E|E].
    - exists [10]. rewrite <-E. split; [done|by left].
    - exists [13; 10]. rewrite E at 1. rewrite <-app_assoc. split; [done|by right]. }
  intros Hs. destruct (first_line s) as [Hl|(l & r & -> & Hl)].
  { destruct s; [done|]. by rewrite text_last in Hs. }
  rewrite text_line in Hs by done. injection Hs as <- Hs.
  destruct (He l r) as (e1 & -> & He1). exists e1.
  destruct (first_line r) as [Hr|(l2 & r2 & -> & Hl2)].
  - destruct (decide (r = [])) as [->|Hne]; [done|]. rewrite text_last in Hs by done.
    injection Hs as <-. exists []. rewrite app_nil_r. split; [done|]. split; [done|]. split; [by right|]. split; [by apply Hst|done].
  - rewrite text_line in Hs by done. injection Hs as <- Hs.
    destruct (first_line r2) as [Hr2|(l3 & r3 & -> & Hl3)]; [|by rewrite text_line in Hs].
    destruct (decide (r2 = [])) as [->|Hne]; [|by rewrite text_last in Hs].
    destruct (He l2 []) as (e2 & -> & He2). exists e2. rewrite app_nil_r.
    split; [done|]. split; [done|]. split; [by left|]. split; by apply Hst.
Qed.

(** ** Label files *)
Definition plain_text (s : bytes) : Prop := Forall (λ b, b ≠ 10 ∧ b ≠ 13) s.
Lemma number_text_plain base s v : (base ≤ 36)%N → number_text base s v → plain_text s.
Proof.
  intros Hb (sign & ds & -> & Hs & _ & dv & Hf & _). apply Forall_app. split.
  - destruct Hs as [->| ->]; [constructor|]. apply Forall_cons. split; [lia|constructor].
  - induction Hf as [|x d ? ? [? Hx]]; constructor; auto. lia.
Qed.
Lemma name_text_plain s n : name_text s n → plain_text s.
Proof.
  intros (ws & -> & _ & Hf). induction Hf as [|w v ? ? [_ Hn] _ IH]; [constructor|].
  rewrite mjoin_app1. apply Forall_app. split; [|done]. by apply (number_text_plain 16 _ v).
Qed.
Lemma eol_ascii e : eol e → ascii e.
Proof. intros [->| ->]; repeat (apply Forall_cons; split; [lia|]); constructor. Qed.
Lemma name_text_ne s n : name_text s n → s ≠ [].
Proof. intros Ht ->. apply name_text_len in Ht. done. Qed.

Lemma text_lines_nil : text_lines [] = [].
Proof. reflexivity. Qed.
Lemma text_line_end l e :
  Forall (λ b, b ≠ 10 ∧ b ≠ 13) l → (eol e ∨ e = [] ∧ l ≠ []) → text_lines (l ++ e) = [l].
Proof.
  intros Hl [He|[-> Hne]].
  - rewrite <-(app_nil_r e). rewrite text_line_eol by done. done.
  - rewrite app_nil_r. apply text_last; [|done]. eapply Forall_impl; [exact Hl|by intros ? []].
Qed.

Lemma get_label_from_data_spec name s l :
  get_label_from_data name s = Ok l
  ↔ lb_name l = name ∧ (lb_version l ≤ u64_max)%N ∧ label_text s (lb_version l) (lb_layer l).
Proof.
  split.
  - unfold get_label_from_data.
    destruct (text_lines (from_utf8_lossy s)) as [|v [|n [|]]] eqn:Ht; try done.
    destruct (from_str_radix 10 u64_max v) as [x|] eqn:Hv; [|done].
    apply from_str_radix_spec in Hv as [Hv Hx]; [|lia].
    apply text_lines_two in Ht as (e1 & e2 & E & He1 & He2 & _ & _).
    pose proof (number_text_ascii 10 _ _ ltac:(lia) Hv) as Ha.
    assert (ascii n → s = v ++ e1 ++ n ++ e2) as Hs.
    { intros Hn. rewrite <-E. symmetry. apply lossy_ascii. apply lossy_inv. rewrite E.
      apply Forall_app. split; [done|]. apply Forall_app. split; [by apply eol_ascii|].
      apply Forall_app. split; [done|]. destruct He2 as [He2|[-> _]]; [by apply eol_ascii|constructor]. }
    destruct (decide (n = [])) as [->|Hne].
    + intros [= <-]. split; [done|]. split; [done|]. exists v, e1, [], e2. split; [apply Hs; constructor|].
      split; [done|]. split; [done|]. split; [done|]. by destruct He2 as [?|[_ ?]].
    + destruct n as [|c n']; [done|]. remember (c :: n') as n. 
      destruct (string_to_name n) as [nm| |] eqn:Hn; try done. cbn [obind]. intros [= <-].
      apply string_to_name_spec in Hn as [Hn Hnok].
      split; [done|]. split; [done|]. exists v, e1, n, e2. split; [apply Hs; by eapply name_text_ascii|].
      split; [done|]. split; [done|]. split; [done|]. split; [done|]. naive_solver.
  - destruct l as [nm layer v]. cbn [lb_name lb_version lb_layer].
    intros (-> & Hv & vs & e1 & ns & e2 & -> & He1 & Hvs & Hn). unfold get_label_from_data.
    pose proof (number_text_ascii 10 _ _ ltac:(lia) Hvs) as Ha.
    pose proof (number_text_plain 10 _ _ ltac:(lia) Hvs) as Hp.
    rewrite lossy_ascii.
    2:{ apply Forall_app. split; [done|]. apply Forall_app. split; [by apply eol_ascii|].
        destruct layer as [n|].
        - destruct Hn as (Hn & _ & He2). apply Forall_app. split; [by eapply name_text_ascii|].
          destruct He2 as [?| ->]; [by apply eol_ascii|constructor].
        - destruct Hn as [-> He2]. by apply eol_ascii. }
    rewrite text_line_eol by done.
    assert (text_lines (ns ++ e2) = [ns]) as ->.
    { destruct layer as [n|].
      - destruct Hn as (Hn & _ & He2). apply text_line_end; [by eapply name_text_plain|].
        destruct He2 as [?| ->]; [by left|right]. split; [done|]. by eapply name_text_ne.
      - destruct Hn as [-> He2]. apply text_line_end; [constructor|by left]. }
    rewrite (proj2 (from_str_radix_spec 10 u64_max vs v ltac:(lia))) by done.
    destruct layer as [n|].
    + destruct Hn as (Hn & Hok & _). rewrite (proj2 (string_to_name_spec ns n)) by done.
      destruct ns; [by apply name_text_ne in Hn|]. done.
    + destruct Hn as [-> _]. done.
Qed.

Lemma version_text v : (v ≤ u64_max)%N → number_text 10 (fmt_radix 10 v) v.
Proof.
  intros Hv. apply fmt_radix_text; [lia|]. unfold u64_max in Hv.
  change (10 ^ 64)%N with 10000000000000000000000000000000000000000000000000000000000000000%N. lia.
Qed.
Lemma label_contents_text l : label_ok l → label_text (label_contents l) (lb_version l) (lb_layer l).
Proof.
  destruct l as [nm [n|] v]; intros [Hv Hn]; unfold label_contents; cbn [lb_layer lb_version] in *.
  - exists (fmt_radix 10 v), [10], (name_to_string n), [10]. split; [done|]. split; [by left|].
    split; [by apply version_text|]. split; [by apply name_to_string_text|]. split; [done|]. left. by left.
  - exists (fmt_radix 10 v), [10], [], [10]. split; [done|]. split; [by left|].
    split; [by apply version_text|]. split; [done|]. by left.
Qed.
Lemma label_round l : label_ok l → get_label_from_data (lb_name l) (label_contents l) = Ok l.
Proof.
  intros Hl. apply get_label_from_data_spec. split; [done|]. split; [by destruct Hl|].
  by apply label_contents_text.
Qed.

(** *** No text can be read as two different labels *)
(** by functionality of the parser *)
Lemma label_text_unique s v n v' n' :
  (v ≤ u64_max)%N → (v' ≤ u64_max)%N → label_text s v n → label_text s v' n' → v = v' ∧ n = n'.
Proof.
  intros Hv Hv' H1 H2.
  assert (get_label_from_data [] s = Ok (Label [] n v)) as E1 by (by apply get_label_from_data_spec).
  assert (get_label_from_data [] s = Ok (Label [] n' v')) as E2 by (by apply get_label_from_data_spec).
  rewrite E1 in E2. by injection E2 as -> ->.
Qed.
(** a beginning of a label file is rejected, or is the file without its last line feed *)
Lemma label_prefix l k :
  label_ok l → k < length (label_contents l) →
  (∃ e, get_label_from_data (lb_name l) (take k (label_contents l)) = Err e)
  ∨ get_label_from_data (lb_name l) (take k (label_contents l)) = Ok l
    ∧ k = length (label_contents l) - 1 ∧ lb_layer l ≠ None.
Proof.
  intros Hok Hk. destruct l as [nm layer v]. destruct Hok as [Hv Hn]. cbn [lb_name lb_layer lb_version] in *.
  set (vs := fmt_radix 10 v). set (ns := match layer with None => [] | Some n => name_to_string n end).
  assert (label_contents (Label nm layer v) = (vs ++ [10]) ++ ns ++ [10]) as E.
  { unfold label_contents, ns, vs. cbn [lb_layer lb_version]. rewrite <-app_assoc. by destruct layer. }
  pose proof (version_text v Hv) as Hvt. fold vs in Hvt.
  pose proof (number_text_ascii 10 _ _ ltac:(lia) Hvt) as Ha.
  pose proof (number_text_plain 10 _ _ ltac:(lia) Hvt) as Hp.
  assert (ascii ns) as Hna by (unfold ns; destruct layer; [by apply name_to_string_ascii|constructor]).
  rewrite E in Hk |- *. rewrite !app_length in Hk. cbn [length] in Hk.
  assert (ascii ((vs ++ [10]) ++ ns ++ [10])) as Hall.
  { repeat (apply Forall_app; split); try done; (apply Forall_cons; split; [lia|constructor]). }
  unfold get_label_from_data at 1 2. rewrite lossy_ascii by (by apply Forall_take).
  assert (no_lf vs) as Hlf by (eapply Forall_impl; [exact Hp|by intros ? []]).
  destruct (decide (k ≤ length vs)) as [Hle|Hgt].
  { left. rewrite take_app_le by (rewrite app_length; simpl; lia). rewrite take_app_le by done.
    destruct (decide (take k vs = [])) as [->|Hne]; [by eexists|].
    rewrite text_last; [by eexists| |done]. by apply Forall_take. }
  assert (k = length (vs ++ [10]) + (k - length vs - 1)) as Ek by (rewrite app_length; simpl; lia).
  set (j := k - length vs - 1) in *. assert (j ≤ length ns) as Hj by (unfold j; lia).
  rewrite Ek, take_add_app by done. rewrite (take_app_le ns) by done.
  rewrite <-app_assoc. rewrite (text_line_eol vs [10]) by (done || by left).
  destruct (decide (take j ns = [])) as [E0|Hne]; [rewrite E0; left; by eexists|].
  destruct layer as [n|]; [|unfold ns in Hne; by rewrite take_nil in Hne].
  rewrite text_last; [| |done].
  2:{ apply Forall_take. eapply Forall_impl; [by eapply name_text_plain, name_to_string_text|by intros ? []]. }
  rewrite (proj2 (from_str_radix_spec 10 u64_max vs v ltac:(lia))) by done.
  pose proof (name_to_string_len n Hn) as Hlen. fold ns in Hlen.
  destruct (decide (j = 40)) as [Hj40|Hj40].
  - right. rewrite take_ge by lia. split; [|split; [rewrite !app_length; simpl; lia|done]].
    unfold ns at 2. rewrite string_to_name_round by done. destruct ns; [done|]. done.
  - left. assert (string_to_name (take j ns) = Err OtherError) as Es.
    { unfold string_to_name. rewrite take_length. rewrite decide_True by lia. done. }
    rewrite Es. destruct (take j ns); [done|]. by eexists.
Qed.

(** ** Pointers *)
Lemma read_parent_spec s n :
  read_parent s = Ok n ↔ ∃ t rest, s = t ++ rest ∧ name_text t n ∧ name_ok n.
Proof.
  unfold read_parent, bytes_to_name. split.
  - case_decide as Hl; [done|]. case_decide as Hl'; [done|]. intros Hn.
    apply string_to_name_spec in Hn as [Hn Hok]. exists (take 40 s), (drop 40 s).
    split; [by rewrite take_drop|]. split; [|done].
    rewrite lossy_ascii in Hn; [done|]. apply lossy_inv. by eapply name_text_ascii.
  - intros (t & rest & -> & Hn & Hok). pose proof (name_text_len _ _ Hn) as Hl.
    rewrite app_length, decide_False by lia. rewrite take_app_alt by done.
    rewrite decide_False by lia. rewrite lossy_ascii by (by eapply name_text_ascii).
    by apply string_to_name_spec.
Qed.
Lemma read_parent_round n rest : name_ok n → read_parent (parent_contents n ++ rest) = Ok n.
Proof. intros Hn. apply read_parent_spec. eexists _, rest. split; [done|]. split; [by apply name_to_string_text|done]. Qed.
Lemma read_rollup_round n : name_ok n → read_rollup (rollup_contents n) = Ok n.
Proof.
  intros Hn. unfold read_rollup, rollup_contents.
  pose proof (version_text 1 ltac:(by unfold u64_max)) as Hv.
  rewrite lossy_ascii.
  2:{ apply Forall_app. split; [by apply (number_text_ascii 10 _ 1)|]. apply Forall_app.
      split; [by apply eol_ascii; left|]. apply Forall_app. split; [by apply name_to_string_ascii|by apply eol_ascii; left]. }
  rewrite text_line_eol; [|by apply (number_text_plain 10 _ 1)|by left].
  rewrite text_line_end; [|by eapply name_text_plain, name_to_string_text|by left; left].
  by apply string_to_name_round.
Qed.
(** beginnings of pointer files *)
Lemma parent_prefix n k : name_ok n → k < length (parent_contents n) → read_parent (take k (parent_contents n)) = Err UnexpectedEof.
Proof.
  intros Hn Hk. unfold read_parent. pose proof (name_to_string_len n Hn) as Hlen. unfold parent_contents in *.
  rewrite take_length. rewrite decide_True by lia. done.
Qed.
Lemma rollup_prefix n k : name_ok n → k < length (rollup_contents n) →
  (∃ e, read_rollup (take k (rollup_contents n)) = Err e)
  ∨ read_rollup (take k (rollup_contents n)) = Ok n ∧ k = length (rollup_contents n) - 1.
Proof.
  intros Hn Hk. assert (rollup_contents n = [49; 10] ++ name_to_string n ++ [10]) as E by done. rewrite E in Hk |- *.
  rewrite !app_length in Hk |- *. cbn [length] in Hk |- *. pose proof (name_to_string_len n Hn) as Hlen.
  unfold read_rollup. rewrite lossy_ascii.
  2:{ apply Forall_take. apply Forall_app. split; [repeat (apply Forall_cons; split; [lia|]); constructor|]. apply Forall_app.
      split; [by apply name_to_string_ascii|by apply eol_ascii; left]. }
  destruct k as [|[|j]]; [left; by eexists|left; by eexists|]. cbn [app take].
  rewrite (take_app_le (name_to_string n)) by lia. change (49 :: 10 :: take j (name_to_string n)) with ([49] ++ 10 :: take j (name_to_string n)).
  rewrite text_line by (by repeat constructor).
  destruct (decide (take j (name_to_string n) = [])) as [E0|Hne]; [rewrite E0; left; by eexists|].
  rewrite text_last; [| |done].
  2:{ apply Forall_take. eapply Forall_impl; [by eapply name_text_plain, name_to_string_text|by intros ? []]. }
  destruct (decide (j = 40)) as [->|Hj].
  - right. rewrite take_ge by lia. split; [by apply string_to_name_round|lia].
  - left. exists OtherError. unfold string_to_name. rewrite take_length. rewrite decide_True by lia. done.
Qed.
Lemma read_rollup_accepts s n :
  ascii s → read_rollup s = Ok n →
  ∃ v e1 ns e2, s = v ++ e1 ++ ns ++ e2 ∧ no_lf v ∧ eol e1 ∧ name_text ns n ∧ name_ok n ∧ (eol e2 ∨ e2 = []).
Proof.
  intros Ha. unfold read_rollup. rewrite lossy_ascii by done.
  destruct (text_lines s) as [|v [|ns [|]]] eqn:Ht; try done. intros Hn.
  apply string_to_name_spec in Hn as [Hn Hok]. apply text_lines_two in Ht as (e1 & e2 & -> & ? & He2 & ? & ?).
  exists v, e1, ns, e2. split_and!; try done. naive_solver.
Qed.
Lemma name_to_string_inj n m : name_ok n → name_ok m → name_to_string n = name_to_string m → n = m.
Proof.
  intros Hn Hm E. pose proof (string_to_name_round n Hn) as H1. rewrite E, string_to_name_round in H1 by done.
  by injection H1.
Qed.
Lemma string_to_name_len s : length s ≠ 40 → string_to_name s = Err OtherError.
Proof. intros Hl. unfold string_to_name. by rewrite decide_True. Qed.
Lemma string_to_name_ok s n : string_to_name s = Ok n → name_ok n.
Proof. intros Hs. by apply string_to_name_spec in Hs as [_ ?]. Qed.
Lemma get_label_ok name s l : get_label_from_data name s = Ok l → label_ok l.
Proof.
  intros Hs. apply get_label_from_data_spec in Hs as (_ & Hv & vs & e1 & ns & e2 & _ & _ & _ & Hn).
  split; [done|]. destruct (lb_layer l); [|done]. by destruct Hn as (_ & ? & _).
Qed.
Lemma new_label_text name : get_label_from_data name new_label_contents = Ok (label_new_empty name).
Proof. reflexivity. Qed.
Lemma label_contents_inj l l' :
  label_ok l → label_ok l' → lb_name l = lb_name l' → label_contents l = label_contents l' → l = l'.
Proof.
  intros H1 H2 En Ec. pose proof (label_round _ H1) as E1. rewrite Ec, En, label_round in E1 by done. by injection E1.
Qed.
