(** Loading with rollup files that need not be complete *)
From Verif Require Import Prelude Succinct TripleFiles Merge Layer Builder Rollup Squash MergeBase Names NamesFacts Archive ArchiveApi Spec Store SpecStore
  StoreFacts StoreLoadFacts StoreExecFacts StoreApi StoreAnyFacts RollupFile.

(** ** With complete files it is what Store.v does *)
Lemma run_bind_all {A B : Type} (p : prog A) (f : A → prog B) s c r s' c' : run [] s c p = Some (r, s', c') →
  run [] s c (pbind p f) = match r with Ok a => run [] s' c' (f a) | Err k => Some (Err k, s', c') | Panic => Some (Panic, s', c') end.
Proof.
  revert s c. induction p as [q|k IH|k IH|w p IH|b p IH]; intros s c H; cbn [run pbind] in *.
  - injection H as -> -> ->. by destruct r.
  - by apply IH.
  - done.
  - case_decide; [by apply IH|done].
  - destruct b; [by apply IH|done].
Qed.
Definition true_rollups (s : store) : rollups := λ x, Ok (s_rollup s x).
Lemma fresh_start_run s fuel td : run [] s ∅ (find_start false fuel td) =
  Some (obind (fresh_start (true_rollups s) s fuel td) (λ td', Ok (None, td')), s, ∅).
Proof.
  revert td. induction fuel as [|f IH]; intros [|[x r] rest]; [done..|]. cbn [find_start run cache_get fresh_start]. unfold true_rollups at 1.
  cbn [obind]. destruct (s_rollup s _) as [rl|].
  - case_decide; [done|apply IH].
  - destruct (s_parent s _) as [p|]; [apply IH|done].
Qed.
Lemma fresh_base_run s x r : run [] s ∅ (load_base false x r) = Some (fresh_base s x r, s, ∅).
Proof. destruct r as [[rl op]|]; cbn [load_base run fresh_base]; destruct (base_files s _); done. Qed.
Lemma fresh_children_run s anc td : run [] s ∅ (load_children false anc td) = Some (fresh_children s anc td, s, ∅).
Proof.
  revert anc. induction td as [|[x [[rl [p|]]|]] rest IH]; intros anc; cbn [load_children run fresh_children]; [done| |done|];
    (destruct (child_files s _); [apply IH|done]).
Qed.
Lemma fresh_run s x : run [] s ∅ (get_layer false x) = Some (fresh_load (true_rollups s) s x, s, ∅).
Proof.
  unfold get_layer, fresh_load. cbn [run cache_get]. destruct (s !! x); [|done].
  erewrite run_bind_all; [|apply fresh_start_run]. destruct (fresh_start _ _ _ _) as [td|e|]; cbn [obind]; [|done..].
  destruct td as [|[y rl] td]; [done|]. erewrite run_bind_all; [|apply fresh_base_run]. destruct (fresh_base s y rl) as [anc|e|]; cbn [obind]; [|done..].
  erewrite run_bind_all; [|apply fresh_children_run]. by destruct (fresh_children s anc td).
Qed.

(** ** Other files *)
Lemma fresh_start_ext roll roll' s fuel td : (∀ x, roll x = roll' x) → fresh_start roll s fuel td = fresh_start roll' s fuel td.
Proof.
  intros He. revert td. induction fuel as [|f IH]; intros [|[x r] rest]; [done..|]. cbn [fresh_start]. rewrite He.
  destruct (roll' _) as [[rl|]|e|]; cbn [obind]; [|destruct (s_parent s _); [apply IH|done]|done..]. case_decide; [done|apply IH].
Qed.
Lemma fresh_ext roll roll' s x : (∀ y, roll y = roll' y) → fresh_load roll s x = fresh_load roll' s x.
Proof. intros He. unfold fresh_load. destruct (s !! x); [|done]. by erewrite fresh_start_ext. Qed.
(** the store may also change where no files are read *)
Lemma fresh_files roll s s' x : (∀ y, s_files s y = s_files s' y) → (∀ y, s_parent s y = s_parent s' y) → (∀ y, is_Some (s !! y) ↔ is_Some (s' !! y)) → size s = size s' →
  fresh_load roll s x = fresh_load roll s' x.
Proof.
  intros Hf Hp Hd Hs. unfold fresh_load. rewrite <-Hs.
  assert (∀ y, base_files s y = base_files s' y ∧ child_files s y = child_files s' y) as Hb by (intros y; unfold base_files, child_files; rewrite Hf; done).
  assert (∀ fuel td, fresh_start roll s fuel td = fresh_start roll s' fuel td) as H1.
  { induction fuel as [|f IH]; intros [|[z r] rest]; [done..|]. cbn [fresh_start]. destruct (roll _) as [[rl|]|e|]; cbn [obind]; [| |done..].
    - rewrite Hp. case_decide; [done|apply IH].
    - rewrite Hp. destruct (s_parent s' _); [apply IH|done]. }
  assert (∀ td anc, fresh_children s anc td = fresh_children s' anc td) as H2.
  { induction td as [|[z [[rl [p|]]|]] rest IH]; intros anc; cbn [fresh_children]; [done| |done|].
    - destruct (Hb rl) as [_ ->]. destruct (child_files s' rl); [apply IH|done].
    - destruct (Hb z) as [_ ->]. destruct (child_files s' z); [apply IH|done]. }
  assert (∀ y r, fresh_base s y r = fresh_base s' y r) as H3.
  { intros y [[rl op]|]; cbn [fresh_base]; [destruct (Hb rl) as [-> _]|destruct (Hb y) as [-> _]]; done. }
  rewrite H1. specialize (Hd x). destruct (s !! x) as [d|], (s' !! x) as [d'|].
  - destruct (fresh_start roll s' _ _) as [[|[y rl] td]|e|]; cbn [obind]; [done| |done..]. rewrite H3. destruct (fresh_base s' y rl); cbn [obind]; [|done..]. by rewrite H2.
  - destruct Hd as [Hd _]. destruct Hd as [? Hd]; [by eexists|done].
  - destruct Hd as [_ Hd]. destruct Hd as [? Hd]; [by eexists|done].
  - done.
Qed.
Definition fails {A : Type} (r : outcome A) : Prop := match r with Ok _ => False | _ => True end.
(** a file that cannot be read, or that names a layer that does not exist *)
Definition bad (s : store) (roll : rollups) (y : lname) : Prop :=
  is_Some (s !! y) ∧ (fails (roll y) ∨ ∃ n, roll y = Ok (Some n) ∧ s !! n = None ∧ roll n = Ok None).
Lemma fresh_start_torn roll roll' s y fuel td : (∀ x, x ≠ y → roll' x = roll x) → bad s roll' y →
  fails (fresh_start roll' s fuel td) ∨ fresh_start roll' s fuel td = fresh_start roll s fuel td
  ∨ ∃ n op rest, fresh_start roll' s fuel td = Ok ((y, Some (n, op)) :: rest) ∧ s !! n = None.
Proof.
  intros He [Hdy Hy]. revert td. induction fuel as [|f IH]; intros [|[x r] rest]; [right; by left..|]. cbn [fresh_start].
  set (cur := match r with Some (rl, _) => rl | None => x end). destruct (decide (cur = y)) as [->|Hne].
  - destruct Hy as [Hy|(n & Hn & Hd & Hn')]; [left; by destruct (roll' y)|]. rewrite Hn. cbn [obind].
    destruct (decide (n = y)) as [->|Hny]; [by left|]. destruct f as [|f]; [by left|]. cbn [fresh_start]. rewrite Hn'. cbn [obind].
    right. right. exists n, (s_parent s y), rest. split; [|done]. assert (s_parent s n = None) as -> by (unfold s_parent; by rewrite Hd). done.
  - rewrite (He cur Hne). destruct (roll cur) as [[rl|]|e|]; cbn [obind]; [|destruct (s_parent s cur); [apply IH|right; by left]|right; by left..].
    case_decide; [right; by left|apply IH].
Qed.
Lemma fresh_torn roll roll' s y x : (∀ x, x ≠ y → roll' x = roll x) → bad s roll' y →
  fails (fresh_load roll' s x) ∨ fresh_load roll' s x = fresh_load roll s x.
Proof.
  intros He Hy. unfold fresh_load. destruct (s !! x); [|by right].
  destruct (fresh_start_torn roll roll' s y (S (size s)) [(x, None)] He Hy) as [H|[ -> |(n & op & rest & -> & Hn)]]; [|by right|].
  - left. by destruct (fresh_start roll' s _ _).
  - left. cbn [obind fresh_base]. unfold base_files, s_files. by rewrite Hn.
Qed.

(** ** Layers that do not lead to the file *)
Lemma fresh_start_away roll roll' s y fuel td : (∀ x, x ≠ y → roll' x = roll x) → (∀ x, roll x = Ok (s_rollup s x)) →
  match td with [] => True | (x, r) :: _ => ¬ rtc (leads s) (match r with Some (rl, _) => rl | None => x end) y end →
  fresh_start roll' s fuel td = fresh_start roll s fuel td.
Proof.
  intros He Hr. revert td. induction fuel as [|f IH]; intros [|[x r] rest] Hn; [done..|]. cbn [fresh_start].
  set (cur := match r with Some (rl, _) => rl | None => x end) in *.
  rewrite (He cur) by (intros ->; by apply Hn). rewrite Hr. cbn [obind]. destruct (s_rollup s cur) as [rl|] eqn:E.
  - case_decide; [done|]. apply IH. intros H1. apply Hn. eapply rtc_l; [|exact H1]. by left.
  - destruct (s_parent s cur) as [p|] eqn:Ep; [|done]. apply IH. intros H1. apply Hn. eapply rtc_l; [|exact H1]. by right.
Qed.
Lemma fresh_away roll roll' s y x : (∀ x, x ≠ y → roll' x = roll x) → (∀ x, roll x = Ok (s_rollup s x)) → ¬ rtc (leads s) x y →
  fresh_load roll' s x = fresh_load roll s x.
Proof. intros He Hr Hn. unfold fresh_load. destruct (s !! x); [|done]. by rewrite (fresh_start_away roll roll' s y). Qed.

(** ** What is read from files *)
Definition reads_back (contents : lname → bytes) (read : (lname → option bytes) → rollups) : Prop :=
  (∀ R x, R x = None → read R x = Ok None) ∧ (∀ R x n, R x = Some (contents n) → name_ok n → read R x = Ok (Some n))
  ∧ (∀ R R' x, R x = R' x → read R x = read R' x).
Lemma dir_reads_back : reads_back rollup_contents dir_rollups.
Proof.
  split_and!.
  - intros R x H. unfold dir_rollups. by rewrite H.
  - intros R x n H Hn. unfold dir_rollups. by rewrite H, read_rollup_round.
  - intros R R' x H. unfold dir_rollups. by rewrite H.
Qed.
Lemma archive_reads_back : reads_back archive_rollup_contents archive_rollups.
Proof.
  split_and!.
  - intros R x H. unfold archive_rollups. by rewrite H.
  - intros R x n H Hn. unfold archive_rollups. rewrite H. unfold rollup_file_exists. rewrite get_rollup_contents by done. cbn [obind].
    rewrite bool_decide_eq_true_2 by (by eexists). destruct (rollup_map_reads [] n Hn) as (b & -> & Hb & _). cbn [obind]. by rewrite Hb.
  - intros R R' x H. unfold archive_rollups. by rewrite H.
Qed.
Lemma archive_prefix n k : name_ok n → k < length (archive_rollup_contents n) →
  get_rollup (Some []) (Some (take k (archive_rollup_contents n))) = Panic
  ∨ (∃ e, get_rollup (Some []) (Some (take k (archive_rollup_contents n))) = Err e)
  ∨ get_rollup (Some []) (Some (take k (archive_rollup_contents n))) = Ok (Some n).
Proof.
  intros Hn Hk. unfold archive_rollup_contents in *. rewrite !app_length in Hk. cbn [length] in Hk. pose proof (name_to_string_len n Hn) as Hlen.
  unfold get_rollup.
  destruct k as [|[|j]]; [by left|by left|]. cbn [app take].
  rewrite (take_app_le (name_to_string n)) by lia. change (49 :: 10 :: take j (name_to_string n)) with ([49] ++ 10 :: take j (name_to_string n)).
  rewrite text_line by (by repeat constructor).
  destruct (decide (take j (name_to_string n) = [])) as [E0|Hne]; [rewrite E0; by left|].
  rewrite text_last; [| |done].
  2:{ apply Forall_take. eapply Forall_impl; [by eapply name_text_plain, name_to_string_text|by intros ? []]. }
  destruct (decide (j = 40)) as [->|Hj].
  - right. right. rewrite take_ge by lia. by rewrite string_to_name_round.
  - right. left. exists OtherError. unfold string_to_name. rewrite take_length. by rewrite decide_True by lia.
Qed.

(** ** When a process stops, or another reads, while the file is written *)
Lemma records_ok cached tr g y r : reached cached tr g → records g y r → good (g_store g) ∧ good (write_store (WRollup y r) (g_store g)) ∧
  (∃ cy, stored (g_store g) y cy) ∧ ∃ cr, stored (g_store g) r cr.
Proof.
  intros H (t & k & p & Ht & Hn). destruct (reached_pool _ _ _ H) as (Ow & S0 & Hp & _).
  pose proof (reached_good _ _ _ H) as [Hg _]. pose proof (p_safe _ _ _ Hp t k _ Ht) as Hs. cbn [safe] in Hs.
  destruct (Hs (g_store g) (ext_refl _ _) Hg Hn) as [Hw _]. split; [done|]. split; [by eapply write_good|].
  cbn [write_ok] in Hw. destruct Hw as (cx & cr & ? & ? & _). eauto.
Qed.
Lemma stored_same (s s' : store) x c : (∀ y, s_files s' y = s_files s y) → (∀ y, s_parent s' y = s_parent s y) → stored s' x c → stored s x c.
Proof.
  intros Hf Hp. induction 1 as [x l H1 H2 H3|x l p c H1 H2 H3 _ IH]; rewrite Hf in H1; rewrite Hp in H3; [by apply stored_base|by eapply stored_child].
Qed.
Lemma write_dom_iff w s x : is_Some (s !! x) ↔ is_Some (write_store w s !! x).
Proof.
  assert (∀ (s : store) y f, is_Some (s !! x) ↔ is_Some (set_dent s y f !! x)) as Hs.
  { intros s0 y f. rewrite set_dent_lookup. destruct (decide (y = x)) as [->|]; [by rewrite fmap_is_Some|split; done]. }
  destruct w; cbn [write_store]; [by rewrite <-!Hs..|split; done|split; done].
Qed.
Lemma fresh_right s x L : good s → fresh_load (true_rollups s) s x = Ok (Some L) →
  l_name L = Some x ∧ ∃ c, stored s x c ∧ l_parent L = fst <$> c !! 1 ∧ same_answers (layers L) c.*2.
Proof.
  intros Hg HL. destruct (get_run false s ∅ x Hg) as (q & c' & E & H). { intros z K HK. by rewrite lookup_empty in HK. }
  rewrite fresh_run, HL in E. injection E as <- <-. destruct H as [Hn HV]. split; [done|].
  destruct (valid_answers _ _ _ Hg HV Hn) as (c & ? & ? & ? & _). by exists c.
Qed.
Lemma torn_right contents read s y r b x L : reads_back contents read → good s → good (write_store (WRollup y r) s) →
  is_Some (s !! y) → is_Some (s !! r) → (∀ n, is_Some (s !! n) → name_ok n) →
  let roll := read (with_file (rollup_files contents s) y b) in
  (fails (roll y) ∨ ∃ n, roll y = Ok (Some n) ∧ (n = r ∨ s_rollup s y = Some n ∨ s !! n = None)) →
  fresh_load roll s x = Ok (Some L) → l_name L = Some x ∧ ∃ c, stored s x c ∧ l_parent L = fst <$> c !! 1 ∧ same_answers (layers L) c.*2.
Proof.
  intros (Hr1 & Hr2 & Hr3) Hg Hg' Hdy Hdr Hok roll Hroll HL.
  assert (∀ z, z ≠ y → roll z = true_rollups s z) as Ho.
  { intros z Hz. unfold roll, true_rollups. destruct (s_rollup s z) as [n|] eqn:E.
    - apply (Hr2 _ z n); [unfold with_file, rollup_files; by rewrite decide_False, E|]. apply Hok.
      destruct (g_roll s Hg z n E) as (cx & cr & _ & H & _). by eapply stored_is_dom.
    - apply Hr1. unfold with_file, rollup_files. by rewrite decide_False, E. }
  assert (bad s roll y → l_name L = Some x ∧ ∃ c, stored s x c ∧ l_parent L = fst <$> c !! 1 ∧ same_answers (layers L) c.*2) as Hbad.
  { intros Hb. destruct (fresh_torn (true_rollups s) roll s y x Ho Hb) as [Hf|Hf]; [by rewrite HL in Hf|].
    rewrite HL in Hf. apply fresh_right; done. }
  destruct Hroll as [Hf|(n & Hn & Hc)]; [apply Hbad; split; [done|by left]|]. destruct Hc as [->|[Hc|Hc]].
  - destruct (write_rollup_keeps s y r) as [Kf Kp]. destruct (write_rollup_eq s y r Hdy Hdr) as (E1 & E2 & E3 & E4).
    set (s' := write_store (WRollup y r) s) in *.
    rewrite (fresh_ext roll (true_rollups s')), (fresh_files _ s s') in HL.
    + apply fresh_right in HL as (HN & c & Hc & Hp & Ha); [|done]. split; [done|]. exists c. split; [by eapply stored_same|done].
    + intros z. by rewrite Kf.
    + intros z. by rewrite Kp.
    + intros z. apply write_dom_iff.
    + rewrite <-!(size_dom (D := gset lname)). f_equal. apply set_eq. intros z. rewrite !elem_of_dom. apply write_dom_iff.
    + intros z. destruct (decide (z = y)) as [->|Hz]; [|rewrite Ho by done]; unfold true_rollups; rewrite ?Hn, E3; [by rewrite decide_True|rewrite decide_False by congruence; done].
  - apply fresh_right; [done|]. rewrite <-HL. apply fresh_ext. intros z. destruct (decide (z = y)) as [->|Hz]; [|by rewrite Ho].
    unfold true_rollups. by rewrite Hn, Hc.
  - apply Hbad. split; [done|]. right. exists n. split; [done|]. split; [done|].
    assert (n ≠ y) as Hny by (intros ->; destruct Hdy as [d Hd]; by rewrite Hc in Hd). rewrite Ho by done. unfold true_rollups, s_rollup. by rewrite Hc.
Qed.
Lemma directory_right cached tr g y r b x L : reached cached tr g → records g y r → (∀ n, is_Some (g_store g !! n) → name_ok n) →
  cut_off (rollup_contents <$> s_rollup (g_store g) y) (rollup_contents r) b →
  (∀ o k n, s_rollup (g_store g) y = Some o → read_rollup (take k (rollup_contents r) ++ drop k (rollup_contents o)) = Ok n →
    n = r ∨ n = o ∨ g_store g !! n = None) →
  fresh_load (dir_rollups (with_file (rollup_files rollup_contents (g_store g)) y b)) (g_store g) x = Ok (Some L) →
  l_name L = Some x ∧ ∃ c, stored (g_store g) x c ∧ l_parent L = fst <$> c !! 1 ∧ same_answers (layers L) c.*2.
Proof.
  intros H Hr Hok Hc Hm HL. destruct (records_ok _ _ _ _ _ H Hr) as (Hg & Hg' & [cy Hy] & [cr Hcr]).
  pose proof (stored_is_dom _ _ _ Hy) as Dy. pose proof (stored_is_dom _ _ _ Hcr) as Dr.
  eapply (torn_right _ _ _ y r b x L dir_reads_back); try done. unfold dir_rollups, with_file. rewrite decide_True by done.
  destruct Hc as [k|o k Ho].
  - destruct (decide (k < length (rollup_contents r))) as [Hk|Hk].
    + destruct (rollup_prefix r k (Hok _ Dr) Hk) as [[e -> ]|[ -> _]]; [by left|]. right. exists r. split; [done|by left].
    + rewrite take_ge by lia. rewrite (read_rollup_round _ (Hok _ Dr)). right. exists r. split; [done|by left].
  - apply fmap_Some in Ho as (o' & Ho & ->). destruct (read_rollup _) as [n|e|] eqn:E; [|by left..].
    right. exists n. split; [done|]. destruct (Hm o' k n Ho E) as [->|[->|?]]; auto.
Qed.
Lemma archive_right cached tr g y r k x L : reached cached tr g → records g y r → (∀ n, is_Some (g_store g !! n) → name_ok n) →
  fresh_load (archive_rollups (with_file (rollup_files archive_rollup_contents (g_store g)) y (take k (archive_rollup_contents r)))) (g_store g) x = Ok (Some L) →
  l_name L = Some x ∧ ∃ c, stored (g_store g) x c ∧ l_parent L = fst <$> c !! 1 ∧ same_answers (layers L) c.*2.
Proof.
  intros H Hr Hok HL. destruct (records_ok _ _ _ _ _ H Hr) as (Hg & Hg' & [cy Hy] & [cr Hcr]).
  pose proof (stored_is_dom _ _ _ Hy) as Dy. pose proof (stored_is_dom _ _ _ Hcr) as Dr.
  eapply (torn_right _ _ _ y r _ x L archive_reads_back); try done. unfold archive_rollups, with_file. rewrite decide_True by done.
  destruct (decide (k < length (archive_rollup_contents r))) as [Hk|Hk].
  - destruct (archive_prefix r k (Hok _ Dr) Hk) as [E|[[e E]|E]].
    + left. unfold rollup_file_exists. by rewrite E.
    + left. unfold rollup_file_exists. by rewrite E.
    + right. exists r. split; [|by left]. etrans; [|exact (proj1 (proj2 archive_reads_back) (λ _, Some (archive_rollup_contents r)) [] r eq_refl (Hok _ Dr))].
      unfold archive_rollups, rollup_file_exists, rollup_file_map. rewrite E. by rewrite get_rollup_contents by auto.
  - rewrite take_ge by lia. right. exists r. split; [|by left].
    exact (proj1 (proj2 archive_reads_back) (λ _, Some (archive_rollup_contents r)) [] r eq_refl (Hok _ Dr)).
Qed.

(** the layers that do not lead to the file load as before *)
Lemma true_read contents read s : reads_back contents read → good s → (∀ n, is_Some (s !! n) → name_ok n) →
  ∀ x, read (rollup_files contents s) x = Ok (s_rollup s x).
Proof.
  intros (Hr1 & Hr2 & _) Hg Hok x. unfold rollup_files. destruct (s_rollup s x) as [n|] eqn:E; [|by apply Hr1; rewrite E].
  apply Hr2; [by rewrite E|]. apply Hok. destruct (g_roll s Hg x n E) as (cx & cr & _ & H & _). by eapply stored_is_dom.
Qed.
Lemma away_loads contents read s y b x c : reads_back contents read → good s → (∀ n, is_Some (s !! n) → name_ok n) →
  stored s x c → ¬ rtc (leads s) x y →
  ∃ L, fresh_load (read (with_file (rollup_files contents s) y b)) s x = Ok (Some L) ∧
    l_name L = Some x ∧ l_parent L = fst <$> c !! 1 ∧ same_answers (layers L) c.*2.
Proof.
  intros Hrb Hg Hok Hc Hn. pose proof (true_read _ _ _ Hrb Hg Hok) as Ht. destruct Hrb as (Hr1 & Hr2 & Hr3).
  rewrite (fresh_away (read (rollup_files contents s)) _ s y x); [|intros z Hz; apply Hr3; unfold with_file; by rewrite decide_False|done|done].
  rewrite (fresh_ext _ (true_rollups s)) by done.
  destruct (get_run false s ∅ x Hg) as (q & c' & E & H). { intros z K HK. by rewrite lookup_empty in HK. }
  rewrite fresh_run in E. injection E as <- <-.
  destruct (fresh_load (true_rollups s) s x) as [[L|]|e|] eqn:EL.
  - exists L. split; [done|]. destruct (fresh_right _ _ _ Hg EL) as (HN & c1 & Hc1 & ? & ?). pose proof (stored_unique _ _ _ _ Hc Hc1) as <-. done.
  - destruct (stored_is_dom _ _ _ Hc) as [d Hd]. by rewrite H in Hd.
  - destruct H as [_ []]. by exists c.
  - destruct H as [_ []]. by exists c.
Qed.
(** and the others do not load *)
Lemma leads_fail roll s y : (∀ x, x ≠ y → roll x = Ok (s_rollup s x)) → fails (roll y) → ∀ fuel x r rest,
  rtc (leads s) (match r with Some (rl, _) => rl | None => x end) y → fails (fresh_start roll s fuel ((x, r) :: rest)).
Proof.
  intros Ho Hy. induction fuel as [|f IH]; intros x r rest Hl; [done|]. cbn [fresh_start].
  set (cur := match r with Some (rl, _) => rl | None => x end) in *. destruct (decide (cur = y)) as [->|Hne]; [by destruct (roll y)|].
  rewrite (Ho _ Hne). cbn [obind]. inversion Hl as [|? z ? Hz Hl']; subst; [done|]. destruct Hz as [Hz|[Hz Hz']]; rewrite Hz.
  - case_decide; [done|by apply IH].
  - rewrite Hz'. by apply IH.
Qed.
Lemma fails_load roll s y x : (∀ x, x ≠ y → roll x = Ok (s_rollup s x)) → fails (roll y) → is_Some (s !! x) → rtc (leads s) x y →
  fails (fresh_load roll s x).
Proof.
  intros Ho Hy [d Hd] Hl. unfold fresh_load. rewrite Hd. pose proof (leads_fail roll s y Ho Hy (S (size s)) x None [] Hl) as H.
  by destruct (fresh_start roll s (S (size s)) [(x, None)]).
Qed.
Lemma directory_unloadable s y r k x : good s → (∀ n, is_Some (s !! n) → name_ok n) → name_ok r → k < length (rollup_contents r) - 1 →
  is_Some (s !! x) → rtc (leads s) x y →
  fails (fresh_load (dir_rollups (with_file (rollup_files rollup_contents s) y (take k (rollup_contents r)))) s x).
Proof.
  intros Hg Hok Hr Hk Hx Hl. apply (fails_load _ s y); [|..|done|done].
  - intros z Hz. rewrite <-(true_read _ _ s dir_reads_back Hg Hok). apply dir_reads_back. unfold with_file. by rewrite decide_False.
  - unfold dir_rollups, with_file. rewrite decide_True by done. destruct (rollup_prefix r k Hr) as [[e -> ]|[_ ?]]; [lia|done|lia].
Qed.
Lemma archive_unloadable s y r k x : good s → (∀ n, is_Some (s !! n) → name_ok n) → name_ok r → k < length (archive_rollup_contents r) - 1 →
  is_Some (s !! x) → rtc (leads s) x y →
  fails (fresh_load (archive_rollups (with_file (rollup_files archive_rollup_contents s) y (take k (archive_rollup_contents r)))) s x).
Proof.
  intros Hg Hok Hr Hk Hx Hl. apply (fails_load _ s y); [|..|done|done].
  - intros z Hz. rewrite <-(true_read _ _ s archive_reads_back Hg Hok). apply archive_reads_back. unfold with_file. by rewrite decide_False.
  - unfold archive_rollups, with_file. rewrite decide_True by done. unfold rollup_file_exists.
    destruct (archive_prefix r k Hr) as [ -> |[[e -> ]|E]]; [lia|done|done|].
    exfalso. unfold archive_rollup_contents in *. rewrite !app_length in Hk. cbn [length] in Hk. pose proof (name_to_string_len r Hr) as Hlen.
    unfold get_rollup in E. destruct k as [|[|j]]; [done|done|]. cbn [app take] in E.
    rewrite (take_app_le (name_to_string r)) in E by lia. change (49 :: 10 :: take j (name_to_string r)) with ([49] ++ 10 :: take j (name_to_string r)) in E.
    rewrite text_line in E by (by repeat constructor).
    destruct (decide (take j (name_to_string r) = [])) as [E0|Hne]; [by rewrite E0 in E|].
    rewrite text_last in E; [| |done].
    2:{ apply Forall_take. eapply Forall_impl; [by eapply name_text_plain, name_to_string_text|by intros ? []]. }
    unfold string_to_name in E. rewrite take_length in E. by rewrite decide_True in E by lia.
Qed.

(** ** A call that is about to record a rollup *)
Fixpoint until_rollup {A : Type} (ns : list lname) (s : store) (c : lcache) (p : prog A) : option (lname * lname * prog A * store * lcache) :=
  match p with
  | Ret _ => None
  | Look k => until_rollup ns s c (k s c)
  | Alloc k =>
      match ns with
      | n :: ns' => match s !! n with None => until_rollup ns' (new_dir n s) c (k n) | Some _ => None end
      | [] => None
      end
  | Put w p =>
      if decide (no_nesting s w) then
        match w with WRollup y r => Some (y, r, p, s, c) | _ => until_rollup ns (write_store w s) (write_cache w c) p end
      else None
  | Assume b p => if b then until_rollup ns s c p else None
  end.
Lemma until_gexec cached ns s c (k : scall) p y r p' s' c' th : until_rollup ns s c p = Some (y, r, p', s', c') → th !! 0 = Some (k, p) →
  gexec cached (GState s c th) [] (GState s' c' (<[0 := (k, Put (WRollup y r) p')]> th)) ∧ no_nesting s' (WRollup y r).
Proof.
  revert ns s c th. induction p as [q|f IH|f IH|w p IH|b p IH]; cbn [until_rollup]; intros ns s c th Hr Ht.
  - done.
  - destruct (IH s c ns s c (<[0 := (k, f s c)]> th)) as [H1 H2]; [done|apply lookup_insert|]. rewrite insert_insert in H1. split; [|done].
    eapply (gexec_trans _ _ [] _ []); [eapply (gexec_one _ _ None); by apply (g_look _ s c th 0 k f)|done].
  - destruct ns as [|n ns]; [done|]. destruct (s !! n) eqn:En; [done|].
    destruct (IH n ns (new_dir n s) c (<[0 := (k, f n)]> th)) as [H1 H2]; [done|apply lookup_insert|]. rewrite insert_insert in H1. split; [|done].
    eapply (gexec_trans _ _ [] _ []); [eapply (gexec_one _ _ None); by apply (g_alloc _ s c th 0 k f n)|done].
  - case_decide as Hn; [|done].
    assert (until_rollup ns (write_store w s) (write_cache w c) p = Some (y, r, p', s', c') →
      gexec cached (GState s c th) [] (GState s' c' (<[0 := (k, Put (WRollup y r) p')]> th)) ∧ no_nesting s' (WRollup y r)) as K.
    { intros Hr'. destruct (IH ns (write_store w s) (write_cache w c) (<[0 := (k, p)]> th)) as [H1 H2]; [done|apply lookup_insert|].
      rewrite insert_insert in H1. split; [|done].
      eapply (gexec_trans _ _ [] _ []); [eapply (gexec_one _ _ None); by apply (g_put _ s c th 0 k w p)|done]. }
    destruct w as [| |x0 r0| |]; [by apply K|by apply K| |by apply K|by apply K].
    apply (f_equal (fmap (λ q, (q.1.1.1.1, q.1.1.1.2, q.1.1.2, q.1.2, q.2)))) in Hr. injection Hr as <- <- <- <- <-. rewrite insert_id by done. split; [constructor|done].
  - destruct b; [|done]. destruct (IH ns s c (<[0 := (k, p)]> th)) as [H1 H2]; [done|apply lookup_insert|]. rewrite insert_insert in H1. split; [|done].
    eapply (gexec_trans _ _ [] _ []); [eapply (gexec_one _ _ None); by apply (g_assume _ s c th 0 k p)|done].
Qed.
Lemma script_records cached ks rs s c ns k y r p s' c' : Forall (λ nk, call_ok nk.2) ks → call_ok k → script cached ks ∅ ∅ = Some (rs, s, c) →
  until_rollup ns s c (program cached k) = Some (y, r, p, s', c') →
  ∃ g, reached cached (script_trace ks rs ++ [GStart 0 k]) g ∧ records g y r ∧ g_store g = s'.
Proof.
  intros Hks Hk Hs Hu. exists (GState s' c' {[0 := (k, Put (WRollup y r) p)]}).
  destruct (until_gexec cached ns s c k (program cached k) y r p s' c' {[0 := (k, program cached k)]} Hu (lookup_singleton _ _)) as [H1 H2].
  rewrite insert_singleton in H1. split; [|split; [|done]].
  - eapply reached_later; [by apply script_reached|]. rewrite <-(app_nil_r [_]). eapply gexec_trans; [|exact H1].
    eapply (gexec_one _ _ (Some _)). by apply (g_start _ s c ∅ 0 k).
  - exists 0, k, p. split; [apply lookup_singleton|done].
Qed.
(** ** In every reached state *)
Lemma complete_files cached tr g x : reached cached tr g → (∀ n, is_Some (g_store g !! n) → name_ok n) →
  run [] (g_store g) ∅ (get_layer false x) = Some (fresh_load (dir_rollups (rollup_files rollup_contents (g_store g))) (g_store g) x, g_store g, ∅) ∧
  run [] (g_store g) ∅ (get_layer false x) = Some (fresh_load (archive_rollups (rollup_files archive_rollup_contents (g_store g))) (g_store g) x, g_store g, ∅).
Proof.
  intros H Hok. pose proof (reached_good _ _ _ H) as [Hg _]. rewrite fresh_run. split.
  - by rewrite (fresh_ext _ (true_rollups (g_store g)) _ x (true_read _ _ _ dir_reads_back Hg Hok)).
  - by rewrite (fresh_ext _ (true_rollups (g_store g)) _ x (true_read _ _ _ archive_reads_back Hg Hok)).
Qed.
Lemma others_load cached tr g y b x c : reached cached tr g → (∀ n, is_Some (g_store g !! n) → name_ok n) →
  stored (g_store g) x c → ¬ rtc (leads (g_store g)) x y →
  (∃ L, fresh_load (dir_rollups (with_file (rollup_files rollup_contents (g_store g)) y b)) (g_store g) x = Ok (Some L) ∧
    l_name L = Some x ∧ l_parent L = fst <$> c !! 1 ∧ same_answers (layers L) c.*2) ∧
  (∃ L, fresh_load (archive_rollups (with_file (rollup_files archive_rollup_contents (g_store g)) y b)) (g_store g) x = Ok (Some L) ∧
    l_name L = Some x ∧ l_parent L = fst <$> c !! 1 ∧ same_answers (layers L) c.*2).
Proof.
  intros H Hok Hc Hn. pose proof (reached_good _ _ _ H) as [Hg _].
  split; [by apply (away_loads _ _ _ _ _ _ _ dir_reads_back)|by apply (away_loads _ _ _ _ _ _ _ archive_reads_back)].
Qed.
Lemma no_others_load cached tr g y r k x : reached cached tr g → records g y r → (∀ n, is_Some (g_store g !! n) → name_ok n) →
  is_Some (g_store g !! x) → rtc (leads (g_store g)) x y → k < 42 →
  (¬ ∃ o, fresh_load (dir_rollups (with_file (rollup_files rollup_contents (g_store g)) y (take k (rollup_contents r)))) (g_store g) x = Ok o) ∧
  (¬ ∃ o, fresh_load (archive_rollups (with_file (rollup_files archive_rollup_contents (g_store g)) y (take k (archive_rollup_contents r)))) (g_store g) x = Ok o).
Proof.
  intros H Hr Hok Hx Hl Hk. destruct (records_ok _ _ _ _ _ H Hr) as (Hg & _ & _ & [cr Hcr]). pose proof (Hok _ (stored_is_dom _ _ _ Hcr)) as Hn.
  pose proof (name_to_string_len r Hn) as Hlen.
  split; intros [o Ho].
  - assert (length (rollup_contents r) = 43) as E. { change (rollup_contents r) with ([49; 10] ++ name_to_string r ++ [10]). rewrite !app_length, Hlen. done. }
    pose proof (directory_unloadable (g_store g) y r k x Hg Hok Hn ltac:(lia) Hx Hl) as K. by rewrite Ho in K.
  - assert (length (archive_rollup_contents r) = 43) as E. { unfold archive_rollup_contents. rewrite !app_length, Hlen. done. }
    pose proof (archive_unloadable (g_store g) y r k x Hg Hok Hn ltac:(lia) Hx Hl) as K. by rewrite Ho in K.
Qed.
