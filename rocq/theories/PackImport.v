(** Importing an exported pack into any store whose calls do what [laws] says *)
From Verif Require Import Prelude Names NamesFacts FileNames Archive ArchiveFacts ArchiveStore Pack SpecPack PackFacts.

Lemma untouched_refl {S} (st : pls S) (s : S) (n : lname) : untouched st s s n.
Proof. split; [done|]. done. Qed.
Lemma untouched_trans {S} (st : pls S) (s s' s'' : S) (n : lname) : untouched st s s' n → untouched st s' s'' n → untouched st s s'' n.
Proof.
  intros [H1 H2] [H3 H4]. split; [congruence|]. intros f. destruct (H2 f) as (? & ? & ?), (H4 f) as (? & ? & ?).
  split_and!; congruence.
Qed.

(** what a store has to do, for layers that are built one file after the other *)
Notation filemap := (gmap (list nat) (list nat)) (only parsing).
Definition of_kind (c : bool) (m : filemap) : Prop := ∀ g, is_Some (m !! g) → g ∈ may_have c.
Definition map_total (m : filemap) : nat := sum_list (length <$> (map_to_list m).*2).
Definition built {S} (st : pls S) (s : S) (n : lname) (c : bool) (m : filemap) : Prop :=
  p_dir st s n = Ok true ∧
  (∀ f, f ∈ may_have c → match m !! f with
                       | None => p_exists st s n f = Ok false
                       | Some b => p_exists st s n f = Ok true ∧ p_map st s n f = Ok b ∧ p_size st s n f = Ok (length b)
                       end) ∧
  p_exists st s n parent_file = Ok (bool_decide (is_Some (m !! parent_file))) ∧
  p_exists st s n rollup_file = Ok false.
Record laws {S : Type} (st : pls S) (good : S → Prop) (building : S → lname → filemap → Prop) : Prop := Laws {
  l_create : ∀ (s : S) n, good s → p_dir st s n = Ok false → ∃ s', p_create st s n = (Ok tt, s') ∧ good s' ∧ building s' n ∅ ∧
    ∀ n', n' ≠ n → untouched st s s' n' ∧ ∀ m, building s n' m → building s' n' m;
  l_write : ∀ (s : S) n m c f b, good s → building s n m → of_kind c m → f ∈ may_have c → m !! f = None →
    ∃ s', p_write st s n f b = (Ok tt, s') ∧ good s' ∧ building s' n (<[f := b]> m) ∧
    ∀ n', n' ≠ n → untouched st s s' n' ∧ ∀ m, building s n' m → building s' n' m;
  l_finalize : ∀ (s : S) n m c0, good s → building s n m → of_kind c0 m → (N.of_nat (map_total m) ≤ u64_max)%N →
    ∃ s', p_finalize st s n = (Ok tt, s') ∧ good s' ∧ (∀ c, of_kind c m → built st s' n c m) ∧
    ∀ n', n' ≠ n → untouched st s s' n' ∧ ∀ m, building s n' m → building s' n' m }.

Lemma built_untouched {S} (st : pls S) (s s' : S) (n : lname) c m : untouched st s s' n → built st s n c m → built st s' n c m.
Proof.
  intros [H1 H2] (B1 & B2 & B3 & B4). split_and!.
  - congruence.
  - intros f Hf. specialize (B2 f Hf). destruct (H2 f) as (-> & -> & ->). done.
  - destruct (H2 parent_file) as (-> & _). done.
  - destruct (H2 rollup_file) as (-> & _). done.
Qed.

Section import.
Context {S : Type} (st : pls S) (good : S → Prop) (building : S → lname → filemap → Prop).
Hypothesis L : laws st good building.

Lemma create_all (req : list lname) : ∀ (s : S), NoDup req → good s → (∀ n, n ∈ req → p_dir st s n = Ok false) →
  ∃ s', each (p_create st) s req = (Ok tt, s') ∧ good s' ∧ (∀ n, n ∈ req → building s' n ∅) ∧
    ∀ n, n ∉ req → untouched st s s' n ∧ ∀ m, building s n m → building s' n m.
Proof.
  induction req as [|x req IH]; intros s Hn Hg Hd.
  - exists s. split_and!; [done|done|by intros n ?%elem_of_nil|]. intros n _. split; [apply untouched_refl|done].
  - apply NoDup_cons in Hn as [Hx Hn]. cbn [each].
    destruct (l_create _ _ _ L s x Hg ltac:(apply Hd; left)) as (s1 & -> & Hg1 & Hb & Ho).
    destruct (IH s1 Hn Hg1) as (s2 & -> & Hg2 & Hb2 & Ho2).
    { intros n Hin. assert (n ≠ x) as Hne by (by intros ->). destruct (Ho n Hne) as [[-> _] _]. apply Hd. by right. }
    exists s2. split_and!; [done|done| |].
    + intros n [->|Hin]%elem_of_cons; [|by apply Hb2]. by apply Ho2.
    + intros n Hni. assert (n ≠ x ∧ n ∉ req) as [Hne Hnr] by (rewrite not_elem_of_cons in Hni; tauto).
      destruct (Ho n Hne) as [U1 B1], (Ho2 n Hnr) as [U2 B2]. split; [by eapply untouched_trans|]. intros m Hm. by apply B2, B1.
Qed.

(** the files of one layer *)
Lemma write_all (n : lname) c (wanted : list bytes) (fs : list (bytes * bytes)) : ∀ (s : S) (m : filemap),
  name_ok n → name_to_string n ∈ wanted → good s → building s n m → of_kind c m →
  NoDup fs.*1 → (∀ f, f ∈ fs.*1 → f ∈ may_have c ∧ m !! f = None) →
  ∃ s', each (import_entry st wanted) s (Ok <$> (data_entry n <$> fs)) = (Ok tt, s') ∧ good s' ∧
    building s' n (list_to_map fs ∪ m) ∧ ∀ n', n' ≠ n → untouched st s s' n' ∧ ∀ m, building s n' m → building s' n' m.
Proof.
  induction fs as [|[f b] fs IH]; intros s m Hn Hw Hg Hb Hk Hd Hf.
  - exists s. cbn [list_to_map foldr]. rewrite (left_id_L ∅ (∪)). split_and!; [done|done|done|].
    intros. split; [apply untouched_refl|done].
  - rewrite fmap_cons in Hd. cbn [fst] in Hd. apply NoDup_cons in Hd as [Hfn Hd].
    rewrite !fmap_cons. cbn [each]. unfold import_entry at 1. cbn [data_entry e_path file_name last head fst snd e_file e_data].
    cbn [mbind option_bind component_text default id]. rewrite decide_True by done.
    rewrite string_to_name_round by done.
    destruct (Hf f) as [Hfk Hfm]; [rewrite fmap_cons; left|].
    destruct (l_write _ _ _ L s n m c f b Hg Hb Hk Hfk Hfm) as (s1 & -> & Hg1 & Hb1 & Ho1).
    destruct (IH s1 (<[f := b]> m) Hn Hw Hg1 Hb1) as (s2 & -> & Hg2 & Hb2 & Ho2).
    { intros g [y Hy]. destruct (decide (g = f)) as [->|]; [done|]. rewrite lookup_insert_ne in Hy by done. apply Hk. by eexists. }
    { done. }
    { intros g Hg'. assert (g ≠ f) by (by intros ->). destruct (Hf g) as [? ?]; [rewrite fmap_cons; by right|].
      split; [done|]. by rewrite lookup_insert_ne. }
    exists s2. split_and!; [done|done| |].
    + cbn [list_to_map foldr fst snd]. rewrite <- insert_union_l, insert_union_r; [done|].
      apply not_elem_of_list_to_map. done.
    + intros n' Hne. destruct (Ho1 n' Hne) as [U1 B1], (Ho2 n' Hne) as [U2 B2]. split; [by eapply untouched_trans|].
      intros m' Hm'. by apply B2, B1.
Qed.
Lemma write_layer (n : lname) c look (wanted : list bytes) (s : S) :
  name_ok n → name_to_string n ∈ wanted → good s → building s n ∅ →
  ∃ s', each (import_entry st wanted) s (Ok <$> layer_entries look c n) = (Ok tt, s') ∧ good s' ∧
    building s' n (list_to_map (shown_files look (may_have c))) ∧ ∀ n', n' ≠ n → untouched st s s' n' ∧ ∀ m, building s n' m → building s' n' m.
Proof.
  intros Hn Hw Hg Hb. unfold layer_entries. rewrite fmap_cons. cbn [each]. unfold import_entry at 1.
  cbn [dir_entry e_path file_name last head e_file]. cbn [mbind option_bind component_text default id].
  rewrite decide_True by done. rewrite string_to_name_round by done.
  destruct (write_all n c wanted (shown_files look (may_have c)) s ∅ Hn Hw Hg Hb) as (s' & -> & Hg' & Hb' & Ho).
  - intros g [y Hy]. by rewrite lookup_empty in Hy.
  - apply shown_nodup, may_have_nodup.
  - intros f ((g & b) & -> & [Hg' _]%elem_shown)%elem_of_list_fmap. split; [done|]. apply lookup_empty.
  - rewrite (right_id_L ∅ (∪)) in Hb'. by exists s'.
Qed.
(** the files of a layer that is not wanted are skipped *)
Lemma skip_layer (n : lname) c look (wanted : list bytes) (s : S) : name_to_string n ∉ wanted →
  each (import_entry st wanted) s (Ok <$> layer_entries look c n) = (Ok tt, s).
Proof.
  intros Hw. unfold layer_entries. rewrite fmap_cons. cbn [each]. unfold import_entry at 1.
  cbn [dir_entry e_path file_name last head e_file]. cbn [mbind option_bind component_text default id].
  rewrite decide_False by done. induction (shown_files look (may_have c)) as [|[f b] fs IH]; [done|].
  rewrite !fmap_cons. cbn [each]. unfold import_entry at 1. cbn [data_entry e_path file_name last head fst snd e_file e_data].
  cbn [mbind option_bind component_text default id]. by rewrite decide_False by done.
Qed.
Lemma each_app {A} (f : S → A → outcome unit * S) (s : S) l l' s' : each f s l = (Ok tt, s') → each f s (l ++ l') = each f s' l'.
Proof.
  revert s. induction l as [|x l IH]; intros s; [by intros [= ->]|]. cbn [each app]. destruct (f s x) as [[[]| |] s1]; [|done..].
  apply IH.
Qed.

(** all the layers of the pack *)
Lemma write_layers (req : list lname) (look : lname → bytes → option bytes) (kind : lname → bool) (exp : list lname) :
  ∀ (s : S), Forall name_ok req → Forall name_ok exp → NoDup exp → good s →
  (∀ n, n ∈ req → n ∈ exp → building s n ∅) →
  ∃ s', each (import_entry st (name_to_string <$> req)) s (Ok <$> mjoin ((λ n, layer_entries (look n) (kind n) n) <$> exp)) = (Ok tt, s') ∧
    good s' ∧ (∀ n, n ∈ req → n ∈ exp → building s' n (list_to_map (shown_files (look n) (may_have (kind n))))) ∧
    ∀ n, ¬ (n ∈ req ∧ n ∈ exp) → untouched st s s' n ∧ ∀ m, building s n m → building s' n m.
Proof.
  induction exp as [|x exp IH]; intros s Hr He Hd Hg Hb.
  - exists s. split_and!; [done|done|by intros n _ ?%elem_of_nil|]. intros. split; [apply untouched_refl|done].
  - apply Forall_cons in He as [Hx He]. apply NoDup_cons in Hd as [Hxn Hd]. rewrite fmap_cons.
    change (mjoin (?a :: ?b)) with (a ++ mjoin b). rewrite fmap_app.
    destruct (decide (x ∈ req)) as [Hxr|Hxr].
    + destruct (write_layer x (kind x) (look x) (name_to_string <$> req) s Hx) as (s1 & E1 & Hg1 & Hb1 & Ho1); [| done | |].
      { apply elem_of_list_fmap. by exists x. } { apply Hb; [done|left]. }
      rewrite (each_app _ _ _ _ _ E1).
      destruct (IH s1 Hr He Hd Hg1) as (s2 & -> & Hg2 & Hb2 & Ho2).
      { intros n Hnr Hne. apply Ho1; [by intros ->|]. apply Hb; [done|by right]. }
      exists s2. split_and!; [done|done| |].
      * intros n Hnr [->|Hne]%elem_of_cons; [|by apply Hb2]. apply Ho2; [tauto|done].
      * intros n Hni. assert (n ≠ x) as Hne. { intros ->. apply Hni. split; [done|left]. }
        destruct (Ho1 n Hne) as [U1 B1]. destruct (Ho2 n) as [U2 B2]. { intros [? ?]. apply Hni. split; [done|by right]. }
        split; [by eapply untouched_trans|]. intros m' Hm'. by apply B2, B1.
    + rewrite (each_app _ _ _ _ s).
      2:{ apply skip_layer. intros (y & E & Hy)%elem_of_list_fmap. apply name_to_string_inj in E; [by subst|done|].
          rewrite Forall_forall in Hr. by apply Hr. }
      destruct (IH s Hr He Hd Hg) as (s2 & -> & Hg2 & Hb2 & Ho2). { intros n Hnr Hne. apply Hb; [done|by right]. }
      exists s2. split_and!; [done|done| |].
      * intros n Hnr [->|Hne]%elem_of_cons; [done|by apply Hb2].
      * intros n Hni. apply Ho2. intros [? ?]. apply Hni. split; [done|by right].
Qed.

Lemma finalize_all (content : lname → filemap) (order : list lname) : ∀ (s : S), NoDup order → good s →
  (∀ n, n ∈ order → building s n (content n) ∧ (∃ c, of_kind c (content n)) ∧ (N.of_nat (map_total (content n)) ≤ u64_max)%N) →
  ∃ s', each (p_finalize st) s order = (Ok tt, s') ∧ good s' ∧
    (∀ n, n ∈ order → ∀ c, of_kind c (content n) → built st s' n c (content n)) ∧ ∀ n, n ∉ order → untouched st s s' n.
Proof.
  induction order as [|x order IH]; intros s Hn Hg Hb.
  - exists s. split_and!; [done|done|by intros n ?%elem_of_nil|]. intros. apply untouched_refl.
  - apply NoDup_cons in Hn as [Hx Hn]. cbn [each]. destruct (Hb x ltac:(left)) as (Hbx & [c0 Hkx] & Htx).
    destruct (l_finalize _ _ _ L s x _ c0 Hg Hbx Hkx Htx) as (s1 & -> & Hg1 & Hb1 & Ho1).
    destruct (IH s1 Hn Hg1) as (s2 & -> & Hg2 & Hb2 & Ho2).
    { intros n Hin. destruct (Hb n ltac:(by right)) as [? ?]. split; [|done]. apply Ho1; [by intros ->|done]. }
    exists s2. split_and!; [done|done| |].
    + intros n [->|Hin]%elem_of_cons c Hk; [|by apply Hb2]. eapply built_untouched; [by apply Ho2|by apply Hb1].
    + intros n Hni. rewrite not_elem_of_cons in Hni. destruct Hni as [Hne Hnr]. eapply untouched_trans; [by apply Ho1|by apply Ho2].
Qed.

(** the whole import *)
Lemma import_all (req exp order : list lname) (look : lname → bytes → option bytes) (kind : lname → bool) (s : S) :
  Forall name_ok req → Forall name_ok exp → NoDup req → NoDup exp → import_order req order → good s →
  (∀ n, n ∈ req → p_dir st s n = Ok false) →
  (∀ n, n ∈ exp → (N.of_nat (map_total (list_to_map (shown_files (look n) (may_have (kind n))))) ≤ u64_max)%N) →
  ∃ s', import_entries st s (Ok <$> mjoin ((λ n, layer_entries (look n) (kind n) n) <$> exp)) req order = (Ok tt, s') ∧ good s' ∧
    (∀ n, n ∈ req → n ∈ exp → built st s' n (kind n) (list_to_map (shown_files (look n) (may_have (kind n))))) ∧
    (∀ n, n ∈ req → n ∉ exp → ∀ c, built st s' n c ∅) ∧
    ∀ n, n ∉ req → untouched st s s' n.
Proof.
  intros Hr He Hdr Hde [Hdo Ho] Hg Hd Ht. unfold import_entries.
  destruct (create_all req s Hdr Hg Hd) as (s1 & -> & Hg1 & Hb1 & Ho1).
  destruct (write_layers req look kind exp s1 Hr He Hde Hg1) as (s2 & -> & Hg2 & Hb2 & Ho2). { intros. by apply Hb1. }
  destruct (finalize_all (λ n, if decide (n ∈ exp) then list_to_map (shown_files (look n) (may_have (kind n))) else ∅) order s2 Hdo Hg2)
    as (s3 & -> & Hg3 & Hb3 & Ho3).
  { intros n Hn%Ho. destruct (decide (n ∈ exp)) as [Hne|Hne].
    - split; [by apply Hb2|]. split; [|by apply Ht]. exists (kind n). intros g [y Hy].
      apply elem_of_list_to_map_2, elem_shown in Hy. tauto.
    - split_and!; [| |by vm_compute].
      + apply Ho2; [tauto|]. by apply Hb1.
      + exists true. intros g [y Hy]. by rewrite lookup_empty in Hy. }
  exists s3. split_and!; [done|done| | |].
  - intros n Hnr Hne. specialize (Hb3 n ltac:(by apply Ho)). rewrite decide_True in Hb3 by done. apply Hb3.
    intros g [y Hy]. apply elem_of_list_to_map_2, elem_shown in Hy. tauto.
  - intros n Hnr Hne c. specialize (Hb3 n ltac:(by apply Ho)). rewrite decide_False in Hb3 by done. apply Hb3.
    intros g [y Hy]. by rewrite lookup_empty in Hy.
  - intros n Hn. eapply untouched_trans; [by apply Ho1|]. eapply untouched_trans; [apply Ho2; tauto|]. apply Ho3. by rewrite Ho.
Qed.
End import.

Lemma built_shows {S} (st : pls S) (s : S) (n : lname) c m f : built st s n c m → f ∈ may_have c → shows st s n f = m !! f.
Proof.
  intros (_ & H & _) Hf. specialize (H f Hf). unfold shows. destruct (m !! f) as [b|].
  - by destruct H as (-> & -> & _).
  - by rewrite H.
Qed.
Lemma shown_total look c : map_total (list_to_map (shown_files look (may_have c))) = sum_list (length <$> omap look (may_have c)).
Proof.
  unfold map_total. rewrite map_to_list_to_map by (apply shown_nodup, may_have_nodup).
  f_equal. f_equal. induction (may_have c) as [|f l IH]; [done|]. rewrite shown_files_cons. cbn [omap list_omap].
  destruct (look f); [|done]. rewrite fmap_cons. cbn [snd]. by rewrite IH.
Qed.
