(** The three label stores, one call at a time. *)
From Verif Require Import Prelude Names SpecText NamesFacts LabelSeq LabelConc LabelSpec.

(** ** listing label files *)
Lemma all_labels_spec l ls :
  all_labels l = Ok ls ↔ Forall2 (λ x y, fst x = fst y ∧ get_label_from_data (fst x) (snd x) = Ok (snd y)) l ls.
Proof.
  revert ls. induction l as [|[n d] l IH]; intros ls; cbn [all_labels].
  - split; [intros [= <-]; constructor|]. intros H. by inversion H.
  - split.
    + destruct (get_label_from_data n d) as [lb|k|] eqn:E; cbn [obind]; [|done..].
      destruct (all_labels l) as [r|k|]; cbn [obind]; [|done..]. intros [= <-]. constructor; [done|]. by apply IH.
    + intros H. inversion H as [|[n0 d0] [n' lb] l0 r [Hn Hg] Hr]; subst. cbn [fst snd] in *. subst n'.
      rewrite Hg. apply IH in Hr. by rewrite Hr.
Qed.
Definition files_ok (fs : gmap bytes bytes) (m : gmap bytes label) : Prop :=
  ∀ n, get_label_from_data n <$> fs !! n = Ok <$> m !! n.

Lemma all_labels_keys l ls :
  Forall2 (λ (x : bytes * bytes) (y : bytes * label), fst x = fst y ∧ get_label_from_data (fst x) (snd x) = Ok (snd y)) l ls →
  ls.*1 = l.*1.
Proof. induction 1 as [|x y l ls [Hx _] _ IH]; [done|]. by rewrite !fmap_cons, Hx, IH. Qed.
Lemma all_labels_lookup l ls n :
  Forall2 (λ (x : bytes * bytes) (y : bytes * label), fst x = fst y ∧ get_label_from_data (fst x) (snd x) = Ok (snd y)) l ls →
  get_label_from_data n <$> (list_to_map l : gmap bytes bytes) !! n = Ok <$> (list_to_map ls : gmap bytes label) !! n.
Proof.
  induction 1 as [|[k d] [k' lb] l ls [Hx Hg] _ IH]; [by rewrite !list_to_map_nil, !lookup_empty|].
  cbn [fst snd] in *. subst k'. rewrite !list_to_map_cons. destruct (decide (k = n)) as [->|Hne].
  - rewrite !lookup_insert. cbn. by rewrite Hg.
  - by rewrite !lookup_insert_ne.
Qed.
Lemma open_files fs ls : all_labels (map_to_list fs) = Ok ls → files_ok fs (list_to_map ls) ∧ ls ≡ₚ map_to_list (list_to_map ls : gmap bytes label).
Proof.
  intros H%all_labels_spec. split.
  - intros n. rewrite <-(all_labels_lookup _ _ n H). by rewrite list_to_map_to_list.
  - symmetry. apply map_to_list_to_map. rewrite (all_labels_keys _ _ H). apply NoDup_fst_map_to_list.
Qed.
Lemma files_open fs m : files_ok fs m → ∃ ls, all_labels (map_to_list fs) = Ok ls ∧ ls ≡ₚ map_to_list m.
Proof.
  intros Hok.
  assert (∀ l, (∀ x, x ∈ l → fs !! fst x = Some (snd x)) → ∃ ls, all_labels l = Ok ls) as Hex.
  { induction l as [|[n d] l IH]; intros Hl; [by exists []|]. cbn [all_labels].
    specialize (Hl (n, d)) as Hd. cbn [fst snd] in Hd. specialize (Hd ltac:(by left)). specialize (Hok n).
    rewrite Hd in Hok. cbn in Hok. destruct (m !! n) as [lb|]; [|done]. injection Hok as ->. cbn [obind].
    destruct IH as [ls ->]; [|by eexists]. intros x Hx. apply Hl. by right. }
  destruct (Hex (map_to_list fs)) as [ls Hls]; [intros [n d] Hx; by apply elem_of_map_to_list|].
  exists ls. split; [done|]. destruct (open_files _ _ Hls) as [Hf Hp]. rewrite Hp.
  enough (list_to_map ls = m) as -> by done. apply map_eq. intros n. specialize (Hf n). specialize (Hok n).
  rewrite Hok in Hf. destruct (m !! n), (list_to_map ls !! n : option label); naive_solver.
Qed.

Lemma files_ok_name fs m n l : files_ok fs m → m !! n = Some l → lb_name l = n.
Proof.
  intros Hok Hm. specialize (Hok n). rewrite Hm in Hok. destruct (fs !! n) as [d|]; [|done]. cbn in Hok.
  injection Hok as Hok. apply get_label_from_data_spec in Hok. by destruct Hok.
Qed.
Lemma files_ok_insert fs m n d l : files_ok fs m → get_label_from_data n d = Ok l → files_ok (<[n := d]> fs) (<[n := l]> m).
Proof.
  intros Hok Hd k. destruct (decide (k = n)) as [->|Hne].
  - rewrite !lookup_insert. cbn. by rewrite Hd.
  - rewrite !lookup_insert_ne by done. apply Hok.
Qed.
Lemma files_ok_delete fs m n : files_ok fs m → files_ok (delete n fs) (delete n m).
Proof.
  intros Hok k. destruct (decide (k = n)) as [->|Hne].
  - by rewrite !lookup_delete.
  - rewrite !lookup_delete_ne by done. apply Hok.
Qed.
Lemma files_ok_none fs m n : files_ok fs m → fs !! n = None ↔ m !! n = None.
Proof. intros Hok. specialize (Hok n). by destruct (fs !! n), (m !! n). Qed.
Lemma files_ok_some fs m n d : files_ok fs m → fs !! n = Some d → ∃ l, m !! n = Some l ∧ get_label_from_data n d = Ok l.
Proof. intros Hok Hf. specialize (Hok n). rewrite Hf in Hok. destruct (m !! n); [|done]. cbn in Hok. injection Hok as ->. eauto. Qed.

Lemma updated_ok l layer nl : label_ok l → layer_ok layer → with_updated_layer l layer = Some nl →
  label_ok nl ∧ lb_name nl = lb_name l ∧ lb_version nl = (lb_version l + 1)%N ∧ lb_layer nl = layer ∧ (lb_version l < u64_max)%N.
Proof.
  intros Hl Hlayer. unfold with_updated_layer. destruct (N.leb_spec u64_max (lb_version l)) as [?|Hlt]; [done|].
  intros [= <-]. cbn [lb_name lb_version lb_layer]. split; [|done]. split; cbn [lb_version lb_layer]; [lia|done].
Qed.

(** ** the directory store and the cached directory store *)
Definition dir_cd (fs : dir_state) (s : cd_state) : Prop :=
  files_ok fs (cd_map s) ∧ ∀ n, cd_files s !! n = None ↔ cd_map s !! n = None.
Lemma same_answer_refl r : same_answer r r.
Proof. destruct r as [[]|[]|[]|[]|[]]; unfold same_answer; reflexivity. Qed.
Lemma dir_cd_step fs s c : dir_cd fs s → call_ok c →
  same_answer (fst (dir_call fs c)) (fst (cd_call s c)) ∧ dir_cd (snd (dir_call fs c)) (snd (cd_call s c)).
Proof.
  intros [Hok Hf] Hc. destruct c as [n|n|l layer|n|]; cbn [dir_call cd_call].
  - destruct (fs !! n) as [d|] eqn:E.
    + destruct (files_ok_some _ _ _ _ Hok E) as (lb & -> & _). done.
    + pose proof (proj1 (files_ok_none _ _ n Hok) E) as Em. rewrite Em. rewrite (proj2 (Hf n) Em).
      cbn [fst snd]. split; [done|]. split; cbn [cd_map cd_files].
      * apply files_ok_insert; [done|apply new_label_text].
      * intros k. destruct (decide (k = n)) as [->|Hne]; [by rewrite !lookup_insert|by rewrite !lookup_insert_ne].
  - split; [|done]. cbn [fst same_answer]. f_equal. destruct (fs !! n) as [d|] eqn:E.
    + destruct (files_ok_some _ _ _ _ Hok E) as (lb & -> & ->). done.
    + by rewrite (proj1 (files_ok_none _ _ n Hok) E).
  - destruct (with_updated_layer l layer) as [nl|] eqn:Eu; [|done]. destruct Hc as [Hl Hlay].
    destruct (updated_ok _ _ _ Hl Hlay Eu) as (Hnl & Hnn & _).
    destruct (fs !! lb_name l) as [d|] eqn:E.
    + destruct (files_ok_some _ _ _ _ Hok E) as (lb & Em & ->). rewrite Em.
      case_decide as Hd; [|done]. subst lb. destruct (cd_files s !! lb_name l) as [d'|] eqn:Ef.
      2:{ apply Hf in Ef. congruence. }
      split; [done|]. split; cbn [snd cd_map cd_files].
      * apply files_ok_insert; [done|]. rewrite <-Hnn. by apply label_round.
      * intros k. destruct (decide (k = lb_name l)) as [->|Hne]; [by rewrite !lookup_insert|by rewrite !lookup_insert_ne].
    + rewrite (proj1 (files_ok_none _ _ _ Hok) E). done.
  - destruct (fs !! n) as [d|] eqn:E.
    + destruct (files_ok_some _ _ _ _ Hok E) as (lb & Em & _). rewrite Em.
      destruct (cd_files s !! n) as [d'|] eqn:Ef; [|apply Hf in Ef; congruence].
      split; [done|]. split; cbn [snd cd_map cd_files].
      * by apply files_ok_delete.
      * intros k. destruct (decide (k = n)) as [->|Hne]; [by rewrite !lookup_delete|by rewrite !lookup_delete_ne].
    + rewrite (proj1 (files_ok_none _ _ _ Hok) E). split; [done|]. cbn [snd]. rewrite delete_notin by done. done.
  - split; [|done]. cbn [fst]. destruct (files_open _ _ Hok) as (ls & -> & Hp). cbn [obind same_answer].
    by rewrite Hp.
Qed.
Lemma dir_cd_run cs fs s : dir_cd fs s → Forall call_ok cs →
  Forall2 same_answer (fst (run dir_call fs cs)) (fst (run cd_call s cs)).
Proof.
  revert fs s. induction cs as [|c cs IH]; intros fs s Hr Hc; cbn [run]; [constructor|].
  apply Forall_cons in Hc. destruct Hc as [Hc Hcs]. destruct (dir_cd_step _ _ _ Hr Hc) as [Ha Hr'].
  destruct (dir_call fs c) as [r1 fs'], (cd_call s c) as [r2 s']. cbn [fst snd] in *.
  specialize (IH _ _ Hr' Hcs). destruct (run dir_call fs' cs), (run cd_call s' cs). by constructor.
Qed.
Lemma cd_open_dir fs s : cd_open fs = Ok s → dir_cd fs s.
Proof.
  unfold cd_open. destruct (all_labels (map_to_list fs)) as [ls|k|] eqn:E; cbn [obind]; [|done..]. intros [= <-].
  destruct (open_files _ _ E) as [Hf _]. split; [done|]. intros n. cbn [cd_map cd_files]. by apply files_ok_none.
Qed.
Lemma dir_cached fs s cs : cd_open fs = Ok s → Forall call_ok cs →
  Forall2 same_answer (fst (run dir_call fs cs)) (fst (run cd_call s cs)).
Proof. intros Ho. apply dir_cd_run. by apply cd_open_dir. Qed.

(** ** the memory store and the directory store *)
Record mem_dir (H : label → Prop) (k : N) (m : mem_state) (fs : dir_state) : Prop := {
  md_files : files_ok fs m;
  md_shown h : H h → ∃ c, m !! lb_name h = Some c ∧ (h = c ∨ (lb_version h < lb_version c)%N);
  md_versions n l : m !! n = Some l → (lb_version l ≤ k)%N }.
Lemma similar_refl r : similar_answer r r.
Proof. destruct r as [[]|[]|[]|[]|[]]; unfold similar_answer, same_answer; done. Qed.
Lemma md_weaken H k m fs : mem_dir H k m fs → mem_dir H (k + 1) m fs.
Proof. intros [H1 H2 H3]. split; [done|done|]. intros n l Hl. specialize (H3 n l Hl). lia. Qed.
Lemma md_more (H H' : label → Prop) k m fs :
  mem_dir H k m fs → (∀ l, H' l → m !! lb_name l = Some l) → mem_dir (λ l, H' l ∨ H l) k m fs.
Proof. intros [H1 H2 H3] Hm. split; [done| |done]. intros h [Hh|Hh]; [|by apply H2]. exists h. auto. Qed.
Lemma md_none (H H' : label → Prop) k m fs :
  mem_dir H k m fs → (∀ l, ¬ H' l) → mem_dir (λ l, H' l ∨ H l) k m fs.
Proof. intros Hi Hn. apply md_more; [done|]. intros l Hl. by destruct (Hn l). Qed.
Lemma mem_dir_step H k m fs c :
  mem_dir H k m fs → (k < u64_max)%N → call_ok c → ¬ is_delete c →
  (∀ l layer, c = CSet l layer → H l) →
  similar_answer (fst (mem_call m c)) (fst (dir_call fs c)) ∧
  mem_dir (λ l, shows l (fst (dir_call fs c)) ∨ H l) (k + 1) (snd (mem_call m c)) (snd (dir_call fs c)).
Proof.
  intros Hi Hk Hc Hnd Hh. pose proof Hi as [Hok Hsh Hv]. destruct c as [n|n|l layer|n|]; cbn [mem_call dir_call]; [| | |done|].
  - destruct (fs !! n) as [d|] eqn:E.
    + destruct (files_ok_some _ _ _ _ Hok E) as (lb & -> & _). split; [done|]. cbn [fst snd shows].
      apply md_weaken, md_none; [done|]. by intros ? [].
    + pose proof (proj1 (files_ok_none _ _ n Hok) E) as Em. rewrite Em.
      cbn [fst snd shows]. split; [done|]. split.
      * apply files_ok_insert; [done|apply new_label_text].
      * intros h [-> |Hh']; [cbn [label_new_empty lb_name]; rewrite lookup_insert; eauto|].
        destruct (Hsh h Hh') as (c & Hc' & Hcv). exists c. rewrite lookup_insert_ne; [done|]. intros ->. congruence.
      * intros x lx. destruct (decide (x = n)) as [->|Hne].
        -- rewrite lookup_insert. intros [= <-]. cbn [label_new_empty lb_version]. lia.
        -- rewrite lookup_insert_ne by done. intros Hx. specialize (Hv _ _ Hx). lia.
  - assert (∀ b, b = fs !! n →
      match b with
      | None => Ok None
      | Some d => match get_label_from_data n d with
                | Ok l => Ok (Some l) | Err NotFound => Ok None | Err k => Err k | Panic => Panic end
      end = Ok (m !! n)) as Hg.
    { intros b ->. destruct (fs !! n) as [d|] eqn:E.
      - destruct (files_ok_some _ _ _ _ Hok E) as (lb & -> & ->). done.
      - by rewrite (proj1 (files_ok_none _ _ n Hok) E). }
    cbn [fst snd]. rewrite (Hg _ eq_refl). split; [apply similar_refl|].
    apply md_weaken, md_more; [done|]. intros l. cbn [shows]. destruct (m !! n) as [c|] eqn:E; [|done]. intros ->.
    by rewrite (files_ok_name _ _ _ _ Hok E).
  - specialize (Hh l layer eq_refl). destruct (Hsh l Hh) as (c & Em & Hcv).
    destruct Hc as [Hl Hlay]. pose proof (Hv _ _ Em) as Hvc.
    destruct (with_updated_layer l layer) as [nl|] eqn:Eu.
    2:{ exfalso. unfold with_updated_layer in Eu. destruct (N.leb_spec u64_max (lb_version l)); [|done].
        destruct Hcv as [->|]; lia. }
    destruct (updated_ok _ _ _ Hl Hlay Eu) as (Hnl & Hnn & Hnv & _). rewrite Hnn, Em.
    destruct (fs !! lb_name l) as [d|] eqn:E; [|apply (files_ok_none _ _ _ Hok) in E; congruence].
    destruct (files_ok_some _ _ _ _ Hok E) as (lb & Em' & ->). rewrite Em in Em'. injection Em' as <-.
    destruct (N.leb_spec u64_max (lb_version c)); [lia|]. rewrite Hnv. case_decide as Hd.
    + subst c. rewrite N.eqb_refl. cbn [fst snd shows]. split; [done|]. split.
      * apply files_ok_insert; [done|]. rewrite <-Hnn. by apply label_round.
      * intros h [-> |Hh'].
        { exists nl. rewrite Hnn, lookup_insert. auto. }
        destruct (Hsh h Hh') as (c & Hc' & Hcv'). destruct (decide (lb_name h = lb_name l)) as [En|Hne].
        -- rewrite En in *. rewrite lookup_insert. exists nl. split; [done|]. right. rewrite Em in Hc'. injection Hc' as <-.
           destruct Hcv' as [->|]; lia.
        -- exists c. rewrite lookup_insert_ne; [done|congruence].
      * intros x lx. destruct (decide (x = lb_name l)) as [->|Hne].
        -- rewrite lookup_insert. intros [= <-]. lia.
        -- rewrite lookup_insert_ne by done. intros Hx. specialize (Hv _ _ Hx). lia.
    + destruct Hcv as [->|Hlt]; [done|]. destruct (N.eqb_spec (lb_version c + 1) (lb_version l + 1)); [lia|].
      cbn [fst snd shows]. split; [done|]. apply md_weaken, md_none; [done|]. by intros ? [].
  - destruct (files_open _ _ Hok) as (ls & -> & Hp). cbn [obind fst snd shows similar_answer same_answer]. split; [by rewrite Hp|].
    apply md_weaken, md_more; [done|]. intros l. rewrite Hp. intros ([n l'] & -> & Hin)%elem_of_list_fmap.
    apply elem_of_map_to_list in Hin. cbn [snd]. by rewrite (files_ok_name _ _ _ _ Hok Hin).
Qed.
Lemma similar_shows l r r' : similar_answer r r' → shows l r → shows l r'.
Proof.
  destruct r as [[]|[]|[]|[]|[]], r' as [[]|[]|[]|[]|[]]; cbn [similar_answer same_answer shows]; try done;
    try (by intros [= <-]). by intros ->.
Qed.
Lemma mem_dir_run cs H k m fs :
  mem_dir H k m fs → (k + N.of_nat (length cs) ≤ u64_max)%N → Forall call_ok cs → Forall (λ c, ¬ is_delete c) cs →
  (∀ j l layer, cs !! j = Some (CSet l layer) →
     H l ∨ ∃ i r, i < j ∧ fst (run mem_call m cs) !! i = Some r ∧ shows l r) →
  Forall2 similar_answer (fst (run mem_call m cs)) (fst (run dir_call fs cs)).
Proof.
  revert H k m fs. induction cs as [|c cs IH]; intros H k m fs Hi Hk Hc Hnd Hh; cbn [run]; [constructor|].
  apply Forall_cons in Hc. destruct Hc as [Hc Hcs]. apply Forall_cons in Hnd. destruct Hnd as [Hnd Hnds].
  cbn [length] in Hk.
  destruct (mem_dir_step H k m fs c) as [Ha Hi']; [done|lia|done|done| |].
  { intros l layer ->. destruct (Hh 0 l layer eq_refl) as [?|(i & r & ? & _)]; [done|lia]. }
  cbn [run] in Hh.
  destruct (mem_call m c) as [r1 m'], (dir_call fs c) as [r2 fs']. cbn [fst snd] in *.
  specialize (IH _ _ _ _ Hi' ltac:(lia) Hcs Hnds).
  destruct (run mem_call m' cs) as [rs1 m''], (run dir_call fs' cs) as [rs2 fs'']. cbn [fst snd] in *.
  constructor; [done|]. apply IH. intros j l layer Hj. destruct (Hh (S j) l layer Hj) as [?|(i & r & Hi1 & Hi2 & Hi3)]; [auto|].
  destruct i as [|i]; [injection Hi2 as ->; left; left; by apply (similar_shows l r r2)|]. right. exists i, r. split; [lia|done].
Qed.
Lemma mem_dir_init : mem_dir (λ _, False) 0 ∅ ∅.
Proof. split; [intros n; by rewrite !lookup_empty|done|by intros n l; rewrite lookup_empty]. Qed.
Lemma memory_directory cs :
  (N.of_nat (length cs) ≤ u64_max)%N → Forall call_ok cs → Forall (λ c, ¬ is_delete c) cs →
  honest cs (fst (run mem_call ∅ cs)) →
  Forall2 similar_answer (fst (run mem_call ∅ cs)) (fst (run dir_call ∅ cs)).
Proof.
  intros Hl Hc Hnd Hh. apply (mem_dir_run cs _ 0 ∅ ∅ mem_dir_init); [lia|done|done|]. intros j l layer Hj.
  right. by apply (Hh j l layer).
Qed.

(** ** reopening the cached directory store *)
Definition cd_ok (s : cd_state) : Prop :=
  ∀ n, cd_files s !! n = label_contents <$> cd_map s !! n ∧ ∀ l, cd_map s !! n = Some l → lb_name l = n ∧ label_ok l.
Lemma cd_ok_reopen s : cd_ok s → ∃ s', cd_open (cd_files s) = Ok s' ∧ cd_map s' = cd_map s ∧ cd_files s' = cd_files s.
Proof.
  intros Hs. assert (files_ok (cd_files s) (cd_map s)) as Hok.
  { intros n. destruct (Hs n) as [-> Hl]. destruct (cd_map s !! n) as [l|]; [|done]. cbn.
    destruct (Hl l eq_refl) as [<- ?]. by rewrite label_round. }
  destruct (files_open _ _ Hok) as (ls & Hls & Hp). unfold cd_open. rewrite Hls. cbn [obind]. eexists. split; [done|].
  cbn [cd_map cd_files]. split; [|done]. destruct (open_files _ _ Hls) as [Hf _]. apply map_eq. intros n.
  specialize (Hf n). specialize (Hok n). rewrite Hok in Hf.
  destruct (cd_map s !! n), (list_to_map ls !! n : option label); naive_solver.
Qed.
Lemma num_digits_mono f base n m : (0 < base)%N → (n ≤ m)%N →
  length (num_digits f base n []) ≤ length (num_digits f base m []).
Proof.
  intros Hb. revert n m. induction f as [|f IH]; intros n m Hnm; [done|]. rewrite !num_digits_S.
  destruct (N.ltb_spec n base), (N.ltb_spec m base); rewrite ?(num_digits_acc _ _ _ [_]), ?app_length; cbn [length]; try lia.
  assert (n / base ≤ m / base)%N as Hd by (apply N.div_le_mono; lia). specialize (IH _ _ Hd). lia.
Qed.
Lemma contents_longer l nl :
  label_ok l → label_ok nl → (lb_version l ≤ lb_version nl)%N → lb_layer nl ≠ None →
  length (label_contents l) ≤ length (label_contents nl).
Proof.
  intros [_ Hl] [_ Hnl] Hv Hn. unfold label_contents. destruct (lb_layer nl) as [n|]; [|done]. cbn [layer_ok] in *.
  pose proof (num_digits_mono 64 10 _ _ ltac:(lia) Hv) as Hd.
  assert (∀ v, length (fmt_radix 10 v) = length (num_digits 64 10 v [])) as Hf by (intros; apply fmap_length).
  destruct (lb_layer l) as [n'|]; rewrite !app_length, !Hf, ?name_to_string_len by done; cbn [length]; lia.
Qed.
Lemma write_over_longer (old new : bytes) : length old ≤ length new → write_over old new = new.
Proof. intros Hl. unfold write_over. rewrite drop_ge by done. apply app_nil_r. Qed.
Lemma cd_ok_step s c : cd_ok s → call_ok c → ¬ is_clear c → cd_ok (snd (cd_call s c)).
Proof.
  intros Hs Hc Hnc. destruct c as [n|n|l layer|n|]; cbn [cd_call]; [| done | | |done].
  - destruct (cd_map s !! n) eqn:Em; [done|]. destruct (cd_files s !! n); [done|]. cbn [snd]. intros k. cbn [cd_map cd_files].
    destruct (decide (k = n)) as [->|Hne].
    + rewrite !lookup_insert. split; [done|]. intros l [= <-]. split; [done|]. split; cbn; [lia|done].
    + rewrite !lookup_insert_ne by done. apply Hs.
  - destruct (with_updated_layer l layer) as [nl|] eqn:Eu; [|done]. destruct Hc as [Hl Hlay].
    destruct (updated_ok _ _ _ Hl Hlay Eu) as (Hnl & Hnn & Hnv & Hnlay & _).
    destruct (cd_map s !! lb_name l) as [l'|] eqn:Em; [|done]. case_decide as Hd; [subst l'|done].
    destruct (cd_files s !! lb_name l) as [d|] eqn:Ef; [|done]. cbn [snd]. intros k. cbn [cd_map cd_files].
    destruct (decide (k = lb_name l)) as [->|Hne].
    + rewrite !lookup_insert. destruct (Hs (lb_name l)) as [Hf _]. rewrite Em, Ef in Hf. cbn in Hf. injection Hf as ->.
      split.
      * cbn. f_equal. apply write_over_longer, contents_longer; [done|done|lia|]. rewrite Hnlay. by destruct layer.
      * by intros ? [= <-].
    + rewrite !lookup_insert_ne by done. apply Hs.
  - destruct (cd_map s !! n) eqn:Em; [|done].
    destruct (cd_files s !! n) as [d|] eqn:Ef; cbn [snd]; intros k; cbn [cd_map cd_files];
      (destruct (decide (k = n)) as [->|Hne]; [rewrite ?lookup_delete|rewrite !lookup_delete_ne by done; apply Hs]); [done|].
    destruct (Hs n) as [Hf _]. rewrite Em, Ef in Hf. done.
Qed.
Lemma cd_ok_run cs s : cd_ok s → Forall call_ok cs → Forall (λ c, ¬ is_clear c) cs → cd_ok (snd (run cd_call s cs)).
Proof.
  revert s. induction cs as [|c cs IH]; intros s Hs Hc Hnc; cbn [run]; [done|].
  apply Forall_cons in Hc. destruct Hc as [Hc Hcs]. apply Forall_cons in Hnc. destruct Hnc as [Hnc Hncs].
  pose proof (cd_ok_step _ _ Hs Hc Hnc) as Hs'. destruct (cd_call s c) as [r s']. cbn [snd] in Hs'.
  specialize (IH s' Hs' Hcs Hncs). destruct (run cd_call s' cs) as [rs s'']. done.
Qed.
Lemma cd_ok_init : cd_ok (CD ∅ ∅).
Proof. intros n. cbn [cd_map cd_files]. rewrite !lookup_empty. done. Qed.
Lemma cached_reopen cs s : Forall call_ok cs → Forall (λ c, ¬ is_clear c) cs →
  s = snd (run cd_call (CD ∅ ∅) cs) → cd_open (cd_files s) = Ok s.
Proof.
  intros Hc Hnc ->. pose proof (cd_ok_run cs _ cd_ok_init Hc Hnc) as Hok.
  destruct (cd_ok_reopen _ Hok) as ([m f] & Ho & Hm & Hf). cbn [cd_map cd_files] in *. subst m f.
  by destruct (snd (run cd_call (CD ∅ ∅) cs)).
Qed.

(** ** the calls on one label, in all three stores *)
Lemma similar_event t c r r' : (∀ e, r ≠ RGet (Err e)) → (∀ e, r' ≠ RGet (Err e)) →
  similar_answer r r' → event t c r = event t c r'.
Proof.
  intros H1 H2. destruct c, r as [[]|[]|[]|[]|[]], r' as [[]|[]|[]|[]|[]]; cbn [similar_answer same_answer event]; try done;
    try (intros [= <-]; done); try (intros [=]); try naive_solver.
Qed.
Lemma cd_event s t c n : (∀ k, cd_files s !! k = None ↔ cd_map s !! k = None) →
  (∀ k l, cd_map s !! k = Some l → lb_name l = k) → call_ok c → c ≠ CDelete n →
  match event t c (fst (cd_call s c)) with
  | Some e => if decide (ev_name e = n) then name_reg (cd_map s !! n) e (cd_map (snd (cd_call s c)) !! n)
              else cd_map (snd (cd_call s c)) !! n = cd_map s !! n
  | None => cd_map (snd (cd_call s c)) !! n = cd_map s !! n
  end.
Proof.
  intros Hf Hn Hc Hnd. destruct c as [k|k|l layer|k|]; cbn [cd_call].
  - destruct (cd_map s !! k) as [lk|] eqn:Em; cbn [fst snd event ev_name].
    + case_decide; [|done]. subst. rewrite Em. apply name_create_taken. auto.
    + rewrite (proj2 (Hf k) Em). cbn [fst snd event ev_name cd_map]. case_decide as He.
      * subst. rewrite Em, lookup_insert. apply name_file, reg_create.
      * by rewrite lookup_insert_ne.
  - cbn [fst snd]. destruct (cd_map s !! k) as [lk|] eqn:Em; cbn [event ev_name].
    + case_decide; [|done]. subst. rewrite Em. apply name_file. rewrite <-(Hn _ _ Em). apply reg_get.
    + case_decide; [|done]. subst. rewrite Em. apply name_get_absent.
  - destruct (with_updated_layer l layer) as [nl|] eqn:Eu; [|cbn [fst snd event]; by rewrite Eu]. destruct Hc as [Hl Hlay].
    destruct (updated_ok _ _ _ Hl Hlay Eu) as (Hnl & Hnn & Hnv & Hnlay & _).
    destruct (cd_map s !! lb_name l) as [l'|] eqn:Em.
    + case_decide as Hd.
      * subst l'. destruct (cd_files s !! lb_name l) eqn:Ef; [|apply Hf in Ef; congruence].
        cbn [fst snd event ev_name cd_map]. rewrite Eu. cbn [mbind option_bind ev_name]. case_decide as He.
        -- subst. rewrite Em, lookup_insert. by apply name_file, reg_set.
        -- by rewrite lookup_insert_ne.
      * cbn [fst snd event]. rewrite Eu. cbn [mbind option_bind ev_name]. case_decide; [|done]. subst. rewrite Em. by apply name_file, reg_set_other.
    + cbn [fst snd event]. rewrite Eu. cbn [mbind option_bind ev_name]. case_decide; [|done]. subst. rewrite Em. apply name_set_absent.
  - destruct (cd_map s !! k) as [lk|] eqn:Em.
    + destruct (cd_files s !! k) eqn:Ef; [|apply Hf in Ef; congruence].
      cbn [fst snd event ev_name cd_map]. rewrite decide_False by congruence. rewrite lookup_delete_ne; congruence.
    + cbn [fst snd event ev_name]. case_decide; [|done]. subst. done.
  - done.
Qed.
Lemma dir_cd_names fs s : dir_cd fs s → ∀ k l, cd_map s !! k = Some l → lb_name l = k.
Proof. intros [Hok _] k l. by eapply files_ok_name. Qed.
Lemma events_cons t c cs r rs : events ((t, c) :: cs) (r :: rs) = option_list (event t c r) ++ events cs rs.
Proof. unfold events. cbn [zip zip_with omap list_omap fst snd]. by destruct (event t c r). Qed.
Lemma cd_history cs fs s n : dir_cd fs s → Forall call_ok cs.*2 → Forall (λ c, c ≠ CDelete n) cs.*2 →
  history name_reg (cd_map s !! n) (on_name n (events cs (fst (run cd_call s cs.*2)))) (cd_map (snd (run cd_call s cs.*2)) !! n).
Proof.
  revert fs s. induction cs as [|[t c] cs IH]; intros fs s Hr Hc Hnd; [constructor|]. rewrite !fmap_cons in *. cbn [snd run] in *.
  apply Forall_cons in Hc. destruct Hc as [Hc Hcs]. apply Forall_cons in Hnd. destruct Hnd as [Hnd Hnds].
  destruct (dir_cd_step _ _ _ Hr Hc) as [_ Hr'].
  pose proof (cd_event s t c n (proj2 Hr) (dir_cd_names _ _ Hr) Hc Hnd) as He.
  destruct (cd_call s c) as [r s']. cbn [fst snd] in *. specialize (IH _ _ Hr' Hcs Hnds).
  destruct (run cd_call s' cs.*2) as [rs s'']. cbn [fst snd] in *. rewrite events_cons. unfold on_name in *. rewrite filter_app.
  destruct (event t c r) as [e|]; [change (option_list (Some e)) with [e]|change (option_list (@None lev)) with (@nil lev)].
  - rewrite filter_cons, filter_nil. case_decide; cbn [app].
    + econstructor; [done|]. done.
    + by rewrite <-He.
  - rewrite filter_nil. cbn [app]. by rewrite <-He.
Qed.
Lemma cd_names cs fs s t m i l : dir_cd fs s → Forall call_ok cs.*2 →
  EvGet t m i (Ok (Some l)) ∈ events cs (fst (run cd_call s cs.*2)) → lb_name l = m.
Proof.
  revert fs s. induction cs as [|[t0 c] cs IH]; intros fs s Hr Hc; [by intros ?%elem_of_nil|]. rewrite !fmap_cons in *. cbn [snd run] in *.
  apply Forall_cons in Hc. destruct Hc as [Hc Hcs].
  destruct (dir_cd_step _ _ _ Hr Hc) as [_ Hr'].
  assert (event t0 c (fst (cd_call s c)) = Some (EvGet t m i (Ok (Some l))) → lb_name l = m) as He.
  { destruct c as [k|k|l1 layer|k|]; cbn [event].
    - destruct (fst (cd_call s (CCreate k))) as [[]|[]|[]|[]|[]]; discriminate.
    - cbn [cd_call fst]. destruct (cd_map s !! k) as [lk|] eqn:Em; [|done]. intros [= <- <- <- <-]. by eapply dir_cd_names.
    - destruct (fst (cd_call s (CSet l1 layer))) as [[]|[]|[[]| |]|[]|[]]; try discriminate; destruct (with_updated_layer l1 layer); discriminate.
    - destruct (fst (cd_call s (CDelete k))) as [[]|[]|[]|[]|[]]; discriminate.
    - destruct (fst (cd_call s CLabels)) as [[]|[]|[]|[]|[]]; discriminate. }
  destruct (cd_call s c) as [r s']. cbn [fst snd] in *. specialize (IH _ _ Hr' Hcs).
  destruct (run cd_call s' cs.*2) as [rs s'']. cbn [fst snd] in *. rewrite events_cons. intros [Hin|Hin]%elem_of_app; [|by apply IH].
  destruct (event t0 c r) as [e|]; [|by apply elem_of_nil in Hin].
  apply elem_of_list_singleton in Hin. subst e. by apply He.
Qed.
Lemma dir_cd_init : dir_cd ∅ (CD ∅ ∅).
Proof. split; [intros n; by rewrite !lookup_empty|]. intros n. cbn [cd_map cd_files]. by rewrite !lookup_empty. Qed.

(** answers to [get_label] are never errors *)
Lemma mem_no_get_error m c e : fst (mem_call m c) ≠ RGet (Err e).
Proof. destruct c; cbn [mem_call]; repeat (case_match; cbn [fst]); done. Qed.
Lemma cd_no_get_error s c e : fst (cd_call s c) ≠ RGet (Err e).
Proof. destruct c; cbn [cd_call]; repeat (case_match; cbn [fst]); done. Qed.
Lemma run_all {St} (f : St → lcall → lres * St) (P : lres → Prop) s cs :
  (∀ s c, P (fst (f s c))) → Forall P (fst (run f s cs)).
Proof.
  intros HP. revert s. induction cs as [|c cs IH]; intros s; cbn [run]; [constructor|].
  pose proof (HP s c) as Hc. destruct (f s c) as [r s']. specialize (IH s'). destruct (run f s' cs). by constructor.
Qed.
Lemma similar_events cs rs rs' :
  Forall (λ r, ∀ e, r ≠ RGet (Err e)) rs → Forall (λ r, ∀ e, r ≠ RGet (Err e)) rs' →
  Forall2 similar_answer rs rs' → events cs rs = events cs rs'.
Proof.
  intros H1 H2 H. revert cs H1 H2. induction H as [|r r' rs rs' Hr _ IH]; intros [|[t c] cs] H1 H2; [done..|].
  apply Forall_cons in H1, H2. destruct H1 as [H1 H1'], H2 as [H2 H2'].
  rewrite !events_cons, (IH cs H1' H2'). by rewrite (similar_event _ _ _ _ H1 H2 Hr).
Qed.
Lemma same_similar r r' : same_answer r r' → similar_answer r r'.
Proof. destruct r as [[]|[]|[]|[]|[]], r' as [[]|[]|[]|[]|[]]; done. Qed.

Lemma cached_history cs n : Forall call_ok cs.*2 → Forall (λ c, c ≠ CDelete n) cs.*2 →
  ∃ c, history name_reg None (on_name n (events cs (fst (run cd_call (CD ∅ ∅) cs.*2)))) c.
Proof.
  intros Hc Hnd. eexists. by apply (cd_history cs ∅ (CD ∅ ∅) n dir_cd_init).
Qed.
Lemma dir_no_get_error cs : Forall call_ok cs → Forall (λ r, ∀ e, r ≠ RGet (Err e)) (fst (run dir_call ∅ cs)).
Proof.
  intros Hc. pose proof (dir_cd_run cs _ _ dir_cd_init Hc) as Hs.
  pose proof (run_all cd_call (λ r, ∀ e, r ≠ RGet (Err e)) (CD ∅ ∅) cs cd_no_get_error) as Hn.
  clear Hc. induction Hs as [|r r' rs rs' Hr _ IH]; [constructor|]. apply Forall_cons in Hn. destruct Hn as [Hn Hn'].
  apply Forall_cons. split; [|by apply IH]. intros e ->. cbn in Hr. by destruct (Hn e).
Qed.
Lemma memory_events cs :
  (N.of_nat (length cs) ≤ u64_max)%N → Forall call_ok cs.*2 → Forall (λ c, ¬ is_delete c) cs.*2 →
  honest cs.*2 (fst (run mem_call ∅ cs.*2)) →
  events cs (fst (run mem_call ∅ cs.*2)) = events cs (fst (run cd_call (CD ∅ ∅) cs.*2)).
Proof.
  intros Hl Hc Hnd Hh. rewrite <-(fmap_length snd) in Hl. pose proof (memory_directory _ Hl Hc Hnd Hh) as Hs.
  rewrite (similar_events cs _ _ (run_all mem_call _ ∅ _ mem_no_get_error) (dir_no_get_error _ Hc) Hs).
  pose proof (dir_cd_run _ _ _ dir_cd_init Hc) as Hd.
  apply (similar_events cs _ _ (dir_no_get_error _ Hc) (run_all cd_call _ (CD ∅ ∅) _ cd_no_get_error)
             (Forall2_impl _ _ _ _ Hd same_similar)).
Qed.
Lemma memory_history cs n :
  (N.of_nat (length cs) ≤ u64_max)%N → Forall call_ok cs.*2 → Forall (λ c, ¬ is_delete c) cs.*2 →
  honest cs.*2 (fst (run mem_call ∅ cs.*2)) →
  ∃ c, history name_reg None (on_name n (events cs (fst (run mem_call ∅ cs.*2)))) c.
Proof.
  intros Hl Hc Hnd Hh. rewrite (memory_events cs Hl Hc Hnd Hh).
  apply cached_history; [done|]. eapply Forall_impl; [exact Hnd|]. intros c Hx ->. by apply Hx.
Qed.
Lemma directory_reopen cs : Forall call_ok cs → ∃ s, cd_open (snd (run dir_call ∅ cs)) = Ok s.
Proof.
  intros Hc.
  assert (∀ cs fs s, dir_cd fs s → Forall call_ok cs → dir_cd (snd (run dir_call fs cs)) (snd (run cd_call s cs))) as H.
  { clear. intros cs. induction cs as [|c cs IH]; intros fs s Hr Hc; cbn [run]; [done|].
    apply Forall_cons in Hc. destruct Hc as [Hc Hcs]. destruct (dir_cd_step _ _ _ Hr Hc) as [_ Hr'].
    destruct (dir_call fs c) as [r1 fs'], (cd_call s c) as [r2 s']. cbn [fst snd] in *.
    specialize (IH _ _ Hr' Hcs). destruct (run dir_call fs' cs), (run cd_call s' cs). done. }
  destruct (H cs _ _ dir_cd_init Hc) as [Hok _]. destruct (files_open _ _ Hok) as (ls & E & _).
  unfold cd_open. rewrite E. cbn [obind]. eauto.
Qed.
