(** What a failing disk does to labels. *)
From Verif Require Import Prelude Names NamesFacts LabelSeq LabelConc LabelSpec LabelConcFacts LabelSeqFacts LabelFault SpecFault.

(** ** Other labels *)
Lemma dir_others f fs c n : ¬ about c n → snd (dir_call_f f fs c) !! n = fs !! n.
Proof.
  intros Hn. destruct c as [m|m|l layer|m|]; cbn [about] in Hn; cbn [dir_call_f dir_call];
    repeat case_match; cbn [snd]; rewrite ?lookup_insert_ne, ?lookup_delete_ne by congruence; done.
Qed.
Lemma cd_others f s c n : ¬ about c n →
  cd_map (snd (cd_call_f f s c)) !! n = cd_map s !! n ∧ cd_files (snd (cd_call_f f s c)) !! n = cd_files s !! n.
Proof.
  intros Hn. destruct c as [m|m|l layer|m|]; cbn [about] in Hn; cbn [cd_call_f cd_call];
    repeat case_match; cbn [snd cd_map cd_files]; rewrite ?lookup_insert_ne, ?lookup_delete_ne by congruence; done.
Qed.

(** ** Directory *)
Lemma dir_all_or_nothing f fs c r fs' : dir_call_f f fs c = (r, fs') → (∀ k, f ≠ AtWrite k) →
  (f = AtLock → ∀ n, c ≠ CCreate n) → fs' = fs ∨ fs' = snd (dir_call fs c).
Proof.
  intros E Hw Hl. destruct f as [| |k|]; [| |by destruct (Hw k eq_refl)|]; clear Hw.
  - left. destruct c; cbn [dir_call_f dir_call] in E; repeat case_match; by simplify_eq.
  - destruct c as [n| | | |]; [by destruct (Hl eq_refl n eq_refl)| | | |]; cbn [dir_call_f] in E; repeat case_match; simplify_eq; auto; right; by rewrite E.
  - right. destruct c as [n|n|l layer|n|]; cbn [dir_call_f] in E; [| | |by rewrite E|by rewrite E].
    + destruct (fs !! n) eqn:En; [by rewrite E|]. cbn [dir_call]. rewrite En. by simplify_eq.
    + by rewrite E.
    + destruct (with_updated_layer l layer) as [nl|] eqn:Eu; [|by rewrite E]. destruct (fs !! lb_name l) as [d|] eqn:Ed; [|by rewrite E].
      destruct (get_label_from_data (lb_name l) d) as [l'| |] eqn:Eg; [|by rewrite E..]. case_decide; [|by rewrite E].
      injection E as <- <-. cbn [dir_call]. rewrite Eu, Ed, Eg, decide_True by done. done.
Qed.
(** a fault that a call met is reported *)
Lemma dir_reported f fs c : ¬ failed (fst (dir_call_f f fs c)) → dir_call_f f fs c = dir_call fs c ∧ ¬ wrote (fst (dir_call_f f fs c)).
Proof.
  intros H. destruct c as [n|n|l layer|n|]; cbn [dir_call_f dir_call] in *; repeat (case_match; simplify_eq); cbn in *; by auto.
Qed.
Lemma cd_reported f s c : f ≠ AtLock → ¬ failed (fst (cd_call_f f s c)) → cd_call_f f s c = cd_call s c ∧ ¬ wrote (fst (cd_call_f f s c)).
Proof.
  intros Hf H. destruct c as [n|n|l layer|n|]; cbn [cd_call_f cd_call] in *; repeat (case_match; simplify_eq); cbn in *; by auto.
Qed.
(** a label file of which only a part was written gives no wrong label *)
Lemma torn_new n k : (∃ e, get_label_from_data n (take k new_label_contents) = Err e) ∨
  get_label_from_data n (take k new_label_contents) = Ok (label_new_empty n).
Proof.
  destruct k as [|[|[|k]]]; [left; by eexists..|right]. 
  replace (take (S (S (S k))) new_label_contents) with new_label_contents by (by destruct k). apply new_label_text.
Qed.
Lemma torn_label l k : label_ok l → (∃ e, get_label_from_data (lb_name l) (take k (label_contents l)) = Err e) ∨
  get_label_from_data (lb_name l) (take k (label_contents l)) = Ok l.
Proof. intros H. apply (part_of_label l _ (drop k (label_contents l)) H). apply take_drop. Qed.
Definition read_of (fs : gmap bytes bytes) (n : bytes) : lres := fst (dir_call fs (CGet n)).
Lemma dir_read_insert fs n d : read_of (<[n := d]> fs) n = RGet (get_result (get_label_from_data n d)).
Proof. unfold read_of. cbn [dir_call fst]. by rewrite lookup_insert. Qed.
Lemma dir_never_wrong f fs c n : call_ok c →
  read_of (snd (dir_call_f f fs c)) n = read_of fs n ∨ read_of (snd (dir_call_f f fs c)) n = read_of (snd (dir_call fs c)) n ∨
  ∃ e, read_of (snd (dir_call_f f fs c)) n = RGet (Err e).
Proof.
  intros Hok.
  assert (Hclean : (∀ k, f ≠ AtWrite k) → (f = AtLock → ∀ m, c ≠ CCreate m) →
    read_of (snd (dir_call_f f fs c)) n = read_of fs n ∨ read_of (snd (dir_call_f f fs c)) n = read_of (snd (dir_call fs c)) n ∨
    ∃ e, read_of (snd (dir_call_f f fs c)) n = RGet (Err e)).
  { intros Hw Hl. destruct (dir_call_f f fs c) as [r fs'] eqn:E. cbn [snd].
    destruct (dir_all_or_nothing f fs c r fs' E Hw Hl) as [->| ->]; auto. }
  destruct f as [| |k|]; [by apply Hclean| | |by apply Hclean].
  { destruct c as [m| | | |]; [|by apply Hclean..]. clear Hclean. cbn [dir_call_f].
    destruct (fs !! m) eqn:Em; [right; left; reflexivity|]. cbn [snd]. destruct (decide (n = m)) as [->|Hne].
    + rewrite dir_read_insert. right; right. by eexists.
    + left. unfold read_of. cbn [dir_call fst]. by rewrite lookup_insert_ne. }
  clear Hclean.
  destruct c as [m|m|l layer|m|]; cbn [dir_call_f]; try (right; left; reflexivity).
  - destruct (fs !! m) eqn:Em; [right; left; reflexivity|]. cbn [snd]. destruct (decide (n = m)) as [->|Hne].
    + rewrite dir_read_insert. destruct (torn_new m k) as [[e He]|He]; rewrite He.
      * right; right. destruct e; cbn [get_result]; eauto. by apply not_not_found in He.
      * right; left. cbn [dir_call]. rewrite Em. cbn [snd]. rewrite dir_read_insert, new_label_text. done.
    + left. unfold read_of. cbn [dir_call fst]. by rewrite lookup_insert_ne.
  - destruct (with_updated_layer l layer) as [nl|] eqn:Eu; [|right; left; reflexivity].
    destruct (fs !! lb_name l) as [d|] eqn:Ed; [|right; left; reflexivity].
    destruct (get_label_from_data (lb_name l) d) as [l'| |] eqn:Eg; [|right; left; reflexivity..].
    case_decide as Hd; [|right; left; reflexivity]. cbn [snd]. destruct Hok as [Hl Hlay].
    destruct (updated_ok _ _ _ Hl Hlay Eu) as (Hnl & Hnn & _).
    destruct (decide (n = lb_name l)) as [->|Hne].
    + rewrite dir_read_insert. destruct (torn_label nl k Hnl) as [[e He]|He]; rewrite Hnn in He.
      * right; right. rewrite He. destruct e; cbn [get_result]; eauto. by apply not_not_found in He.
      * right; left. cbn [dir_call]. rewrite Eu, Ed, Eg, decide_True by done. cbn [snd]. rewrite dir_read_insert.
        rewrite He, <-Hnn. by rewrite label_round.
    + left. unfold read_of. cbn [dir_call fst]. by rewrite lookup_insert_ne.
Qed.

(** a file that is not a label *)
Definition broken (fs : gmap bytes bytes) (n : bytes) : Prop := ∃ d e, fs !! n = Some d ∧ get_label_from_data n d = Err e.
Lemma all_labels_broken (fs : list (bytes * bytes)) n d e : (n, d) ∈ fs → get_label_from_data n d = Err e →
  ∀ ls, all_labels fs ≠ Ok ls.
Proof.
  induction fs as [|[m d'] fs IH]; intros Hin He ls; [by apply elem_of_nil in Hin|]. cbn [all_labels].
  apply elem_of_cons in Hin. destruct Hin as [[= -> ->]|Hin].
  - rewrite He. cbn [obind]. discriminate.
  - specialize (IH Hin He). destruct (get_label_from_data m d'); cbn [obind]; [|discriminate..].
    destruct (all_labels fs) as [r| |] eqn:E; cbn [obind]; [|discriminate..]. by destruct (IH r).
Qed.
Lemma broken_list fs n ls : broken fs n → all_labels (map_to_list fs) ≠ Ok ls.
Proof. intros (d & e & Hd & He). apply (all_labels_broken _ n d e); [by apply elem_of_map_to_list|done]. Qed.
Lemma dir_stuck_step fs n c : broken fs n → c ≠ CDelete n →
  (about c n → failed (fst (dir_call fs c))) ∧ broken (snd (dir_call fs c)) n.
Proof.
  intros (d & e & Hd & He) Hc. split.
  - destruct c as [m|m|l layer|m|]; cbn [about dir_call]; [intros ->|intros ->|intros <-|intros ->|intros _].
    + by rewrite Hd.
    + rewrite Hd, He. cbn [fst]. destruct e; try exact I. by apply not_not_found in He.
    + destruct (with_updated_layer l layer); [|exact I]. rewrite Hd, He. exact I.
    + by destruct Hc.
    + cbn [fst]. destruct (all_labels (map_to_list fs)) as [ls| |] eqn:E; [|exact I..].
      exfalso. apply (broken_list fs n ls); [by exists d, e|done].
  - exists d, e. split; [|done]. destruct c as [m|m|l layer|m|]; cbn [dir_call]; [| done | | |done].
    + destruct (fs !! m) eqn:Em; cbn [snd]; [done|]. rewrite lookup_insert_ne; [done|]. intros ->. congruence.
    + destruct (with_updated_layer l layer) as [nl|]; [|done]. destruct (fs !! lb_name l) as [d'|] eqn:Ed; [|done].
      destruct (get_label_from_data (lb_name l) d') as [l'| |] eqn:Eg; [|done..]. case_decide; [|done]. cbn [snd].
      rewrite lookup_insert_ne; [done|]. intros <-. congruence.
    + cbn [snd]. rewrite lookup_delete_ne; [done|]. intros ->. by apply Hc.
Qed.
Lemma dir_stuck cs : ∀ fs n, broken fs n → Forall (λ c, c ≠ CDelete n) cs →
  (∀ c r, (c, r) ∈ later dir_call fs cs → about c n → failed r) ∧ broken (snd (run dir_call fs cs)) n.
Proof.
  induction cs as [|c cs IH]; intros fs n Hb Hc; unfold later; cbn [run fst zip]; [split; [|done]; intros c r Hin; by apply elem_of_nil in Hin|].
  apply Forall_cons in Hc. destruct Hc as [Hc Hcs]. destruct (dir_stuck_step fs n c Hb Hc) as [Hf Hb'].
  destruct (dir_call fs c) as [r fs']. cbn [fst snd] in Hf, Hb'. destruct (IH fs' n Hb' Hcs) as [IHr IHb].
  unfold later in IHr. destruct (run dir_call fs' cs) as [rs fs'']. cbn [fst snd] in *. split; [|done].
  intros c' r' Hin Ha. apply elem_of_cons in Hin. destruct Hin as [[= -> ->]|Hin]; [by apply Hf|by apply (IHr c' r')].
Qed.

(** ** Cached directory *)
Lemma cd_set_map f s l layer r s' : cd_call_f f s (CSet l layer) = (r, s') → failed r → cd_map s' = cd_map s.
Proof.
  intros E Hr. cbn [cd_call_f cd_call] in E. 
  destruct (with_updated_layer l layer) as [nl|]; [|by simplify_eq]. destruct (cd_map s !! lb_name l) as [l'|]; [|by simplify_eq].
  case_decide; [|by simplify_eq]. destruct f, (cd_files s !! lb_name l); simplify_eq; cbn [cd_map]; done.
Qed.
Lemma length_write_over (old new : bytes) : length (write_over old new) = Nat.max (length old) (length new).
Proof. unfold write_over. rewrite app_length, drop_length. lia. Qed.
Lemma cd_retry f s l layer r s' nl : cd_ok s → call_ok (CSet l layer) → layer ≠ None →
  cd_call_f f s (CSet l layer) = (r, s') → failed r → cd_map s !! lb_name l = Some l → with_updated_layer l layer = Some nl →
  ∃ s'', cd_call s' (CSet l layer) = (RSet (Ok (Some nl)), s'') ∧ cd_map s'' = <[lb_name l := nl]> (cd_map s) ∧
    cd_files s'' = <[lb_name l := label_contents nl]> (cd_files s) ∧ cd_ok s''.
Proof.
  intros Hs Hok Hl E Hr Hm Hu.
  pose proof (cd_ok_step s (CSet l layer) Hs Hok) as Hstep; cbn [is_clear] in Hstep; destruct layer as [lay|]; [|done]; specialize (Hstep id).
  destruct (Hs (lb_name l)) as [Hfile Hlab]. rewrite Hm in Hfile. cbn [fmap option_fmap option_map] in Hfile.
  destruct Hok as [Hlok Hlay]. destruct (updated_ok _ _ _ Hlok Hlay Hu) as (Hnl & Hnn & Hv & Hnlay & _).
  assert (length (label_contents l) ≤ length (label_contents nl)) as Hlen.
  { apply contents_longer; [done|done|lia|]. rewrite Hnlay. done. }
  cbn [cd_call] in Hstep. rewrite Hu, Hm, decide_True, Hfile in Hstep by done. cbn [snd] in Hstep.
  rewrite write_over_longer in Hstep by done.
  cbn [cd_call_f cd_call] in E. rewrite Hu, Hm, decide_True, Hfile in E by done.
  assert (∃ d, s' = CD (cd_map s) (<[lb_name l := d]> (cd_files s)) ∧ length d ≤ length (label_contents nl)) as (d & -> & Hd).
  { destruct f as [| |k|]; simplify_eq.
    - exists (label_contents l). rewrite insert_id by done. split; [by destruct s'|done].
    - exfalso. rewrite decide_True in E by done. injection E as <- _. exact Hr.
    - eexists. split; [done|]. rewrite length_write_over, take_length. lia.
    - eexists. split; [done|]. rewrite length_write_over. lia. }
  eexists. cbn [cd_call cd_map cd_files]. rewrite Hu, Hm, decide_True, lookup_insert by done.
  split; [done|]. cbn [cd_map cd_files]. rewrite insert_insert, write_over_longer by done. done.
Qed.

(** a file that belongs to no label of the map is never looked at again *)
Lemma cd_orphan_step s n d c : cd_map s !! n = None → cd_files s !! n = Some d →
  (c = CCreate n → failed (fst (cd_call s c))) ∧ (c = CGet n → fst (cd_call s c) = RGet (Ok None)) ∧
  cd_map (snd (cd_call s c)) !! n = None ∧ cd_files (snd (cd_call s c)) !! n = Some d.
Proof.
  intros Hm Hd. split; [intros ->; cbn [cd_call]; by rewrite Hm, Hd|]. split; [intros ->; cbn [cd_call]; by rewrite Hm|].
  destruct c as [m|m|l layer|m|]; cbn [cd_call]; [|done| | |done].
  - destruct (cd_map s !! m) eqn:Em; [done|]. destruct (cd_files s !! m) eqn:Ef; [done|]. cbn [snd cd_map cd_files].
    assert (m ≠ n) by (intros ->; congruence). by rewrite !lookup_insert_ne.
  - destruct (with_updated_layer l layer) as [nl|]; [|done]. destruct (cd_map s !! lb_name l) eqn:Em; [|done].
    case_decide; [|done]. destruct (cd_files s !! lb_name l); [|done]. cbn [snd cd_map cd_files].
    assert (lb_name l ≠ n) by (intros <-; congruence). by rewrite !lookup_insert_ne.
  - destruct (cd_map s !! m) eqn:Em; [|done]. assert (m ≠ n) by (intros ->; congruence).
    destruct (cd_files s !! m); cbn [snd cd_map cd_files]; by rewrite !lookup_delete_ne.
Qed.
Lemma cd_orphan cs : ∀ s n d, cd_map s !! n = None → cd_files s !! n = Some d →
  (∀ r, (CCreate n, r) ∈ later cd_call s cs → failed r) ∧ (∀ r, (CGet n, r) ∈ later cd_call s cs → r = RGet (Ok None)) ∧
  cd_map (snd (run cd_call s cs)) !! n = None ∧ cd_files (snd (run cd_call s cs)) !! n = Some d.
Proof.
  induction cs as [|c cs IH]; intros s n d Hm Hd; unfold later; cbn [run fst zip].
  { split; [intros r Hin; by apply elem_of_nil in Hin|]. split; [intros r Hin; by apply elem_of_nil in Hin|]. done. }
  destruct (cd_orphan_step s n d c Hm Hd) as (Hc & Hg & Hm' & Hd').
  destruct (cd_call s c) as [r s']. cbn [fst snd] in *. destruct (IH s' n d Hm' Hd') as (IHc & IHg & IHm & IHd).
  unfold later in IHc, IHg. destruct (run cd_call s' cs) as [rs s'']. cbn [fst snd] in *. split; [|split; [|done]].
  - intros r' Hin. apply elem_of_cons in Hin. destruct Hin as [[= <- ->]|Hin]; [by apply Hc|by apply IHc].
  - intros r' Hin. apply elem_of_cons in Hin. destruct Hin as [[= <- ->]|Hin]; [by apply Hg|by apply IHg].
Qed.
Lemma cd_open_broken fs n s : broken fs n → cd_open fs ≠ Ok s.
Proof.
  intros Hb. unfold cd_open. destruct (all_labels (map_to_list fs)) as [ls| |] eqn:E; cbn [obind]; [|discriminate..].
  by destruct (broken_list fs n ls Hb).
Qed.
Lemma cd_retry_history cs f s l layer r s' nl :
  Forall call_ok cs → Forall (λ c, ¬ is_clear c) cs → s = snd (run cd_call (CD ∅ ∅) cs) →
  call_ok (CSet l layer) → layer ≠ None → cd_call_f f s (CSet l layer) = (r, s') → failed r →
  cd_map s !! lb_name l = Some l → with_updated_layer l layer = Some nl →
  ∃ s'', cd_call s' (CSet l layer) = (RSet (Ok (Some nl)), s'') ∧ s'' = snd (cd_call s (CSet l layer)) ∧
    cd_open (cd_files s'') = Ok s''.
Proof.
  intros Hcs Hcl Hs Hok Hl E Hr Hm Hu. assert (cd_ok s) as Hsok by (rewrite Hs; by apply (cd_ok_run cs _ cd_ok_init)).
  destruct (cd_retry f s l layer r s' nl Hsok Hok Hl E Hr Hm Hu) as (s'' & Hc & Hmap & Hfiles & Hs'').
  exists s''. split; [done|]. assert (s'' = snd (cd_call s (CSet l layer))) as Heq.
  { destruct (cd_retry AtOpen s l layer (RSet (Err OtherError)) s nl Hsok Hok Hl) as (t & Ht & Hmt & Hft & _); try done.
    - cbn [cd_call_f]. by rewrite Hu, Hm, decide_True.
    - rewrite Ht. cbn [snd]. destruct s'' as [m1 f1], t as [m2 f2]. cbn [cd_map cd_files] in *. congruence. }
  split; [done|]. destruct (cd_ok_reopen s'' Hs'') as (t & Ht & Hmt & Hft). rewrite Ht. f_equal. destruct s'' as [m1 f1], t as [m2 f2].
  cbn [cd_map cd_files] in *. congruence.
Qed.
