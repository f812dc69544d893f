(** Which file a name stands for in memory *)
From Verif Require Import Prelude Names MemFiles.

Definition mf_idle (s : mfstate) (n : lname) (f : bytes) : Prop := ∀ t, mf_waiting s !! t ≠ Some (n, f).
(** a file that is there, and that no call is about to make *)
Definition mf_settled (s : mfstate) (n : lname) (f : bytes) (h : nat) : Prop := mf_handle s n f = Some h ∧ mf_idle s n f.
Lemma mf_handle_insert d c w n f m fs : mf_handle (MFState (<[m := fs]> d) c w) n f = if decide (m = n) then fs !! f else mf_handle (MFState d c w) n f.
Proof. unfold mf_handle. cbn [mf_dirs]. case_decide as Hm; [subst; by rewrite lookup_insert|by rewrite lookup_insert_ne]. Qed.
Lemma mfstep_settled s e s' n f h : mfstep s e s' → mf_settled s n f h → e ≠ MFCreate n →
  mf_settled s' n f h ∧ (∀ t r, e = MFGot t n f r → r = Ok h).
Proof.
  intros Hst [Hh Hi] Hne. inversion Hst; subst.
  - split; [|done]. split; [|done]. rewrite mf_handle_insert. rewrite decide_False by congruence. done.
  - split; [done|]. intros ? ? [=].
  - split; [done|]. intros t' r [= -> -> -> <-]. congruence.
  - split; [done|]. intros t' r [= -> -> -> <-]. unfold mf_handle in Hh. rewrite H0 in Hh. done.
  - split; [|done]. split; [done|]. intros t'. cbn [mf_waiting]. destruct (decide (t = t')) as [<-|Ht].
    + rewrite lookup_insert. intros [= -> ->]. unfold mf_handle in Hh. cbn [mf_dirs] in Hh. rewrite H0 in Hh. cbn [mbind option_bind] in Hh. congruence.
    + rewrite lookup_insert_ne by done. apply Hi.
  - assert (¬ (n0 = n ∧ f0 = f)) as Hnf. { intros [-> ->]. by apply (Hi t). }
    split.
    + split.
      * rewrite mf_handle_insert. case_decide as Hm; [subst n0|done]. rewrite lookup_insert_ne by naive_solver.
        unfold mf_handle in Hh. cbn [mf_dirs] in Hh. by rewrite H0 in Hh.
      * intros t'. cbn [mf_waiting]. rewrite lookup_delete_Some. intros [_ Hw]. by apply (Hi t').
    + intros t' r [= -> -> -> <-]. by destruct Hnf.
  - assert (¬ (n0 = n ∧ f0 = f)) as Hnf. { intros [-> ->]. by apply (Hi t). }
    split; [split; [done|]|].
    + intros t'. cbn [mf_waiting]. rewrite lookup_delete_Some. intros [_ Hw]. by apply (Hi t').
    + intros t' r [= -> -> -> <-]. by destruct Hnf.
  - split; [done|]. intros ? ? [=].
  - split; [done|]. intros ? ? [=].
Qed.
Lemma mfexec_settled s tr s' n f h : mfexec s tr s' → mf_settled s n f h → MFCreate n ∉ tr →
  mf_settled s' n f h ∧ (∀ t r, MFGot t n f r ∈ tr → r = Ok h).
Proof.
  intros He Hs. induction He as [s|s tr s1 e s2 He IH Hst]; intros Hc.
  - split; [done|]. by intros ? ? ?%elem_of_nil.
  - rewrite not_elem_of_app, not_elem_of_cons in Hc. destruct Hc as (Hc1 & Hc2 & _). destruct (IH Hs Hc1) as [Hs1 Hg].
    destruct (mfstep_settled _ _ _ _ _ _ Hst Hs1 ltac:(congruence)) as [Hs2 Hg']. split; [done|].
    intros t r. rewrite elem_of_app, elem_of_list_singleton. intros [H|H]; eauto.
Qed.

(** contents *)
Lemma mfexec_cells s tr s' h b : mfexec s tr s' → mf_cells s !! h = Some (Some b) → (∀ b', MFWrite h b' ∈ tr → b' = b) →
  mf_cells s' !! h = Some (Some b) ∧ ∀ o, MFRead h o ∈ tr → o = Some b.
Proof.
  intros He Hb. induction He as [s|s tr s1 e s2 He IH Hst]; intros Hw.
  - split; [done|]. by intros ? ?%elem_of_nil.
  - destruct (IH Hb) as [H1 H2]. { intros b' H. apply Hw, elem_of_app. by left. }
    assert (∀ b', e = MFWrite h b' → b' = b) as Hwe. { intros b' ->. apply Hw, elem_of_app. right. by apply elem_of_list_singleton. }
    assert (mf_cells s2 !! h = Some (Some b) ∧ ∀ o, e = MFRead h o → o = Some b) as [H3 H4].
    { inversion Hst; subst; cbn [mf_cells] in *; try (split; [done|by intros ? [=]]).
      - split; [by apply lookup_app_l_Some|by intros ? [=]].
      - split; [|by intros ? [=]]. destruct (decide (h0 = h)) as [->|Hne].
        + rewrite (Hwe _ eq_refl). by apply list_lookup_insert.
        + by rewrite list_lookup_insert_ne.
      - split; [done|]. intros o' [= <- <-]. congruence. }
    split; [done|]. intros o. rewrite elem_of_app, elem_of_list_singleton. intros [H|H]; [by apply H2|by apply H4].
Qed.
(** everything together: what was written is read, by those who ask for the file by its name *)
Lemma mf_reads_back s tr s' n f h b : mfexec s tr s' → mf_settled s n f h → mf_cells s !! h = Some (Some b) → MFCreate n ∉ tr →
  (∀ b', MFWrite h b' ∈ tr → b' = b) →
  (∀ t r, MFGot t n f r ∈ tr → r = Ok h) ∧ (∀ o, MFRead h o ∈ tr → o = Some b) ∧ (∀ b', MFExists n f b' ∈ tr → b' = true).
Proof.
  intros He Hs Hb Hc Hw. destruct (mfexec_settled _ _ _ _ _ _ He Hs Hc) as [_ H1]. destruct (mfexec_cells _ _ _ _ _ He Hb Hw) as [_ H2].
  split; [done|]. split; [done|]. induction He as [s|s tr s1 e s2 He IH Hst]; [by intros ? ?%elem_of_nil|].
  intros b'. rewrite elem_of_app, elem_of_list_singleton. rewrite not_elem_of_app in Hc. destruct Hc as [Hc _].
  assert (∀ b', MFWrite h b' ∈ tr → b' = b) as Hw1. { intros b1 H. apply Hw, elem_of_app. by left. }
  intros [H| <- ].
  - apply IH; try done; [intros t r Hg; apply (H1 t r), elem_of_app; by left|intros o Ho; apply H2, elem_of_app; by left].
  - destruct (mfexec_settled _ _ _ _ _ _ He Hs Hc) as [[Hh _] _]. destruct (mfexec_cells _ _ _ _ _ He Hb Hw1) as [Hcell _].
    inversion Hst; subst. by rewrite Hh, Hcell.
Qed.
(** a file that was given while no other call was about to make it *)
Lemma mf_alone s t n f h s' : mfstep s (MFGot t n f (Ok h)) s' → (∀ t', t' ≠ t → mf_waiting s !! t' ≠ Some (n, f)) → mf_settled s' n f h.
Proof.
  intros Hst Hw. inversion Hst; subst.
  - split; [done|]. intros t'. destruct (decide (t' = t)) as [->|]; [congruence|by apply Hw].
  - split; [rewrite mf_handle_insert, decide_True, lookup_insert by done; done|]. intros t'. cbn [mf_waiting] in *. rewrite lookup_delete_Some.
    intros [? ?]. by apply (Hw t').
Qed.
Lemma mf_one_file tr s t n f h s1 tr' s2 t' r : mfexec mf_init tr s → mfstep s (MFGot t n f (Ok h)) s1 →
  (∀ u, u ≠ t → mf_waiting s !! u ≠ Some (n, f)) → mfexec s1 tr' s2 → MFCreate n ∉ tr' →
  MFGot t' n f r ∈ tr' → r = Ok h.
Proof. intros _ Hst Hu He Hc Hg. pose proof (mf_alone _ _ _ _ _ _ Hst Hu) as Hs. destruct (mfexec_settled _ _ _ _ _ _ He Hs Hc) as [_ H]. by eapply H. Qed.
Lemma mf_all_read tr s t n f h b s1 tr1 s2 s3 tr3 s4 : mfexec mf_init tr s → mfstep s (MFGot t n f (Ok h)) s1 →
  (∀ u, u ≠ t → mf_waiting s !! u ≠ Some (n, f)) → mfexec s1 tr1 s2 → MFCreate n ∉ tr1 → mfstep s2 (MFWrite h b) s3 →
  mfexec s3 tr3 s4 → MFCreate n ∉ tr3 → (∀ b', MFWrite h b' ∉ tr3) →
  (∀ t' r, MFGot t' n f r ∈ tr3 → r = Ok h) ∧ (∀ o, MFRead h o ∈ tr3 → o = Some b) ∧ (∀ e, MFExists n f e ∈ tr3 → e = true).
Proof.
  intros _ Hst Hu He1 Hc1 Hw He3 Hc3 Hno. pose proof (mf_alone _ _ _ _ _ _ Hst Hu) as Hs.
  destruct (mfexec_settled _ _ _ _ _ _ He1 Hs Hc1) as [Hs2 _]. destruct (mfstep_settled _ _ _ _ _ _ Hw Hs2 ltac:(done)) as [Hs3 _].
  eapply mf_reads_back; [done|done| |done|]; [|intros b' H; by apply Hno in H].
  inversion Hw; subst. cbn [mf_cells]. by apply list_lookup_insert.
Qed.
(** examples *)
Lemma mfexec_cons s e s1 tr s2 : mfstep s e s1 → mfexec s1 tr s2 → mfexec s (e :: tr) s2.
Proof.
  intros Hst He. induction He as [s1|s1 tr s2 e' s3 He IH Hs]; [apply (mfexec_step s [] s e s1); [constructor|done]|].
  apply (mfexec_step s (e :: tr) s2 e' s3); [by apply IH|done].
Qed.
Lemma mf_exists_is s n f b : (match mf_handle s n f with
  | Some h => match mf_cells s !! h with Some (Some _) => true | _ => false end | None => false end) = b → mfstep s (MFExists n f b) s.
Proof. intros <-. apply mf_exists. Qed.
Lemma mf_loses n f b : ∃ s, mfexec mf_init [MFCreate n; MFStart 1 n f; MFStart 2 n f; MFGot 1 n f (Ok 0); MFWrite 0 b; MFExists n f true;
   MFGot 2 n f (Ok 1); MFExists n f false; MFGot 3 n f (Ok 1); MFRead 1 None] s.
Proof.
  unfold mf_init. eexists. eapply mfexec_cons; [apply mf_create|].
  eapply mfexec_cons; [eapply mf_missing; [done|apply lookup_insert|done]|].
  eapply mfexec_cons; [eapply mf_missing; [done|apply lookup_insert|done]|].
  eapply mfexec_cons; [apply (mf_make _ []); [done|apply lookup_insert]|].
  eapply mfexec_cons; [apply mf_write; cbn; lia|].
  eapply mfexec_cons; [apply mf_exists_is; by rewrite mf_handle_insert, decide_True, lookup_insert by done|].
  eapply mfexec_cons; [eapply (mf_make _ [Some b]); [done|apply lookup_insert]|].
  eapply mfexec_cons; [apply mf_exists_is; by rewrite mf_handle_insert, decide_True, lookup_insert by done|].
  eapply mfexec_cons; [eapply mf_found; [done|by rewrite mf_handle_insert, decide_True, lookup_insert by done]|].
  eapply mfexec_cons; [apply mf_read; done|]. constructor.
Qed.
Lemma mf_keeps n f b : ∃ s s1 s2 s3 s4, mfexec mf_init [MFCreate n; MFStart 1 n f] s ∧ mfstep s (MFGot 1 n f (Ok 0)) s1 ∧
  (∀ u, u ≠ 1 → mf_waiting s !! u ≠ Some (n, f)) ∧ mfexec s1 [] s2 ∧ mfstep s2 (MFWrite 0 b) s3 ∧
  mfexec s3 [MFExists n f true; MFGot 2 n f (Ok 0); MFRead 0 (Some b)] s4.
Proof.
  unfold mf_init. do 5 eexists. split; [|split; [|split; [|split; [|split]]]].
  - eapply mfexec_cons; [apply mf_create|]. eapply mfexec_cons; [eapply mf_missing; [done|apply lookup_insert|done]|]. constructor.
  - apply (mf_make _ []); [done|apply lookup_insert].
  - intros u Hu. cbn [mf_waiting]. by rewrite lookup_insert_ne, lookup_empty by done.
  - constructor.
  - apply mf_write. cbn. lia.
  - eapply mfexec_cons; [apply mf_exists_is; by rewrite mf_handle_insert, decide_True, lookup_insert by done|].
    eapply mfexec_cons; [eapply mf_found; [done|by rewrite mf_handle_insert, decide_True, lookup_insert by done]|].
    eapply mfexec_cons; [apply mf_read; done|]. constructor.
Qed.

(** ** Files with different names are different files *)
Definition mf_owner (tr : list mfev) (s : mfstate) (own : nat → lname * bytes) : Prop :=
  (∀ n f h, mf_handle s n f = Some h → own h = (n, f) ∧ h < length (mf_cells s)) ∧
  (∀ t n f h, MFGot t n f (Ok h) ∈ tr → own h = (n, f) ∧ h < length (mf_cells s)).
Lemma mf_owners tr s : mfexec mf_init tr s → ∃ own, mf_owner tr s own.
Proof.
  remember mf_init as s0 eqn:E0. intros He. induction He as [s|s tr s1 e s2 He IH Hst]; subst.
  { exists (λ _, ([], [])). split; [|by intros ? ? ? ? ?%elem_of_nil]. intros n f h. unfold mf_handle. cbn. by rewrite lookup_empty. }
  destruct (IH eq_refl) as (own & H1 & H2).
  assert (∀ t n f h, MFGot t n f (Ok h) ∈ tr ++ [e] → MFGot t n f (Ok h) ∈ tr ∨ e = MFGot t n f (Ok h)) as Hin.
  { intros t n f h. rewrite elem_of_app, elem_of_list_singleton. naive_solver. }
  inversion Hst; subst.
  - exists own. split; [|intros t n' f h [?|?]%Hin; [by eapply H2|done]]. intros n' f h. rewrite mf_handle_insert. case_decide; [by rewrite lookup_empty|apply H1].
  - exists own. split; [done|]. intros t n' f' h [?|?]%Hin; [by eapply H2|done].
  - exists own. split; [done|]. intros t' n' f' h' [?|Hg]%Hin; [by eapply H2|]. injection Hg as <- <- <- <-. by apply H1.
  - exists own. split; [done|]. intros t' n' f' h [?|?]%Hin; [by eapply H2|done].
  - exists own. split; [done|]. intros t' n' f' h [?|?]%Hin; [by eapply H2|done].
  - exists (λ h, if decide (h = length c) then (n, f) else own h). unfold mf_owner. cbn [mf_cells]. rewrite app_length. cbn [length]. split.
    + intros n' f' h. rewrite mf_handle_insert. case_decide as Hn.
      * subst n'. destruct (decide (f = f')) as [<-|Hf].
        -- rewrite lookup_insert. intros [= <-]. rewrite decide_True by done. split; [done|lia].
        -- rewrite lookup_insert_ne by done. intros Hh. destruct (H1 n f' h) as [? Hl].
           { unfold mf_handle. cbn [mf_dirs]. by rewrite H0. } cbn [mf_cells] in Hl. rewrite decide_False by lia. split; [done|lia].
      * intros Hh. destruct (H1 n' f' h Hh) as [? Hl]. cbn [mf_cells] in Hl. rewrite decide_False by lia. split; [done|lia].
    + intros t' n' f' h [Hg|Hg]%Hin.
      * destruct (H2 t' n' f' h Hg) as [? Hl]. cbn [mf_cells] in Hl. rewrite decide_False by lia. split; [done|lia].
      * injection Hg as <- <- <- <-. rewrite decide_True by done. split; [done|lia].
  - exists own. split; [done|]. intros t' n' f' h [?|?]%Hin; [by eapply H2|done].
  - exists own. split.
    + intros n f h'. cbn [mf_cells]. rewrite insert_length. apply H1.
    + intros t' n' f' h' [?|?]%Hin; [|done]. cbn [mf_cells]. rewrite insert_length. by eapply H2.
  - exists own. split; [done|]. intros t' n' f' h' [?|?]%Hin; [by eapply H2|done].
Qed.
Lemma mf_not_shared tr s t n f t' n' f' h : mfexec mf_init tr s → MFGot t n f (Ok h) ∈ tr → MFGot t' n' f' (Ok h) ∈ tr → n = n' ∧ f = f'.
Proof. intros He Hg Hg'. destruct (mf_owners _ _ He) as (own & _ & H). destruct (H _ _ _ _ Hg) as [E _], (H _ _ _ _ Hg') as [E' _]. rewrite E in E'. by injection E'. Qed.
