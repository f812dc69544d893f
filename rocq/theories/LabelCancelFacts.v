(** Label calls that are given up. *)
From Verif Require Import Prelude Names SpecText NamesFacts LabelConc LabelSpec LabelConcFacts LabelPool SpecProgress LabelProgress LabelCancel SpecCancel.

(** ** what a call that is given up leaves *)
(** unlocking changes nothing for the others *)
Lemma leave_shared {K} ms s i t nd : glinv K ms s → s_inodes s !! i = Some nd → t ∈ i_shared nd → glinv K ms (leave (put s i (unlock_shared nd t)) t).
Proof.
  intros Hl Hi Hin. destruct (linv_inode K ms s Hl i nd Hi) as [Hset Hex].
  assert (i_excl nd = None) as He.
  { destruct (i_excl nd) eqn:E; [|done]. rewrite Hex in Hin by done. by apply elem_of_nil in Hin. }
  apply (linv_put_done K ms ms s i t nd (unlock_shared nd t)); [done|done| |].
  - split_and!; auto. intros u Hu Hu'. split; [|done]. cbn [unlock_shared i_shared]. by apply elem_of_list_filter.
  - split; [intros _; by apply Hset|]. cbn [unlock_shared i_excl]. by rewrite He.
Qed.
Lemma leave_excl {K} ms ms' s i t nd : glinv K ms s → s_inodes s !! i = Some nd → i_excl nd = Some t →
  settled K nd (ms' !! i) → (ms' !! i = ms !! i ∨ is_Some (ms !! i) ∨ i_creator nd = t) → (∀ j, j ≠ i → ms' !! j = ms !! j) →
  glinv K ms' (leave (put s i (unlock_excl nd)) t).
Proof.
  intros Hl Hi He Hset Hc Hj. destruct (linv_inode K ms s Hl i nd Hi) as [_ Hex]. rewrite He in Hex. specialize (Hex ltac:(done)).
  apply (linv_put_done K ms ms' s i t nd (unlock_excl nd)); [done|done| |].
  - apply unnoticed_excl; auto. destruct Hc as [?|[?|?]]; auto.
  - split; [done|]. by cbn [unlock_excl i_excl].
Qed.
(** before it has begun to write *)
Lemma stop_before {K} ms s t p : glinv K ms s → s_threads s !! t = Some p → unchanged_yet p → glinv K ms (leave (released s t p) t).
Proof.
  intros Hl Ht Hp. pose proof (linv_thread K ms s Hl t p Ht) as Hok.
  destruct p as [n|n i|n i|n i d|l nl|l nl i|l nl i|l nl i d|l nl i pos rest|n|n|n i|n i pos rest|n]; cbn [released unchanged_yet] in *; try done;
  try (by apply linv_done); cbn [thread_ok] in Hok.
  - destruct Hok as (nd & Hi & _ & Hin). rewrite Hi. by apply leave_shared.
  - destruct Hok as (nd & Hi & _ & Hin & _). rewrite Hi. by apply leave_shared.
  - destruct Hok as (_ & nd & Hi & _ & He & Hset). rewrite Hi. apply (leave_excl ms); auto.
  - destruct Hok as (_ & nd & Hi & _ & He & Hset & _). rewrite Hi. apply (leave_excl ms); auto.
Qed.
(** at any time *)
Notation always := (λ _ : ekind, True) (only parsing).
Definition xfollows (ms ms' : gmap ino label) (e : option xlev) : Prop :=
  ∀ i, match e with
       | Some ev => if decide (xev_ino ev = Some i) then xreg (ms !! i) ev (ms' !! i) else ms' !! i = ms !! i
       | None => ms' !! i = ms !! i
       end.
Lemma xfollows_same ms ev : (∀ i, xev_ino ev = Some i → xreg (ms !! i) ev (ms !! i)) → xfollows ms ms (Some ev).
Proof. intros H i. case_decide; [by apply H|done]. Qed.
Lemma xfollows_one ms ms' ev i : xev_ino ev = Some i → xreg (ms !! i) ev (ms' !! i) → (∀ j, j ≠ i → ms' !! j = ms !! j) → xfollows ms ms' (Some ev).
Proof. intros E Hr Hj j. rewrite E. case_decide as Hd; [by injection Hd as <-|]. apply Hj. intros ->. done. Qed.
Lemma greg_xreg c e c' : greg always c e c' → xreg c (Returned e) c'.
Proof.
  intros [H|(-> & -> & k & _ & H)]; [by constructor|]. destruct e as [t n i r|t l nl i r|t n i r|t n r]; try done; subst r; [apply xreg_get_fails|apply xreg_set_fails].
Qed.
Lemma stop_any ms s t p r : glinv always ms s → s_threads s !! t = Some p →
  ∃ ms', glinv always ms' (leave (released s t p) t) ∧ xfollows ms ms' (Some (stop_event t p r)).
Proof.
  intros Hl Ht. pose proof (linv_thread _ ms s Hl t p Ht) as Hok.
  destruct p as [n|n i|n i|n i d|l nl|l nl i|l nl i|l nl i d|l nl i pos rest|n|n|n i|n i pos rest|n];
  try (solve [exists ms; split; [by apply (stop_before ms s t _ Hl Ht)|]; apply xfollows_same; cbn [stop_event xev_ino]; intros j Hj; try done; constructor]);
  cbn [released stop_event thread_ok] in *.
  - destruct Hok as ((Hup & Hlk & Hnk) & nd & Hi & Hn & He & Hm & Hd & _). rewrite Hi. pose proof Hup as [Hun _].
    destruct (part_of_label nl _ _ Hnk Hd) as [[k Hg]|Hg]; rewrite Hun, <- Hn in Hg.
    + exists (delete i ms). assert (∀ j, j ≠ i → delete i ms !! j = ms !! j) as Hj by (intros j ?; by rewrite lookup_delete_ne).
      split; [|apply (xfollows_one ms _ _ i); [done| |done]; rewrite lookup_delete, Hm; constructor].
      apply (leave_excl ms); [done..| | |done]; [rewrite lookup_delete; by exists k|]. right; left. by rewrite Hm.
    + exists (<[i := nl]> ms). assert (∀ j, j ≠ i → <[i := nl]> ms !! j = ms !! j) as Hj by (intros j ?; by rewrite lookup_insert_ne).
      split; [|apply (xfollows_one ms _ _ i); [done| |done]; rewrite lookup_insert, Hm; by constructor].
      apply (leave_excl ms); [done..| | |done]; [rewrite lookup_insert; split; [done|]; split; [by rewrite Hun|done]|]. right; left. by rewrite Hm.
  - destruct Hok as (nd & Hi & Hn & Hc & Hm & _). exists ms. split; [by apply linv_done|].
    apply (xfollows_one ms _ _ i); [done| |done]. rewrite Hm. constructor.
  - destruct Hok as (nd & Hi & Hn & Hc & Hm & He & Hd & _). rewrite Hi.
    assert (label_ok (label_new_empty n)) as Hnk by (split; [cbn; lia|done]).
    destruct (part_of_label (label_new_empty n) _ _ Hnk Hd) as [[k Hg]|Hg]; cbn [label_new_empty lb_name] in Hg; rewrite <- Hn in Hg.
    + exists ms. split; [|apply (xfollows_one ms _ _ i); [done| |done]; rewrite Hm; constructor].
      apply (leave_excl ms); [done..| | |done]; [|by left]. rewrite Hm. by exists k.
    + exists (<[i := Label n None 0]> ms). assert (∀ j, j ≠ i → <[i := Label n None 0]> ms !! j = ms !! j) as Hj by (intros j ?; by rewrite lookup_insert_ne).
      split; [|apply (xfollows_one ms _ _ i); [done| |done]; rewrite lookup_insert, Hm; constructor].
      apply (leave_excl ms); [done..| | |done]; [|right; by right]. rewrite lookup_insert. split; [by rewrite Hg, Hn|]. by split.
  - exists ms. split; [by apply linv_done|]. by apply xfollows_same.
Qed.
Lemma linv_unlink {K} ms s t n : glinv K ms s → glinv K ms (LState (delete n (s_dir s)) (s_inodes s) (delete t (s_threads s))).
Proof.
  intros [Hdir Hms Hino Hthr]. split; try done.
  - intros m j. cbn [s_dir]. destruct (decide (m = n)) as [->|Hne]; [by rewrite lookup_delete|].
    rewrite lookup_delete_ne by done. apply Hdir.
  - intros u q. cbn [s_threads]. destruct (decide (u = t)) as [->|Hne]; [by rewrite lookup_delete|].
    rewrite lookup_delete_ne by done. apply Hthr.
Qed.
Lemma xlinv_step A ms s e s' : glinv always ms s → xstep A s e s' → ∃ ms', glinv always ms' s' ∧ xfollows ms ms' e.
Proof.
  intros Hl Hst. destruct Hst as [s e s' Hst|s t p r Ht _ _|s t n i Ht _ Hd].
  - destruct (linv_step _ ms s e s' I Hl Hst) as (ms' & Hl' & Hf). exists ms'. split; [done|]. intros i. specialize (Hf i).
    destruct e as [e|]; [|done]. cbn [fmap option_fmap option_map xev_ino] in *. case_decide; [by apply greg_xreg|done].
  - by apply stop_any.
  - exists ms. split; [by apply linv_unlink|by apply xfollows_same].
Qed.

(** ** the calls on one file *)
Lemma xhistory_snoc c es c' e c'' : xhistory c es c' → xreg c' e c'' → xhistory c (es ++ [e]) c''.
Proof.
  induction 1 as [c|c x d es c' Hx Hh IH]; intros Hr; cbn [app]; [econstructor; [done|constructor]|]. econstructor; [done|]. by apply IH.
Qed.
Lemma xon_file_snoc i tr e : xon_file i (tr ++ [e]) = xon_file i tr ++ (if decide (xev_ino e = Some i) then [e] else []).
Proof. unfold xon_file. by rewrite filter_app. Qed.
Lemma xexec_inv A tr s : xexec A tr s → ∃ ms, glinv always ms s ∧ ∀ i, xhistory None (xon_file i tr) (ms !! i).
Proof.
  induction 1 as [|tr s e s' Hex (ms & Hl & Hh) Hst].
  - exists ∅. split; [|intros i; rewrite lookup_empty; constructor].
    split; cbn [lstate_init s_dir s_inodes s_threads]; intros *; rewrite lookup_empty; try done. by intros [].
  - destruct (xlinv_step A ms s e s' Hl Hst) as (ms' & Hl' & Hf). exists ms'. split; [done|].
    intros i. specialize (Hf i). destruct e as [e|]; [change (option_list (Some e)) with [e]|change (option_list (@None xlev)) with (@nil xlev)].
    + rewrite xon_file_snoc. case_decide; [by eapply xhistory_snoc|by rewrite app_nil_r, Hf].
    + by rewrite app_nil_r, Hf.
Qed.
Lemma cancel_file A tr s i : xexec A tr s → ∃ c, xhistory None (xon_file i tr) c.
Proof. intros H. destruct (xexec_inv A tr s H) as (ms & _ & Hh). by exists (ms !! i). Qed.

(** ** calls that are given up before they change anything *)
Lemma returned_app tr tr' : returned (tr ++ tr') = returned tr ++ returned tr'.
Proof. induction tr as [|e tr IH]; [done|]. destruct e; cbn [app returned]; by rewrite IH. Qed.
Lemma returned_stop t p r : returned [stop_event t p r] = [].
Proof. by destruct p. Qed.
Lemma released_dir s t p : s_dir (released s t p) = s_dir s.
Proof. by destruct p; cbn [released]; try case_match. Qed.
Lemma released_names s t p i nd : s_inodes (released s t p) !! i = Some nd → ∃ nd', s_inodes s !! i = Some nd' ∧ i_name nd' = i_name nd.
Proof.
  destruct p; cbn [released]; try (by exists nd); case_match; try (by exists nd); cbn [put s_inodes]; intros Hi;
  apply lookup_insert_Some in Hi as [[<- <-]|[_ Hi]]; by eexists.
Qed.
Lemma before_names tr s n : xexec unchanged_yet tr s → ¬ deleted n (returned tr) →
  ∃ ms, linv ms s ∧ one_file n s ∧ (∀ i, history reg None (on_file i (returned tr)) (ms !! i)) ∧
        history name_reg None (on_name n (returned tr)) (name_state ms s n).
Proof.
  induction 1 as [|tr s e s' Hex IH Hst]; intros Hnd.
  - exists ∅. split; [apply linv_init|]. split; [by intros i nd; cbn [lstate_init s_inodes]; rewrite lookup_empty|].
    split; [intros i; rewrite lookup_empty; constructor|]. unfold name_state; cbn [lstate_init s_dir]. rewrite lookup_empty. constructor.
  - rewrite returned_app in Hnd. destruct IH as (ms & Hinv & H1 & Hf & Hh).
    { intros [t Hin]. apply Hnd. exists t. apply elem_of_app. by left. }
    rewrite returned_app. destruct Hst as [s e s' Hst|s t p r Ht Hp _|s t n' i Ht [] Hd].
    + assert (∀ t, e ≠ Some (EvDelete t n true)) as Hnd'.
      { intros t ->. apply Hnd. exists t. apply elem_of_app. right. by left. }
      assert (returned (option_list (Returned <$> e)) = option_list e) as -> by (by destruct e).
      destruct (linv_lstep _ _ _ _ Hinv Hst) as (ms' & Hinv' & Hf'). exists ms'. split; [done|].
      split; [by eapply one_file_step|]. split.
      * intros i. specialize (Hf' i). destruct e as [e|]; [change (option_list (Some e)) with [e]|change (option_list (@None lev)) with (@nil lev)].
        -- rewrite on_file_app. case_decide; [by eapply history_snoc|by rewrite app_nil_r, Hf'].
        -- by rewrite app_nil_r, Hf'.
      * pose proof (name_step _ _ _ _ _ n Hinv Hinv' Hst Hf' H1 Hnd') as Hs. destruct e as [e|]; [change (option_list (Some e)) with [e]|change (option_list (@None lev)) with (@nil lev)].
        -- rewrite on_name_app. case_decide; [by eapply history_snoc|by rewrite app_nil_r, Hs].
        -- by rewrite app_nil_r, Hs.
    + change (option_list (Some (stop_event t p r))) with [stop_event t p r]. rewrite returned_stop, app_nil_r.
      exists ms. split; [by apply stop_before|]. split; [|split; [done|]].
      * intros i nd Hi Hn. cbn [leave s_inodes s_dir] in *. rewrite released_dir.
        destruct (released_names s t p i nd Hi) as (nd' & Hi' & Hn'). apply (H1 i nd' Hi'). congruence.
      * unfold name_state in *. cbn [leave s_dir]. by rewrite released_dir.
Qed.
Lemma before_file tr s i : xexec unchanged_yet tr s → ∃ c, history reg None (on_file i (returned tr)) c.
Proof.
  intros H. enough (∃ ms, linv ms s ∧ ∀ i, history reg None (on_file i (returned tr)) (ms !! i)) as (ms & _ & Hh) by (by exists (ms !! i)). revert H. clear i.
  induction 1 as [|tr s e s' Hex (ms & Hinv & Hf) Hst].
  - exists ∅. split; [apply linv_init|]. intros i; rewrite lookup_empty; constructor.
  - rewrite returned_app. destruct Hst as [s e s' Hst|s t p r Ht Hp _|s t n' i Ht [] Hd].
    + assert (returned (option_list (Returned <$> e)) = option_list e) as -> by (by destruct e).
      destruct (linv_lstep _ _ _ _ Hinv Hst) as (ms' & Hinv' & Hf'). exists ms'. split; [done|].
      intros i. specialize (Hf' i). destruct e as [e|]; [change (option_list (Some e)) with [e]|change (option_list (@None lev)) with (@nil lev)].
      * rewrite on_file_app. case_decide; [by eapply history_snoc|by rewrite app_nil_r, Hf'].
      * by rewrite app_nil_r, Hf'.
    + change (option_list (Some (stop_event t p r))) with [stop_event t p r]. rewrite returned_stop, app_nil_r.
      exists ms. split; [by apply stop_before|done].
Qed.
Lemma before_name tr s n : xexec unchanged_yet tr s → ¬ deleted n (returned tr) → ∃ c, history name_reg None (on_name n (returned tr)) c.
Proof. intros H Hd. destruct (before_names tr s n H Hd) as (ms & _ & _ & _ & Hh). by exists (name_state ms s n). Qed.

(** ** the others go on *)
Lemma writers_move s s' t p q : writers s → s_threads s !! t = Some p → s_threads s' = <[t := q]> (s_threads s) →
  (∀ i nd u, s_inodes s' !! i = Some nd → i_excl nd = Some u →
     (u = t ∧ holds q = Some i) ∨ (u ≠ t ∨ holds q = holds p) ∧ ∃ nd', s_inodes s !! i = Some nd' ∧ i_excl nd' = Some u) → writers s'.
Proof.
  intros Hs Ht Hs' H i nd u Hi Hu. unfold holding. rewrite Hs'. destruct (H i nd u Hi Hu) as [[-> Hq]|[Hne (nd' & Hi' & Hu')]].
  - by rewrite lookup_insert.
  - pose proof (Hs i nd' u Hi' Hu') as Hh. unfold holding in Hh. destruct (decide (u = t)) as [->|Hn]; [|by rewrite lookup_insert_ne].
    rewrite lookup_insert. rewrite Ht in Hh. destruct Hne as [?|Hq]; [done|]. by rewrite Hq.
Qed.
Lemma writers_leave s s' t p : writers s → s_threads s !! t = Some p → s_threads s' = delete t (s_threads s) →
  (∀ i nd u, s_inodes s' !! i = Some nd → i_excl nd = Some u →
     holds p ≠ Some i ∧ ∃ nd', s_inodes s !! i = Some nd' ∧ i_excl nd' = Some u) → writers s'.
Proof.
  intros Hs Ht Hs' H i nd u Hi Hu. unfold holding. rewrite Hs'. destruct (H i nd u Hi Hu) as [Hne (nd' & Hi' & Hu')].
  pose proof (Hs i nd' u Hi' Hu') as Hh. unfold holding in Hh. destruct (decide (u = t)) as [->|Hn]; [by rewrite Ht in Hh|].
  by rewrite lookup_delete_ne.
Qed.
Lemma writers_step s e s' : writers s → lstep s e s' → writers s'.
Proof.
  intros Hs Hst. inversion Hst; subst; clear Hst;
  try (match goal with
  | H : s_threads ?s !! ?t = None |- writers (goto ?s ?t ?q) =>
      intros i nd u Hi Hu; pose proof (Hs i nd u Hi Hu) as Hh; unfold holding in *; cbn [goto s_threads];
      rewrite lookup_insert_ne; [done|]; intros ->; by rewrite H in Hh
  end);
  match goal with H : s_threads ?s !! ?t = Some ?p |- _ =>
    first [eapply (writers_move s _ t p _ Hs H); [reflexivity|]|eapply (writers_leave s _ t p Hs H); [reflexivity|]] end;
  intros j nd' u Hj Hu; cbn [goto leave put s_inodes] in Hj;
  try (apply lookup_insert_Some in Hj as [[<- <-]|[? Hj]]);
  cbn [set_data lock_excl unlock_excl lock_shared unlock_shared i_excl] in Hu; try done;
  try (injection Hu as <-; by left);
  try (solve [right; split; [by right|eauto]]);
  try (solve [split; [cbn [holds]; congruence|eauto]]);
  match goal with H : s_threads s !! ?t = _ |- _ =>
    right; split; [left; intros E; rewrite E in Hu; specialize (Hs j nd' t Hj Hu); unfold holding in Hs; rewrite H in Hs; done|eauto] end.
Qed.
Lemma released_threads s t p : s_threads (released s t p) = s_threads s.
Proof. by destruct p; cbn [released]; try case_match. Qed.
Lemma released_inode s t p i nd : s_inodes (released s t p) !! i = Some nd →
  s_inodes s !! i = Some nd ∧ holds p ≠ Some i ∧ ¬ reads p i ∨
  (∃ nd', s_inodes s !! i = Some nd' ∧ ((holds p = Some i ∧ (∀ j, ¬ reads p j) ∧ nd = unlock_excl nd') ∨ (reads p i ∧ holds p = None ∧ nd = unlock_shared nd' t))).
Proof.
  destruct p as [n|n i'|n i'|n i' d|l nl|l nl i'|l nl i'|l nl i' d|l nl i' pos rest|n|n|n i'|n i' pos rest|n]; cbn [released holds reads];
  try (intros Hi; left; split_and!; [done|done|by intros []]);
  (destruct (s_inodes s !! i') as [nd'|] eqn:E; cbn [put s_inodes]; intros Hi;
  [apply lookup_insert_Some in Hi as [[<- <-]|[Hne Hi]]|]; [right; exists nd'; split; [done|]|left; split_and!; [done|congruence|congruence||by intros []]|left; split_and!; [done|congruence|congruence||by intros []]]).
  all: first [left; split_and!; [done|by intros ? []|done]|right; split_and!; done].
Qed.
Lemma writers_stop s t p : writers s → s_threads s !! t = Some p → writers (leave (released s t p) t).
Proof.
  intros Hs Ht. eapply (writers_leave s _ t p Hs Ht); [cbn [leave s_threads]; by rewrite released_threads|].
  intros i nd u Hi Hu. cbn [leave s_inodes] in Hi. destruct (released_inode s t p i nd Hi) as [(Hi' & Hh & _)|(nd' & Hi' & [(Hh & _ & ->)|(Hr & Hh & ->)])].
  - split; [done|eauto].
  - done.
  - split; [by rewrite Hh|]. exists nd'. done.
Qed.
Lemma readers_stop s t p : readers s → s_threads s !! t = Some p → readers (leave (released s t p) t).
Proof.
  intros Hs Ht. eapply (readers_leave s _ t p Hs Ht); [cbn [leave s_threads]; by rewrite released_threads|].
  intros i nd u Hi Hu. cbn [leave s_inodes] in Hi. destruct (released_inode s t p i nd Hi) as [(Hi' & _ & Hr)|(nd' & Hi' & [(Hh & Hr & ->)|(Hr & Hh & ->)])].
  - split; [|eauto]. left. intros ->. destruct (Hs i nd t Hi' Hu) as (q & Hq & Hqr). rewrite Ht in Hq. injection Hq as <-. done.
  - split; [by right|eauto].
  - cbn [unlock_shared i_shared] in Hu. apply elem_of_list_filter in Hu as [Hne Hu]. split; [by left|eauto].
Qed.
Lemma xwriters A tr s : xexec A tr s → writers s ∧ readers s.
Proof.
  induction 1 as [|tr s e s' _ [Hw Hr] Hst]; [done|]. destruct Hst as [s e s' Hst|s t p r Ht _ _|s t n i Ht _ Hd].
  - split; [by apply (writers_step s e)|by apply (readers_step s e)].
  - split; [by apply writers_stop|by apply readers_stop].
  - split.
    + eapply (writers_leave s _ t _ Hw Ht); [reflexivity|]. intros j nd u Hj Hu. split; [done|eauto].
    + eapply (readers_leave s _ t _ Hr Ht); [reflexivity|]. intros j nd u Hj Hu. split; [right; by intros ? []|eauto].
Qed.
Lemma cancel_go_on A tr s : xexec A tr s → s_threads s ≠ ∅ → ∃ s', goes_on s s'.
Proof.
  intros H. destruct (xexec_inv A tr s H) as (ms & Hl & _). destruct (xwriters A tr s H) as [Hw Hr]. exact (can_go_on ms s Hl Hw Hr).
Qed.
Lemma cancel_finish A tr s : xexec A tr s → ∃ s', rtc goes_on s s' ∧ s_threads s' = ∅.
Proof.
  remember (msum cost (s_threads s)) as m eqn:Em. revert tr s Em. induction (lt_wf m) as [m _ IH]. intros tr s -> He.
  destruct (decide (s_threads s = ∅)) as [Hz|Hnz]; [by exists s|].
  destruct (cancel_go_on A tr s He Hnz) as (s1 & Hs1). pose proof Hs1 as ([e Hst] & _).
  destruct (IH _ (goes_on_cost s s1 Hs1) (tr ++ option_list (Returned <$> e)) s1 eq_refl) as (s2 & Hs2 & Hz).
  - apply (xexec_step A tr s _ s1 He). by apply x_step.
  - exists s2. split; [by eapply rtc_l|done].
Qed.

(** ** a label that is lost stays lost *)
(** nobody is making the file any more *)
Definition made (s : lstate) (i : ino) : Prop := is_Some (s_inodes s !! i) ∧ ∀ t, making s t ≠ Some i.
Lemma made_move s s' t q i : made s i → s_threads s' = <[t := q]> (s_threads s) → makes q ≠ Some i → is_Some (s_inodes s' !! i) → made s' i.
Proof.
  intros [_ Hs] Hs' Hq Hi. split; [done|]. intros u. unfold making. rewrite Hs'. specialize (Hs u). unfold making in Hs.
  destruct (decide (u = t)) as [->|Hn]; [by rewrite lookup_insert|by rewrite lookup_insert_ne].
Qed.
Lemma made_leave s s' t i : made s i → s_threads s' = delete t (s_threads s) → is_Some (s_inodes s' !! i) → made s' i.
Proof.
  intros [_ Hs] Hs' Hi. split; [done|]. intros u. unfold making. rewrite Hs'. specialize (Hs u). unfold making in Hs.
  destruct (decide (u = t)) as [->|Hn]; [by rewrite lookup_delete|by rewrite lookup_delete_ne].
Qed.
Lemma put_some s i j nd : is_Some (s_inodes s !! j) → is_Some (s_inodes (put s i nd) !! j).
Proof. intros H. cbn [put s_inodes]. destruct (decide (i = j)) as [->|?]; [rewrite lookup_insert; by eexists|by rewrite lookup_insert_ne]. Qed.
Lemma made_step s e s' i : made s i → lstep s e s' → made s' i.
Proof.
  intros Hm Hst. pose proof Hm as [Hi Hno].
  inversion Hst; subst; clear Hst;
  match goal with H : s_threads s !! ?u = _ |- _ =>
    first [eapply (made_leave s _ u i Hm); [reflexivity|]|eapply (made_move s _ u _ i Hm); [reflexivity| |]] end;
  try (solve [cbn [makes]; done]);
  try (solve [cbn [goto leave s_inodes]; first [done|by apply put_some]]);
  try (match goal with H : s_threads _ !! ?u = Some ?p |- makes _ ≠ Some i =>
     specialize (Hno u); unfold making in Hno; rewrite H in Hno; exact Hno end).
  - cbn [makes]. intros [= ->]. match goal with H : s_inodes s !! i = None |- _ => rewrite H in Hi; by destruct Hi end.
Qed.
Lemma made_xstep A s e s' i : made s i → xstep A s e s' → made s' i.
Proof.
  intros Hm Hst. destruct Hst as [s e s' Hst|s t p r Ht _ _|s t n j Ht _ Hd]; [by eapply made_step| |].
  - eapply (made_leave s _ t i Hm); [cbn [leave s_threads]; by rewrite released_threads|]. destruct Hm as [Hi _]. cbn [leave s_inodes].
    destruct p; cbn [released]; try done; case_match; try done; by apply put_some.
  - eapply (made_leave s _ t i Hm); [reflexivity|]. by destruct Hm.
Qed.
Lemma made_some {K} ms s i : glinv K ms s → is_Some (ms !! i) → made s i.
Proof.
  intros Hl Hs. split; [by apply (linv_ms K ms s Hl)|]. intros t. unfold making. destruct (s_threads s !! t) as [p|] eqn:Et; [|done].
  pose proof (linv_thread K ms s Hl t p Et) as Hok. destruct Hs as [l Hs].
  destruct p; cbn [makes]; try done; intros [= ->]; cbn [thread_ok] in Hok; destruct Hok as (nd & _ & _ & _ & Hm & _); congruence.
Qed.
Lemma lost_xstep A ms ms' s e s' i : xstep A s (Some e) s' → made s i → ms !! i = None → xfollows ms ms' (Some e) →
  ms' !! i = None ∧ (xev_ino e = Some i → ∀ ev, e = Returned ev → fails ev).
Proof.
  intros Hst [_ Hno] Hm Hf. specialize (Hf i). cbn in Hf. case_decide as Hd; [|split; [congruence|done]].
  rewrite Hm in Hf. 
  assert (∀ t n j r, e ≠ Returned (EvCreate t n j (Ok r)) ∧ (∀ o, e ≠ StopCreate t n j o)) as Hnc.
  { intros t n j r. specialize (Hno t). unfold making in Hno. inversion Hst as [s0 e0 s1 Hst' E0 E E1|s0 t0 p r0 Ht _ _ E0 E E1|s0 t0 n0 i0 Ht _ Hdd E0 E E1]; subst.
    - destruct e0 as [e0|]; [|done]. injection E as <-. split; [|done]. intros [= ->]. cbn [xev_ino ev_ino] in Hd. subst j.
      inversion Hst'; subst. match goal with H : s_threads s !! t = Some _ |- _ => rewrite H in Hno; done end.
    - split; [by destruct p|]. intros o Hc. destruct p; cbn [stop_event xev_ino] in *; try done; injection Hc as -> _ _ _; injection Hd as ->; rewrite Ht in Hno; done.
    - split; done. }
  split.
  - destruct (ms' !! i) eqn:E; [|done]. exfalso. inversion Hf as [c e0 c' Hr| | | | | | | |]; subst.
    + inversion Hr; subst. by eapply (proj1 (Hnc _ _ _ _)).
    + by eapply (proj2 (Hnc _ _ _ (Label n None 0))).
  - intros _ ev ->. inversion Hf as [c e0 c' Hr|t n j k|t l nl j k| | | | | |]; subst; cbn [fails]; [|by exists k|by exists k].
    inversion Hr; subst; cbn [fails]; [|by eexists|by eexists]. exfalso. eapply (proj1 (Hnc _ _ _ _)); reflexivity.
Qed.

(** reading a label from a file, and failing to *)
Lemma read_state ms ms' t n i l : xfollows ms ms' (Some (Returned (EvGet t n (Some i) (Ok (Some l))))) → ms' !! i = Some l.
Proof.
  intros Hf. specialize (Hf i). cbn in Hf. case_decide; [|done].
  inversion Hf as [c e c' Hr| | | | | | | |]; subst. inversion Hr; subst; done.
Qed.
Lemma failed_state ms ms' t n i k : xfollows ms ms' (Some (Returned (EvGet t n (Some i) (Err k)))) → ms' !! i = None.
Proof.
  intros Hf. specialize (Hf i). cbn in Hf. case_decide; [|done].
  inversion Hf as [c e c' Hr| | | | | | | |]; subst; [|done]. inversion Hr; subst; done.
Qed.
Definition read_from (i : ino) (e : xlev) : Prop := ∃ t n l, e = Returned (EvGet t n (Some i) (Ok (Some l))).
Definition failed_on (i : ino) (e : xlev) : Prop := ∃ t n k, e = Returned (EvGet t n (Some i) (Err k)).
Lemma snoc_split {X : Type} (tr : list X) e a x b : tr ++ [e] = a ++ x :: b → (b = [] ∧ x = e ∧ a = tr) ∨ ∃ b', b = b' ++ [e] ∧ tr = a ++ x :: b'.
Proof.
  destruct b as [|y b'] using rev_ind.
  - intros H. apply app_inj_tail in H as [-> ->]. by left.
  - clear IHb'. intros H. right. exists b'. change (a ++ x :: b' ++ [y]) with (a ++ (x :: b') ++ [y]) in H. rewrite app_assoc in H.
    apply app_inj_tail in H as [-> ->]. done.
Qed.
Lemma lost_inv A tr s i : xexec A tr s → ∃ ms, glinv always ms s ∧
  (∀ a x b, tr = a ++ x :: b → read_from i x → made s i) ∧
  (∀ a x b y c, tr = a ++ x :: b ++ y :: c → read_from i x → failed_on i y →
     ms !! i = None ∧ ∀ ev, Returned ev ∈ c → ev_ino ev = Some i → fails ev).
Proof.
  induction 1 as [|tr s e s' Hex (ms & Hl & H1 & H2) Hst].
  - exists ∅. split; [|split; [intros a x b E; by destruct a|intros a x b y c E; by destruct a]].
    split; cbn [lstate_init s_dir s_inodes s_threads]; intros *; rewrite lookup_empty; try done. by intros [].
  - destruct (xlinv_step A ms s e s' Hl Hst) as (ms' & Hl' & Hf). exists ms'. split; [done|].
    destruct e as [e|]; [change (option_list (Some e)) with [e]|change (option_list (@None xlev)) with (@nil xlev); rewrite app_nil_r].
    + split.
      * intros a x b E Hx. destruct (snoc_split _ _ _ _ _ E) as [(-> & -> & ->)|(b' & -> & Htr)].
        -- destruct Hx as (t & n & l & ->). apply (made_some ms' s' i Hl'). rewrite (read_state _ _ _ _ _ _ Hf). by eexists.
        -- eapply made_xstep; [by eapply H1|exact Hst].
      * intros a x b y c E Hx Hy. rewrite (app_assoc a (x :: b) (y :: c) : a ++ x :: b ++ y :: c = _) in E.
        destruct (snoc_split _ _ _ _ _ E) as [(-> & -> & Htr)|(c' & -> & Htr)].
        -- destruct Hy as (t & n & k & ->). split; [exact (failed_state _ _ _ _ _ _ Hf)|]. intros ev Hev. by apply elem_of_nil in Hev.
        -- rewrite <- (app_assoc a (x :: b) (y :: c') : a ++ x :: b ++ y :: c' = _) in Htr.
           destruct (H2 _ _ _ _ _ Htr Hx Hy) as [Hm Hc]. pose proof (H1 _ _ _ Htr Hx) as Hmade.
           destruct (lost_xstep A ms ms' s e s' i Hst Hmade Hm Hf) as [Hm' He]. split; [done|].
           intros ev Hev Hi. apply elem_of_app in Hev as [Hev|Hev]; [by apply Hc|]. apply elem_of_list_singleton in Hev. subst e.
           by apply (He Hi ev).
    + split; [intros a x b E Hx; eapply made_xstep; [by eapply H1|exact Hst]|].
      intros a x b y c E Hx Hy. specialize (Hf i). cbn in Hf. rewrite Hf. by eapply H2.
Qed.
Lemma lost_for_ever A tr1 tr2 tr3 s i t n l t' n' k :
  xexec A (tr1 ++ Returned (EvGet t n (Some i) (Ok (Some l))) :: tr2 ++ Returned (EvGet t' n' (Some i) (Err k)) :: tr3) s →
  ∀ ev, Returned ev ∈ tr3 → ev_ino ev = Some i → fails ev.
Proof.
  intros H. destruct (lost_inv A _ s i H) as (ms & _ & _ & H2).
  destruct (H2 _ _ _ _ _ eq_refl) as [_ Hc]; [by eexists _, _, _|by eexists _, _, _|exact Hc].
Qed.

(** ** an update that is given up is one that was asked for *)
Lemma stopped_updates A tr s t l nl i r : xexec A tr s → StopSet t l nl i r ∈ tr → updates l nl.
Proof.
  induction 1 as [|tr s e s' Hex IH Hst]; [by intros ?%elem_of_nil|]. rewrite elem_of_app. intros [Hi|Hi]; [by apply IH|].
  destruct (xexec_inv A tr s Hex) as (ms & Hl & _).
  destruct Hst as [s e s' Hst|s u p r' Ht _ _|s u n j Ht _ _].
  - destruct e as [e|]; [|by apply elem_of_nil in Hi]. by apply elem_of_list_singleton in Hi.
  - apply elem_of_list_singleton in Hi. pose proof (linv_thread _ _ _ Hl u p Ht) as Hok.
    destruct p; cbn [stop_event] in Hi; try done; cbn [thread_ok] in Hok; injection Hi as -> -> -> -> ->; apply Hok.
  - by apply elem_of_list_singleton in Hi.
Qed.
Lemma stopped_asked A s e s' t a : xstep A s (Some e) s' → given_up e = Some (t, a) →
  ∃ p, s_threads s !! t = Some p ∧ asks p = a ∧ A p ∧ s_threads s' = delete t (s_threads s) ∧
    ((∀ n, a ≠ AskDelete n) → s_dir s' = s_dir s).
Proof.
  intros H E. inversion H as [? e0 ? Hst Heq|? u p r Ht HA Hr|? u n i Ht HA Hd]; subst; clear H.
  - destruct e0; [|done]. by simplify_eq/=.
  - assert (t = u ∧ asks p = a) as [-> Ha] by (destruct p; cbn in E; by simplify_eq).
    exists p. split; [done|]. split; [done|]. split; [done|]. unfold leave, released. split; [|intros _]; destruct p; cbn; try done; by destruct (s_inodes s !! _).
  - cbn in E. injection E as <- <-. exists (PDel n). split_and!; [done..|]. intros Hn. by destruct (Hn n).
Qed.
