(** Listings of labels: what is listed, and when a listing fails. *)
From Verif Require Import Prelude ListFacts Names SpecText NamesFacts LabelConc LabelSpec LabelConcFacts LabelList SpecList.

(** ** Steps *)
Lemma step_one s e s' : lstep s e s' → ∃ u, (∀ v, v ≠ u → s_threads s' !! v = s_threads s !! v) ∧
  match e with Some (EvGet t _ _ _) => t = u ∧ is_Some (s_threads s !! t) ∧ s_threads s' !! t = None | _ => True end.
Proof.
  intros H. destruct H; exists t; cbn [goto leave put s_threads]; split; try exact I.
  all: try (intros v Hv; by rewrite ?lookup_insert_ne, ?lookup_delete_ne by done).
  all: split; [done|]; split; [by eexists|]; by rewrite lookup_delete.
Qed.
Lemma get_dir s t n i r s' : lstep s (Some (EvGet t n i r)) s' → s_dir s' = s_dir s.
Proof. by inversion 1. Qed.
Definition at_pc (n : bytes) (p : pc) : Prop :=
  match p with PGetOpen m | PGetLock m _ | PGetRead m _ | PGetDone m _ _ => m = n | _ => False end.
Definition pc_ino (p : pc) : option ino :=
  match p with PGetLock _ i | PGetRead _ i | PGetDone _ i _ => Some i | _ => None end.
Definition thread_good (s : lstate) (t : tid) (L : lister) : Prop :=
  match l_at L with
  | None => s_threads s !! t = None
  | Some n => ∃ p, s_threads s !! t = Some p ∧ at_pc n p ∧ ∀ j, pc_ino p = Some j → n ∈ l_stay L → s_dir s !! n = Some j
  end.
Definition dir_step (s s' : lstate) (es : list xev) : Prop :=
  s_dir s' = s_dir s ∨ (∃ m i, s_dir s !! m = None ∧ s_dir s' = <[m := i]> (s_dir s)) ∨
  (∃ u m, XCall (EvDelete u m true) ∈ es ∧ s_dir s' = delete m (s_dir s)).
Lemma lstep_dir_step s e s' : lstep s e s' → dir_step s s' (XCall <$> option_list e).
Proof.
  intros H. destruct (step_dir s e s' H) as [[E _]|[(t & m & i & nd & _ & Hm & _ & _ & _ & E & _)|(t & m & i & -> & _ & E & _)]].
  - by left.
  - right; left. eauto.
  - right; right. exists t, m. split; [|done]. change (XCall <$> option_list (Some (EvDelete t m true))) with [XCall (EvDelete t m true)]. left.
Qed.
Lemma names_elem s n : n ∈ names_of s ↔ is_Some (s_dir s !! n).
Proof. unfold names_of. apply elem_of_dom. Qed.

(** ** The invariant of one listing *)
Record good (mid : list xev) (D : gmap bytes ino) (s : lstate) (t : tid) (L : lister) : Prop := {
  g_got : l_got L = entries t mid;
  g_names : l_seen L = (lb_name <$> l_got L) ++ option_list (l_at L);
  g_thread : thread_good s t L;
  g_ever n : n ∈ l_ever L → n ∈ names_of s ∨ xdeleted n mid;
  g_seen n : n ∈ l_seen L → n ∈ l_ever L;
  g_stay n : is_Some (D !! n) → ¬ xdeleted n mid → n ∈ l_stay L;
  g_stay_dir n : n ∈ l_stay L → s_dir s !! n = D !! n ∧ is_Some (D !! n);
  g_once n : n ∈ l_stay L → length (filter (λ m, m = n) (l_seen L)) ≤ 1;
  g_entries n j r : XEntry (EvGet t n (Some j) r) ∈ mid → n ∈ l_stay L → D !! n = Some j }.

Definition not_entry (t : tid) (x : xev) : Prop := match x with XEntry (EvGet u _ _ _) => u ≠ t | _ => True end.
Lemma entries_app t a b : entries t (a ++ b) = entries t a ++ entries t b.
Proof. apply omap_app. Qed.
Lemma entries_none t es : Forall (not_entry t) es → entries t es = [].
Proof.
  induction 1 as [|x es H _ IH]; [done|]. unfold entries in *. cbn. rewrite IH. destruct x as [| |e|]; [done|done| |done].
  destruct e as [u n i r| | |]; [|done..]. destruct r as [[l|]| |]; [|done..]. cbn in H. by rewrite decide_False.
Qed.
Lemma xdeleted_app n a b : xdeleted n (a ++ b) ↔ xdeleted n a ∨ xdeleted n b.
Proof. unfold xdeleted. setoid_rewrite elem_of_app. split; [intros (u & [?|?]); eauto|intros [[u ?]|[u ?]]; eauto]. Qed.
Lemma good_same mid D s t L s' es : good mid D s t L → s_dir s' = s_dir s → thread_good s' t L → Forall (not_entry t) es →
  good (mid ++ es) D s' t L.
Proof.
  intros [H1 H2 H3 H4 H5 H6 H7 H8 H9] Hd Ht He. split; [|done|done| |done| | |done|].
  - by rewrite entries_app, (entries_none t es He), app_nil_r.
  - intros n Hn. rewrite xdeleted_app. unfold names_of. rewrite Hd. destruct (H4 n Hn); auto.
  - intros n Hn Hx. apply H6; [done|]. intros Hy. apply Hx, xdeleted_app. by left.
  - intros n Hn. rewrite Hd. by apply H7.
  - intros n j r [Hi|Hi]%elem_of_app; [by apply (H9 n j r)|]. apply (proj1 (Forall_forall _ _) He) in Hi. by destruct Hi.
Qed.
Lemma dir_kept s s' es n : dir_step s s' es → is_Some (s_dir s !! n) → n ∈ names_of s' → s_dir s' !! n = s_dir s !! n.
Proof.
  intros [E|[(m & i & Hm & E)|(u & m & _ & E)]] Hn Hn'.
  - by rewrite E.
  - rewrite E, lookup_insert_ne; [done|]. intros ->. rewrite Hm in Hn. by destruct Hn.
  - apply names_elem in Hn'. rewrite E in Hn' |- *. destruct (decide (m = n)) as [->|Hne]; [rewrite lookup_delete in Hn'; by destruct Hn'|].
    by rewrite lookup_delete_ne.
Qed.
Lemma dir_lost s s' es n : dir_step s s' es → n ∈ names_of s → n ∈ names_of s' ∨ xdeleted n es.
Proof.
  rewrite !names_elem. intros [E|[(m & i & Hm & E)|(u & m & Hi & E)]] Hn.
  - left. by rewrite E.
  - left. rewrite E. destruct (decide (m = n)) as [->|]; [rewrite lookup_insert; by eexists|by rewrite lookup_insert_ne].
  - destruct (decide (m = n)) as [->|]; [right; by exists u|left; by rewrite E, lookup_delete_ne].
Qed.
Lemma good_watch mid D s t L s' es : good mid D s t L → dir_step s s' es → thread_good s' t (watch s' L) → Forall (not_entry t) es →
  good (mid ++ es) D s' t (watch s' L).
Proof.
  intros [H1 H2 H3 H4 H5 H6 H7 H8 H9] Hd Ht He. split; cbn [watch l_got l_seen l_at l_ever l_stay].
  - by rewrite entries_app, (entries_none t es He), app_nil_r.
  - done.
  - exact Ht.
  - intros n Hn. rewrite xdeleted_app. apply elem_of_union in Hn as [Hn|Hn]; [|by left].
    destruct (H4 n Hn) as [Hn'|?]; [|auto]. destruct (dir_lost s s' es n Hd Hn'); auto.
  - intros n Hn. apply elem_of_union. left. by apply H5.
  - intros n Hn Hx. rewrite xdeleted_app in Hx. assert (Hs : n ∈ l_stay L) by (apply H6; auto). apply elem_of_intersection. split; [done|].
    destruct (H7 n Hs) as [E [i Hi]]. assert (Hn' : n ∈ names_of s). { apply names_elem. rewrite E, Hi. by eexists. }
    destruct (dir_lost s s' es n Hd Hn') as [?|?]; [done|]. destruct Hx. by right.
  - intros n [Hs Hn]%elem_of_intersection. destruct (H7 n Hs) as [E Hi]. split; [|done].
    rewrite (dir_kept s s' es n Hd); [done|by rewrite E|done].
  - intros n [Hs _]%elem_of_intersection. by apply H8.
  - intros n j r [Hi|Hi]%elem_of_app [Hs _]%elem_of_intersection; [by apply (H9 n j r)|].
    apply (proj1 (Forall_forall _ _) He) in Hi. by destruct Hi.
Qed.
Lemma thread_watch mid D s t L s' es : good mid D s t L → dir_step s s' es → s_threads s' !! t = s_threads s !! t → thread_good s' t (watch s' L).
Proof.
  intros [_ _ H3 _ _ _ H7 _ _] Hd Ht. unfold thread_good in *. cbn [watch l_at l_stay]. destruct (l_at L) as [n|]; [|by rewrite Ht].
  destruct H3 as (p & Hp & Hn & Hj). exists p. split; [by rewrite Ht|]. split; [done|]. intros j E [Hs Hm]%elem_of_intersection.
  rewrite (dir_kept s s' es n Hd); [by apply Hj| |done]. rewrite (Hj j E Hs). by eexists.
Qed.
Lemma thread_same s t L s' : thread_good s t L → s_dir s' = s_dir s → s_threads s' !! t = s_threads s !! t → thread_good s' t L.
Proof. unfold thread_good. intros H Hd Ht. destruct (l_at L) as [n|]; [|by rewrite Ht]. destruct H as (p & ? & ? & ?). exists p. rewrite Ht, Hd. done. Qed.

(** a step of the listing itself *)
Lemma thread_read mid D s t L s' : good mid D s t L → l_at L ≠ None → lstep s None s' → s_threads s' !! t ≠ s_threads s !! t →
  thread_good s' t (watch s' L).
Proof.
  intros [_ _ H3 _ _ _ H7 _ _] Ha Hs Hne. unfold thread_good in *. cbn [watch l_at l_stay]. destruct (l_at L) as [n|]; [|done]. clear Ha.
  destruct H3 as (p & Hp & Hn & Hj). destruct (step_one s None s' Hs) as (u & Hu & _).
  assert (t = u) as <-. { destruct (decide (t = u)); [done|]. by rewrite Hu in Hne. }
  inversion Hs; subst; cbn [goto put s_threads s_dir] in *.
  all: match goal with H : s_threads _ !! ?v = _ |- _ => destruct (decide (v = t)) as [Ev|Hvt];
    [rewrite Ev in *; rewrite Hp in H; first [discriminate H|injection H as ->]|by rewrite lookup_insert_ne in Hne] end.
  all: cbn [at_pc] in Hn; try done; subst; eexists; (split; [apply lookup_insert|]); (split; [done|]); intros j Ej Hj2; injection Ej as <-; apply elem_of_intersection in Hj2 as [Hst _]; try done.
  all: by apply Hj.
Qed.
Lemma good_begin s t : s_threads s !! t = None → good [] (s_dir s) s t (Lister (names_of s) (names_of s) [] None []).
Proof.
  intros Ht. split; cbn [l_got l_seen l_at l_ever l_stay]; try done.
  - by left.
  - by intros n ?%elem_of_nil.
  - intros n Hn _. by apply names_elem.
  - intros n Hn. by apply names_elem in Hn.
  - intros n _. cbn. lia.
  - by intros n j r ?%elem_of_nil.
Qed.
Lemma good_next mid D s t L n : good mid D s t L → l_at L = None → n ∈ l_ever L → (n ∈ l_stay L → n ∉ l_seen L) →
  good mid D (goto s t (PGetOpen n)) t (next_entry L n).
Proof.
  intros [H1 H2 H3 H4 H5 H6 H7 H8 H9] Ha Hn Hs. split; cbn [next_entry l_got l_seen l_at l_ever l_stay]; try done.
  - rewrite H2, Ha. change (option_list (@None bytes)) with (@nil bytes). by rewrite app_nil_r.
  - exists (PGetOpen n). split; [apply lookup_insert|]. done.
  - intros m [Hm|Hm%elem_of_list_singleton]%elem_of_app; [by apply H5|by subst].
  - intros m Hm. rewrite filter_app, app_length. destruct (decide (n = m)) as [->|Hne].
    + rewrite filter_cons, decide_True, filter_nil by done. cbn [length].
      assert (length (filter (λ m0, m0 = m) (l_seen L)) = 0) as ->; [|done].
      apply length_zero_iff_nil. apply elem_of_nil_inv. intros x [-> Hx]%elem_of_list_filter. by apply Hs.
    + rewrite (filter_cons _ n), decide_False, filter_nil by done. cbn [length]. rewrite Nat.add_0_r. by apply H8.
Qed.
Lemma label_name n d l : get_label_from_data n d = Ok l → lb_name l = n.
Proof.
  unfold get_label_from_data. intros H. destruct (text_lines (from_utf8_lossy d)) as [|v [|x [|? ?]]]; try discriminate H.
  destruct (from_str_radix 10 u64_max v); [|discriminate H]. destruct x as [|y x]; [by injection H as <-|].
  destruct (string_to_name (y :: x)); cbn [obind] in H; try discriminate H. by injection H as <-.
Qed.
Lemma get_event s t n i r s' : lstep s (Some (EvGet t n i r)) s' →
  match i with
  | None => r = Ok None ∧ s_dir s !! n = None ∧ s_threads s !! t = Some (PGetOpen n)
  | Some j => ∃ d, r = get_result (get_label_from_data n d) ∧ s_threads s !! t = Some (PGetDone n j d)
  end.
Proof. inversion 1; subst; eauto. Qed.
Lemma get_event_name s t n i l s' : lstep s (Some (EvGet t n i (Ok (Some l)))) s' → ∃ j, i = Some j ∧ lb_name l = n.
Proof.
  intros H. apply get_event in H. destruct i as [j|]; [|by destruct H]. exists j. split; [done|]. destruct H as (d & E & _).
  destruct (get_label_from_data n d) as [l'|k|] eqn:E'; cbn in E; [|destruct k; discriminate E|discriminate E].
  injection E as ->. by apply label_name in E'.
Qed.
Lemma good_got mid D s t L n i l s' : good mid D s t L → l_at L = Some n → lstep s (Some (EvGet t n i (Ok (Some l)))) s' →
  good (mid ++ [XEntry (EvGet t n i (Ok (Some l)))]) D s' t (push_label L l).
Proof.
  intros [H1 H2 H3 H4 H5 H6 H7 H8 H9] Ha Hs. pose proof (get_dir _ _ _ _ _ _ Hs) as Hd. destruct (get_event_name _ _ _ _ _ _ Hs) as (j & -> & Hn).
  destruct (step_one _ _ _ Hs) as (u & _ & <- & _ & Ht').
  assert (Hx : ∀ m, xdeleted m (mid ++ [XEntry (EvGet t n (Some j) (Ok (Some l)))]) ↔ xdeleted m mid).
  { intros m. rewrite xdeleted_app. split; [|by left]. intros [?|[v Hv%elem_of_list_singleton]]; done. }
  split; cbn [push_label l_got l_seen l_at l_ever l_stay].
  - rewrite entries_app, H1. f_equal. unfold entries. cbn. by rewrite decide_True.
  - rewrite H2, Ha, fmap_app. change (option_list (Some n)) with [n]. change (option_list (@None bytes)) with (@nil bytes).
    rewrite app_nil_r. cbn [fmap list_fmap]. by rewrite Hn.
  - exact Ht'.
  - intros m Hm. rewrite Hx. unfold names_of. rewrite Hd. by apply H4.
  - done.
  - intros m. rewrite Hx. apply H6.
  - intros m. rewrite Hd. apply H7.
  - done.
  - intros m k r [Hi|Hi]%elem_of_app Hm; [by apply (H9 m k r)|]. apply elem_of_list_singleton in Hi. injection Hi as -> -> _.
    apply get_event in Hs as (d & _ & Hp). unfold thread_good in H3. rewrite Ha in H3. destruct H3 as (p & Hp' & _ & Hj).
    rewrite Hp in Hp'. injection Hp' as <-. destruct (H7 n Hm) as [<- _]. by apply Hj.
Qed.

(** ** The invariant *)
Definition xinv (tr : list xev) (s : xstate) : Prop := ∀ t L, s.2 !! t = Some L →
  ∃ pre D mid, tr = pre ++ XBegin t D :: mid ∧ (∀ D', XBegin t D' ∉ mid) ∧ good mid D s.1 t L.
Lemma forall_calls t es : Forall (not_entry t) (XCall <$> es).
Proof. apply Forall_fmap, Forall_true. done. Qed.
Lemma xinv_more tr (s s' : xstate) es (t : tid) (L L' : lister) : xinv tr s → s.2 !! t = Some L → (∀ D, XBegin t D ∉ es) →
  (∀ mid D, good mid D s.1 t L → good (mid ++ es) D s'.1 t L') →
  ∃ pre D mid, tr ++ es = pre ++ XBegin t D :: mid ∧ (∀ D', XBegin t D' ∉ mid) ∧ good mid D s'.1 t L'.
Proof.
  intros Hi HL He Hg. destruct (Hi t L HL) as (pre & D & mid & -> & Hm & HG). exists pre, D, (mid ++ es).
  split; [by rewrite <-app_assoc|]. split; [|by apply Hg]. intros D' [?|?]%elem_of_app; [by apply (Hm D')|by apply (He D')].
Qed.
Lemma xinv_exec tr s : xexec tr s → xinv tr s.
Proof.
  induction 1 as [|tr s es s' _ IH Hs]; [intros t L; cbn; by rewrite lookup_empty|].
  destruct Hs as [s e s' ls Hl Ht|s ls t Ht Hn|s ls t L n HL Ha Hn Hs|s s' ls t L HL Ha Hl Ht|s s' ls t L n i l HL Ha Hl|s s' ls t L n i r e HL Ha Hl He|s ls t L HL Ha Hs];
    intros u M HM; cbn [fst snd] in *.
  - rewrite lookup_fmap in HM. destruct (ls !! u) as [L|] eqn:HL; [|done]. injection HM as <-.
    pose proof (lstep_dir_step _ _ _ Hl) as Hd.
    apply (xinv_more tr (s, ls) (s', watch s' <$> ls) _ u L _ IH HL); [intros D ?%elem_of_list_fmap; naive_solver|].
    intros mid D HG. apply (good_watch _ _ s); [done|done| |apply forall_calls]. apply (thread_watch mid D s u L s' _ HG Hd), Ht. by eexists.
  - destruct (decide (u = t)) as [->|Hne].
    + rewrite lookup_insert in HM. injection HM as <-. exists tr, (s_dir s), []. split; [done|]. split; [by intros D ?%elem_of_nil|by apply good_begin].
    + rewrite lookup_insert_ne in HM by done. apply (xinv_more tr (s, ls) (s, ls) _ u M _ IH HM); [intros D ?%elem_of_list_singleton; congruence|].
      intros mid D HG. apply (good_same _ _ s); [done|done|by apply HG|by repeat constructor].
  - rewrite app_nil_r. destruct (decide (u = t)) as [->|Hne].
    + rewrite lookup_insert in HM. injection HM as <-. destruct (IH t L HL) as (pre & D & mid & E & Hm & HG).
      exists pre, D, mid. split; [done|]. split; [done|]. by apply good_next.
    + rewrite lookup_insert_ne in HM by done. destruct (IH u M HM) as (pre & D & mid & E & Hm & HG). exists pre, D, mid. split; [done|]. split; [done|].
      rewrite <-(app_nil_r mid). apply (good_same _ _ s); [done|done| |constructor].
      apply (thread_same s); [apply HG|done|]. cbn [goto s_threads]. by rewrite lookup_insert_ne.
  - rewrite lookup_fmap in HM. destruct (ls !! u) as [K|] eqn:HK; [|done]. injection HM as <-.
    pose proof (lstep_dir_step _ _ _ Hl) as Hd. change (XCall <$> option_list (@None lev)) with (@nil xev) in Hd.
    apply (xinv_more tr (s, ls) (s', watch s' <$> ls) _ u K _ IH HK); [by intros D ?%elem_of_nil|].
    intros mid D HG. apply (good_watch _ _ s); [done|done| |constructor]. destruct (decide (u = t)) as [->|Hne].
    + rewrite HL in HK. injection HK as <-. by apply (thread_read mid D s).
    + apply (thread_watch mid D s u K s' _ HG Hd). destruct (step_one _ _ _ Hl) as (v & Hv & _). apply Hv. intros ->.
      apply Ht, Hv. congruence.
  - destruct (step_one _ _ _ Hl) as (v & Hv & <- & _). destruct (decide (u = t)) as [->|Hne].
    + rewrite lookup_insert in HM. injection HM as <-. apply (xinv_more tr (s, ls) (s', ∅) _ t L _ IH HL); [intros D ?%elem_of_list_singleton; done|].
      intros mid D HG. by apply (good_got _ _ s).
    + rewrite lookup_insert_ne in HM by done. apply (xinv_more tr (s, ls) (s', ∅) _ u M _ IH HM); [intros D ?%elem_of_list_singleton; done|].
      intros mid D HG. pose proof (get_dir _ _ _ _ _ _ Hl) as Hd. apply (good_same _ _ s); [done|done| |repeat constructor; cbn; congruence].
      apply (thread_same s); [apply HG|done|by apply Hv].
  - destruct (step_one _ _ _ Hl) as (v & Hv & <- & _). apply lookup_delete_Some in HM as [Hne HM].
    apply (xinv_more tr (s, ls) (s', ∅) _ u M _ IH HM).
    { intros D. rewrite !elem_of_cons, elem_of_nil. intros [?|[?|[]]]; done. }
    intros mid D HG. pose proof (get_dir _ _ _ _ _ _ Hl) as Hd. apply (good_same _ _ s); [done|done| |repeat constructor; cbn; congruence].
    apply (thread_same s); [apply HG|done|]. apply Hv. congruence.
  - apply lookup_delete_Some in HM as [Hne HM]. apply (xinv_more tr (s, ls) (s, ∅) _ u M _ IH HM); [intros D ?%elem_of_list_singleton; done|].
    intros mid D HG. apply (good_same _ _ s); [done|done|by apply HG|by repeat constructor].
Qed.

(** ** Every run is a run of calls *)
Lemma calls_app a b : calls (a ++ b) = calls a ++ calls b.
Proof. apply omap_app. Qed.
Lemma xexec_lexec tr s : xexec tr s → lexec (calls tr) s.1.
Proof.
  induction 1 as [|tr s es s' Hx IH Hs]; [constructor|]. pose proof (xinv_exec tr s Hx) as Hi. rewrite calls_app.
  destruct Hs as [s e s' ls Hl Ht|s ls t Ht Hn|s ls t L n HL Ha Hn Hs|s s' ls t L HL Ha Hl Ht|s s' ls t L n i l HL Ha Hl|s s' ls t L n i r e HL Ha Hl He|s ls t L HL Ha Hs];
    cbn [fst snd] in *.
  - replace (calls (XCall <$> option_list e)) with (option_list e) by (by destruct e). by apply (lexec_step _ s).
  - change (calls [XBegin t (s_dir s)]) with (@nil lev). by rewrite app_nil_r.
  - destruct (Hi t L HL) as (pre & D & mid & _ & _ & HG). pose proof (g_thread _ _ _ _ _ HG) as HT. unfold thread_good in HT. rewrite Ha in HT.
    change (calls []) with (option_list (@None lev)). apply (lexec_step _ s); [done|]. by apply start_get.
  - change (calls []) with (option_list (@None lev)). by apply (lexec_step _ s).
  - change (calls [XEntry (EvGet t n i (Ok (Some l)))]) with (option_list (Some (EvGet t n i (Ok (Some l))))). by apply (lexec_step _ s).
  - change (calls [XEntry (EvGet t n i r); XList t e]) with (option_list (Some (EvGet t n i r))). by apply (lexec_step _ s).
  - change (calls [XList t (Ok (l_got L))]) with (@nil lev). by rewrite app_nil_r.
Qed.

(** ** The end of a listing *)
Lemma last_same {A} (P : A → Prop) (l1 l1' : list A) x x' l2 l2' : l1 ++ x :: l2 = l1' ++ x' :: l2' → P x → P x' →
  (∀ y, y ∈ l2 → ¬ P y) → (∀ y, y ∈ l2' → ¬ P y) → l1 = l1' ∧ x = x' ∧ l2 = l2'.
Proof.
  intros E Hx Hx' H H'. revert l1' E. induction l1 as [|y l1 IH]; intros [|y' l1'] E; cbn in E; injection E as E1 E2.
  - done.
  - exfalso. apply (H x'); [|done]. rewrite E2. apply elem_of_app. right. left.
  - exfalso. apply (H' x); [|done]. rewrite <-E2. apply elem_of_app. right. left.
  - destruct (IH l1' E2) as (-> & -> & ->). by rewrite E1.
Qed.
Lemma xexec_at tr s : xexec tr s → ∀ k t r, tr !! k = Some (XList t r) →
  ∃ tr0 s0 es0 s1, xexec tr0 s0 ∧ xstep s0 es0 s1 ∧ tr0 ++ es0 = take (S k) tr ∧ XList t r ∈ es0.
Proof.
  induction 1 as [|tr s es s' Hx IH Hs]; intros k t r Hk; [done|]. apply lookup_app_Some in Hk as [Hk|[Hle Hk]].
  - destruct (IH k t r Hk) as (tr0 & s0 & es0 & s1 & H1 & H2 & H3 & H4). exists tr0, s0, es0, s1. split; [done|]. split; [done|]. split; [|done].
    rewrite H3. symmetry. apply take_app_le. apply lookup_lt_Some in Hk. lia.
  - exists tr, s, es, s'. split; [done|]. split; [done|]. split; [|by apply elem_of_list_lookup_2 in Hk].
    rewrite take_ge; [done|]. rewrite app_length.
    assert (length es ≤ S (k - length tr)); [|lia].
    destruct Hs as [? e ? ? ? ?| | | | | |]; cbn [length]; [|lia..| |lia].
    + rewrite fmap_length. destruct e; cbn; lia.
    + destruct (k - length tr); [done|lia].
Qed.
Lemma listing_end tr s t pre D mid r : xexec tr s → listing tr t pre D mid r →
  (∃ s0 ls L, xexec (pre ++ XBegin t D :: mid) (s0, ls) ∧ good mid D s0 t L ∧ l_at L = None ∧ (∀ n, n ∈ l_stay L → n ∈ l_seen L) ∧ r = Ok (l_got L))
  ∨ (∃ mid' s0 s1 ls L n i r0, mid = mid' ++ [XEntry (EvGet t n i r0)] ∧ xexec (pre ++ XBegin t D :: mid') (s0, ls) ∧ good mid' D s0 t L ∧
       l_at L = Some n ∧ lstep s0 (Some (EvGet t n i r0)) s1 ∧ entry_error r0 = Some r).
Proof.
  intros Hx [[post E] Hm].
  destruct (xexec_at tr s Hx (length (pre ++ XBegin t D :: mid)) t r) as (tr0 & s0 & es0 & s1 & Hx0 & Hs & E0 & Hin).
  { rewrite E. replace (pre ++ XBegin t D :: mid ++ XList t r :: post) with ((pre ++ XBegin t D :: mid) ++ XList t r :: post) by (rewrite <-!app_assoc; reflexivity).
    by apply list_lookup_middle. }
  assert (E1 : tr0 ++ es0 = (pre ++ XBegin t D :: mid) ++ [XList t r]).
  { rewrite E0, E. replace (pre ++ XBegin t D :: mid ++ XList t r :: post) with (((pre ++ XBegin t D :: mid) ++ [XList t r]) ++ post)
      by (rewrite <-!app_assoc; reflexivity). apply take_app_alt. rewrite (app_length (pre ++ XBegin t D :: mid)). cbn [length]. lia. }
  clear E0 E. pose proof (xinv_exec tr0 s0 Hx0) as Hi.
  assert (Hgood : ∀ mid', (∀ D', XBegin t D' ∉ mid') → tr0 = pre ++ XBegin t D :: mid' → ∀ L, s0.2 !! t = Some L → good mid' D s0.1 t L).
  { intros mid' Hm' E L HL. destruct (Hi t L HL) as (pre2 & D2 & mid2 & E2 & Hm2 & HG). rewrite E in E2.
    assert (H1 : ∀ y, y ∈ mid' → ¬ ∃ D0, y = XBegin t D0) by (intros y Hy [D0 ->]; by apply (Hm' D0)).
    assert (H2 : ∀ y, y ∈ mid2 → ¬ ∃ D0, y = XBegin t D0) by (intros y Hy [D0 ->]; by apply (Hm2 D0)).
    destruct (last_same (λ x, ∃ D0, x = XBegin t D0) _ _ _ _ _ _ E2 (ex_intro _ D eq_refl) (ex_intro _ D2 eq_refl) H1 H2) as (_ & ED & ->).
    injection ED as ->. exact HG. }
  destruct Hs as [s0 e s1 ls Hl Ht|s0 ls u Ht Hn|s0 ls u L n HL Ha Hn Hs|s0 s1 ls u L HL Ha Hl Ht|s0 s1 ls u L n i l HL Ha Hl|s0 s1 ls u L n i r0 e HL Ha Hl He|s0 ls u L HL Ha Hs];
    cbn [fst snd] in *.
  - apply elem_of_list_fmap in Hin as (? & ? & _). done.
  - by apply elem_of_list_singleton in Hin.
  - by apply elem_of_nil in Hin.
  - by apply elem_of_nil in Hin.
  - by apply elem_of_list_singleton in Hin.
  - right. change [XEntry (EvGet u n i r0); XList u e] with ([XEntry (EvGet u n i r0)] ++ [XList u e]) in E1. rewrite app_assoc in E1.
    apply app_inj_tail in E1 as [E1 E2]. injection E2 as -> ->.
    destruct mid as [|y mid' _] using rev_ind; [by apply app_inj_tail in E1 as [_ E2]|].
    rewrite app_comm_cons, app_assoc in E1. apply app_inj_tail in E1 as [E1 <-].
    exists mid', s0, s1, ls, L, n, i, r0. split; [done|]. split; [by rewrite <-E1|]. split; [|done].
    apply Hgood; [|done|done]. intros D' H. apply (Hm D'), elem_of_app. by left.
  - left. apply app_inj_tail in E1 as [E1 E2]. injection E2 as -> <-. exists s0, ls, L. split; [by rewrite <-E1|]. split; [by apply Hgood|]. done.
Qed.

(** ** What is listed *)
Lemma listed tr s t pre D mid r : xexec tr s → listing tr t pre D mid r →
  match r with Ok ls => ls = entries t mid | _ => True end.
Proof.
  intros Hx HL. destruct (listing_end _ _ _ _ _ _ _ Hx HL) as [(s0 & ls & L & _ & HG & _ & _ & ->)|(mid' & s0 & s1 & ls & L & n & i & r0 & _ & _ & _ & _ & _ & He)].
  - apply HG.
  - destruct r0 as [[l|]|k|]; cbn in He; try discriminate He; by injection He as <-.
Qed.
Lemma filter_fmap_len {A B} (f : A → B) `{EqDecision B} (b : B) (l : list A) :
  length (filter (λ x, f x = b) l) = length (filter (λ y, y = b) (f <$> l)).
Proof. induction l as [|x l IH]; [done|]. rewrite fmap_cons, !filter_cons. destruct (decide (f x = b)); cbn [length]; by rewrite IH. Qed.
Lemma listed_once tr s t pre D mid ls n i : xexec tr s → listing tr t pre D mid (Ok ls) → D !! n = Some i → ¬ xdeleted n mid →
  length (filter (λ l, lb_name l = n) ls) = 1.
Proof.
  intros Hx HL Hn Hd. destruct (listing_end _ _ _ _ _ _ _ Hx HL) as [(s0 & ls0 & L & _ & HG & Ha & Hs & E)|(mid' & s0 & s1 & ls0 & L & m & j & r0 & _ & _ & _ & _ & _ & He)].
  2:{ destruct r0 as [[l|]|k|]; cbn in He; discriminate He. }
  injection E as ->. destruct HG as [H1 H2 H3 H4 H5 H6 H7 H8 H9]. rewrite Ha in H2. change (option_list (@None bytes)) with (@nil bytes) in H2.
  rewrite app_nil_r in H2. rewrite filter_fmap_len, <-H2. assert (Hst : n ∈ l_stay L) by (apply H6; [by eexists|done]).
  pose proof (H8 n Hst). assert (length (filter (λ m, m = n) (l_seen L)) ≠ 0); [|lia].
  intros E%length_zero_iff_nil. assert (n ∈ filter (λ m, m = n) (l_seen L)) as Hin by (apply elem_of_list_filter; auto).
  rewrite E in Hin. by apply elem_of_nil in Hin.
Qed.

(** ** When a listing fails *)
Lemma history_none es c e : history reg None (es ++ [e]) c → (∃ t n i k, e = EvGet t n i (Err k)) → ∀ t n i l, EvCreate t n i (Ok l) ∉ es.
Proof.
  intros H (t & n & i & k & ->). apply history_split in H as (d & H1 & H2).
  assert (d = None) as ->. { inversion H2 as [|? ? ? ? ? Hr]; subst. by inversion Hr. }
  clear H2. assert (G : ∀ c es d, history reg c es d → d = None → c = None ∧ ∀ t n i l, EvCreate t n i (Ok l) ∉ es); [|by apply (G None es None)].
  clear. induction 1 as [c|c e c1 es c' Hr _ IH]; intros E; [split; [done|by intros ???? ?%elem_of_nil]|].
  destruct (IH E) as [-> Hes]. split; [by inversion Hr|]. intros t n i l [<-|?]%elem_of_cons; [by inversion Hr|by apply (Hes t n i l)].
Qed.
Lemma listing_fails tr s t pre D mid r : xexec tr s → listing tr t pre D mid r → (∀ ls, r ≠ Ok ls) →
  (r = Err NotFound ∧ ∃ n, xdeleted n mid) ∨
  (r = Err InvalidData ∧ ∃ n i, XEntry (EvGet t n (Some i) (Err InvalidData)) ∈ mid ∧ ¬ xcreated i (pre ++ mid)).
Proof.
  intros Hx HL Hr. destruct (listing_end _ _ _ _ _ _ _ Hx HL) as [(s0 & ls & L & _ & _ & _ & _ & E)|(mid' & s0 & s1 & ls & L & n & i & r0 & -> & Hx0 & HG & Ha & Hl & He)]; [by destruct (Hr (l_got L))|].
  destruct i as [i|].
  - right. pose proof (get_event _ _ _ _ _ _ Hl) as (d & Er & _).
    assert (Hlx : lexec (calls (pre ++ XBegin t D :: mid') ++ option_list (Some (EvGet t n (Some i) r0))) s1).
    { apply (lexec_step _ s0); [|done]. apply (xexec_lexec _ _ Hx0). }
    destruct (file_register _ _ i Hlx) as [c Hc]. change (option_list (Some (EvGet t n (Some i) r0))) with [EvGet t n (Some i) r0] in Hc.
    rewrite on_file_app, decide_True in Hc by done.
    assert (Hk : r0 = Err InvalidData).
    { destruct (history_split _ _ _ _ _ Hc) as (d0 & _ & Hc2). inversion Hc2 as [|? ? ? ? ? Hreg]; subst. inversion Hreg; subst; [|done].
      match goal with H : Ok (Some ?c) = get_result _ |- _ => rewrite <-H in He end. discriminate He. }
    rewrite Hk in *. injection He as <-. split; [done|]. exists n, i. split; [apply elem_of_app; right; left|].
    intros (u & m & l & Hin). assert (Hin' : EvCreate u m (Some i) (Ok l) ∈ on_file i (calls (pre ++ XBegin t D :: mid'))).
    { unfold on_file. apply elem_of_list_filter. split; [done|]. unfold calls. apply elem_of_list_omap. exists (XCall (EvCreate u m (Some i) (Ok l))).
      split; [|done]. rewrite !elem_of_app in Hin. rewrite elem_of_app, elem_of_cons. destruct Hin as [?|[?|?%elem_of_list_singleton]]; [auto|auto|done]. }
    apply (history_none _ _ _ Hc) in Hin'; [done|]. eauto 10.
  - left. pose proof (get_event _ _ _ _ _ _ Hl) as (-> & Hd & _). injection He as <-. split; [done|]. exists n.
    destruct HG as [H1 H2 H3 H4 H5 H6 H7 H8 H9]. apply xdeleted_app. left.
    destruct (H4 n) as [Hn|?]; [|apply names_elem in Hn; rewrite Hd in Hn; by destruct Hn|done].
    apply H5. rewrite H2, Ha. apply elem_of_app. right. left.
Qed.

(** ** A label that stays the same is listed as it is *)
Lemma history_unchanged es c d : history reg (Some c) es d → (∀ t l nl i, EvSet t l nl i (Ok (Some nl)) ∉ es) → d = Some c ∧ ∀ t n i l, EvGet t n i (Ok (Some l)) ∈ es → l = c.
Proof.
  intros H. remember (Some c) as x eqn:Ex. induction H as [x|x e c1 es c' Hr _ IH]; intros Hs; [split; [done|by intros ???? ?%elem_of_nil]|]. subst.
  assert (c1 = Some c) as ->. { inversion Hr; subst; try done. exfalso. eapply Hs. left. }
  destruct IH as [-> Hg]; [done|intros t l nl i Hin; apply (Hs t l nl i); by right|]. split; [done|].
  intros t n i l [<-|Hin]%elem_of_cons; [by inversion Hr|by apply (Hg t n i l)].
Qed.
Lemma elem_entries t mid l : l ∈ entries t mid → ∃ n i, XEntry (EvGet t n i (Ok (Some l))) ∈ mid.
Proof.
  unfold entries. rewrite elem_of_list_omap. intros (x & Hx & E). destruct x as [| |e|]; try done. destruct e as [u n i r| | |]; try done.
  destruct r as [[l'|]| |]; try done. destruct (decide (u = t)) as [->|]; [|done]. injection E as ->. eauto.
Qed.
Lemma entry_event tr s : xexec tr s → ∀ t n i l, XEntry (EvGet t n i (Ok (Some l))) ∈ tr → lb_name l = n ∧ ∃ j, i = Some j.
Proof.
  induction 1 as [|tr s es s' Hx IH Hs]; intros t n i l Hin; [by apply elem_of_nil in Hin|]. apply elem_of_app in Hin as [Hin|Hin]; [by apply (IH t n i l)|].
  destruct Hs as [s e s' ls Hl Ht|s ls u Ht Hn|s ls u L m HL Ha Hn Hs|s s' ls u L HL Ha Hl Ht|s s' ls u L m j l0 HL Ha Hl|s s' ls u L m j r e HL Ha Hl He|s ls u L HL Ha Hs].
  - by apply elem_of_list_fmap in Hin as (? & ? & _).
  - by apply elem_of_list_singleton in Hin.
  - by apply elem_of_nil in Hin.
  - by apply elem_of_nil in Hin.
  - apply elem_of_list_singleton in Hin. injection Hin as -> -> -> ->. destruct (get_event_name _ _ _ _ _ _ Hl) as (k & -> & ?). eauto.
  - rewrite !elem_of_cons, elem_of_nil in Hin. destruct Hin as [Hin|[?|[]]]; [|done]. injection Hin as -> -> -> <-. discriminate He.
  - by apply elem_of_list_singleton in Hin.
Qed.
Lemma entry_is_get tr s : xexec tr s → ∀ e, XEntry e ∈ tr → match e with EvGet _ _ _ _ => True | _ => False end.
Proof.
  induction 1 as [|tr s es s' Hx IH Hs]; intros e Hin; [by apply elem_of_nil in Hin|]. apply elem_of_app in Hin as [Hin|Hin]; [by apply (IH e)|].
  destruct Hs; try (by apply elem_of_nil in Hin).
  - by apply elem_of_list_fmap in Hin as (? & ? & _).
  - by apply elem_of_list_singleton in Hin.
  - apply elem_of_list_singleton in Hin. injection Hin as ->. exact I.
  - rewrite !elem_of_cons, elem_of_nil in Hin. destruct Hin as [Hin|[?|[]]]; [|done]. injection Hin as ->. exact I.
  - by apply elem_of_list_singleton in Hin.
Qed.
Lemma reg_det c e c1 c2 : reg c e c1 → reg c e c2 → c1 = c2.
Proof. intros H1 H2. inversion H1; subst; inversion H2; subst; congruence. Qed.
Lemma history_det es c c1 c2 : history reg c es c1 → history reg c es c2 → c1 = c2.
Proof.
  intros H. revert c2. induction H as [c|c e d es c' Hr _ IH]; intros c2 H2; inversion H2; subst; [done|].
  apply IH. by replace d with c'0 by (by apply (reg_det c e)).
Qed.
Lemma listed_unchanged tr s t pre D mid ls n i c : xexec tr s → listing tr t pre D mid (Ok ls) → D !! n = Some i →
  history reg None (on_file i (calls pre)) (Some c) → ¬ xdeleted n mid → ¬ xupdated i mid → filter (λ l, lb_name l = n) ls = [c].
Proof.
  intros Hx HL Hn Hc Hd Hu. pose proof (listed_once _ _ _ _ _ _ _ _ _ Hx HL Hn Hd) as H1. pose proof (listed _ _ _ _ _ _ _ Hx HL) as El. cbn in El.
  destruct (listing_end _ _ _ _ _ _ _ Hx HL) as [(s0 & ls0 & L & Hx0 & HG & Ha & Hs & E)|(mid' & s0 & s1 & ls0 & L & m & j & r0 & _ & _ & _ & _ & _ & He)].
  2:{ destruct r0 as [[l|]|k|]; cbn in He; discriminate He. }
  destruct (filter (λ l, lb_name l = n) ls) as [|l [|? ?]] eqn:Ef; [discriminate H1| |discriminate H1]. f_equal.
  assert (Hl : l ∈ filter (λ l, lb_name l = n) ls) by (rewrite Ef; left). apply elem_of_list_filter in Hl as [Hln Hl].
  rewrite El in Hl. apply elem_entries in Hl as (m & k & Hin).
  destruct (entry_event _ _ Hx0 t m k l) as [Hm [j ->]]; [apply elem_of_app; right; by right|]. rewrite Hln in Hm. subst m.
  assert (Hj : D !! n = Some j). { apply (g_entries _ _ _ _ _ HG n j _ Hin). apply (g_stay _ _ _ _ _ HG); [by eexists|done]. }
  rewrite Hn in Hj. injection Hj as <-.
  destruct (file_register _ _ i (xexec_lexec _ _ Hx0)) as [d Hh]. cbn [fst] in Hh.
  assert (Es : on_file i (calls (pre ++ XBegin t D :: mid)) = on_file i (calls pre) ++ on_file i (calls mid)).
  { rewrite calls_app. unfold on_file. by rewrite filter_app. }
  rewrite Es in Hh. apply history_split in Hh as (c1 & Hh1 & Hh2). pose proof (history_det _ _ _ _ Hh1 Hc) as ->.
  destruct (history_unchanged _ _ _ Hh2) as [_ Hg].
  - intros u l1 nl k Hk. unfold on_file in Hk. apply elem_of_list_filter in Hk as [Hki Hk]. cbn in Hki. subst k. unfold calls in Hk.
    apply elem_of_list_omap in Hk as (x & Hxm & Ex). destruct x as [|e|e|]; try discriminate Ex; injection Ex as ->; [apply Hu; by exists u, l1, nl|].
    apply (entry_is_get _ _ Hx0 (EvSet u l1 nl (Some i) (Ok (Some nl)))). apply elem_of_app. right. by right.
  - apply (Hg t n (Some i)). unfold on_file. apply elem_of_list_filter. split; [done|]. unfold calls. apply elem_of_list_omap. eauto.
Qed.
Lemma listing_begins tr s t pre dir post : xexec tr s → tr = pre ++ XBegin t dir :: post → ∃ s0, xexec pre s0 ∧ dir = s_dir s0.1.
Proof.
  intros Hx. revert pre post. induction Hx as [|tr s es s' Hx IH Hs]; intros pre post E; [by destruct pre|].
  destruct (decide (length pre < length tr)) as [Hlt|Hge].
  - apply (IH pre (take (length tr - length pre - 1) post)). apply (f_equal (take (length tr))) in E. rewrite take_app in E. etrans; [exact E|].
    rewrite take_app_ge by lia. f_equal. destruct (length tr - length pre) as [|k] eqn:Ek; [lia|]. cbn [take]. f_equal. f_equal. lia.
  - assert (Hin : XBegin t dir ∈ es).
    { apply (elem_of_list_lookup_2 _ (length pre - length tr)). rewrite <-(lookup_app_r tr es) by lia. rewrite E. by apply list_lookup_middle. }
    destruct Hs; try (by apply elem_of_nil in Hin); try (by apply elem_of_list_singleton in Hin).
    + by apply elem_of_list_fmap in Hin as (? & ? & _).
    + apply elem_of_list_singleton in Hin. injection Hin as -> ->. exists (s, ls). split; [|reflexivity].
      assert (length tr = length pre). { apply (f_equal length) in E. rewrite !app_length in E. cbn in E. lia. }
      apply app_inj_1 in E as [<- _]; [exact Hx|done].
    + rewrite !elem_of_cons, elem_of_nil in Hin. destruct Hin as [?|[?|[]]]; discriminate.
Qed.
