(** Label calls happen one at a time. *)
From Verif Require Import Prelude Names SpecText NamesFacts LabelSeq LabelConc LabelSpec LabelConcFacts LabelTimed SpecLinear.

(** ** the record of calls *)
Definition begun (tr : list titem) (t : tid) (b : nat) (c : lcall) : Prop :=
  tr !! b = Some (Begins t c) ∧ ∀ k c', b < k → tr !! k ≠ Some (Begins t c').
Lemma lookup_snoc_Some {X : Type} (l : list X) x k y : (l ++ [x]) !! k = Some y ↔ l !! k = Some y ∨ k = length l ∧ y = x.
Proof.
  destruct (decide (k < length l)) as [Hlt|Hge].
  - rewrite lookup_app_l by done. split; [by left|]. intros [?|[-> _]]; [done|lia].
  - rewrite lookup_app_r by lia. split.
    + intros H. right. apply list_lookup_singleton_Some in H as [H <-]. split; [lia|done].
    + intros [H|[-> ->]]; [apply lookup_lt_Some in H; lia|]. by rewrite Nat.sub_diag.
Qed.
Lemma begun_lt tr t b c : begun tr t b c → b < length tr.
Proof. intros [H _]. by apply lookup_lt_Some in H. Qed.
Lemma begun_ends tr t b c e : begun (tr ++ [Ends e]) t b c ↔ begun tr t b c.
Proof.
  split; intros [H1 H2].
  - split; [by apply lookup_snoc_Some in H1 as [?|[_ ?]]|]. intros k c' Hk H. apply (H2 k c' Hk). apply lookup_snoc_Some. by left.
  - split; [apply lookup_snoc_Some; by left|]. intros k c' Hk H. apply lookup_snoc_Some in H as [H|[_ ?]]; [by apply (H2 k c')|done].
Qed.
Lemma begun_begins tr t u b c d : u ≠ t → begun (tr ++ [Begins t d]) u b c ↔ begun tr u b c.
Proof.
  intros Hne. split; intros [H1 H2].
  - split; [apply lookup_snoc_Some in H1 as [?|[_ ?]]; [done|congruence]|]. intros k c' Hk H. apply (H2 k c' Hk). apply lookup_snoc_Some. by left.
  - split; [apply lookup_snoc_Some; by left|]. intros k c' Hk H. apply lookup_snoc_Some in H as [H|[_ ?]]; [by apply (H2 k c')|congruence].
Qed.
Lemma begun_now tr t c : begun (tr ++ [Begins t c]) t (length tr) c.
Proof.
  split; [apply lookup_snoc_Some; by right|]. intros k c' Hk H. apply lookup_lt_Some in H. rewrite app_length in H. cbn [length] in H. lia.
Qed.
Lemma call_in_begins tr t c x : call_in (tr ++ [Begins t c]) x ↔ call_in tr x.
Proof.
  destruct x as [[b j] e]. unfold call_in. split; intros (Hb & He & (d & Hd & Ha) & Hk).
  - apply lookup_snoc_Some in He as [He|[_ ?]]; [|done]. pose proof (lookup_lt_Some _ _ _ He).
    apply lookup_snoc_Some in Hd as [Hd|[-> _]]; [|lia]. split_and!; [done|done|by exists d|].
    intros k Hk' c' H'. apply (Hk k Hk' c'). apply lookup_snoc_Some. by left.
  - pose proof (lookup_lt_Some _ _ _ He). split_and!; [done|apply lookup_snoc_Some; by left|exists d; split; [apply lookup_snoc_Some; by left|done]|].
    intros k Hk' c' H'. apply lookup_snoc_Some in H' as [H'|[-> _]]; [by apply (Hk k Hk' c')|lia].
Qed.
Lemma call_in_ends tr e b c x : begun tr (ev_tid e) b c → answers c e → call_in (tr ++ [Ends e]) x ↔ call_in tr x ∨ x = (b, length tr, e).
Proof.
  intros Hbg Hans. destruct x as [[b' j] e']. unfold call_in. split.
  - intros (Hb & He & (d & Hd & Ha) & Hk). apply lookup_snoc_Some in Hd as [Hd|[_ ?]]; [|done]. apply lookup_snoc_Some in He as [He|[-> E]].
    + pose proof (lookup_lt_Some _ _ _ He). left. split_and!; [done|done|by exists d|].
      intros k Hk' c' H'. apply (Hk k Hk' c'). apply lookup_snoc_Some. by left.
    + injection E as ->. right. f_equal. f_equal. destruct Hbg as [H1 H2]. pose proof (lookup_lt_Some _ _ _ H1) as Hlt.
      destruct (Nat.lt_trichotomy b' b) as [H|[H|H]]; [|done|by destruct (H2 b' d H)].
      exfalso. apply (Hk b (conj H Hlt) c). apply lookup_snoc_Some. by left.
  - intros [(Hb & He & (d & Hd & Ha) & Hk)|[= -> -> ->]].
    + pose proof (lookup_lt_Some _ _ _ He). split_and!; [done|apply lookup_snoc_Some; by left|exists d; split; [apply lookup_snoc_Some; by left|done]|].
      intros k Hk' c' H'. apply lookup_snoc_Some in H' as [H'|[-> _]]; [by apply (Hk k Hk' c')|lia].
    + destruct Hbg as [H1 H2]. split_and!; [by apply lookup_lt_Some in H1|apply lookup_snoc_Some; by right|exists c; split; [apply lookup_snoc_Some; by left|done]|].
      intros k Hk' c' H'. apply lookup_snoc_Some in H' as [H'|[-> _]]; [apply (H2 k c'); [lia|done]|lia].
Qed.
Lemma call_in_lt tr x : call_in tr x → x.1.1 < x.1.2 ∧ x.1.2 < length tr.
Proof. destruct x as [[b j] e]. intros (Hb & He & _). by apply lookup_lt_Some in He. Qed.

(** ** what a caller is doing *)
Definition phase_of (c : lcall) (p : pc) : Prop :=
  match c, p with
  | CGet n, (PGetOpen m | PGetLock m _ | PGetRead m _ | PGetDone m _ _) => m = n
  | CSet l layer, (PSetOpen m nl | PSetLock m nl _ | PSetRead m nl _ | PSetGot m nl _ _ | PSetWrite m nl _ _ _) => m = l ∧ with_updated_layer l layer = Some nl
  | CCreate n, (PCreStat m | PCreOpen m | PCreLock m _ | PCreWrite m _ _ _) => m = n
  | CDelete n, PDel m => m = n
  | _, _ => False
  end.
Definition opened (p : pc) : option ino :=
  match p with
  | PGetLock _ i | PGetRead _ i | PGetDone _ i _ | PSetLock _ _ i | PSetRead _ _ i | PSetGot _ _ i _ | PSetWrite _ _ i _ _
  | PCreLock _ i | PCreWrite _ i _ _ => Some i
  | _ => None
  end.
Lemma begins_phase c p : begins c p → phase_of c p.
Proof. by destruct c, p. Qed.
Lemma begins_opened c p : begins c p → opened p = None.
Proof. by destruct c, p. Qed.
(** every step is one of a caller, who either returns or goes on with the same call *)
Lemma step_caller s e s' : lstep s e s' → (∀ t, s_threads s !! t = None → s_threads s' !! t = None) →
  ∃ t p, s_threads s !! t = Some p ∧
    ((∃ ev, e = Some ev ∧ ev_tid ev = t ∧ s_threads s' = delete t (s_threads s) ∧ (∀ c, phase_of c p → answers c ev) ∧ opened p = ev_ino ev) ∨
     (∃ q, e = None ∧ s_threads s' = <[t := q]> (s_threads s) ∧ (∀ c, phase_of c p → phase_of c q) ∧
        ∀ i, opened q = Some i → opened p = Some i ∨ s_inodes s !! i = None ∨ ∃ n, s_dir s !! n = Some i)).
Proof.
  intros Hst Hno. inversion Hst; subst; clear Hst;
  try (match goal with H : s_threads s !! ?t = None |- _ => specialize (Hno t H); cbn [goto s_threads] in Hno; rewrite lookup_insert in Hno; done end);
  match goal with H : s_threads s !! ?t = Some ?p |- _ => exists t, p; split; [exact H|] end;
  first [left; eexists; split; [reflexivity|]; split; [reflexivity|]; split; [reflexivity|]; split; [intros c; destruct c; done|reflexivity]
        |right; eexists; split; [reflexivity|]; split; [reflexivity|]; split; [intros c; destruct c; done|];
         intros j; cbn [opened]; intros Hj; try done; injection Hj as <-; eauto].
Qed.

(** ** the blocks of a name: the calls while it belonged to one file, ended by its deletion *)
Definition state_of (ms : gmap ino label) (i : ino) : nstate := match ms !! i with Some l => Holding l | None => Making end.
Definition name_st (ms : gmap ino label) (s : lstate) (n : bytes) : nstate :=
  match s_dir s !! n with Some i => state_of ms i | None => Absent end.
Notation block := (ino * list timed * timed)%type (only parsing).
Definition flat (bs : list block) (cur : list timed) : list timed := concat ((λ b : block, b.1.2 ++ [b.2]) <$> bs) ++ cur.
Lemma calls_app c es d es' c' : calls_on c es d → calls_on d es' c' → calls_on c (es ++ es') c'.
Proof.
  induction 1 as [c|es d H IH|c e c1 es d He H IH]; intros H'; cbn [app]; [done|apply calls_begin; auto|]. eapply calls_cons; [exact He|auto].
Qed.
Lemma calls_snoc c es d e c' : calls_on c es d → call_on d e c' → calls_on c (es ++ [e]) c'.
Proof. intros H He. eapply calls_app; [exact H|]. eapply calls_cons; [exact He|constructor]. Qed.
Definition deletes (n : bytes) (x : timed) : Prop := ∃ t, x.2 = EvDelete t n true.
Record block_ok (ms : gmap ino label) (s : lstate) (tr : list titem) (n : bytes) (b : block) : Prop := BlockOk {
  bo_file : ∃ nd, s_inodes s !! b.1.1 = Some nd ∧ i_name nd = n;
  bo_gone : s_dir s !! n ≠ Some b.1.1;
  bo_del : deletes n b.2;
  bo_calls : calls_on Absent (snd <$> b.1.2) (state_of ms b.1.1);
  bo_late : ∀ t p k c, s_threads s !! t = Some p → opened p = Some b.1.1 → begun tr t k c → k < b.2.1.2 }.
Record blocks_ok (ms : gmap ino label) (s : lstate) (tr : list titem) (n : bytes) (bs : list block) (cur : list timed) : Prop := BlocksOk {
  bs_nodup : NoDup ((λ b : block, b.1.1) <$> bs);
  bs_each : ∀ b, b ∈ bs → block_ok ms s tr n b;
  bs_all : ∀ i nd, s_inodes s !! i = Some nd → i_name nd = n → s_dir s !! n = Some i ∨ i ∈ (λ b : block, b.1.1) <$> bs;
  bs_cur : calls_on Absent (snd <$> cur) (name_st ms s n) }.
Lemma state_not_absent ms i : state_of ms i ≠ Absent.
Proof. unfold state_of. by destruct (ms !! i). Qed.
Lemma flat_calls ms s tr n bs cur : blocks_ok ms s tr n bs cur → calls_on Absent (snd <$> flat bs cur) (name_st ms s n).
Proof.
  intros [_ Hb _ Hc]. unfold flat. induction bs as [|b bs IH]; cbn [fmap list_fmap concat app]; [done|].
  rewrite <- !app_assoc, !fmap_app. destruct (Hb b ltac:(by left)) as [_ _ [t Hd] Hcalls _].
  eapply calls_app; [exact Hcalls|]. change ((snd <$> [b.2]) ++ ?z) with (b.2.2 :: z). eapply calls_cons; [rewrite Hd; apply on_delete, state_not_absent|].
  rewrite <- fmap_app. apply IH. intros x Hx. apply Hb. by right.
Qed.
(** what a step leaves alone *)
Definition keeps (ms ms' : gmap ino label) (s s' : lstate) (tr tr' : list titem) (n : bytes) (i : ino) : Prop :=
  ms' !! i = ms !! i ∧ (∃ nd, s_inodes s' !! i = Some nd ∧ i_name nd = n) ∧ s_dir s' !! n ≠ Some i ∧
  ∀ t p k c, s_threads s' !! t = Some p → opened p = Some i → begun tr' t k c → ∃ q, s_threads s !! t = Some q ∧ opened q = Some i ∧ begun tr t k c.
Lemma block_keep ms ms' s s' tr tr' n b : block_ok ms s tr n b → keeps ms ms' s s' tr tr' n b.1.1 → block_ok ms' s' tr' n b.
Proof.
  intros [H1 H2 H3 H4 H5] (K1 & K2 & K3 & K4). split; try done.
  - unfold state_of. by rewrite K1.
  - intros t p k c Ht Ho Hk. destruct (K4 t p k c Ht Ho Hk) as (q & Hq & Ho' & Hk'). by apply (H5 t q k c).
Qed.

(** ** the calls in order *)
Notation of_name n := (filter (λ x : timed, ev_name x.2 = n)) (only parsing).
(** a call may have happened before another; after a deletion only calls that ended later *)
Definition overlap (x y : timed) : Prop := x.1.1 ≤ y.1.2 ∧ ((∃ n, deletes n x) → x.1.2 ≤ y.1.2).
Record ordered (tr : list titem) (s : lstate) (ms : gmap ino label) (xs : list timed) : Prop := Ordered {
  or_inv : linv ms s;
  or_run : ∀ t p, s_threads s !! t = Some p → ∃ k c, begun tr t k c ∧ phase_of c p;
  or_nodup : NoDup xs;
  or_in : ∀ x, x ∈ xs ↔ call_in tr x;
  or_sorted : StronglySorted overlap xs;
  or_blocks : ∀ n, ∃ bs cur, of_name n xs = flat bs cur ∧ blocks_ok ms s tr n bs cur }.

Section sorted.
  Context {X : Type} (R : X → X → Prop).
  Lemma ss_app l1 l2 : StronglySorted R (l1 ++ l2) ↔ StronglySorted R l1 ∧ StronglySorted R l2 ∧ ∀ x y, x ∈ l1 → y ∈ l2 → R x y.
  Proof.
    induction l1 as [|x l1 IH]; cbn [app].
    - split; [intros H; split_and!; [constructor|done|intros x y Hx; by apply elem_of_nil in Hx]|tauto].
    - split.
      + intros H. apply StronglySorted_inv in H as [H1 H2]. apply IH in H1 as (H1 & H3 & H4). rewrite Forall_forall in H2. split_and!; [|done|].
        * constructor; [done|]. apply Forall_forall. intros y Hy. apply H2, elem_of_app. by left.
        * intros y z Hy Hz. apply elem_of_cons in Hy as [-> | Hy]; [|by apply H4]. apply H2, elem_of_app. by right.
      + intros (H1 & H2 & H3). apply StronglySorted_inv in H1 as [H1 H4]. constructor.
        * apply IH. split_and!; [done|done|]. intros y z Hy Hz. apply H3; [by right|done].
        * apply Forall_app. split; [done|]. apply Forall_forall. intros y Hy. apply H3; [by left|done].
  Qed.
  Lemma ss_snoc l x : StronglySorted R l → (∀ y, y ∈ l → R y x) → StronglySorted R (l ++ [x]).
  Proof.
    intros H Hx. apply ss_app. split_and!; [done|repeat constructor|]. intros y z Hy Hz. apply elem_of_list_singleton in Hz as ->. by apply Hx.
  Qed.
  Lemma ss_insert l1 x l2 : StronglySorted R (l1 ++ l2) → (∀ y, y ∈ l1 → R y x) → (∀ y, y ∈ l2 → R x y) → StronglySorted R (l1 ++ x :: l2).
  Proof.
    intros H H1 H2. apply ss_app in H as (S1 & S2 & S3). apply ss_app. split_and!; [done| |].
    - constructor; [done|]. by apply Forall_forall.
    - intros y z Hy Hz. apply elem_of_cons in Hz as [-> | Hz]; [by apply H1|by apply S3].
  Qed.
  Lemma ss_lookup l i j x y : StronglySorted R l → i < j → l !! i = Some x → l !! j = Some y → R x y.
  Proof.
    intros H Hij Hi Hj. rewrite <- (take_drop_middle l i x Hi) in H. apply ss_app in H as (_ & H & _).
    apply StronglySorted_inv in H as [_ H]. rewrite Forall_forall in H. apply H.
    apply elem_of_list_lookup. exists (j - S i). rewrite lookup_drop. by replace (S i + (j - S i)) with j by lia.
  Qed.
End sorted.

(** ** a step keeps the blocks of files that have lost their names *)
Lemma keeps_begin ms s tr n t c p nd i : begins c p → s_threads s !! t = None → s_inodes s !! i = Some nd → i_name nd = n → s_dir s !! n ≠ Some i →
  keeps ms ms s (goto s t p) tr (tr ++ [Begins t c]) n i.
Proof.
  intros Hb Ht Hi Hn Hd. split_and!; [done|by exists nd|done|]. intros u q k d Hu Ho Hk. cbn [goto s_threads] in Hu.
  apply lookup_insert_Some in Hu as [[<- <-]|[Hne Hu]]; [by rewrite (begins_opened c p Hb) in Ho|].
  exists q. split_and!; [done|done|]. apply (begun_begins tr t u k d c); [done|done].
Qed.
Lemma begun_step tr t k c (e : option lev) : begun (tr ++ option_list (Ends <$> e)) t k c ↔ begun tr t k c.
Proof.
  destruct e as [e|]; cbn [fmap option_fmap option_map].
  - change (option_list (Some (Ends e))) with [Ends e]. apply begun_ends.
  - change (option_list (@None titem)) with (@nil titem). by rewrite app_nil_r.
Qed.
Lemma dir_step s e s' n i : lstep s e s' → s_dir s' !! n = Some i → s_dir s !! n = Some i ∨ s_inodes s !! i = None.
Proof.
  intros Hst H. destruct (step_dir s e s' Hst) as [[E _]|[(t & m & j & nd & _ & _ & Hj & _ & _ & E & _)|(t & m & j & _ & _ & E & _)]]; rewrite E in H.
  - by left.
  - apply lookup_insert_Some in H as [[<- <-]|[_ H]]; [by right|by left].
  - apply lookup_delete_Some in H as [_ H]. by left.
Qed.
Lemma keeps_step ms ms' s e s' tr n nd i : linv ms s → lstep s e s' → (∀ t, s_threads s !! t = None → s_threads s' !! t = None) →
  s_inodes s !! i = Some nd → i_name nd = n → s_dir s !! n ≠ Some i → ms' !! i = ms !! i →
  keeps ms ms' s s' tr (tr ++ option_list (Ends <$> e)) n i.
Proof.
  intros Hl Hst Hno Hi Hn Hd Hm. split_and!; [done| | |].
  - destruct (inodes_stay s e s' i Hst) as (x & x' & Hx & Hx' & E); [by exists nd|]. exists x'. split; [done|]. congruence.
  - intros H. destruct (dir_step s e s' n i Hst H) as [?|H']; [done|]. by rewrite Hi in H'.
  - intros u q k c Hu Ho Hk. apply begun_step in Hk.
    destruct (step_caller s e s' Hst Hno) as (t & p & Ht & [(ev & _ & _ & E & _)|(q' & _ & E & _ & Hop)]); rewrite E in Hu.
    + apply lookup_delete_Some in Hu as [Hne Hu]. by exists q.
    + apply lookup_insert_Some in Hu as [[<- <-]|[Hne Hu]]; [|by exists q].
      exists p. split_and!; [done| |done]. destruct (Hop i Ho) as [H|[H|[m H]]]; [done|by rewrite Hi in H|].
      destruct (linv_dir _ ms s Hl m i H) as (x & Hx & Hxn & _). exfalso. apply Hd. congruence.
Qed.
Lemma flat_app bs bs' cur : flat (bs ++ bs') cur = flat bs [] ++ flat bs' cur.
Proof. unfold flat. by rewrite fmap_app, concat_app, app_nil_r, app_assoc. Qed.
Lemma flat_snoc bs cur x : flat bs (cur ++ [x]) = flat bs cur ++ [x].
Proof. unfold flat. by rewrite app_assoc. Qed.
Lemma flat_close bs cur i x : flat (bs ++ [(i, cur, x)]) [] = flat bs cur ++ [x].
Proof. unfold flat. rewrite fmap_app, concat_app. cbn. by rewrite !app_nil_r, app_assoc. Qed.
Lemma nodup_split {X : Type} (a b a' b' : list X) d : NoDup (a ++ d :: b) → a ++ d :: b = a' ++ d :: b' → a = a' ∧ b = b'.
Proof.
  revert a'. induction a as [|x a IH]; intros [|y a'] Hn E; cbn [app] in *.
  - injection E as ->. done.
  - injection E as <- ->. apply NoDup_cons in Hn as [Hn _]. destruct Hn. apply elem_of_app. right. by left.
  - injection E as -> <-. apply NoDup_cons in Hn as [Hn _]. destruct Hn. apply elem_of_app. right. by left.
  - injection E as <- E. apply NoDup_cons in Hn as [_ Hn]. destruct (IH a' Hn E) as [-> ->]. done.
Qed.

(** ** a call begins *)
Lemma ordered_begin tr s ms xs t c p : ordered tr s ms xs → s_threads s !! t = None → begins c p → lstep s None (goto s t p) →
  ordered (tr ++ [Begins t c]) (goto s t p) ms xs.
Proof.
  intros [Hinv Hrun Hnd Hin Hs Hbs] Ht Hb Hst. split; try done.
  - destruct (linv_lstep ms s None _ Hinv Hst) as (ms' & Hinv' & Hf). assert (ms' = ms) as -> by (apply map_eq; exact Hf). done.
  - intros u q Hu. cbn [goto s_threads] in Hu. apply lookup_insert_Some in Hu as [[<- <-]|[Hne Hu]].
    + exists (length tr), c. split; [apply begun_now|by apply begins_phase].
    + destruct (Hrun u q Hu) as (k & d & Hk & Hd). exists k, d. split; [by apply begun_begins|done].
  - intros x. by rewrite call_in_begins.
  - intros n. destruct (Hbs n) as (bs & cur & E & [B1 B2 B3 B4]). exists bs, cur. split; [done|]. split; try done.
    intros b Hbb. pose proof (B2 b Hbb) as Hok. eapply block_keep; [exact Hok|]. destruct Hok as [(nd & Hi & Hn) Hg _ _ _]. by eapply keeps_begin.
Qed.
(** ** a call goes on *)
Lemma calls_making c es : calls_on c es Absent → calls_on c es Making.
Proof. intros H. rewrite <- (app_nil_r es). eapply calls_app; [exact H|]. apply calls_begin, calls_nil. Qed.
Lemma ordered_none tr s ms xs s' : ordered tr s ms xs → lstep s None s' → (∀ t, s_threads s !! t = None → s_threads s' !! t = None) → ordered tr s' ms xs.
Proof.
  intros [Hinv Hrun Hnd Hin Hs Hbs] Hst Hno.
  assert (linv ms s') as Hinv'.
  { destruct (linv_lstep ms s None _ Hinv Hst) as (ms' & Hinv' & Hf). assert (ms' = ms) as -> by (apply map_eq; exact Hf). done. }
  split; try done.
  - intros u q Hu. destruct (step_caller s None s' Hst Hno) as (t & p & Ht & [(ev & ? & _)|(q' & _ & E & Hph & _)]); [done|].
    rewrite E in Hu. apply lookup_insert_Some in Hu as [[<- <-]|[Hne Hu]]; [|by apply Hrun].
    destruct (Hrun t p Ht) as (k & c & Hk & Hc). exists k, c. auto.
  - intros n. destruct (Hbs n) as (bs & cur & E & [B1 B2 B3 B4]). exists bs, cur. split; [done|]. split; [done| | |].
    + intros b Hbb. pose proof (B2 b Hbb) as Hok. eapply block_keep; [exact Hok|]. destruct Hok as [(nd & Hi & Hn) Hg _ _ _].
      pose proof (keeps_step ms ms s None s' tr n nd _ Hinv Hst Hno Hi Hn Hg eq_refl) as Hk.
      change (option_list (Ends <$> None)) with (@nil titem) in Hk. by rewrite app_nil_r in Hk.
    + intros i nd Hi Hn. destruct (step_dir s None s' Hst) as [[-> Hi']|[(t & m & j & x & _ & Hm & Hj & Hx & _ & -> & Ei)|(t & m & j & ? & _)]]; [| |done].
      * destruct (Hi' i nd Hi) as (nd' & Hnd' & En). apply (B3 i nd' Hnd'). congruence.
      * rewrite Ei in Hi. apply lookup_insert_Some in Hi as [[<- <-]|[Hne Hi]]; [left; rewrite <- Hn, Hx; by rewrite lookup_insert|].
        destruct (B3 i nd Hi Hn) as [H|H]; [|by right]. left. rewrite lookup_insert_ne; [done|]. intros ->. by rewrite Hm in H.
    + destruct (step_dir s None s' Hst) as [[Ed _]|[(t & m & j & x & _ & Hm & Hj & Hx & _ & Ed & Ei)|(t & m & j & ? & _)]]; [| |done]; unfold name_st in *; rewrite Ed.
      * done.
      * destruct (decide (n = m)) as [->|Hne]; [|by rewrite lookup_insert_ne]. rewrite lookup_insert. rewrite Hm in B4.
        unfold state_of. destruct (ms !! j) eqn:Ej; [|by apply calls_making].
        destruct (linv_ms _ ms s Hinv j) as [? E']; [by eexists|]. by rewrite Hj in E'.
Qed.

(** ** a call returns *)
Lemma reg_call_on ms ms' i e : reg (ms !! i) e (ms' !! i) → call_on (state_of ms i) e (state_of ms' i).
Proof. unfold state_of. intros H. inversion H; constructor; done. Qed.
Lemma call_alone ms s e s' : lstep s (Some e) s' → ev_ino e = None → (∀ t n, e ≠ EvDelete t n true) →
  call_on (name_st ms s (ev_name e)) e (name_st ms s (ev_name e)).
Proof.
  intros Hst Hi Hd. unfold name_st. inversion Hst; subst; try done; cbn [ev_name]; try (by destruct (Hd t n));
  match goal with H : s_dir s !! _ = _ |- _ => rewrite H end; constructor; first [apply state_not_absent|by left|by right].
Qed.
Lemma event_dir s e s' : lstep s (Some e) s' → (∀ t n, e ≠ EvDelete t n true) → s_dir s' = s_dir s.
Proof.
  intros Hst Hd. destruct (step_dir s _ s' Hst) as [[E _]|[(t & m & j & nd & ? & _)|(t & m & j & E & _)]]; [done|done|]. injection E as ->. by destruct (Hd t m).
Qed.
Lemma event_inodes s e s' i nd : lstep s (Some e) s' → s_inodes s' !! i = Some nd → ∃ nd', s_inodes s !! i = Some nd' ∧ i_name nd' = i_name nd.
Proof.
  intros Hst Hi. destruct (step_dir s _ s' Hst) as [[_ H]|[(t & m & j & x & ? & _)|(t & m & j & _ & _ & _ & E)]]; [by apply H|done|]. rewrite E in Hi. by exists nd.
Qed.
Lemma of_name_app n xs ys : of_name n (xs ++ ys) = of_name n xs ++ of_name n ys.
Proof. apply filter_app. Qed.
Lemma of_name_one n (x : timed) : of_name n [x] = if decide (ev_name x.2 = n) then [x] else [].
Proof. rewrite filter_cons. case_decide; done. Qed.
Lemma ordered_some tr s ms xs e s' : ordered tr s ms xs → lstep s (Some e) s' → (∀ t, s_threads s !! t = None → s_threads s' !! t = None) →
  ∃ ms' xs', ordered (tr ++ [Ends e]) s' ms' xs'.
Proof.
  intros [Hinv Hrun Hnd Hin Hs Hbs] Hst Hno.
  destruct (linv_lstep ms s _ _ Hinv Hst) as (ms' & Hinv' & Hf). exists ms'.
  destruct (step_caller s _ s' Hst Hno) as (t & p & Ht & [(ev & E & Et & Ethr & Hans & Hop)|(q' & ? & _)]); [|done]. injection E as <-.
  destruct (Hrun t p Ht) as (b & c & Hb & Hc). specialize (Hans c Hc). rewrite <- Et in Hb.
  set (x := (b, length tr, e) : timed).
  assert (∀ y, call_in (tr ++ [Ends e]) y ↔ call_in tr y ∨ y = x) as Hci by (intros y; by apply (call_in_ends tr e b c)).
  assert (∀ t p, s_threads s' !! t = Some p → ∃ k c, begun (tr ++ [Ends e]) t k c ∧ phase_of c p) as Hrun'.
  { intros u q Hu. rewrite Ethr in Hu. apply lookup_delete_Some in Hu as [_ Hu]. destruct (Hrun u q Hu) as (k & d & Hk & Hd). exists k, d. by rewrite begun_ends. }
  assert (x ∉ xs) as Hx. { intros H. apply Hin, call_in_lt in H as [_ H]. unfold x in H. cbn in H. lia. }
  assert (∀ y, y ∈ xs → overlap y x) as Hov.
  { intros y Hy. apply Hin, call_in_lt in Hy as [H1 H2]. split; unfold x; cbn [fst snd]; lia. }
  assert (∀ n i nd, s_inodes s !! i = Some nd → i_name nd = n → s_dir s !! n ≠ Some i → ms' !! i = ms !! i →
    keeps ms ms' s s' tr (tr ++ [Ends e]) n i) as Hkeep.
  { intros n i nd Hi Hn Hd Hm. exact (keeps_step ms ms' s (Some e) s' tr n nd i Hinv Hst Hno Hi Hn Hd Hm). }
  pose proof (λ i nd, event_inodes s e s' i nd Hst) as Hino.
  (* the other names *)
  assert (∀ n bs cur, n ≠ ev_name e → blocks_ok ms s tr n bs cur → blocks_ok ms' s' (tr ++ [Ends e]) n bs cur) as Hother.
  { intros n bs cur Hne [B1 B2 B3 B4].
    assert (∀ i nd, s_inodes s !! i = Some nd → i_name nd = n → ms' !! i = ms !! i) as Hm.
    { intros i nd Hi Hn. specialize (Hf i). cbn in Hf. case_decide as Hd; [|done].
      destruct (event_file ms s e s' i Hinv Hst Hd) as (nd' & Hi' & Hn'). exfalso. apply Hne. congruence. }
    assert (s_dir s' !! n = s_dir s !! n) as Hdir.
    { destruct (step_dir s _ s' Hst) as [[-> _]|[(u & m & j & nd & ? & _)|(u & m & j & E & _ & -> & _)]]; [done|done|].
      injection E as ->. cbn [ev_name] in Hne. by rewrite lookup_delete_ne. }
    split; [done| | |].
    - intros bb Hbb. pose proof (B2 bb Hbb) as Hok. eapply block_keep; [exact Hok|]. destruct Hok as [(nd & Hi & Hn) Hg _ _ _]. apply (Hkeep n _ nd); auto. by apply (Hm _ nd).
    - intros i nd Hi Hn. rewrite Hdir. destruct (Hino i nd Hi) as (nd' & Hi' & Hn'). apply (B3 i nd'); [done|congruence].
    - unfold name_st in *. rewrite Hdir. destruct (s_dir s !! n) as [i|] eqn:Ei; [|done].
      destruct (linv_dir _ ms s Hinv n i Ei) as (nd & Hi & Hn & _). unfold state_of in *. by rewrite (Hm i nd Hi Hn). }
  (* the call happened last *)
  assert ((∃ bs cur, of_name (ev_name e) xs ++ [x] = flat bs cur ∧ blocks_ok ms' s' (tr ++ [Ends e]) (ev_name e) bs cur) →
    ∃ xs', ordered (tr ++ [Ends e]) s' ms' xs') as Hlast.
  { intros Hl. exists (xs ++ [x]). split; [done|done| | | |].
    - apply NoDup_app. split_and!; [done| |apply NoDup_singleton]. intros y Hy Hy'. apply elem_of_list_singleton in Hy' as ->. done.
    - intros y. rewrite Hci, elem_of_app, Hin, elem_of_list_singleton. done.
    - by apply ss_snoc.
    - intros n. rewrite of_name_app, of_name_one. cbn [snd x]. case_decide as Hd; [subst n; exact Hl|]. rewrite app_nil_r.
      destruct (Hbs n) as (bs & cur & E & Hok). exists bs, cur. split; [done|]. apply Hother; [congruence|done]. }
  destruct (Hbs (ev_name e)) as (bs & cur & E & [B1 B2 B3 B4]).
  destruct (ev_ino e) as [i|] eqn:Ei.
  - (* it worked on a file *)
    pose proof (Hf i) as Hr. cbn in Hr. rewrite decide_True in Hr by done. apply reg_call_on in Hr.
    assert (∀ j, j ≠ i → ms' !! j = ms !! j) as Hm.
    { intros j Hj. specialize (Hf j). cbn in Hf. rewrite decide_False in Hf; [done|]. rewrite Ei. congruence. }
    assert (∀ u n, e ≠ EvDelete u n true) as Hnd'. { intros u n ->. done. }
    pose proof (event_dir s e s' Hst Hnd') as Hdir.
    destruct (event_file ms s e s' i Hinv Hst Ei) as (nd & Hi & Hn).
    destruct (B3 i nd Hi Hn) as [Hd|Hd].
    + (* which has its name *)
      apply Hlast. exists bs, (cur ++ [x]). split; [by rewrite flat_snoc, E|]. split; [done| | |].
      * intros bb Hbb. pose proof (B2 bb Hbb) as Hok. eapply block_keep; [exact Hok|]. destruct Hok as [(nd' & Hi' & Hn') Hg _ _ _].
        apply (Hkeep _ _ nd'); auto. apply Hm. congruence.
      * intros j nd' Hj Hn'. rewrite Hdir. destruct (Hino j nd' Hj) as (x' & Hx' & Hxn). apply (B3 j x'); [done|congruence].
      * rewrite fmap_app. unfold name_st in *. rewrite Hdir, Hd. rewrite Hd in B4. by eapply calls_snoc.
    + (* which was deleted *)
      apply elem_of_list_fmap in Hd as ([[i' B] D] & Ei' & Hbb). cbn [fst] in Ei'. subst i'.
      apply elem_of_list_split in Hbb as (bs1 & bs2 & ->).
      pose proof (B2 (i, B, D) ltac:(apply elem_of_app; right; by left)) as HD. destruct HD as [HD1 HD2 [u HD3] HD4 HD5]. cbn [fst snd] in *.
      assert (ev_name D.2 = ev_name e) as HDn by (by rewrite HD3).
      assert (b < D.1.2) as Hbd by (subst t; eapply HD5; eassumption).
      rewrite flat_app in E. change (flat ((i, B, D) :: bs2) cur) with ((B ++ [D]) ++ concat ((λ b : block, b.1.2 ++ [b.2]) <$> bs2) ++ cur) in E
        || (unfold flat at 2 in E; cbn [fmap list_fmap concat fst snd] in E; rewrite <- (app_assoc (B ++ [D])) in E).
      fold (flat bs2 cur) in E. rewrite <- app_assoc in E. rewrite app_assoc in E. cbn [app] in E.
      assert (D ∈ xs) as HDx. { assert (D ∈ of_name (ev_name e) xs) as H; [rewrite E; apply elem_of_app; right; by left|by apply elem_of_list_filter in H as [_ H]]. }
      apply elem_of_list_split in HDx as (l1 & l2 & ->).
      rewrite of_name_app, filter_cons, decide_True in E by done.
      assert (NoDup (of_name (ev_name e) l1 ++ D :: of_name (ev_name e) l2)) as HN.
      { assert (NoDup (of_name (ev_name e) (l1 ++ D :: l2))) as H by (by apply NoDup_filter). rewrite of_name_app, filter_cons, decide_True in H by done. done. }
      destruct (nodup_split _ _ _ _ _ HN E) as [E1 E2].
      assert (∀ y, y ∈ D :: l2 → D.1.2 ≤ y.1.2) as Hafter.
      { intros y Hy. apply elem_of_cons in Hy as [-> | Hy]; [done|]. apply ss_app in Hs as (_ & Hs & _). apply StronglySorted_inv in Hs as [_ Hs].
        rewrite Forall_forall in Hs. apply (Hs y Hy). by exists (ev_name e), u. }
      exists (l1 ++ x :: D :: l2). split; [done|done| | | |].
      * apply NoDup_app in Hnd as (N1 & N2 & N3). apply NoDup_app. split_and!; [done| |].
        -- intros y Hy Hy'. apply elem_of_cons in Hy' as [-> | Hy']; [|by apply (N2 y)]. apply Hx, elem_of_app. by left.
        -- apply NoDup_cons. split; [|done]. intros H. apply Hx, elem_of_app. by right.
      * intros y. rewrite Hci, <- Hin, !elem_of_app, elem_of_cons. tauto.
      * apply ss_insert; [done|intros y Hy; apply Hov, elem_of_app; by left|]. intros y Hy. specialize (Hafter y Hy). split; unfold x; cbn [fst snd]; [lia|].
        intros (m & v & Hv). by destruct (Hnd' v m).
      * intros n. rewrite of_name_app. destruct (decide (ev_name e = n)) as [<-|Hne].
        -- exists (bs1 ++ (i, B ++ [x], D) :: bs2), cur. split.
           { rewrite filter_cons, decide_True by done. rewrite filter_cons, decide_True by done. rewrite E1, E2, flat_app.
             unfold flat. cbn [fmap list_fmap concat fst snd]. rewrite app_nil_r, <- !app_assoc. done. }
           assert (i ∉ (λ b : block, b.1.1) <$> bs1 ∧ i ∉ (λ b : block, b.1.1) <$> bs2) as [Hn1 Hn2].
           { rewrite fmap_app in B1. cbn [fmap list_fmap fst] in B1. apply NoDup_app in B1 as (_ & N2 & N3). apply NoDup_cons in N3 as [N3 _].
             split; [|done]. intros H. apply (N2 i H). by left. }
           assert (∀ bb, bb ∈ bs1 ∨ bb ∈ bs2 → block_ok ms' s' (tr ++ [Ends e]) (ev_name e) bb) as Hold.
           { intros bb Hbb. assert (bb.1.1 ≠ i) as Hbi.
             { intros E'. destruct Hbb as [Hbb|Hbb]; [apply Hn1|apply Hn2]; apply elem_of_list_fmap; by exists bb. }
             assert (bb ∈ bs1 ++ (i, B, D) :: bs2) as Hbb'. { apply elem_of_app. destruct Hbb; [by left|right; by right]. }
             pose proof (B2 bb Hbb') as Hok. eapply block_keep; [exact Hok|]. destruct Hok as [(nd' & Hi' & Hn') Hg _ _ _].
             apply (Hkeep _ _ nd'); auto. }
           pose proof (keeps_step ms ms s (Some e) s' tr (ev_name e) nd i Hinv Hst Hno Hi Hn HD2 eq_refl) as (_ & K2 & K3 & K4).
           split.
           ++ rewrite fmap_app in *. exact B1.
           ++ intros bb Hbb. apply elem_of_app in Hbb as [Hbb|Hbb]; [by apply Hold; left|]. apply elem_of_cons in Hbb as [-> | Hbb]; [|by apply Hold; right].
              split; cbn [fst snd]; [done|done|by exists u| |].
              ** rewrite fmap_app. by eapply calls_snoc.
              ** intros v q k d Hv Ho Hk. destruct (K4 v q k d Hv Ho Hk) as (q' & Hq' & Ho' & Hk'). by apply (HD5 v q' k d).
           ++ intros j nd' Hj Hn'. rewrite Hdir. destruct (Hino j nd' Hj) as (x' & Hx' & Hxn). rewrite fmap_app in *. apply (B3 j x'); [done|congruence].
           ++ unfold name_st in *. rewrite Hdir. destruct (s_dir s !! ev_name e) as [j|] eqn:Ej; [|done]. unfold state_of in *.
              rewrite (Hm j); [done|]. congruence.
        -- rewrite filter_cons, decide_False by done. rewrite filter_cons, decide_False by congruence.
           destruct (Hbs n) as (bs & cur' & E' & Hok). exists bs, cur'. split; [|by apply Hother].
           rewrite of_name_app, filter_cons, decide_False in E' by congruence. done.
  - (* it found what it needed in the directory *)
    assert (ms' = ms) as ->.
    { apply map_eq. intros j. specialize (Hf j). cbn in Hf. rewrite decide_False in Hf; [done|]. by rewrite Ei. }
    destruct (step_dir s _ s' Hst) as [[Hdir _]|[(u & m & j & nd & ? & _)|(u & m & j & E0 & Hj & Hdir & Hino')]]; [|done|].
    + assert (∀ u n, e ≠ EvDelete u n true) as Hnd'.
      { intros u n ->. inversion Hst; subst. cbn [s_dir] in Hdir. apply (f_equal (λ d, d !! n)) in Hdir. rewrite lookup_delete in Hdir. congruence. }
      apply Hlast. exists bs, (cur ++ [x]). split; [by rewrite flat_snoc, E|]. split; [done| | |].
      * intros bb Hbb. pose proof (B2 bb Hbb) as Hok. eapply block_keep; [exact Hok|]. destruct Hok as [(nd' & Hi' & Hn') Hg _ _ _]. by apply (Hkeep _ _ nd').
      * intros j nd' Hj Hn'. rewrite Hdir. destruct (Hino j nd' Hj) as (x' & Hx' & Hxn). apply (B3 j x'); [done|congruence].
      * rewrite fmap_app. eapply calls_snoc; [exact B4|]. pose proof (call_alone ms s e s' Hst Ei Hnd') as H. unfold name_st in *. by rewrite Hdir.
    + injection E0 as ->. cbn [ev_name] in *. apply Hlast. exists (bs ++ [(j, cur, x)]), []. split; [by rewrite flat_close, E|].
      assert (∃ nd, s_inodes s !! j = Some nd ∧ i_name nd = m) as (nd & Hjn & Hnm). { destruct (linv_dir _ ms s Hinv m j Hj) as (nd & H1 & H2 & _). by exists nd. }
      split.
      * rewrite fmap_app. apply NoDup_app. split_and!; [done| |apply NoDup_singleton]. intros k Hk Hk'. apply elem_of_list_singleton in Hk' as ->.
        apply elem_of_list_fmap in Hk as (bb & E1 & Hbb). cbn [fst] in E1. destruct (B2 bb Hbb) as [_ Hg _ _ _]. congruence.
      * intros bb Hbb. apply elem_of_app in Hbb as [Hbb|Hbb].
        -- pose proof (B2 bb Hbb) as Hok. eapply block_keep; [exact Hok|]. destruct Hok as [(nd' & Hi' & Hn') Hg _ _ _]. by apply (Hkeep _ _ nd').
        -- apply elem_of_list_singleton in Hbb as ->. split; cbn [fst snd].
           ++ rewrite Hino'. by exists nd.
           ++ by rewrite Hdir, lookup_delete.
           ++ by exists u.
           ++ unfold name_st in B4. by rewrite Hj in B4.
           ++ intros v q k d Hv Ho Hk. apply begun_ends, begun_lt in Hk. exact Hk.
      * intros k nd' Hk Hn'. right. rewrite fmap_app. apply elem_of_app. rewrite Hino' in Hk. destruct (B3 k nd' Hk Hn') as [H|H]; [|by left].
        right. apply elem_of_list_singleton. cbn [fst]. congruence.
      * unfold name_st. rewrite Hdir, lookup_delete. constructor.
Qed.

(** ** every run *)
Lemma ordered_init : ordered [] lstate_init ∅ [].
Proof.
  split.
  - apply linv_init.
  - intros t p. cbn. by rewrite lookup_empty.
  - constructor.
  - intros [[b j] e]. split; [by intros H%elem_of_nil|]. intros (_ & H & _). done.
  - constructor.
  - intros n. exists [], []. split; [done|]. split; [constructor|intros b Hb; by apply elem_of_nil in Hb|intros i nd; cbn; by rewrite lookup_empty|].
    unfold name_st. cbn. rewrite lookup_empty. constructor.
Qed.
Lemma texec_ordered tr s : texec tr s → ∃ ms xs, ordered tr s ms xs.
Proof.
  induction 1 as [|tr s t c p _ (ms & xs & Ho) Ht Hb Hst|tr s e s' _ (ms & xs & Ho) Hst Hno].
  - exists ∅, []. apply ordered_init.
  - exists ms, xs. by apply ordered_begin.
  - destruct e as [e|].
    + destruct (ordered_some tr s ms xs e s' Ho Hst Hno) as (ms' & xs' & Ho'). by exists ms', xs'.
    + exists ms, xs. change (option_list (Ends <$> None)) with (@nil titem). rewrite app_nil_r. by apply (ordered_none tr s).
Qed.
Lemma named_of_name n xs : named n xs = snd <$> of_name n xs.
Proof.
  unfold named, on_name. induction xs as [|x xs IH]; [done|]. cbn [fmap list_fmap]. rewrite !filter_cons. case_decide; cbn [fmap list_fmap]; [f_equal|]; exact IH.
Qed.
Lemma texec_linearizable tr s : texec tr s → linearizable tr.
Proof.
  intros H. destruct (texec_ordered tr s H) as (ms & xs & [_ _ Hnd Hin Hs Hbs]). exists xs. split; [done|]. split; [done|]. split.
  - intros i j x y Hij Hx Hy He. destruct (ss_lookup overlap xs i j x y Hs Hij Hx Hy) as [Ho _]. unfold earlier in He. lia.
  - intros n. destruct (Hbs n) as (bs & cur & E & Hok). exists (name_st ms s n). rewrite named_of_name, E. by apply (flat_calls ms s tr).
Qed.
(** everything that was returned is the answer to a call *)
Lemma texec_answers tr s : texec tr s → ∀ j e, tr !! j = Some (Ends e) → ∃ b, call_in tr (b, j, e).
Proof.
  induction 1 as [|tr s t c p _ IH Ht Hb Hst|tr s e s' Hx IH Hst Hno]; intros j e0 Hj; [done| |].
  - apply lookup_snoc_Some in Hj as [Hj|[_ ?]]; [|done]. destruct (IH j e0 Hj) as [b Hb']. exists b. by apply call_in_begins.
  - destruct e as [e|]; cbn [fmap option_fmap option_map] in *; [change (option_list (Some (Ends e))) with [Ends e] in *|change (option_list (@None titem)) with (@nil titem) in *; rewrite app_nil_r in *; by apply IH].
    destruct (texec_ordered tr s Hx) as (ms & xs & [_ Hrun _ _ _ _]).
    destruct (step_caller s _ s' Hst Hno) as (t & p & Ht & [(ev & E & Et & _ & Hans & _)|(q' & ? & _)]); [|done]. injection E as <-.
    destruct (Hrun t p Ht) as (b & c & Hb & Hc). rewrite <- Et in Hb. pose proof (call_in_ends tr e b c (b, j, e0) Hb (Hans c Hc)) as Hci.
    apply lookup_snoc_Some in Hj as [Hj|[-> E]].
    + destruct (IH j e0 Hj) as [b' Hb']. exists b'. apply (call_in_ends tr e b c); auto.
    + injection E as ->. exists b. apply Hci. by right.
Qed.
(** the runs of LabelConc.v are these *)
Lemma ends_app tr tr' : ends (tr ++ tr') = ends tr ++ ends tr'.
Proof. induction tr as [|[t c|e] tr IH]; cbn [app ends]; [done|done|by rewrite IH]. Qed.
Lemma lexec_texec tr s : lexec tr s → ∃ ttr, texec ttr s ∧ ends ttr = tr.
Proof.
  induction 1 as [|tr s e s' _ (ttr & Hx & He) Hst]; [exists []; by split; [constructor|]|].
  assert ((∃ t c p, s_threads s !! t = None ∧ begins c p ∧ e = None ∧ s' = goto s t p) ∨ (∀ t, s_threads s !! t = None → s_threads s' !! t = None)) as Hcase.
  { inversion Hst; subst; try (right; intros u Hu; cbn [goto leave put s_threads];
      match goal with H : s_threads s !! ?t = Some _ |- _ => assert (t ≠ u) by congruence end;
      first [by rewrite lookup_insert_ne|by rewrite lookup_delete_ne]); left.
    - by exists t, (CGet n), (PGetOpen n).
    - by exists t, (CSet l layer), (PSetOpen l nl).
    - by exists t, (CCreate n), (PCreStat n).
    - by exists t, (CDelete n), (PDel n). }
  destruct Hcase as [(t & c & p & Ht & Hb & -> & ->)|Hno].
  - exists (ttr ++ [Begins t c]). split; [by apply texec_begin|]. rewrite ends_app, He. done.
  - exists (ttr ++ option_list (Ends <$> e)). split; [by apply (texec_step ttr s)|]. rewrite ends_app, He. f_equal. by destruct e.
Qed.
