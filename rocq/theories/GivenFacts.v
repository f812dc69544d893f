(** Every layer in the store was returned by a call. *)
From Verif Require Import Prelude Succinct TripleFiles Merge Layer Builder Rollup Squash MergeBase Names Spec Store SpecStore StoreFacts StoreApi StoreAny StoreAnyFacts SpecGiven.

(** what a program has written when it returns, from [W] on *)
Fixpoint writes {A} (p : prog A) (W : list lname) (Q : list lname → outcome A → Prop) : Prop :=
  match p with
  | Ret r => Q W r
  | Look f => ∀ s c, writes (f s c) W Q
  | Alloc f => ∀ n, writes (f n) W Q
  | Put (WFiles n _) p => writes p (n :: W) Q
  | Put _ p => writes p W Q
  | Assume _ p => writes p W Q
  end.
Lemma writes_bind {A B} (p : prog A) (f : A → prog B) W Q :
  writes p W (λ W' r, match r with Ok a => writes (f a) W' Q | Err e => Q W' (Err e) | Panic => Q W' Panic end) →
  writes (pbind p f) W Q.
Proof.
  revert W. induction p as [r|k IH|k IH|w p IH|b p IH]; intros W; cbn [writes pbind]; auto; [by destruct r|].
  destruct w; auto.
Qed.
Lemma writes_mono {A} (p : prog A) W (Q Q' : list lname → outcome A → Prop) : (∀ W r, Q W r → Q' W r) → writes p W Q → writes p W Q'.
Proof.
  intros HQ. revert W. induction p as [r|k IH|k IH|w p IH|b p IH]; intros W; cbn [writes]; auto. destruct w; auto.
Qed.
(** programs that write no files *)
Definition quiet {A} (p : prog A) : Prop := ∀ W, writes p W (λ W' _, W' = W).
Lemma quiet_ret {A} (r : outcome A) : quiet (Ret r).
Proof. by intros W. Qed.
Lemma quiet_bind {A B} (p : prog A) (f : A → prog B) : quiet p → (∀ a, quiet (f a)) → quiet (pbind p f).
Proof.
  intros Hp Hf W. apply writes_bind. eapply writes_mono; [|apply Hp]. cbn. intros W' r ->. destruct r; [apply Hf|done..].
Qed.
Lemma quiet_then {A B} (p : prog A) (f : A → prog B) W Q : quiet p → (∀ a, writes (f a) W Q) → (∀ e, Q W (Err e)) → Q W Panic →
  writes (pbind p f) W Q.
Proof.
  intros Hp Hf H1 H2. apply writes_bind. eapply writes_mono; [|apply Hp]. cbn. intros W' r ->. destruct r; auto.
Qed.
Lemma quiet_cache {A} cached L (p : prog A) : quiet p → quiet (cache_put cached L p).
Proof. intros H W. destruct cached; [exact (H W)|exact (H W)]. Qed.
Lemma find_start_quiet cached fuel td : quiet (find_start cached fuel td).
Proof.
  revert td. induction fuel as [|f IH]; intros td; [by destruct td as [|[]]|]. destruct td as [|[x r] td]; [done|].
  cbn [find_start]. intros W s c. destruct (cache_get _ _ _) as [L|].
  - destruct r as [[rl op]|]; [|done]. case_decide; [|done]. by destruct op.
  - destruct (s_rollup s _) as [rl|].
    + case_decide; [done|]. apply IH.
    + destruct (s_parent s _); [apply IH|done].
Qed.
Lemma load_base_quiet cached x r : quiet (load_base cached x r).
Proof.
  destruct r as [[rl op]|]; intros W s c; cbn; destruct (base_files _ _); try done; by repeat apply quiet_cache.
Qed.
Lemma load_children_quiet cached L td : quiet (load_children cached L td).
Proof.
  revert L. induction td as [|[x [[rl op]|]] td IH]; intros L; [done| |]; cbn [load_children].
  - destruct op; [|done]. intros W s c. destruct (child_files _ _); [|done]. repeat apply quiet_cache. apply IH.
  - intros W s c. destruct (child_files _ _); [|done]. apply quiet_cache. apply IH.
Qed.
Lemma get_layer_quiet cached x : quiet (get_layer cached x).
Proof.
  intros W s c. destruct (cache_get _ _ _); [done|]. destruct (s !! x); [|done]. revert W.
  apply quiet_bind; [apply find_start_quiet|]. intros [[L|] td].
  - apply quiet_bind; [apply load_children_quiet|]. by intros ?.
  - destruct td as [|[y rl] td]; [done|]. apply quiet_bind; [apply load_base_quiet|]. intros a.
    apply quiet_bind; [apply load_children_quiet|]. by intros ?.
Qed.
Lemma get_existing_quiet cached x : quiet (get_existing cached x).
Proof. apply quiet_bind; [apply get_layer_quiet|]. by intros [|]. Qed.
Lemma create_child_quiet cached x : quiet (create_child cached x).
Proof. apply quiet_bind; [apply get_existing_quiet|]. by intros L W n. Qed.

(** each call gives away what it has written *)
Definition only (W : list lname) (r : outcome lname) : Prop := W = [] ∨ ∃ n, W = [n] ∧ r = Ok n.
Lemma build_on_only nvord prord st cs n : writes (build_on nvord prord st cs n) [] only.
Proof. unfold build_on. cbn [writes]. destruct (build _ _ _ _) as [[|l L]|]; cbn; [by left| |by left]. right. by exists n. Qed.
Lemma shortcut_only L upto make : writes make [] only → writes (upto_shortcut L upto (λ r, Ret (Ok r)) make) [] only.
Proof.
  intros H. unfold upto_shortcut. case_decide; [by left|]. case_decide; [by left|]. cbn [writes]. intros s c.
  destruct (s_rollup s _) as [r|]; [|done]. destruct (s_parent s r); [|by left]. case_decide; [by left|done].
Qed.
Lemma register_only cached x p : writes p [] only → writes (pbind p (λ r, register_rollup cached x r)) [] only.
Proof.
  intros H. apply writes_bind. eapply writes_mono; [|exact H]. cbn. intros W r Hr. destruct r as [n|e|]; [|done..].
  unfold register_rollup. case_decide; destruct cached; exact Hr.
Qed.
Lemma rollup_only cached x : writes (do_rollup cached x) [] only.
Proof.
  apply quiet_then; [apply get_existing_quiet| |by left|by left]. intros L. apply register_only. unfold perform_rollup.
  destruct (l_parent L); [|by left]. cbn [writes]. intros s c.
  assert (∀ n, writes (match rollup (layers L) with Some l => Put (WFiles n l) (Ret (Ok n)) | None => Ret Panic end) [] only) as Hm.
  { intros n. destruct (rollup _); cbn; [right; by exists n|by left]. }
  destruct (s_rollup s _) as [r|]; [|exact Hm]. destruct (s_parent s r); [exact Hm|by left].
Qed.
Lemma outcome_then {A B} (o : outcome A) (f : A → prog B) (W : list lname) Q : (∀ a, writes (f a) W Q) → (∀ e, Q W (Err e)) → Q W Panic →
  writes (pbind (Ret o) f) W Q.
Proof. intros. apply quiet_then; try done. Qed.
Lemma rollup_upto_only cached x upto : writes (do_rollup_upto cached x upto) [] only.
Proof.
  apply quiet_then; [apply get_existing_quiet| |by left|by left]. intros L. apply register_only, shortcut_only.
  apply quiet_then; [apply create_child_quiet| |by left|by left]. intros [n Lu]. cbn [writes]. intros s c.
  apply outcome_then; [|by left|by left]. intros ns. cbn [writes]. intros s' c'.
  apply outcome_then; [|by left|by left]. intros disk. apply outcome_then; [|by left|by left]. intros mem. cbn [writes].
  destruct (rollup_upto _ _); cbn; [right; by exists n|by left].
Qed.
Lemma imprecise_only cached x upto : writes (do_imprecise cached x upto) [] only.
Proof.
  apply quiet_then; [apply get_existing_quiet| |by left|by left]. intros L. apply register_only, shortcut_only.
  apply quiet_then; [apply create_child_quiet| |by left|by left]. intros [n Lu]. cbn [writes]. intros s c.
  apply outcome_then; [|by left|by left]. intros ns. cbn [writes].
  apply outcome_then; [|by left|by left]. intros mem.
  destruct (imprecise_rollup_upto _); cbn; [right; by exists n|by left].
Qed.
Lemma squash_only cached x : writes (do_squash cached x) [] only.
Proof.
  apply quiet_then; [apply get_existing_quiet| |by left|by left]. intros L. cbn [writes]. intros n.
  destruct (squash _); cbn; [right; by exists n|by left].
Qed.
Lemma squash_upto_only_writes cached x upto : writes (do_squash_upto cached x upto) [] only.
Proof.
  apply quiet_then; [apply get_existing_quiet| |by left|by left]. intros L. cbn [writes]. intros s c.
  destruct (s !! upto); [|by left]. unfold lift. apply outcome_then; [|by left|by left]. intros bs.
  apply outcome_then; [|by left|by left]. intros base. apply outcome_then; [|by left|by left]. intros top. cbn [writes]. intros n.
  destruct (squash_upto _ _); cbn; [right; by exists n|by left].
Qed.
Lemma merge_only xs : writes (do_merge xs) [] only.
Proof.
  cbn [do_merge writes]. intros s c. apply outcome_then; [|by left|by left]. intros ls. cbn [writes]. intros n.
  destruct (merge_base_layers _); cbn; [right; by exists n|by left].
Qed.
Lemma import_only pk ns : writes (do_import pk ns) [] (λ W r, r = Ok tt ∧ W ⊆ ns).
Proof.
  unfold do_import. assert (∀ W, W ⊆ ns → writes (write_pack ns pk) W (λ W r, r = Ok tt ∧ W ⊆ ns)) as Hw.
  { induction pk as [|[|[n l] anc] pk IH]; intros W HW; cbn [write_pack].
    { cbn. done. }
    { apply IH. exact HW. }
    case_decide as Hn; [|by apply IH].
    cbn [writes]. intros s c. assert (n :: W ⊆ ns) as HW' by (intros y [->|?]%elem_of_cons; [done|by apply HW]).
    destruct anc as [|[p ?] ?]; cbn [writes]; by apply IH. }
  assert (∀ ms, writes (make_dirs ms (write_pack ns pk)) [] (λ W r, r = Ok tt ∧ W ⊆ ns)) as Hd; [|apply Hd].
  induction ms as [|m ms IH]; cbn [make_dirs writes]; [apply Hw; by intros ? ?%elem_of_nil|done].
Qed.
Lemma named_gives (p : prog lname) k : writes p [] only → writes (pmap RName p) [] (λ W r, ∀ x, x ∈ W → gave k r x).
Proof.
  intros H. apply writes_bind. eapply writes_mono; [|exact H]. cbn. intros W r [->|(n & -> & ->)].
  - by destruct r; cbn; intros ? ?%elem_of_nil.
  - cbn. intros x ->%elem_of_list_singleton. by left.
Qed.
Lemma program_gives cached k : writes (program cached k) [] (λ W r, ∀ x, x ∈ W → gave k r x).
Proof.
  destruct k; cbn [program].
  - apply quiet_then; [apply get_layer_quiet| |by intros ? ? ?%elem_of_nil|by intros ? ?%elem_of_nil]. by intros ? ? ?%elem_of_nil.
  - apply named_gives. cbn. intros n. apply build_on_only.
  - apply named_gives. apply quiet_then; [apply create_child_quiet| |by left|by left]. intros [n L]. apply build_on_only.
  - apply named_gives, rollup_only.
  - apply named_gives, rollup_upto_only.
  - apply named_gives, imprecise_only.
  - apply named_gives, squash_only.
  - apply named_gives, squash_upto_only_writes.
  - apply named_gives, merge_only.
  - apply writes_bind. eapply writes_mono; [|apply import_only]. cbn. intros W r [-> HW] x Hx. right. by exists pk, ns; auto.
Qed.

(** the layers that are written, in a run *)
Lemma write_files_from w s x l : s_files (write_store w s) x = Some l → s_files s x = Some l ∨ w = WFiles x l.
Proof.
  assert (∀ s0 y f, (∀ d, d_files (f d) = d_files d) → s_files (set_dent s0 y f) x = s_files s0 x) as Hk.
  { intros s0 y f Hf. unfold set_dent, s_files. destruct (s0 !! y) as [d|] eqn:E; [|done].
    destruct (decide (x = y)) as [->|]; [rewrite lookup_insert, E; cbn; by rewrite Hf|by rewrite lookup_insert_ne]. }
  destruct w as [n p|n k|y r|L|y]; cbn [write_store]; try (by left).
  - rewrite Hk by done. by left.
  - unfold set_dent, s_files. destruct (s !! n) as [d|] eqn:E; [|by left].
    destruct (decide (x = n)) as [->|]; [|rewrite lookup_insert_ne by done; by left]. rewrite lookup_insert. cbn. intros [= ->]. by right.
  - rewrite !Hk by done. by left.
Qed.
Definition from (s0 : store) (tr : list gev) (th : gmap nat (scall * prog sres)) (W : gmap nat (list lname)) (x : lname) : Prop :=
  is_Some (s_files s0 x) ∨ (∃ t k r, GDone t k r ∈ tr ∧ gave k r x) ∨ ∃ t ws, W !! t = Some ws ∧ is_Some (th !! t) ∧ x ∈ ws.
Definition ginv (s0 : store) (tr : list gev) (g : gstate) : Prop := ∃ W,
  (∀ t k p, g_threads g !! t = Some (k, p) → ∃ ws, W !! t = Some ws ∧ writes p ws (λ W r, ∀ x, x ∈ W → gave k r x)) ∧
  ∀ x l, s_files (g_store g) x = Some l → from s0 tr (g_threads g) W x.
Lemma from_weaken s0 tr tr' th th' W W' x : from s0 tr th W x → (∀ e, e ∈ tr → e ∈ tr') →
  (∀ t ws, W !! t = Some ws → is_Some (th !! t) → x ∈ ws →
    (∃ u k r, GDone u k r ∈ tr' ∧ gave k r x) ∨ ∃ ws', W' !! t = Some ws' ∧ is_Some (th' !! t) ∧ x ∈ ws') →
  from s0 tr' th' W' x.
Proof.
  intros [H|[(t & k & r & H1 & H2)|(t & ws & H1 & H2 & H3)]] Ht Hw; [by left|right; left; exists t, k, r; auto|right].
  destruct (Hw t ws H1 H2 H3) as [H|(ws' & H)]; [by left|right]. by exists t, ws'.
Qed.
Lemma ginv_move s0 tr s c th t k p p' s' c' : ginv s0 tr (GState s c th) → th !! t = Some (k, p) →
  (∀ ws Q, writes p ws Q → ∃ ws', ws ⊆ ws' ∧ writes p' ws' Q ∧ ∀ x l, s_files s' x = Some l → s_files s x = Some l ∨ x ∈ ws') →
  ginv s0 tr (GState s' c' (<[t := (k, p')]> th)).
Proof.
  intros (W & HT & HF) Ht Hmove. cbn [g_threads g_store] in *. destruct (HT t k p Ht) as (ws & Hws & Hp).
  destruct (Hmove ws _ Hp) as (ws' & Hsub & Hp' & Hf). exists (<[t := ws']> W). split; cbn [g_threads g_store].
  - intros u k' q. destruct (decide (u = t)) as [->|Hne].
    + rewrite !lookup_insert. intros [= <- <-]. by exists ws'.
    + rewrite !lookup_insert_ne by done. apply HT.
  - intros x l Hx. destruct (Hf x l Hx) as [Hx'|Hin].
    + apply (from_weaken _ _ _ _ _ _ _ _ (HF x l Hx')); [done|]. intros u vs H1 H2 H3. right.
      destruct (decide (u = t)) as [->|Hne].
      * exists ws'. rewrite !lookup_insert. split; [done|]. split; [done|]. rewrite Hws in H1. injection H1 as <-. by apply Hsub.
      * exists vs. rewrite !lookup_insert_ne by done. done.
    + right. right. exists t, ws'. by rewrite !lookup_insert.
Qed.
Lemma ginv_step cached s0 tr g e g' : ginv s0 tr g → astep cached g e g' → e ≠ Some GCrash → ginv s0 (tr ++ option_list e) g'.
Proof.
  intros Hi Hs He. inversion Hs as [s c th t k Ht Hk|s c th t k f Ht|s c th t k f n Ht Hn|s c th t k w p Ht|s c th t k b p Ht Hb|s c th t k r Ht|s c th x|s c th];
    subst; cbn [option_list]; rewrite ?app_nil_r; [| | | | | | |done].
  - destruct Hi as (W & HT & HF). cbn [g_threads g_store] in *. exists (<[t := []]> W). split; cbn [g_threads g_store].
    + intros u k' q. destruct (decide (u = t)) as [->|Hne].
      * rewrite !lookup_insert. intros [= <- <-]. exists []. split; [done|]. apply program_gives.
      * rewrite !lookup_insert_ne by done. apply HT.
    + intros x l Hx. apply (from_weaken _ _ _ _ _ _ _ _ (HF x l Hx)); [intros ? ?; apply elem_of_app; by left|]. intros u vs H1 H2 H3. right.
      exists vs. rewrite !lookup_insert_ne; [done|intros ->; rewrite Ht in H2; by destruct H2..].
  - eapply ginv_move; [done|done|]. intros ws Q H. exists ws. split; [done|]. split; [apply H|]. by left.
  - eapply ginv_move; [done|done|]. intros ws Q H. exists ws. split; [done|]. split; [apply H|]. intros x l.
    unfold new_dir, s_files. destruct (decide (x = n)) as [->|]; [rewrite lookup_insert; done|rewrite lookup_insert_ne by done; by left].
  - eapply ginv_move; [done|done|]. intros ws Q H. destruct w as [n q|n k'|y r|L|y]; cbn [writes] in H.
    2: { exists (n :: ws). split; [by apply list_subseteq_cons|]. split; [done|]. intros x l [Hx|[= -> ->]]%write_files_from; [by left|right; left]. }
    all: exists ws; split; [done|]; split; [done|]; intros x l [Hx|?]%write_files_from; [by left|done].
  - eapply ginv_move; [done|done|]. intros ws Q H. exists ws. split; [done|]. split; [apply H|]. by left.
  - destruct Hi as (W & HT & HF). cbn [g_threads g_store] in *. exists W. split; cbn [g_threads g_store].
    + intros u k' q. rewrite lookup_delete_Some. intros [_ H]. by apply HT.
    + intros x l Hx. apply (from_weaken _ _ _ _ _ _ _ _ (HF x l Hx)); [intros ? ?; apply elem_of_app; by left|]. intros u vs H1 H2 H3.
      destruct (decide (u = t)) as [->|Hne].
      * left. destruct (HT t k _ Ht) as (ws & Hws & Hg). cbn [writes] in Hg. rewrite Hws in H1. injection H1 as <-.
        exists t, k, r. split; [apply elem_of_app; right; left|by apply Hg].
      * right. exists vs. by rewrite lookup_delete_ne.
  - exact Hi.
Qed.
Lemma ginv_exec cached g tr g' : aexec cached g tr g' → g_threads g = ∅ → GCrash ∉ tr → ginv (g_store g) tr g'.
Proof.
  intros H Hg. induction H as [g|g tr g' e g'' H IH Hs].
  - intros _. exists ∅. split; [rewrite Hg; intros t k p; by rewrite lookup_empty|]. intros x l Hx. left. by exists l.
  - rewrite not_elem_of_app. intros [H1 H2]. eapply ginv_step; [by apply IH|done|]. intros ->. apply H2. left.
Qed.
Lemma made_given cached g tr g' x l : aexec cached g tr g' → g_threads g = ∅ → finished tr g' → s_files (g_store g') x = Some l →
  is_Some (s_files (g_store g) x) ∨ ∃ t k r, GDone t k r ∈ tr ∧ gave k r x.
Proof.
  intros H Hg [He Hc] Hx. destruct (ginv_exec _ _ _ _ H Hg Hc) as (W & _ & HF). destruct (HF x l Hx) as [Hf|[Hf|(t & ws & _ & [p Hp] & _)]]; [by left|by right|].
  rewrite He in Hp. by apply lookup_empty_Some in Hp.
Qed.
Lemma failed_nothing cached tr0 g tr g' : aexec cached gstate_init tr0 g → aexec cached g tr g' → g_threads g = ∅ → finished tr g' →
  (∀ t k r, GDone t k r ∈ tr → (∀ n, r ≠ Ok (RName n)) ∧ r ≠ Ok RDone) → ∀ x, s_files (g_store g') x = s_files (g_store g) x.
Proof.
  intros H0 H Hg Hf Hno x. destruct (s_files (g_store g') x) as [l|] eqn:E.
  - destruct (made_given _ _ _ _ _ _ H Hg Hf E) as [[l' Hl']|(t & k & r & Hin & [->|(pk & ns & _ & -> & _)])]; [|by destruct (proj1 (Hno t k _ Hin) x)|by destruct (Hno t k _ Hin)].
    pose proof (kept_files _ _ (aexec_kept _ _ _ _ _ H0 H) _ _ Hl'). congruence.
  - destruct (s_files (g_store g) x) as [l|] eqn:E'; [|done]. pose proof (kept_files _ _ (aexec_kept _ _ _ _ _ H0 H) _ _ E'). congruence.
Qed.
(** What was in the store when no call was under way gets no other parent. *)
Definition settled (s0 : store) (g : gstate) : Prop :=
  (∀ x, is_Some (s0 !! x) → is_Some (g_store g !! x) ∧ s_parent (g_store g) x = s_parent s0 x) ∧
  ∀ t k p, g_threads g !! t = Some (k, p) → ∃ F P, owns (is_import k) p F P any ∧ ∀ n, n ∈ P → s0 !! n = None ∧ is_Some (g_store g !! n).
Lemma settled_step cached s0 g e g' : astep cached g e g' → settled s0 g → settled s0 g'.
Proof.
  intros Hs [Hp Ht]. destruct Hs as [s c th t k E Hk|s c th t k f E|s c th t k f n E Hn|s c th t k w p E|s c th t k b p E Hb|s c th t k r E|s c th x|s c th]; cbn [g_store g_threads] in *.
  - split; [done|]. cbn. intros t' k' p' H. apply lookup_insert_Some in H as [[<- [= <- <-]]|[_ H]]; [|by eapply Ht].
    exists ∅, ∅. split; [by apply program_owns|]. intros n Hn. set_solver.
  - split; [done|]. cbn. intros t' k' p' H. apply lookup_insert_Some in H as [[<- [= <- <-]]|[_ H]]; [|by eapply Ht].
    destruct (Ht _ _ _ E) as (F & P & Ho & HP). exists F, P. split; [|done]. cbn [owns] in Ho. apply Ho.
  - destruct (new_dir_eq n s Hn) as (_ & E2 & _ & _).
    assert (∀ x, is_Some (s !! x) → is_Some (new_dir n s !! x)) as Hdom.
    { intros x Hx. unfold new_dir. destruct (decide (n = x)) as [<-|]; [rewrite lookup_insert; by eauto|by rewrite lookup_insert_ne]. }
    split; cbn.
    + intros x Hx. destruct (Hp x Hx) as [Hd He]. rewrite E2. auto.
    + intros t' k' p' H. apply lookup_insert_Some in H as [[<- [= <- <-]]|[_ H]].
      * destruct (Ht _ _ _ E) as (F & P & Ho & HP). exists ({[n]} ∪ F), ({[n]} ∪ P). cbn [owns] in Ho. split; [apply Ho|].
        intros m [->%elem_of_singleton|Hm]%elem_of_union; [|destruct (HP _ Hm); auto].
        split; [|unfold new_dir; rewrite lookup_insert; by eexists]. destruct (s0 !! n) as [d|] eqn:E0; [|done].
        destruct (Hp n (ex_intro _ d E0)) as [[d' Hd'] _]. congruence.
      * destruct (Ht _ _ _ H) as (F & P & Ho & HP). exists F, P. split; [done|]. intros m Hm. destruct (HP _ Hm). auto.
  - destruct (Ht _ _ _ E) as (F & P & Ho & HP). split; cbn [g_store g_threads].
    + intros x Hx. destruct (Hp x Hx) as [Hd He]. split; [by apply write_dom|]. rewrite <-He. cbn [owns] in Ho. destruct w as [n q|n l|y r|L|y]; try reflexivity.
      * destruct Ho as [Hn _]. destruct (HP _ Hn) as [H0 Hn']. destruct (write_parent_eq s n q Hn') as (_ & _ & _ & E2). rewrite E2.
        rewrite decide_False; [done|]. intros ->. rewrite H0 in Hx. by apply is_Some_None in Hx.
      * destruct (s !! n) as [d|] eqn:En.
        -- destruct (write_files_eq s n l (ex_intro _ d En)) as (E1 & _). apply E1.
        -- unfold s_parent. cbn [write_store]. rewrite set_dent_lookup. case_decide as Ex; [|done]. subst. by rewrite En.
      * by destruct (write_rollup_keeps s y r).
    + intros t' k' p' H. apply lookup_insert_Some in H as [[<- [= <- <-]]|[_ H]].
      * cbn [owns] in Ho. destruct w as [n q|n l|y r|L|y].
        -- exists F, (P ∖ {[n]}). split; [by apply Ho|]. intros m [Hm _]%elem_of_difference. destruct (HP _ Hm). split; [done|by apply write_dom].
        -- eexists _, _. split; [by apply Ho|]. intros m Hm. assert (m ∈ P) as Hm' by (destruct (l_neg l); [done|by apply elem_of_difference in Hm as [? _]]).
           destruct (HP _ Hm'). split; [done|by apply write_dom].
        -- exists F, P. split; [done|]. intros m Hm. destruct (HP _ Hm). split; [done|by apply write_dom].
        -- exists F, P. split; [done|]. intros m Hm. destruct (HP _ Hm). split; [done|by apply write_dom].
        -- exists F, P. split; [done|]. intros m Hm. destruct (HP _ Hm). split; [done|by apply write_dom].
      * destruct (Ht _ _ _ H) as (F' & P' & Ho' & HP'). exists F', P'. split; [done|]. intros m Hm. destruct (HP' _ Hm). split; [done|by apply write_dom].
  - split; [done|]. cbn. intros t' k' p' H. apply lookup_insert_Some in H as [[<- [= <- <-]]|[_ H]]; [|by eapply Ht].
    destruct (Ht _ _ _ E) as (F & P & Ho & HP). exists F, P. split; [|done]. cbn [owns] in Ho. by apply Ho.
  - split; [done|]. cbn. intros t' k' p' H. apply lookup_delete_Some in H as [_ H]. by eapply Ht.
  - by split.
  - split; [done|]. cbn. intros t' k' p' H. by rewrite lookup_empty in H.
Qed.
Lemma settled_parent cached g tr g' x : aexec cached g tr g' → g_threads g = ∅ → is_Some (g_store g !! x) → s_parent (g_store g') x = s_parent (g_store g) x.
Proof.
  intros H Hg Hx. assert (settled (g_store g) g') as [Hp _]; [|by apply Hp].
  induction H as [g|g tr g1 e g2 He IH Hs]; [|by eapply settled_step; [exact Hs|apply IH]].
  split; [done|]. intros t k p Ht. rewrite Hg in Ht. by apply lookup_empty_Some in Ht.
Qed.
Lemma files_there s x l : s_files s x = Some l → is_Some (s !! x).
Proof. unfold s_files. destruct (s !! x); [by eexists|done]. Qed.
Lemma failed_stored cached tr0 g tr g' : aexec cached gstate_init tr0 g → aexec cached g tr g' → g_threads g = ∅ → finished tr g' →
  (∀ t k r, GDone t k r ∈ tr → (∀ n, r ≠ Ok (RName n)) ∧ r ≠ Ok RDone) → ∀ x c, stored (g_store g') x c ↔ stored (g_store g) x c.
Proof.
  intros H0 H Hg Hf Hno x c. split; [|apply kept_stored; by eapply aexec_kept].
  pose proof (failed_nothing _ _ _ _ _ H0 H Hg Hf Hno) as Hfl.
  induction 1 as [x l Hx Hl Hp|x l p c Hx Hl Hp _ IH]; rewrite Hfl in Hx; rewrite (settled_parent _ _ _ _ x H Hg (files_there _ _ _ Hx)) in Hp; econstructor; eauto.
Qed.
Lemma failed_changes cached tr0 g tr g' : aexec cached gstate_init tr0 g → aexec cached g tr g' → g_threads g = ∅ → finished tr g' →
  (∀ t k r, GDone t k r ∈ tr → (∀ n, r ≠ Ok (RName n)) ∧ r ≠ Ok RDone) →
  (∀ x, s_files (g_store g') x = s_files (g_store g) x) ∧ ∀ x c, stored (g_store g') x c ↔ stored (g_store g) x c.
Proof. intros H0 H Hg Hf Hno. split; [by eapply failed_nothing|by eapply failed_stored]. Qed.
Lemma made_given_init cached tr g x l : aexec cached gstate_init tr g → finished tr g → s_files (g_store g) x = Some l →
  ∃ t k r, GDone t k r ∈ tr ∧ gave k r x.
Proof.
  intros H Hf Hx. destruct (made_given _ _ _ _ _ _ H eq_refl Hf Hx) as [[l' Hl]|H']; [|done]. done.
Qed.
Lemma script_no_crash ks rs : GCrash ∉ script_trace ks rs.
Proof.
  revert rs. induction ks as [|[ns k] ks IH]; intros [|r rs]; cbn; try apply not_elem_of_nil.
  rewrite !not_elem_of_cons. split; [done|]. split; [done|apply IH].
Qed.
Lemma script_results ks rs t k r : GDone t k r ∈ script_trace ks rs → r ∈ rs.
Proof.
  revert rs. induction ks as [|[ns k'] ks IH]; intros [|r' rs]; cbn; try (by intros ?%elem_of_nil).
  rewrite !elem_of_cons. intros [?|[[= -> -> ->]|H]]; [done|by left|right; by apply IH].
Qed.
Lemma stopped_leaves : ∃ cached tr g x l, aexec cached gstate_init tr g ∧ g_threads g = ∅ ∧ stored (g_store g) x [(x, l)] ∧ ∀ t k r, GDone t k r ∉ tr.
Proof.
  set (k := SBase id id []). set (x := [1%N]).
  assert (∃ l L, build id id [] [] = Some (l :: L) ∧ l_neg l = None) as (l & L & Eb & Hn) by (eexists _, _; split; [vm_compute; reflexivity|reflexivity]).
  exists false, [GStart 0 k; GCrash], (GState (write_store (WFiles x l) (new_dir x ∅)) ∅ ∅), x, l. split_and!.
  - eapply (aexec_trans _ _ [GStart 0 k]); [eapply (aexec_one _ _ (Some _)); apply (a_start _ ∅ ∅ ∅ 0 k); [done|split; by intros m]|].
    eapply (aexec_trans _ _ []); [eapply (aexec_one _ _ None); eapply (a_alloc _ ∅ ∅ _ 0 k _ x); [apply lookup_insert|done]|].
    eapply (aexec_trans _ _ []); [eapply (aexec_one _ _ None); eapply (a_assume _ _ _ _ 0 k); [apply lookup_insert|done]|].
    eapply (aexec_trans _ _ []); [eapply (aexec_one _ _ None); eapply (a_put _ _ _ _ 0 k (WFiles x l)); rewrite lookup_insert, Eb; reflexivity|].
    eapply (aexec_one _ _ (Some _)). apply a_crash.
  - done.
  - cbn [g_store]. apply stored_base; [|done|]; unfold s_files, s_parent, write_store, set_dent, new_dir; rewrite lookup_insert, lookup_insert; done.
  - intros t k' r. rewrite !not_elem_of_cons. split; [done|]. split; [done|apply not_elem_of_nil].
Qed.
