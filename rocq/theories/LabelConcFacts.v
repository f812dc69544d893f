(** The directory label store behaves like one register for each file. *)
From Verif Require Import Prelude Names SpecText NamesFacts LabelConc LabelSpec.

Section inv.
  (** [K]: the errors with which a file without a label is rejected *)
  Context (K : ekind → Prop).
  Definition settled (nd : inode) (c : option label) : Prop :=
    match c with
    | None => ∃ k, K k ∧ get_label_from_data (i_name nd) (i_data nd) = Err k
    | Some l => get_label_from_data (i_name nd) (i_data nd) = Ok l ∧ lb_name l = i_name nd ∧ label_ok l
    end.
  Definition inode_ok (nd : inode) (c : option label) : Prop :=
    (i_excl nd = None → settled nd c) ∧ (i_excl nd ≠ None → i_shared nd = []).
  Context (ms : gmap ino label).
  Definition has (s : lstate) (i : ino) (n : bytes) (P : inode → Prop) : Prop :=
    ∃ nd, s_inodes s !! i = Some nd ∧ i_name nd = n ∧ P nd.
  Definition new_ok (l nl : label) : Prop := updates l nl ∧ label_ok l ∧ label_ok nl.
  Definition thread_ok (s : lstate) (t : tid) (p : pc) : Prop :=
    match p with
    | PGetOpen n | PCreStat n | PCreOpen n | PDel n => True
    | PGetLock n i => has s i n (λ _, True)
    | PGetRead n i => has s i n (λ nd, t ∈ i_shared nd)
    | PGetDone n i d => has s i n (λ nd, t ∈ i_shared nd ∧ i_data nd = d)
    | PSetOpen l nl => new_ok l nl
    | PSetLock l nl i => new_ok l nl ∧ has s i (lb_name l) (λ _, True)
    | PSetRead l nl i =>
        new_ok l nl ∧ has s i (lb_name l) (λ nd, i_excl nd = Some t ∧ settled nd (ms !! i))
    | PSetGot l nl i d =>
        new_ok l nl ∧
        has s i (lb_name l) (λ nd, i_excl nd = Some t ∧ settled nd (ms !! i) ∧ i_data nd = d)
    | PSetWrite l nl i pos rest =>
        new_ok l nl ∧
        has s i (lb_name l) (λ nd, i_excl nd = Some t ∧ ms !! i = Some l ∧
          i_data nd ++ rest = label_contents nl ∧ pos = length (i_data nd))
    | PCreLock n i => has s i n (λ nd, i_creator nd = t ∧ ms !! i = None ∧ i_data nd = [])
    | PCreWrite n i pos rest =>
        has s i n (λ nd, i_creator nd = t ∧ ms !! i = None ∧ i_excl nd = Some t ∧
          i_data nd ++ rest = label_contents (label_new_empty n) ∧ pos = length (i_data nd))
    end.
  Record glinv (s : lstate) : Prop := {
    linv_dir n i : s_dir s !! n = Some i → has s i n (λ _, True);
    linv_ms i : is_Some (ms !! i) → is_Some (s_inodes s !! i);
    linv_inode i nd : s_inodes s !! i = Some nd → inode_ok nd (ms !! i);
    linv_thread t p : s_threads s !! t = Some p → thread_ok s t p }.
End inv.

Lemma updates_new l layer nl :
  label_ok l → layer_ok layer → with_updated_layer l layer = Some nl → new_ok l nl.
Proof.
  intros Hl Hlayer. unfold with_updated_layer. destruct (N.leb_spec u64_max (lb_version l)) as [?|Hlt]; [done|].
  intros [= <-]. split; [done|]. split; [done|]. split; cbn [lb_version lb_layer]; [lia|done].
Qed.

(** steps that only move one thread *)
Lemma thread_ok_goto K ms s t p u q : thread_ok K ms s u q → thread_ok K ms (goto s t p) u q.
Proof. done. Qed.
Lemma linv_goto K ms s t p : glinv K ms s → thread_ok K ms s t p → glinv K ms (goto s t p).
Proof.
  intros [H1 H2 H3 H4] Hp. split; [done..|]. intros u q. cbn [goto s_threads].
  destruct (decide (u = t)) as [->|Hne].
  - rewrite lookup_insert. by intros [= <-].
  - rewrite lookup_insert_ne by done. apply H4.
Qed.
Lemma linv_done K ms s t : glinv K ms s → glinv K ms (leave s t).
Proof.
  intros [H1 H2 H3 H4]. split; [done..|]. intros u q. cbn [leave s_threads].
  destruct (decide (u = t)) as [->|Hne]; [by rewrite lookup_delete|].
  rewrite lookup_delete_ne by done. apply H4.
Qed.

(** steps that change one file: the other threads must not notice *)
Definition unnoticed (ms ms' : gmap ino label) (i : ino) (t : tid) (nd nd' : inode) : Prop :=
  i_name nd' = i_name nd ∧ i_creator nd' = i_creator nd ∧
  (∀ u, u ≠ t → u ∈ i_shared nd → u ∈ i_shared nd' ∧ i_data nd' = i_data nd) ∧
  (∀ u, u ≠ t → i_excl nd = Some u → i_excl nd' = Some u ∧ i_data nd' = i_data nd ∧ ms' !! i = ms !! i) ∧
  (ms' !! i = ms !! i ∧ i_data nd' = i_data nd ∨ is_Some (ms !! i) ∨ i_creator nd = t) ∧
  (∀ j, j ≠ i → ms' !! j = ms !! j).
Lemma settled_data K nd nd' c : i_data nd' = i_data nd → i_name nd' = i_name nd → settled K nd c → settled K nd' c.
Proof. intros E1 E2. unfold settled. destruct c; by rewrite E1, ?E2. Qed.

Lemma thread_ok_put K ms ms' s i t nd nd' u q :
  s_inodes s !! i = Some nd → unnoticed ms ms' i t nd nd' → u ≠ t →
  thread_ok K ms s u q → thread_ok K ms' (put s i nd') u q.
Proof.
  intros Hi (Hn & Hc & Hsh & Hex & Hms & Hj) Hu.
  assert (∀ j n (P : inode → Prop), has s j n P →
            (j = i → ∀ x, x = nd → P x → P nd') →
            has (put s i nd') j n P) as Hhas.
  { intros j n P (x & Hx & Hxn & HP) Himp. unfold has. cbn [put s_inodes].
    destruct (decide (j = i)) as [->|Hne].
    - rewrite Hi in Hx. injection Hx as <-. exists nd'. rewrite lookup_insert.
      split; [done|]. split; [congruence|]. by apply (Himp eq_refl nd).
    - rewrite lookup_insert_ne by done. by exists x. }
  assert (∀ j n (P Q : inode → Prop), has (put s i nd') j n P → (∀ x, s_inodes (put s i nd') !! j = Some x → P x → Q x) →
            has (put s i nd') j n Q) as Himpl.
  { intros j n P Q (x & Hx & Hxn & HP) Himp. exists x. auto. }
  destruct q; cbn [thread_ok]; try done.
  - intros H. apply Hhas; [done|naive_solver].
  - intros H. apply Hhas; [done|]. intros -> ? -> ?. by apply Hsh.
  - intros H. apply Hhas; [done|]. intros -> ? -> [Hin Hd]. destruct (Hsh u Hu Hin) as [? ->]. done.
  - intros [Hok H]. split; [done|]. apply Hhas; [done|naive_solver].
  - intros [Hok H]. split; [done|]. destruct (decide (i0 = i)) as [->|Hne].
    + destruct H as (x & Hx & Hxn & He & Hst). rewrite Hi in Hx. injection Hx as <-.
      destruct (Hex u Hu He) as (He' & Hd & Hm). exists nd'. cbn [put s_inodes]. rewrite lookup_insert.
      split; [done|]. split; [congruence|]. split; [done|]. rewrite Hm. by eapply settled_data.
    + rewrite Hj by done. apply Hhas; [done|done].
  - intros [Hok H]. split; [done|]. destruct (decide (i0 = i)) as [->|Hne].
    + destruct H as (x & Hx & Hxn & He & Hst & Hdd). rewrite Hi in Hx. injection Hx as <-.
      destruct (Hex u Hu He) as (He' & Hd & Hm). exists nd'. cbn [put s_inodes]. rewrite lookup_insert.
      split; [done|]. split; [congruence|]. split; [done|]. rewrite Hm. split; [by eapply settled_data|congruence].
    + rewrite Hj by done. apply Hhas; [done|done].
  - intros [Hok H]. split; [done|]. destruct (decide (i0 = i)) as [->|Hne].
    + destruct H as (x & Hx & Hxn & He & Hst & Hdd & Hpos). rewrite Hi in Hx. injection Hx as <-.
      destruct (Hex u Hu He) as (He' & Hd & Hm). exists nd'. cbn [put s_inodes]. rewrite lookup_insert.
      split; [done|]. split; [congruence|]. split; [done|]. rewrite Hm, Hd. done.
    + rewrite Hj by done. apply Hhas; [done|done].
  - intros H. destruct (decide (i0 = i)) as [->|Hne].
    + destruct H as (x & Hx & Hxn & He & Hst & Hem). rewrite Hi in Hx. injection Hx as <-.
      exists nd'. cbn [put s_inodes]. rewrite lookup_insert. split; [done|]. split; [congruence|].
      split; [congruence|]. destruct Hms as [[-> ->]|[Hs|Hs]]; [done|rewrite Hst in Hs; by destruct Hs|congruence].
    + rewrite Hj by done. apply Hhas; [done|done].
  - intros H. destruct (decide (i0 = i)) as [->|Hne].
    + destruct H as (x & Hx & Hxn & Hcr & Hm0 & He & Hdd & Hpos). rewrite Hi in Hx. injection Hx as <-.
      destruct (Hex u Hu He) as (He' & Hd & Hm). exists nd'. cbn [put s_inodes]. rewrite lookup_insert.
      split; [done|]. split; [congruence|]. rewrite Hm, Hd. split; [congruence|]. done.
    + rewrite Hj by done. apply Hhas; [done|done].
Qed.

Lemma linv_put K ms ms' s i t nd nd' :
  glinv K ms s → s_inodes s !! i = Some nd → unnoticed ms ms' i t nd nd' → inode_ok K nd' (ms' !! i) →
  (∀ u q, u ≠ t → s_threads s !! u = Some q → thread_ok K ms' (put s i nd') u q) ∧
  (∀ n j, s_dir s !! n = Some j → has (put s i nd') j n (λ _, True)) ∧
  (∀ j, is_Some (ms' !! j) → is_Some (s_inodes (put s i nd') !! j)) ∧
  (∀ j x, s_inodes (put s i nd') !! j = Some x → inode_ok K x (ms' !! j)).
Proof.
  intros [H1 H2 H3 H4] Hi Hun Hok. pose proof Hun as (Hn & _ & _ & _ & _ & Hj). split_and!.
  - intros u q Hu Hq. eapply thread_ok_put; eauto.
  - intros n j Hd. destruct (H1 _ _ Hd) as (x & Hx & Hxn & _). unfold has. cbn [put s_inodes].
    destruct (decide (j = i)) as [->|Hne].
    + rewrite lookup_insert. exists nd'. split; [done|]. split; [congruence|done].
    + rewrite lookup_insert_ne by done. by exists x.
  - intros j Hs. cbn [put s_inodes]. destruct (decide (j = i)) as [->|Hne]; [rewrite lookup_insert; by eexists|].
    rewrite lookup_insert_ne by done. apply H2. by rewrite <-Hj.
  - intros j x. cbn [put s_inodes]. destruct (decide (j = i)) as [->|Hne].
    + rewrite lookup_insert. by intros [= <-].
    + rewrite lookup_insert_ne, Hj by done. apply H3.
Qed.
Lemma linv_put_goto K ms ms' s i t nd nd' p :
  glinv K ms s → s_inodes s !! i = Some nd → unnoticed ms ms' i t nd nd' → inode_ok K nd' (ms' !! i) →
  thread_ok K ms' (put s i nd') t p → glinv K ms' (goto (put s i nd') t p).
Proof.
  intros Hinv Hi Hun Hok Hp. destruct (linv_put _ _ _ _ _ _ _ _ Hinv Hi Hun Hok) as (A & B & C & D).
  split; [exact B|exact C|exact D|]. intros u q. cbn [goto put s_threads].
  destruct (decide (u = t)) as [->|Hne].
  - rewrite lookup_insert. by intros [= <-].
  - rewrite lookup_insert_ne by done. by apply A.
Qed.
Lemma linv_put_done K ms ms' s i t nd nd' :
  glinv K ms s → s_inodes s !! i = Some nd → unnoticed ms ms' i t nd nd' → inode_ok K nd' (ms' !! i) →
  glinv K ms' (leave (put s i nd') t).
Proof.
  intros Hinv Hi Hun Hok. destruct (linv_put _ _ _ _ _ _ _ _ Hinv Hi Hun Hok) as (A & B & C & D).
  split; [exact B|exact C|exact D|]. intros u q. cbn [leave put s_threads].
  destruct (decide (u = t)) as [->|Hne]; [by rewrite lookup_delete|].
  rewrite lookup_delete_ne by done. by apply A.
Qed.

Lemma settled_read K nd c :
  settled K nd c → match c with Some l => get_label_from_data (i_name nd) (i_data nd) = Ok l | None => ∃ k, K k ∧ get_label_from_data (i_name nd) (i_data nd) = Err k end.
Proof. unfold settled. destruct c as [l|]; [by intros [? _]|done]. Qed.
Lemma unnoticed_refl ms i t nd : unnoticed ms ms i t nd nd.
Proof. by split_and!; auto. Qed.
Lemma unnoticed_excl ms ms' i t nd nd' :
  i_name nd' = i_name nd → i_creator nd' = i_creator nd → i_shared nd = [] →
  (i_excl nd = Some t ∨ i_excl nd = None) →
  (ms' !! i = ms !! i ∧ i_data nd' = i_data nd ∨ is_Some (ms !! i) ∨ i_creator nd = t) → (∀ j, j ≠ i → ms' !! j = ms !! j) →
  unnoticed ms ms' i t nd nd'.
Proof.
  intros Hn Hc Hsh He Hm Hj. split_and!; try done.
  - intros u _. rewrite Hsh. by intros ?%elem_of_nil.
  - intros u Hu E. destruct He as [He|He]; rewrite He in E; [injection E as ->|]; done.
Qed.

Lemma not_not_found n d : get_label_from_data n d ≠ Err NotFound.
Proof.
  unfold get_label_from_data. destruct (text_lines _) as [|v [|m [|? ?]]]; try done. destruct (from_str_radix 10 u64_max v); [|done].
  destruct m as [|b m]; [done|]. unfold string_to_name. case_decide; [done|].
  assert (∀ s j, string_word s j ≠ Err NotFound) as Hw by (intros s j; unfold string_word, slice, obind; by repeat case_match).
  unfold obind. repeat (match goal with |- context [string_word ?s ?j] => pose proof (Hw s j); destruct (string_word s j) as [?|?|] end; try congruence).
Qed.
(** a file without a label may be rejected with other errors *)
Definition greg (K : ekind → Prop) (c : option label) (e : lev) (c' : option label) : Prop :=
  reg c e c' ∨ c = None ∧ c' = None ∧ ∃ k, K k ∧ match e with EvGet _ _ _ r => r = Err k | EvSet _ _ _ _ r => r = Err k | _ => False end.
(** one step: the events on a file are the steps of its register *)
Definition gfollows (K : ekind → Prop) (ms ms' : gmap ino label) (e : option lev) : Prop :=
  ∀ i, match e with
       | Some ev => if decide (ev_ino ev = Some i) then greg K (ms !! i) ev (ms' !! i) else ms' !! i = ms !! i
       | None => ms' !! i = ms !! i
       end.
Lemma follows_none K ms : gfollows K ms ms None.
Proof. done. Qed.
Lemma follows_no_file K ms ev : ev_ino ev = None → gfollows K ms ms (Some ev).
Proof. intros E i. by rewrite decide_False by (rewrite E; done). Qed.
Lemma follows_same K ms ev i : ev_ino ev = Some i → greg K (ms !! i) ev (ms !! i) → gfollows K ms ms (Some ev).
Proof. intros E Hr j. rewrite E. case_decide as Hd; [|done]. by injection Hd as <-. Qed.
Lemma follows_set K ms ev i l : ev_ino ev = Some i → greg K (ms !! i) ev (Some l) → gfollows K ms (<[i := l]> ms) (Some ev).
Proof.
  intros E Hr j. rewrite E. case_decide as Hd.
  - injection Hd as <-. by rewrite lookup_insert.
  - rewrite lookup_insert_ne; [done|]. intros ->. done.
Qed.

Lemma linv_step (K : ekind → Prop) ms s e s' : K InvalidData → glinv K ms s → lstep s e s' → ∃ ms', glinv K ms' s' ∧ gfollows K ms ms' e.
Proof.
  intros HK Hinv Hstep. pose proof Hinv as [Hdir Hms Hino Hthr].
  destruct Hstep as
    [s t n Ht|s t l layer nl Ht Hl Hlay Hnl|s t n Ht|s t n Ht
    |s t n Ht Hd|s t n i Ht Hd|s t n i nd Ht Hi He|s t n i nd Ht Hi|s t n i d nd Ht Hi
    |s t l nl Ht Hd|s t l nl i Ht Hd|s t l nl i nd Ht Hi He Hsh|s t l nl i nd Ht Hi
    |s t l nl i d nd r Ht Hi Hr|s t l nl i d nd Ht Hi Hr|s t l nl i pos a rest nd Ht Hi|s t l nl i pos nd Ht Hi
    |s t n i Ht Hd|s t n Ht Hd|s t n i Ht Hd|s t n i Ht Hd Hi|s t n i nd Ht Hi He Hsh
    |s t n i pos a rest nd Ht Hi|s t n i pos nd Ht Hi
    |s t n Ht Hd|s t n i Ht Hd].
  - exists ms. split; [by apply linv_goto|apply follows_none].
  - exists ms. split; [apply linv_goto; [done|]; by eapply updates_new|apply follows_none].
  - exists ms. split; [by apply linv_goto|apply follows_none].
  - exists ms. split; [by apply linv_goto|apply follows_none].
  - exists ms. split; [by apply linv_done|by apply follows_no_file].
  - exists ms. split; [apply linv_goto; [done|]; by apply Hdir|apply follows_none].
  - exists ms. split; [|apply follows_none].
    destruct (Hthr _ _ Ht) as (x & Hx & Hxn & _). rewrite Hi in Hx. injection Hx as <-.
    destruct (Hino _ _ Hi) as [Hset _].
    apply (linv_put_goto K ms ms s i t nd (lock_shared nd t)); [done|done| | |].
    + split_and!; auto. intros u Hu Hin. split; [|done]. cbn [lock_shared i_shared]. by right.
    + split; [intros _; by apply Hset|]. cbn [lock_shared i_excl]. by rewrite He.
    + exists (lock_shared nd t). cbn [put s_inodes]. rewrite lookup_insert. split; [done|]. split; [done|]. left.
  - exists ms. split; [|apply follows_none]. apply linv_goto; [done|].
    destruct (Hthr _ _ Ht) as (x & Hx & Hxn & Hin). rewrite Hi in Hx. injection Hx as <-. by exists nd.
  - exists ms. destruct (Hthr _ _ Ht) as (x & Hx & Hxn & Hin & Hd). rewrite Hi in Hx. injection Hx as <-.
    destruct (Hino _ _ Hi) as [Hset Hex].
    assert (i_excl nd = None) as He.
    { destruct (i_excl nd) eqn:E; [|done]. rewrite Hex in Hin by done. by apply elem_of_nil in Hin. }
    split.
    + apply (linv_put_done K ms ms s i t nd (unlock_shared nd t)); [done|done| |].
      * split_and!; auto. intros u Hu Hu'. split; [|done]. cbn [unlock_shared i_shared]. by apply elem_of_list_filter.
      * split; [intros _; by apply Hset|]. cbn [unlock_shared i_excl]. by rewrite He.
    + apply (follows_same K ms _ i); [done|]. specialize (Hset He). pose proof (settled_read _ _ _ Hset) as Hg.
      rewrite Hd, Hxn in Hg. destruct (ms !! i) as [c|].
      * rewrite Hg. left. destruct Hset as (_ & Hcn & _). rewrite <-Hxn, <-Hcn. apply reg_get.
      * destruct Hg as (k & Hk & Hg). rewrite Hg. destruct (decide (k = NotFound)) as [->|Hne]; [|right; split; [done|]; split; [done|]; exists k; split; [done|]; by destruct k].
        by destruct (not_not_found _ _ Hg).
  - exists ms. split; [by apply linv_done|by apply follows_no_file].
  - exists ms. split; [|apply follows_none]. apply linv_goto; [done|]. split; [by apply (Hthr _ _ Ht)|by apply Hdir].
  - exists ms. split; [|apply follows_none].
    destruct (Hthr _ _ Ht) as [Hok (x & Hx & Hxn & _)]. rewrite Hi in Hx. injection Hx as <-.
    destruct (Hino _ _ Hi) as [Hset _].
    apply (linv_put_goto K ms ms s i t nd (lock_excl nd t)); [done|done| | |].
    + apply unnoticed_excl; auto.
    + split; [done|]. intros _. done.
    + split; [done|]. exists (lock_excl nd t). cbn [put s_inodes]. rewrite lookup_insert. split; [done|]. split; [done|].
      split; [done|]. by apply Hset.
  - exists ms. split; [|apply follows_none]. apply linv_goto; [done|].
    destruct (Hthr _ _ Ht) as [Hok (x & Hx & Hxn & He & Hst)]. rewrite Hi in Hx. injection Hx as <-.
    split; [done|]. by exists nd.
  - exists ms. destruct (Hthr _ _ Ht) as [Hok (x & Hx & Hxn & He & Hst & Hd)]. rewrite Hi in Hx. injection Hx as <-.
    destruct (Hino _ _ Hi) as [_ Hsh]. rewrite He in Hsh. specialize (Hsh ltac:(done)).
    split.
    + apply (linv_put_done K ms ms s i t nd (unlock_excl nd)); [done|done| |].
      * apply unnoticed_excl; auto.
      * split; [done|]. by cbn [unlock_excl i_excl].
    + apply (follows_same K ms _ i); [done|]. pose proof (settled_read _ _ _ Hst) as Hg.
      rewrite Hd, Hxn in Hg. destruct (ms !! i) as [c|].
      * rewrite Hg in Hr. destruct Hr as [Hne ->]. left. by apply reg_set_other.
      * destruct Hg as (k & Hk & Hg). rewrite Hg in Hr. subst r. right. split; [done|]. split; [done|]. by exists k.
  - exists ms. split; [|apply follows_none].
    destruct (Hthr _ _ Ht) as [Hok (x & Hx & Hxn & He & Hst & Hd)]. rewrite Hi in Hx. injection Hx as <-.
    destruct (Hino _ _ Hi) as [_ Hsh]. rewrite He in Hsh. specialize (Hsh ltac:(done)).
    pose proof (settled_read _ _ _ Hst) as Hg. rewrite Hd, Hxn, Hr in Hg.
    apply (linv_put_goto K ms ms s i t nd (set_data nd [])); [done|done| | |].
    + apply unnoticed_excl; auto. right; left. destruct (ms !! i) as [c|]; [by eexists|]. by destruct Hg as (k & _ & Hg).
    + split; [cbn [set_data i_excl]; by rewrite He|done].
    + split; [done|]. exists (set_data nd []). cbn [put s_inodes]. rewrite lookup_insert.
      split; [done|]. split; [done|]. split; [done|]. split; [|done]. destruct (ms !! i) as [c|]; [by injection Hg as ->|]. by destruct Hg as (k & _ & Hg).
  - exists ms. split; [|apply follows_none].
    destruct (Hthr _ _ Ht) as [Hok (x & Hx & Hxn & He & Hm & Hd & Hp)]. rewrite Hi in Hx. injection Hx as <-.
    destruct (Hino _ _ Hi) as [_ Hsh]. rewrite He in Hsh. specialize (Hsh ltac:(done)).
    apply (linv_put_goto K ms ms s i t nd (set_data nd (write_at (i_data nd) pos a))); [done|done| | |].
    + apply unnoticed_excl; auto.
    + split; [cbn [set_data i_excl]; by rewrite He|done].
    + split; [done|]. eexists. cbn [put s_inodes]. rewrite lookup_insert.
      split; [done|]. split; [done|]. split; [done|]. split; [done|]. cbn [set_data i_data].
      unfold write_at. rewrite Hp, take_ge, drop_ge, app_nil_r by lia. rewrite <-app_assoc, app_length. done.
  - destruct (Hthr _ _ Ht) as [Hok (x & Hx & Hxn & He & Hm & Hd & Hp)]. rewrite Hi in Hx. injection Hx as <-.
    destruct (Hino _ _ Hi) as [_ Hsh]. rewrite He in Hsh. specialize (Hsh ltac:(done)).
    rewrite app_nil_r in Hd. destruct Hok as (Hup & Hl & Hnl).
    exists (<[i := nl]> ms). split.
    + apply (linv_put_done K ms _ s i t nd (unlock_excl nd)); [done|done| |].
      * apply unnoticed_excl; auto. intros j Hj. by rewrite lookup_insert_ne.
      * rewrite lookup_insert. split; [|by cbn [unlock_excl i_excl]]. intros _. pose proof Hup as [Hun _]. cbn [settled unlock_excl i_name i_data].
        split; [rewrite Hd, Hxn, <- Hun; by apply label_round|]. split; [by rewrite Hun|done].
    + apply (follows_set K ms _ i); [done|]. rewrite Hm. left. by apply reg_set.
  - exists ms. split; [by apply linv_done|by apply follows_no_file].
  - exists ms. split; [by apply linv_goto|apply follows_none].
  - exists ms. split; [by apply linv_done|by apply follows_no_file].
  - exists ms. split; [|apply follows_none].
    assert (ms !! i = None) as Hmi.
    { destruct (ms !! i) eqn:E; [|done]. destruct (Hms i) as [? Hx]; [by rewrite E|]. by rewrite Hi in Hx. }
    assert (∀ j m (P : inode → Prop), has s j m P →
              has (LState (<[n:=i]> (s_dir s)) (<[i:=Inode [] None [] n t]> (s_inodes s)) (<[t:=PCreLock n i]> (s_threads s))) j m P) as Hh.
    { intros j m P (x & Hx & Hxn & HP). exists x. cbn [s_inodes]. rewrite lookup_insert_ne; [done|]. intros ->. by rewrite Hi in Hx. }
    split.
    + intros m j. cbn [s_dir]. destruct (decide (m = n)) as [->|Hne].
      * rewrite lookup_insert. intros [= <-]. eexists. cbn [s_inodes]. by rewrite lookup_insert.
      * rewrite lookup_insert_ne by done. intros Hj. by apply Hh, Hdir.
    + intros j Hj. cbn [s_inodes]. destruct (decide (j = i)) as [->|Hne]; [rewrite lookup_insert; by eexists|].
      rewrite lookup_insert_ne by done. by apply Hms.
    + intros j x. cbn [s_inodes]. destruct (decide (j = i)) as [->|Hne].
      * rewrite lookup_insert, Hmi. intros [= <-]. split; [|done]. intros _. by exists InvalidData.
      * rewrite lookup_insert_ne by done. apply Hino.
    + intros u q. cbn [s_threads]. destruct (decide (u = t)) as [->|Hne].
      * rewrite lookup_insert. intros [= <-]. eexists. cbn [s_inodes]. rewrite lookup_insert. done.
      * rewrite lookup_insert_ne by done. intros Hq. specialize (Hthr _ _ Hq).
        destruct q; cbn [thread_ok] in *; naive_solver.
  - exists ms. split; [|apply follows_none].
    destruct (Hthr _ _ Ht) as (x & Hx & Hxn & Hcr & Hm & Hem). rewrite Hi in Hx. injection Hx as <-.
    destruct (Hino _ _ Hi) as [Hset _].
    apply (linv_put_goto K ms ms s i t nd (lock_excl nd t)); [done|done| | |].
    + apply unnoticed_excl; auto.
    + split; [done|]. intros _. done.
    + eexists. cbn [put s_inodes]. rewrite lookup_insert. split; [done|]. split; [done|]. split; [done|]. split; [done|].
      split; [done|]. cbn [lock_excl i_data]. rewrite Hem. done.
  - exists ms. split; [|apply follows_none].
    destruct (Hthr _ _ Ht) as (x & Hx & Hxn & Hcr & Hm & He & Hd & Hp). rewrite Hi in Hx. injection Hx as <-.
    destruct (Hino _ _ Hi) as [_ Hsh]. rewrite He in Hsh. specialize (Hsh ltac:(done)).
    apply (linv_put_goto K ms ms s i t nd (set_data nd (write_at (i_data nd) pos a))); [done|done| | |].
    + apply unnoticed_excl; auto.
    + split; [cbn [set_data i_excl]; by rewrite He|done].
    + eexists. cbn [put s_inodes]. rewrite lookup_insert.
      split; [done|]. split; [done|]. split; [done|]. split; [done|]. split; [done|]. cbn [set_data i_data].
      unfold write_at. rewrite Hp, take_ge, drop_ge, app_nil_r by lia. rewrite <-app_assoc, app_length. done.
  - destruct (Hthr _ _ Ht) as (x & Hx & Hxn & Hcr & Hm & He & Hd & Hp). rewrite Hi in Hx. injection Hx as <-.
    destruct (Hino _ _ Hi) as [_ Hsh]. rewrite He in Hsh. specialize (Hsh ltac:(done)).
    rewrite app_nil_r in Hd.
    exists (<[i := label_new_empty n]> ms). split.
    + apply (linv_put_done K ms _ s i t nd (unlock_excl nd)); [done|done| |].
      * apply unnoticed_excl; auto. intros j Hj. by rewrite lookup_insert_ne.
      * rewrite lookup_insert. split; [|by cbn [unlock_excl i_excl]]. intros _. cbn [settled unlock_excl i_name i_data].
        assert (label_ok (label_new_empty n)) as Hok by (split; [cbn; lia|done]).
        split; [rewrite Hd, Hxn; by apply (label_round (label_new_empty n))|]. split; [done|done].
    + apply (follows_set K ms _ i); [done|]. rewrite Hm. left. apply reg_create.
  - exists ms. split; [by apply linv_done|by apply follows_no_file].
  - exists ms. split; [|by apply follows_no_file]. split; try done.
    + intros m j. cbn [s_dir]. destruct (decide (m = n)) as [->|Hne]; [by rewrite lookup_delete|].
      rewrite lookup_delete_ne by done. apply Hdir.
    + intros u q. cbn [s_threads]. destruct (decide (u = t)) as [->|Hne]; [by rewrite lookup_delete|].
      rewrite lookup_delete_ne by done. apply Hthr.
Qed.

(** when calls are not given up, files without a label are empty *)
Notation linv := (glinv (eq InvalidData)) (only parsing).
Lemma greg_reg c e c' : greg (eq InvalidData) c e c' → reg c e c'.
Proof.
  intros [H|(-> & -> & k & <- & H)]; [done|]. destruct e as [t n i r|t l nl i r|t n i r|t n r]; try done; subst r; constructor.
Qed.

Definition follows (ms ms' : gmap ino label) (e : option lev) : Prop :=
  ∀ i, match e with
       | Some ev => if decide (ev_ino ev = Some i) then reg (ms !! i) ev (ms' !! i) else ms' !! i = ms !! i
       | None => ms' !! i = ms !! i
       end.
Lemma linv_lstep ms s e s' : linv ms s → lstep s e s' → ∃ ms', linv ms' s' ∧ follows ms ms' e.
Proof.
  intros Hl Hst. destruct (linv_step (eq InvalidData) ms s e s' eq_refl Hl Hst) as (ms' & Hl' & Hf). exists ms'. split; [done|].
  intros i. specialize (Hf i). destruct e as [e|]; [|done]. case_decide; [by apply greg_reg|done].
Qed.

(** ** executions *)
Lemma history_snoc R c es c' e c'' : history R c es c' → R c' e c'' → history R c (es ++ [e]) c''.
Proof.
  induction 1 as [c|c x d es c' Hx Hh IH]; intros Hr; cbn [app].
  - econstructor; [done|constructor].
  - econstructor; [done|]. by apply IH.
Qed.
Lemma on_file_app i tr e : on_file i (tr ++ [e]) = on_file i tr ++ (if decide (ev_ino e = Some i) then [e] else []).
Proof.
  unfold on_file. by rewrite filter_app.
Qed.
Lemma on_name_app n tr e : on_name n (tr ++ [e]) = on_name n tr ++ (if decide (ev_name e = n) then [e] else []).
Proof.
  unfold on_name. by rewrite filter_app.
Qed.
Lemma linv_init : linv ∅ lstate_init.
Proof. split; cbn [lstate_init s_dir s_inodes s_threads]; intros *; rewrite lookup_empty; try done. by intros []. Qed.

Lemma file_history tr s : lexec tr s → ∃ ms, linv ms s ∧ ∀ i, history reg None (on_file i tr) (ms !! i).
Proof.
  induction 1 as [|tr s e s' Hex (ms & Hinv & Hh) Hst].
  - exists ∅. split; [apply linv_init|]. intros i. rewrite lookup_empty. constructor.
  - destruct (linv_lstep _ _ _ _ Hinv Hst) as (ms' & Hinv' & Hf). exists ms'. split; [done|].
    intros i. specialize (Hf i). destruct e as [e|]; [change (option_list (Some e)) with [e]|change (option_list (@None lev)) with (@nil lev)].
    + rewrite on_file_app. case_decide.
      * by eapply history_snoc.
      * by rewrite app_nil_r, Hf.
    + by rewrite app_nil_r, Hf.
Qed.

(** the file of an event carries its name *)
Lemma event_file ms s e s' i : linv ms s → lstep s (Some e) s' → ev_ino e = Some i →
  ∃ nd, s_inodes s !! i = Some nd ∧ i_name nd = ev_name e.
Proof.
  intros [_ _ _ Hthr] Hst. inversion Hst; subst; cbn [ev_ino ev_name]; intros [= <-];
    match goal with H : s_threads _ !! _ = Some _ |- _ => specialize (Hthr _ _ H); cbn [thread_ok] in Hthr end;
    unfold has in Hthr; naive_solver.
Qed.
(** files keep their names, names are only given to new files *)
Lemma step_dir s e s' : lstep s e s' →
  (s_dir s' = s_dir s ∧ ∀ i nd', s_inodes s' !! i = Some nd' → ∃ nd, s_inodes s !! i = Some nd ∧ i_name nd = i_name nd')
  ∨ (∃ t n i nd, e = None ∧ s_dir s !! n = None ∧ s_inodes s !! i = None ∧ i_name nd = n ∧
       s_threads s !! t = Some (PCreOpen n) ∧
       s_dir s' = <[n := i]> (s_dir s) ∧ s_inodes s' = <[i := nd]> (s_inodes s))
  ∨ (∃ t n i, e = Some (EvDelete t n true) ∧ s_dir s !! n = Some i ∧
       s_dir s' = delete n (s_dir s) ∧ s_inodes s' = s_inodes s).
Proof.
  intros Hst. destruct Hst; cbn [s_dir s_inodes goto leave put].
  all: try (left; split; [done|]; intros ?? Hx; by eexists).
  all: try (left; split; [done|]; intros j x;
    match goal with |- context [<[?i := _]> _ !! j] => destruct (decide (j = i)) as [->|Hne] end;
    [rewrite lookup_insert; intros [= <-]; by eexists|rewrite lookup_insert_ne by done; by eexists]).
  - right; left. exists t, n, i, (Inode [] None [] n t). split_and!; done.
  - right; right. by exists t, n, i.
Qed.

Definition one_file (n : bytes) (s : lstate) : Prop :=
  ∀ i nd, s_inodes s !! i = Some nd → i_name nd = n → s_dir s !! n = Some i.
Lemma one_file_step n s e s' : one_file n s → lstep s e s' → (∀ t, e ≠ Some (EvDelete t n true)) → one_file n s'.
Proof.
  intros H1 Hst Hnd i nd' Hi Hn. destruct (step_dir _ _ _ Hst) as [[Hd Hs]|[H|H]].
  - destruct (Hs _ _ Hi) as (nd & Hx & Hxn). rewrite Hd. apply (H1 i nd); [done|congruence].
  - destruct H as (t & m & j & nd & -> & Hm & Hj & Hjn & _ & -> & E). rewrite E in Hi.
    destruct (decide (i = j)) as [->|Hne].
    + rewrite lookup_insert in Hi. injection Hi as <-. subst. apply lookup_insert.
    + rewrite lookup_insert_ne in Hi by done. pose proof (H1 _ _ Hi Hn) as Hdn.
      rewrite lookup_insert_ne; [done|]. intros ->. congruence.
  - destruct H as (t & m & j & -> & Hm & -> & E). rewrite E in Hi.
    rewrite lookup_delete_ne; [by apply (H1 i nd')|]. intros ->. by apply (Hnd t).
Qed.

Definition name_state (ms : gmap ino label) (s : lstate) (n : bytes) : option label :=
  match s_dir s !! n with Some i => ms !! i | None => None end.
Lemma name_step ms ms' s e s' n :
  linv ms s → linv ms' s' → lstep s e s' → follows ms ms' e → one_file n s →
  (∀ t, e ≠ Some (EvDelete t n true)) →
  match e with
  | Some ev => if decide (ev_name ev = n) then name_reg (name_state ms s n) ev (name_state ms' s' n)
               else name_state ms' s' n = name_state ms s n
  | None => name_state ms' s' n = name_state ms s n
  end.
Proof.
  intros Hinv Hinv' Hst Hf H1 Hnd.
  assert (e = None ∨ ∃ ev, e = Some ev) as [->|[ev ->]] by (destruct e; eauto).
  - destruct (step_dir _ _ _ Hst) as [[Hd Hs]|[H|H]].
    + unfold name_state. rewrite Hd. destruct (s_dir s !! n); [|done]. apply Hf.
    + destruct H as (t & m & j & nd & _ & Hm & Hj & Hjn & _ & Hd & E). unfold name_state. rewrite Hd.
      destruct (decide (m = n)) as [->|Hne].
      * rewrite lookup_insert, Hm, Hf. destruct (ms !! j) as [l|] eqn:El; [|done].
        destruct (linv_ms _ _ _ Hinv j) as [? Hx]; [by rewrite El|]. by rewrite Hj in Hx.
      * rewrite lookup_insert_ne by done. destruct (s_dir s !! n); [|done]. apply Hf.
    + destruct H as (t & m & j & [=] & _).
  - destruct (ev_ino ev) as [i|] eqn:Ei.
    + destruct (event_file _ _ _ _ _ Hinv Hst Ei) as (nd & Hi & Hn).
      assert (s_dir s' = s_dir s) as Hd.
      { destruct (step_dir _ _ _ Hst) as [[Hd _]|[H|H]]; [done|naive_solver|].
        destruct H as (t & m & j & [= ->] & _). done. }
      pose proof (Hf i) as Hfi. cbn beta iota in Hfi. rewrite decide_True in Hfi by done. case_decide as He.
      * unfold name_state. rewrite Hd. rewrite (H1 _ _ Hi) by congruence. by constructor.
      * unfold name_state. rewrite Hd. destruct (s_dir s !! n) as [j|] eqn:Ej; [|done].
        destruct (linv_dir _ _ _ Hinv _ _ Ej) as (x & Hx & Hxn & _).
        specialize (Hf j). cbn beta iota in Hf. rewrite decide_False in Hf; [done|].
        rewrite Ei. intros [= ->]. rewrite Hi in Hx. injection Hx as <-. congruence.
    + assert (∀ j, ms' !! j = ms !! j) as Hm.
      { intros j. specialize (Hf j). cbn beta iota in Hf. by rewrite decide_False in Hf by (rewrite Ei; done). }
      unfold name_state.
      inversion Hst; subst; cbn [ev_ino] in Ei; try done; cbn [ev_name leave s_dir].
      all: case_decide as He; [subst|try solve [destruct (s_dir _ !! n); [apply Hm|done]]].
      all: try match goal with H : s_dir _ !! _ = None |- _ => rewrite H; by constructor end.
      all: try match goal with H : s_dir _ !! _ = Some _ |- _ => rewrite H, Hm; apply name_create_taken; by auto end.
      * by destruct (Hnd t).
      * rewrite lookup_delete_ne by done. destruct (s_dir s !! n); [apply Hm|done].
Qed.

Lemma name_history tr s n : lexec tr s → ¬ deleted n tr →
  ∃ ms, linv ms s ∧ one_file n s ∧ (∀ i, history reg None (on_file i tr) (ms !! i)) ∧
        history name_reg None (on_name n tr) (name_state ms s n).
Proof.
  induction 1 as [|tr s e s' Hex IH Hst]; intros Hnd.
  - exists ∅. split; [apply linv_init|]. split; [by intros i nd; cbn [lstate_init s_inodes]; rewrite lookup_empty|].
    split; [intros i; rewrite lookup_empty; constructor|]. unfold name_state; cbn [lstate_init s_dir]. rewrite lookup_empty. constructor.
  - destruct IH as (ms & Hinv & H1 & Hf & Hh).
    { intros [t Hin]. apply Hnd. exists t. apply elem_of_app. by left. }
    assert (∀ t, e ≠ Some (EvDelete t n true)) as Hnd'.
    { intros t ->. apply Hnd. exists t. apply elem_of_app. right. by left. }
    destruct (linv_lstep _ _ _ _ Hinv Hst) as (ms' & Hinv' & Hf'). exists ms'. split; [done|].
    split; [by eapply one_file_step|]. split.
    + intros i. specialize (Hf' i). destruct e as [e|]; [change (option_list (Some e)) with [e]|change (option_list (@None lev)) with (@nil lev)].
      * rewrite on_file_app. case_decide; [by eapply history_snoc|by rewrite app_nil_r, Hf'].
      * by rewrite app_nil_r, Hf'.
    + pose proof (name_step _ _ _ _ _ n Hinv Hinv' Hst Hf' H1 Hnd') as Hs. destruct e as [e|]; [change (option_list (Some e)) with [e]|change (option_list (@None lev)) with (@nil lev)].
      * rewrite on_name_app. case_decide; [by eapply history_snoc|by rewrite app_nil_r, Hs].
      * by rewrite app_nil_r, Hs.
Qed.

(** ** what follows from a history *)
Definition set_ok (e : lev) : bool := match e with EvSet _ _ _ _ (Ok (Some _)) => true | _ => false end.
Definition create_ok (e : lev) : bool := match e with EvCreate _ _ _ (Ok _) => true | _ => false end.
Lemma reg_version c e c' : name_reg c e c' →
  match c, c' with
  | Some l, Some l' => lb_version l' = (lb_version l + (if set_ok e then 1 else 0))%N ∧ lb_name l' = lb_name l ∧ create_ok e = false
  | None, Some l' => lb_version l' = 0%N ∧ lb_layer l' = None ∧ create_ok e = true ∧ set_ok e = false
  | None, None => create_ok e = false ∧ set_ok e = false
  | Some _, None => False
  end.
Proof.
  intros [c0 e0 c0' [t n i|c1 t i|t n i|l nl t i [Hn Hv]|c1 l nl t i Hne|l nl t i]|t n|t l nl|c0 t n k Hk|t n];
    cbn [set_ok create_ok lb_version lb_layer lb_name]; try (split_and!; done || lia).
  destruct c0; split_and!; (done || lia).
Qed.
Lemma history_version c es c' : history name_reg c es c' →
  match c, c' with
  | Some l, Some l' => lb_version l' = (lb_version l + N.of_nat (length (filter set_ok es)))%N ∧ lb_name l' = lb_name l ∧ filter create_ok es = []
  | None, Some l' => lb_version l' = N.of_nat (length (filter set_ok es)) ∧ length (filter create_ok es) = 1
  | None, None => filter create_ok es = [] ∧ filter set_ok es = []
  | Some _, None => False
  end.
Proof.
  induction 1 as [c|c e d es c' Hr Hh IH].
  - rewrite !filter_nil. destruct c; split_and!; (done || cbn [length]; lia).
  - pose proof (reg_version _ _ _ Hr) as Hv. rewrite !filter_cons.
    destruct c as [l|], d as [l1|], c' as [l'|]; try done.
    + destruct Hv as (Hv & Hn & Hc), IH as (IHv & IHn & IHc). rewrite Hc. rewrite ?(decide_False (P:=Is_true false)) by (intros Hx; exact Hx).
      split_and!; [|congruence|done]. rewrite IHv, Hv. destruct (set_ok e); case_decide; try done; cbn [length]; lia.
    + destruct Hv as (Hv & Hn & Hc & Hs), IH as (IHv & IHn & IHc). rewrite Hc, Hs, IHc.
      rewrite (decide_True (P:=Is_true true)) by done. rewrite ?(decide_False (P:=Is_true false)) by (intros Hx; exact Hx). split; [lia|done].
    + destruct Hv as (Hc & Hs), IH as (IHv & IHc). rewrite Hc, Hs.
      rewrite ?(decide_False (P:=Is_true false)) by (intros Hx; exact Hx). split; [lia|done].
    + destruct Hv as (Hc & Hs), IH as (IHv & IHc). rewrite Hc, Hs.
      rewrite ?(decide_False (P:=Is_true false)) by (intros Hx; exact Hx). done.
Qed.
Lemma history_mono (R R' : option label → lev → option label → Prop) c es c' :
  (∀ c e c', R c e c' → R' c e c') → history R c es c' → history R' c es c'.
Proof. intros HR. induction 1; econstructor; eauto. Qed.
Lemma history_split R c es1 es2 c' : history R c (es1 ++ es2) c' → ∃ d, history R c es1 d ∧ history R d es2 c'.
Proof.
  revert c. induction es1 as [|e es1 IH]; intros c; cbn [app].
  - intros. exists c. split; [constructor|done].
  - intros H. inversion H; subst. destruct (IH _ H5) as (d & Hd1 & Hd2). exists d. split; [by econstructor|done].
Qed.
Lemma history_at R c es c' j e : history R c es c' → es !! j = Some e →
  ∃ d d', history R c (take j es) d ∧ R d e d' ∧ history R d' (drop (S j) es) c'.
Proof.
  intros Hh Hj. rewrite <-(take_drop_middle es j e Hj) in Hh.
  destruct (history_split _ _ _ _ _ Hh) as (d & Hd1 & Hd2). inversion Hd2; subst. eauto.
Qed.

(** an update that succeeds leaves a larger version: no second one from the same label *)
Lemma updated_reg d e d' l : name_reg d e d' → updated l e → d = Some l ∧ ∃ nl, d' = Some nl ∧ updates l nl.
Proof.
  intros Hr (t & nl & i & ->). inversion Hr as [? ? ? Hr'| | | |]; subst. inversion Hr'; subst. eauto.
Qed.
Lemma history_updated_once c es c' l j k e e' :
  history name_reg c es c' → es !! j = Some e → es !! k = Some e' → updated l e → updated l e' → j = k.
Proof.
  assert (∀ j k e e', history name_reg c es c' → es !! j = Some e → es !! k = Some e' → updated l e → updated l e' → ¬ j < k) as H.
  { clear. intros j k e e' Hh Hj Hk He He' Hlt.
    destruct (history_at _ _ _ _ _ _ Hh Hj) as (d & d' & H1 & Hr & H2).
    destruct (updated_reg _ _ _ _ Hr He) as (-> & nl & -> & [_ Hv]).
    assert (drop (S j) es !! (k - S j) = Some e') as Hk'.
    { rewrite lookup_drop. by replace (S j + (k - S j)) with k by lia. }
    destruct (history_at _ _ _ _ _ _ H2 Hk') as (d & d' & H1' & Hr' & _).
    destruct (updated_reg _ _ _ _ Hr' He') as (-> & _).
    pose proof (history_version _ _ _ H1') as (Hv' & _). lia. }
  intros Hh Hj Hk He He'. destruct (Nat.lt_trichotomy j k) as [Hl|[Hl|Hl]]; [|done|].
  - by destruct (H _ _ _ _ Hh Hj Hk He He').
  - by destruct (H _ _ _ _ Hh Hk Hj He' He).
Qed.

(** ** who is at work on a file *)
Definition makes (p : pc) : option ino :=
  match p with PCreLock _ i | PCreWrite _ i _ _ => Some i | _ => None end.
Definition holds (p : pc) : option ino :=
  match p with PSetRead _ _ i | PSetGot _ _ i _ | PSetWrite _ _ i _ _ | PCreWrite _ i _ _ => Some i | _ => None end.
Definition making (s : lstate) (t : tid) : option ino := match s_threads s !! t with Some p => makes p | None => None end.
Definition holding (s : lstate) (t : tid) : option ino := match s_threads s !! t with Some p => holds p | None => None end.
Definition owned (ms : gmap ino label) (s : lstate) : Prop :=
  ∀ i nd, s_inodes s !! i = Some nd →
    (ms !! i = None → making s (i_creator nd) = Some i) ∧ (∀ t, i_excl nd = Some t → holding s t = Some i).

Lemma making_goto s t p u : making (goto s t p) u = if decide (u = t) then makes p else making s u.
Proof.
  unfold making. cbn [goto s_threads]. case_decide as Hd; [subst; by rewrite lookup_insert|by rewrite lookup_insert_ne by done].
Qed.
Lemma holding_goto s t p u : holding (goto s t p) u = if decide (u = t) then holds p else holding s u.
Proof.
  unfold holding. cbn [goto s_threads]. case_decide as Hd; [subst; by rewrite lookup_insert|by rewrite lookup_insert_ne by done].
Qed.
Lemma making_leave s t u : making (leave s t) u = if decide (u = t) then None else making s u.
Proof.
  unfold making. cbn [leave s_threads]. case_decide as Hd; [subst; by rewrite lookup_delete|by rewrite lookup_delete_ne by done].
Qed.
Lemma holding_leave s t u : holding (leave s t) u = if decide (u = t) then None else holding s u.
Proof.
  unfold holding. cbn [leave s_threads]. case_decide as Hd; [subst; by rewrite lookup_delete|by rewrite lookup_delete_ne by done].
Qed.
Lemma owned_goto ms s t q : owned ms s → makes q = making s t → holds q = holding s t → owned ms (goto s t q).
Proof.
  intros Ho Hm Hh i nd Hi. destruct (Ho i nd Hi) as [H1 H2]. split.
  - intros Hn. rewrite making_goto. case_decide as Hd; [rewrite Hm, <-Hd|]; by apply H1.
  - intros u Hu. rewrite holding_goto. case_decide as Hd; [rewrite Hh, <-Hd|]; by apply H2.
Qed.
Lemma owned_leave ms s t : owned ms s → making s t = None → holding s t = None → owned ms (leave s t).
Proof.
  intros Ho Hm Hh i nd Hi. destruct (Ho i nd Hi) as [H1 H2]. split.
  - intros Hn. rewrite making_leave. case_decide as Hd; [rewrite <-Hm, <-Hd|]; by apply H1.
  - intros u Hu. rewrite holding_leave. case_decide as Hd; [rewrite <-Hh, <-Hd|]; by apply H2.
Qed.
Lemma owned_put ms ms' s s' t i nd nd' :
  owned ms s → s_inodes s !! i = Some nd → s_inodes s' = <[i := nd']> (s_inodes s) → i_creator nd' = i_creator nd →
  (∀ u, u ≠ t → making s' u = making s u ∧ holding s' u = holding s u) →
  (∀ j, j ≠ i → making s t = Some j → making s' t = Some j) →
  (∀ j, j ≠ i → holding s t = Some j → holding s' t = Some j) →
  (∀ j, j ≠ i → ms' !! j = ms !! j) → (ms' !! i = None → ms !! i = None) →
  (ms' !! i = None → making s t = Some i → making s' t = Some i) →
  (∀ u, i_excl nd' = Some u → (u = t ∧ holding s' t = Some i) ∨ (u ≠ t ∧ i_excl nd = Some u)) →
  owned ms' s'.
Proof.
  intros Ho Hi Hi' Hc Hu Hmt Hht Hms Hmi Hmk Hex j x. rewrite Hi'. destruct (decide (j = i)) as [->|Hne].
  - rewrite lookup_insert. intros [= <-]. destruct (Ho i nd Hi) as [H1 H2]. split.
    + intros Hn. specialize (H1 (Hmi Hn)). rewrite Hc. destruct (decide (i_creator nd = t)) as [E|Hd].
      * rewrite E in *. by apply Hmk.
      * by rewrite (proj1 (Hu _ Hd)).
    + intros u Hex'. destruct (Hex u Hex') as [[-> H]|[Hd H]]; [done|]. rewrite (proj2 (Hu _ Hd)). by apply H2.
  - rewrite lookup_insert_ne by done. intros Hx. destruct (Ho j x Hx) as [H1 H2]. rewrite Hms by done. split.
    + intros Hn. specialize (H1 Hn). destruct (decide (i_creator x = t)) as [E|Hd].
      * rewrite E in *. by apply Hmt.
      * by rewrite (proj1 (Hu _ Hd)).
    + intros u Hex'. specialize (H2 u Hex'). destruct (decide (u = t)) as [->|Hd].
      * by apply Hht.
      * by rewrite (proj2 (Hu _ Hd)).
Qed.
Lemma owned_same ms ms' s : (∀ i, ms' !! i = ms !! i) → owned ms s → owned ms' s.
Proof. intros Hm Ho i nd Hi. rewrite Hm. by apply Ho. Qed.

Lemma owned_keep ms s t i nd nd' q :
  owned ms s → s_inodes s !! i = Some nd → i_creator nd' = i_creator nd → i_excl nd' = i_excl nd →
  makes q = making s t → holds q = holding s t → owned ms (goto (put s i nd') t q).
Proof.
  intros Ho Hi Hc He Hm Hh. apply owned_goto; [|done|done].
  apply (owned_put ms ms s (put s i nd') t i nd nd' Ho Hi eq_refl Hc); try done.
  intros u Hu. rewrite He in Hu. destruct (decide (u = t)) as [->|]; [|auto]. left. split; [done|]. by apply (Ho i nd Hi).
Qed.
Lemma owned_lock ms s t i nd nd' q :
  owned ms s → s_inodes s !! i = Some nd → i_creator nd' = i_creator nd → i_excl nd' = Some t →
  makes q = making s t → holding s t = None → holds q = Some i → owned ms (goto (put s i nd') t q).
Proof.
  intros Ho Hi Hc He Hm Hh Hq.
  apply (owned_put ms ms s (goto (put s i nd') t q) t i nd nd' Ho Hi eq_refl Hc); try done.
  - intros u Hu. rewrite making_goto, holding_goto, !decide_False by done. done.
  - intros j _. rewrite making_goto, decide_True by done. by rewrite Hm.
  - intros j _. by rewrite Hh.
  - intros _. rewrite making_goto, decide_True by done. by rewrite Hm.
  - intros u. rewrite He. intros [= <-]. left. split; [done|]. by rewrite holding_goto, decide_True.
Qed.
Lemma owned_release ms ms' s t i nd nd' :
  owned ms s → s_inodes s !! i = Some nd → i_creator nd' = i_creator nd → i_excl nd' = None →
  holding s t = Some i → (making s t = None ∨ (making s t = Some i ∧ ms' !! i ≠ None)) →
  (∀ j, j ≠ i → ms' !! j = ms !! j) → (ms' !! i = None → ms !! i = None) →
  owned ms' (leave (put s i nd') t).
Proof.
  intros Ho Hi Hc He Hh Hm Hms Hmi.
  apply (owned_put ms ms' s (leave (put s i nd') t) t i nd nd' Ho Hi eq_refl Hc); try done.
  - intros u Hu. rewrite making_leave, holding_leave, !decide_False by done. done.
  - intros j Hj. destruct Hm as [->|[-> _]]; congruence.
  - intros j Hj. rewrite Hh. congruence.
  - intros Hn. destruct Hm as [->|[_ Hx]]; done.
  - intros u. by rewrite He.
Qed.
Lemma owned_step ms ms' s e s' : linv ms s → owned ms s → lstep s e s' → follows ms ms' e → owned ms' s'.
Proof.
  intros Hinv Ho Hst Hf.
  assert (∀ j, (∀ ev, e = Some ev → ev_ino ev ≠ Some j) → ms' !! j = ms !! j) as Hsame.
  { intros j Hj. specialize (Hf j). destruct e as [ev|]; [|done]. by rewrite decide_False in Hf by (by apply Hj). }
  assert (∀ i, match e with Some ev => if decide (ev_ino ev = Some i) then ms' !! i = None → ms !! i = None else True | None => True end) as Hreg.
  { intros i. specialize (Hf i). destruct e as [ev|]; [|done]. case_decide; [|done]. intros Hn. rewrite Hn in Hf.
    by inversion Hf. }
  destruct Hst as
    [s t n Ht|s t l layer nl Ht Hl Hlay Hnl|s t n Ht|s t n Ht
    |s t n Ht Hd|s t n i Ht Hd|s t n i nd Ht Hi He|s t n i nd Ht Hi|s t n i d nd Ht Hi
    |s t l nl Ht Hd|s t l nl i Ht Hd|s t l nl i nd Ht Hi He Hsh|s t l nl i nd Ht Hi
    |s t l nl i d nd r Ht Hi Hr|s t l nl i d nd Ht Hi Hr|s t l nl i pos a rest nd Ht Hi|s t l nl i pos nd Ht Hi
    |s t n i Ht Hd|s t n Ht Hd|s t n i Ht Hd|s t n i Ht Hd Hi|s t n i nd Ht Hi He Hsh
    |s t n i pos a rest nd Ht Hi|s t n i pos nd Ht Hi
    |s t n Ht Hd|s t n i Ht Hd].
  all: assert (making s t = match s_threads s !! t with Some p => makes p | None => None end) as Hmt by done.
  all: assert (holding s t = match s_threads s !! t with Some p => holds p | None => None end) as Hht by done.
  all: rewrite Ht in Hmt, Hht; cbn [makes holds] in Hmt, Hht.
  all: try (eapply owned_same; [intros j; apply Hsame; by intros ? [= <-]|];
            (apply owned_goto || apply owned_leave); [done|by rewrite ?Hmt|by rewrite ?Hht]).
  all: try (eapply owned_same; [intros j; apply Hsame; by intros ? [= <-]|];
            eapply owned_keep; [done|exact Hi|done|done|by rewrite ?Hmt|by rewrite ?Hht]).
  - specialize (Hreg i). cbn [ev_ino] in Hreg. rewrite decide_True in Hreg by done.
    apply (owned_put ms ms' s (leave (put s i (unlock_shared nd t)) t) t i nd _ Ho Hi eq_refl eq_refl).
    + intros u Hu. rewrite making_leave, holding_leave, !decide_False by done. done.
    + intros j _. by rewrite Hmt.
    + intros j _. by rewrite Hht.
    + intros j Hj. apply Hsame. intros ? [= <-]. cbn [ev_ino]. congruence.
    + done.
    + intros _. by rewrite Hmt.
    + intros u Hu. cbn [unlock_shared i_excl] in Hu. right. split; [|done]. intros ->.
      pose proof (proj2 (Ho i nd Hi) t Hu). congruence.
  - eapply owned_same; [intros j; apply Hsame; by intros ? [=]|].
    eapply owned_lock; [done|exact Hi|done|done|by rewrite Hmt|done|done].
  - specialize (Hreg i). cbn [ev_ino] in Hreg. rewrite decide_True in Hreg by done.
    eapply owned_release; [done|exact Hi|done|done|done|by left| |done].
    intros j Hj. apply Hsame. intros ? [= <-]. cbn [ev_ino]. congruence.
  - specialize (Hreg i). cbn [ev_ino] in Hreg. rewrite decide_True in Hreg by done.
    eapply owned_release; [done|exact Hi|done|done|done|by left| |done].
    intros j Hj. apply Hsame. intros ? [= <-]. cbn [ev_ino]. congruence.
  - intros j x. cbn [s_inodes]. rewrite Hsame by (by intros ? [=]).
    assert (∀ u, u ≠ t → ∀ d' n', making (LState d' n' (<[t:=PCreLock n i]> (s_threads s))) u = making s u
             ∧ holding (LState d' n' (<[t:=PCreLock n i]> (s_threads s))) u = holding s u) as Hu.
    { intros u Hu d' n'. unfold making, holding. cbn [s_threads]. by rewrite lookup_insert_ne by done. }
    destruct (decide (j = i)) as [->|Hne].
    + rewrite lookup_insert. intros [= <-]. cbn [i_creator i_excl]. split; [|done]. intros _. unfold making. cbn [s_threads].
      by rewrite lookup_insert.
    + rewrite lookup_insert_ne by done. intros Hx. destruct (Ho j x Hx) as [H1 H2]. split.
      * intros Hn. specialize (H1 Hn). destruct (decide (i_creator x = t)) as [E|Hne']; [congruence|].
        by rewrite (proj1 (Hu _ Hne' _ _)).
      * intros u Hex. specialize (H2 u Hex). destruct (decide (u = t)) as [->|Hne']; [congruence|].
        by rewrite (proj2 (Hu _ Hne' _ _)).
  - eapply owned_same; [intros j; apply Hsame; by intros ? [=]|].
    eapply owned_lock; [done|exact Hi|done|done|by rewrite Hmt|done|done].
  - specialize (Hreg i). cbn [ev_ino] in Hreg. rewrite decide_True in Hreg by done.
    eapply owned_release; [done|exact Hi|done|done|done| | |done].
    + right. split; [done|]. specialize (Hf i). cbn [ev_ino] in Hf. rewrite decide_True in Hf by done.
      intros Hn. rewrite Hn in Hf. inversion Hf.
    + intros j Hj. apply Hsame. intros ? [= <-]. cbn [ev_ino]. congruence.
Qed.

Lemma owned_init : owned ∅ lstate_init.
Proof. intros i nd. cbn [lstate_init s_inodes]. by rewrite lookup_empty. Qed.
Lemma lexec_inv tr s : lexec tr s → ∃ ms, linv ms s ∧ owned ms s ∧ ∀ i, history reg None (on_file i tr) (ms !! i).
Proof.
  induction 1 as [|tr s e s' Hex (ms & Hinv & Ho & Hh) Hst].
  - exists ∅. split; [apply linv_init|]. split; [apply owned_init|]. intros i. rewrite lookup_empty. constructor.
  - destruct (linv_lstep _ _ _ _ Hinv Hst) as (ms' & Hinv' & Hf). exists ms'. split; [done|].
    split; [by eapply (owned_step ms ms')|].
    intros i. specialize (Hf i). destruct e as [e|]; [change (option_list (Some e)) with [e]|change (option_list (@None lev)) with (@nil lev)].
    + rewrite on_file_app. case_decide.
      * by eapply history_snoc.
      * by rewrite app_nil_r, Hf.
    + by rewrite app_nil_r, Hf.
Qed.
Lemma part_of_label l d rest : label_ok l → d ++ rest = label_contents l →
  (∃ e, get_label_from_data (lb_name l) d = Err e) ∨ get_label_from_data (lb_name l) d = Ok l.
Proof.
  intros Hok E. destruct rest as [|b rest].
  - right. rewrite app_nil_r in E. subst d. by apply label_round.
  - assert (d = take (length d) (label_contents l)) as Hd by (by rewrite <-E, take_app).
    assert (length d < length (label_contents l)) as Hl by (rewrite <-E, app_length; cbn [length]; lia).
    rewrite Hd. destruct (label_prefix l _ Hok Hl) as [?|[? _]]; auto.
Qed.
Lemma disk_state tr s n d : lexec tr s → on_disk s n = Some d →
  ∃ i c, s_dir s !! n = Some i ∧ history reg None (on_file i tr) c ∧
    ((∃ l, c = Some l ∧ get_label_from_data n d = Ok l)
     ∨ (writing n s ∧ (∃ e, get_label_from_data n d = Err e))
     ∨ (writing n s ∧ ∃ nl, get_label_from_data n d = Ok nl ∧
          match c with Some l => updates l nl | None => nl = Label n None 0 end)).
Proof.
  intros Hex Hd. destruct (lexec_inv _ _ Hex) as (ms & Hinv & Ho & Hh). pose proof Hinv as [Hdir _ Hino Hthr].
  unfold on_disk in Hd. destruct (s_dir s !! n) as [i|] eqn:Ei; [|done].
  destruct (Hdir _ _ Ei) as (nd & Hi & Hn & _). rewrite Hi in Hd. cbn in Hd. injection Hd as <-.
  exists i, (ms !! i). split; [done|]. split; [apply Hh|].
  destruct (Hino _ _ Hi) as [Hset _]. destruct (Ho _ _ Hi) as [Hmk Hhd].
  assert (settled (eq InvalidData) nd (ms !! i) →
    (∃ l, ms !! i = Some l ∧ get_label_from_data n (i_data nd) = Ok l)
     ∨ (writing n s ∧ (∃ e, get_label_from_data n (i_data nd) = Err e))) as Hs.
  { intros Hst. pose proof (settled_read _ _ _ Hst) as Hg. rewrite Hn in Hg. destruct (ms !! i) as [l|] eqn:Em; [eauto|].
    right. destruct Hg as (k & _ & Hg). split; [|eauto]. specialize (Hmk eq_refl). unfold making in Hmk.
    destruct (s_threads s !! i_creator nd) as [p|] eqn:Et; [|done]. exists (i_creator nd), p. split; [done|].
    pose proof (Hthr _ _ Et) as Hp.
    destruct p; try done; cbn [makes] in Hmk; injection Hmk as ->; cbn [thread_ok] in Hp;
      destruct Hp as (x & Hx & Hxn & _); congruence. }
  destruct (i_excl nd) as [t|] eqn:He.
  2:{ destruct (Hs (Hset eq_refl)) as [?|?]; auto. }
  specialize (Hhd t eq_refl). unfold holding in Hhd. destruct (s_threads s !! t) as [p|] eqn:Et; [|done].
  pose proof (Hthr _ _ Et) as Hp.
  destruct p; try done; cbn [holds] in Hhd; injection Hhd as ->; cbn [thread_ok] in Hp.
  - destruct Hp as (_ & x & Hx & _ & _ & Hst). rewrite Hi in Hx. injection Hx as <-. destruct (Hs Hst) as [?|?]; auto.
  - destruct Hp as (_ & x & Hx & _ & _ & Hst & _). rewrite Hi in Hx. injection Hx as <-. destruct (Hs Hst) as [?|?]; auto.
  - destruct Hp as ((Hup & Hlk & Hnlk) & x & Hx & Hxn & _ & Hm & Hd & _). rewrite Hi in Hx. injection Hx as <-.
    assert (writing n s) as Hw by (eexists _, _; split; [exact Et|congruence]).
    assert (lb_name nl = n) as Hnn by (destruct Hup; congruence).
    destruct (part_of_label nl _ _ Hnlk Hd) as [[e Hg]|Hg]; rewrite Hnn in Hg.
    + right; left. eauto.
    + right; right. split; [done|]. exists nl. rewrite Hm. done.
  - destruct Hp as (x & Hx & Hxn & _ & Hm & _ & Hd & _). rewrite Hi in Hx. injection Hx as <-.
    assert (writing n s) as Hw by (eexists _, _; split; [exact Et|cbn; congruence]).
    assert (n0 = n) as -> by congruence.
    assert (label_ok (label_new_empty n)) as Hok by (split; cbn; [lia|done]).
    destruct (part_of_label (label_new_empty n) _ _ Hok Hd) as [[e Hg]|Hg]; cbn [label_new_empty lb_name] in Hg.
    + right; left. eauto.
    + right; right. split; [done|]. eexists. rewrite Hm. split; [exact Hg|done].
Qed.

(** ** counting creations *)
Lemma is_creation_step ms s e s' n : linv ms s → lstep s (Some e) s' → is_creation n e = true →
  ∃ i nd, ev_ino e = Some i ∧ ms !! i = None ∧ s_inodes s !! i = Some nd ∧ i_name nd = n.
Proof.
  intros Hinv Hst Hc. pose proof Hinv as [_ _ _ Hthr]. inversion Hst; subst; cbn [is_creation] in Hc; try done.
  apply bool_decide_eq_true in Hc. subst.
  match goal with H : s_threads _ !! _ = Some _ |- _ => pose proof (Hthr _ _ H) as Hp; cbn [thread_ok] in Hp end.
  destruct Hp as (x & Hx & Hxn & _ & Hm & _). eexists _, x. done.
Qed.
Lemma follows_some ms ms' e i : follows ms ms' e → is_Some (ms !! i) → is_Some (ms' !! i).
Proof.
  intros Hf [l Hl]. specialize (Hf i). rewrite Hl in Hf. destruct e as [e|]; [|rewrite Hf; eauto].
  case_decide; [|rewrite Hf; eauto]. inversion Hf; subst; eauto.
Qed.
Lemma count_snoc (P : lev → bool) tr e :
  length (filter P (tr ++ option_list e)) = length (filter P tr) + match e with Some e => if P e then 1 else 0 | None => 0 end.
Proof.
  rewrite filter_app, app_length. f_equal. destruct e as [e|]; [change (option_list (Some e)) with [e]|done].
  rewrite filter_cons, filter_nil. destruct (P e); by case_decide.
Qed.
Lemma inodes_stay s e s' k : lstep s e s' → is_Some (s_inodes s !! k) →
  ∃ nd nd', s_inodes s !! k = Some nd ∧ s_inodes s' !! k = Some nd' ∧ i_name nd' = i_name nd.
Proof.
  intros Hst [x Hk]. exists x. destruct Hst; cbn [s_inodes goto leave put]; try (by exists x).
  all: match goal with |- context [<[?j := _]> _ !! ?q] => destruct (decide (q = j)) as [->|Hne] end;
    [rewrite lookup_insert; eexists; split; [done|]; split; [done|]; cbn; congruence
    |rewrite lookup_insert_ne by done; by exists x].
Qed.
Lemma creations_files tr s n : lexec tr s →
  ∃ ms (cr L : list ino), linv ms s ∧
    NoDup cr ∧ length cr = creations n tr ∧
    (∀ i, i ∈ cr → is_Some (ms !! i) ∧ ∃ nd, s_inodes s !! i = Some nd ∧ i_name nd = n) ∧
    (∀ i nd, s_inodes s !! i = Some nd → i_name nd = n → i ∈ L) ∧
    length L = deletions n tr + (if s_dir s !! n then 1 else 0).
Proof.
  induction 1 as [|tr s e s' Hex (ms & cr & L & Hinv & Hnd & Hlen & Hcr & HL & HlenL) Hst].
  - exists ∅, [], []. split; [apply linv_init|]. split; [constructor|]. split; [done|]. split; [by intros i ?%elem_of_nil|].
    split; [|done]. intros i nd. cbn [lstate_init s_inodes]. by rewrite lookup_empty.
  - destruct (linv_lstep _ _ _ _ Hinv Hst) as (ms' & Hinv' & Hf).
    assert (∃ cr', NoDup cr' ∧ length cr' = creations n (tr ++ option_list e) ∧
              ∀ i, i ∈ cr' → is_Some (ms' !! i) ∧ ∃ nd, s_inodes s' !! i = Some nd ∧ i_name nd = n) as (cr' & H1 & H2 & H3).
    { assert (∀ i, i ∈ cr → is_Some (ms' !! i) ∧ ∃ nd, s_inodes s' !! i = Some nd ∧ i_name nd = n) as Hkeep.
      { intros i Hi. destruct (Hcr i Hi) as [Hs (nd & Hnd' & Hn)]. split; [by eapply follows_some|].
        destruct (inodes_stay _ _ _ i Hst) as (x & x' & Hx & Hx' & E); [eauto|]. exists x'. split; [done|]. congruence. }
      unfold creations. rewrite count_snoc. fold (creations n tr). rewrite <-Hlen.
      destruct e as [e|]; [|exists cr; split; [done|]; split; [lia|done]].
      destruct (is_creation n e) eqn:Ec; [|exists cr; split; [done|]; split; [lia|done]].
      destruct (is_creation_step _ _ _ _ _ Hinv Hst Ec) as (i & nd & Ei & Hm & Hi & Hn).
      exists (i :: cr). split; [constructor; [|done]|]. { intros Hin. destruct (Hcr i Hin) as [[? Hx] _]. congruence. }
      split; [cbn [length]; lia|]. intros j [-> |Hj]%elem_of_cons; [|by apply Hkeep]. split.
      - specialize (Hf i). cbn beta iota in Hf. rewrite decide_True in Hf by done. rewrite Hm in Hf.
        destruct e; try done. cbn [is_creation] in Ec. inversion Hf; subst; try done; eauto.
      - destruct (inodes_stay _ _ _ i Hst) as (x & x' & Hx & Hx' & E); [eauto|]. exists x'. split; [done|]. congruence. }
    assert (∃ L', (∀ i nd, s_inodes s' !! i = Some nd → i_name nd = n → i ∈ L') ∧
              length L' = deletions n (tr ++ option_list e) + (if s_dir s' !! n then 1 else 0)) as (L' & H4 & H5).
    { unfold deletions. rewrite count_snoc. fold (deletions n tr).
      destruct (step_dir _ _ _ Hst) as [[Hd Hs]|[H|H]].
      - exists L. split.
        + intros i nd' Hi Hn. destruct (Hs _ _ Hi) as (nd & Hx & Hxn). apply (HL i nd); [done|congruence].
        + rewrite Hd, HlenL. destruct e as [e|]; [|lia]. destruct (is_deletion n e) eqn:Ed; [|lia]. exfalso.
          destruct e as [| | |t m [|]]; try done. cbn [is_deletion] in Ed. apply bool_decide_eq_true in Ed. subst m.
          inversion Hst; subst. cbn [s_dir] in Hd.
          match goal with H : s_dir s !! n = Some _ |- _ => rewrite <-Hd, lookup_delete in H; done end.
      - destruct H as (t & m & i & nd & -> & Hm & Hi & Hn & _ & Hd & Hs). rewrite Hd, Hs.
        destruct (decide (m = n)) as [->|Hne].
        + exists (i :: L). rewrite lookup_insert. rewrite Hm in HlenL. split; [|cbn [length]; lia].
          intros j x. destruct (decide (j = i)) as [->|Hne]; [by left|]. rewrite lookup_insert_ne by done. right. by eapply HL.
        + exists L. rewrite lookup_insert_ne by done. split; [|lia].
          intros j x. destruct (decide (j = i)) as [->|Hne']; [|rewrite lookup_insert_ne by done; apply HL].
          rewrite lookup_insert. intros [= <-]. congruence.
      - destruct H as (t & m & i & -> & Hm & Hd & Hs). rewrite Hd, Hs. exists L. split; [done|]. cbn [is_deletion].
        destruct (decide (m = n)) as [->|Hne].
        + rewrite bool_decide_true by done. rewrite lookup_delete. rewrite Hm in HlenL. lia.
        + rewrite bool_decide_false by done. rewrite lookup_delete_ne by done. lia. }
    exists ms', cr', L'. done.
Qed.
Lemma creations_bound tr s n : lexec tr s → creations n tr ≤ deletions n tr + 1.
Proof.
  intros Hex. destruct (creations_files _ _ n Hex) as (ms & cr & L & _ & Hnd & Hlen & Hcr & HL & HlenL).
  assert (length cr ≤ length L) as Hle.
  { apply submseteq_length. apply NoDup_submseteq; [done|]. intros i Hi. destruct (Hcr i Hi) as [_ (nd & Hx & Hn)]. by apply (HL i nd). }
  destruct (s_dir s !! n); lia.
Qed.

Lemma file_register tr s i : lexec tr s → ∃ c, history reg None (on_file i tr) c.
Proof. intros H. destruct (file_history tr s H) as (ms & _ & Hh). eauto. Qed.
Lemma name_register tr s n : lexec tr s → ¬ deleted n tr → ∃ c, history name_reg None (on_name n tr) c.
Proof. intros H Hd. destruct (name_history tr s n H Hd) as (ms & _ & _ & _ & Hh). eauto. Qed.
Lemma history_count es l : history name_reg None es (Some l) → lb_version l = N.of_nat (length (filter set_ok es)).
Proof. intros H. apply (history_version None es (Some l) H). Qed.
Lemma created_empty tr s t n i l : lexec tr s → EvCreate t n i (Ok l) ∈ tr → l = Label n None 0.
Proof.
  induction 1 as [|tr s e s' Hex IH Hst]; [by intros ?%elem_of_nil|]. intros [Hin|Hin]%elem_of_app; [by apply IH|].
  destruct e as [e|]; [|by apply elem_of_nil in Hin]. change (option_list (Some e)) with [e] in Hin.
  apply elem_of_list_singleton in Hin. subst e. by inversion Hst.
Qed.
Lemma history_created_once es c : history name_reg None es c → length (filter create_ok es) ≤ 1.
Proof. intros H. pose proof (history_version _ _ _ H) as Hv. destruct c; [lia|]. destruct Hv as [-> _]. cbn [length]. lia. Qed.
