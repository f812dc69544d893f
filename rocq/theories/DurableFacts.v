(** What is on the disk for good. *)
From Verif Require Import Prelude ListFacts Names LabelSeq LabelPath StoreDir Durable SpecDurable.

Lemma entry_snoc lg e p : entry (lg ++ [e]) p = if decide (e.1 = p) then e.2 else entry lg p.
Proof. unfold entry. by rewrite foldl_app. Qed.
Lemma entry_elem lg p t : entry lg p = Some t → (p, Some t) ∈ lg.
Proof.
  induction lg as [|[q v] lg IH] using rev_ind; [done|]. rewrite entry_snoc, elem_of_app. cbn.
  case_decide; [|auto]. subst. intros ->. right. left.
Qed.

(** an operation changes at most the entry at its path, from something to something else *)
Lemma exec_log s o : k_log (exec s o) = k_log s ∨
  ∃ v, k_log (exec s o) = k_log s ++ [(op_path o, v)] ∧
    (now s (op_path o) = None ∨ (o = Remove (op_path o) ∧ ∃ i, now s (op_path o) = Some (TFile i))).
Proof.
  destruct o as [p|p|p f|p|p|p|p]; cbn [exec op_path]; try (left; unfold on_file; by repeat case_match).
  - destruct (now s p) eqn:E; [by left|]. right. eauto.
  - destruct (now s p) eqn:E; [by left|]. right. eauto.
  - destruct (now s p) as [[|i]|] eqn:E; [by left| |by left]. right. eexists. split; [done|]. eauto.
Qed.

Definition steady (s : disk) (k0 : nat) (p : list bytes) (v : option target) : Prop :=
  k0 ≤ length (k_log s) ∧ ∀ k, k0 ≤ k → value_at s k p = v.
Lemma steady_now s k0 p v : steady s k0 p v → now s p = v.
Proof.
  intros [Hk Hv]. rewrite <-(Hv (length (k_log s)) Hk). unfold value_at, now. by rewrite take_ge.
Qed.
Lemma steady_later s k0 k1 p v : steady s k0 p v → k0 ≤ k1 ≤ length (k_log s) → steady s k1 p v.
Proof. intros [? Hv] ?. split; [lia|]. intros k ?. apply Hv. lia. Qed.
Lemma steady_here s p v : now s p = v → steady s (length (k_log s)) p v.
Proof. intros <-. split; [done|]. intros k Hk. unfold value_at, now. by rewrite take_ge. Qed.
Lemma steady_exec s k0 p v o : steady s k0 p v →
  op_path o ≠ p ∨ v = Some TDir ∨ (v ≠ None ∧ o ≠ Remove p) → steady (exec s o) k0 p v.
Proof.
  intros Hs Ho. pose proof (steady_now _ _ _ _ Hs) as Hn. destruct Hs as [Hk Hv].
  destruct (exec_log s o) as [E|(w & E & Hw)].
  { unfold steady, value_at. rewrite E. done. }
  assert (op_path o ≠ p) as Hp.
  { destruct Ho as [?|[->|[? ?]]]; [done|..]; intros Hp; rewrite Hp, Hn in Hw.
    - destruct Hw as [?|(_ & i & ?)]; done.
    - destruct Hw as [?|(? & _)]; done. }
  split; [rewrite E, app_length; lia|]. intros k Hkk. unfold value_at. rewrite E.
  destruct (decide (k ≤ length (k_log s))) as [Hl|Hl].
  - rewrite take_app_le by done. by apply Hv.
  - rewrite take_ge by (rewrite app_length; cbn; lia). rewrite entry_snoc. cbn. by rewrite decide_False.
Qed.
Lemma absent_exec s p o : absent s p → op_path o ≠ p → absent (exec s o) p.
Proof. intros H Ho. eapply steady_now, steady_exec; [by apply steady_here|by left]. Qed.
Lemma no_file_exec s p o : no_file s p → o ≠ Open p → no_file (exec s o) p.
Proof.
  intros Hn Ho i. unfold now. destruct (exec_log s o) as [->|(w & E & Hw)]; [apply Hn|]. rewrite E, entry_snoc. cbn.
  case_decide as Hp; [|apply Hn]. intros ->. destruct o as [q|q|q f|q|q|q|q]; cbn [exec op_path] in *; subst q.
  - destruct (now s p); cbn in E.
    + apply (f_equal length) in E. rewrite app_length in E. cbn in E. lia.
    + apply app_inj_tail in E as [_ E]. done.
  - done.
  - unfold on_file in E. apply (f_equal length) in E. rewrite app_length in E. cbn in E. repeat case_match; cbn in E; lia.
  - unfold on_file in E. apply (f_equal length) in E. rewrite app_length in E. cbn in E. repeat case_match; cbn in E; lia.
  - unfold on_file in E. apply (f_equal length) in E. rewrite app_length in E. cbn in E. repeat case_match; cbn in E; lia.
  - apply (f_equal length) in E. rewrite app_length in E. cbn in E. lia.
  - destruct (now s p) as [[|j]|] eqn:En; cbn in E.
    + apply (f_equal length) in E. rewrite app_length in E. cbn in E. lia.
    + by apply Hn in En.
    + apply (f_equal length) in E. rewrite app_length in E. cbn in E. lia.
Qed.
Lemma mkdir_steady s p : no_file s p → steady (exec s (MkDir p)) (length (k_log (exec s (MkDir p)))) p (Some TDir).
Proof.
  intros Hn. apply steady_here. cbn [exec]. destruct (now s p) as [[|i]|] eqn:E; [done|by apply Hn in E|].
  unfold now. cbn [k_log]. rewrite entry_snoc. cbn. by rewrite decide_True.
Qed.
Lemma disk_ok_exec s o : disk_ok s → disk_ok (exec s o) ∧ k_next s ≤ k_next (exec s o).
Proof.
  intros Hk.
  assert (Hmk : ∀ p v, (∀ i, v ≠ Some (TFile i)) →
    disk_ok (Disk (k_log s ++ [(p, v)]) (k_synced s) (k_flushed s) (k_files s) (k_next s))).
  { intros p v Hv q i. cbn. rewrite elem_of_app, elem_of_list_singleton. intros [Hq|Hq]; [|injection Hq; intros E _; by destruct (Hv i (eq_sym E))].
    apply Hk in Hq as (? & ? & Hu). do 2 (split; [done|]). intros r. rewrite elem_of_app, elem_of_list_singleton.
    intros [Hr|Hr]; [by apply Hu|]. injection Hr; intros E _; by destruct (Hv i (eq_sym E)). }
  assert (Hon : ∀ p g, disk_ok (on_file s p g)).
  { intros p g. unfold on_file. destruct (now s p) as [[|j]|]; try done. intros q i. cbn. intros (? & Hb & Hu)%Hk.
    split; [done|]. split; [|done]. destruct (decide (i = j)) as [->|Hij].
    - rewrite lookup_alter. by apply fmap_is_Some.
    - by rewrite lookup_alter_ne. }
  assert (Hnx : ∀ p g, k_next (on_file s p g) = k_next s). { intros p g. unfold on_file. by repeat case_match. }
  destruct o as [p|p|p f|p|p|p|p]; cbn [exec].
  - destruct (now s p); [done|]. split; [by apply Hmk|done].
  - destruct (now s p); [done|]. split; [|cbn; lia]. intros q i. cbn.
    rewrite elem_of_app, elem_of_list_singleton. intros [Hq|Hq].
    + apply Hk in Hq as (? & ? & Hu). split; [lia|]. split; [by rewrite lookup_insert_ne by lia|].
      intros r. rewrite elem_of_app, elem_of_list_singleton. intros [Hr|Hr]; [by apply Hu|]. injection Hr as -> ->. lia.
    + injection Hq as -> ->. split; [lia|]. split; [by rewrite lookup_insert|].
      intros r. rewrite elem_of_app, elem_of_list_singleton. intros [Hr|Hr]; [|by injection Hr].
      apply Hk in Hr as [? _]. lia.
  - split; [apply Hon|by rewrite Hnx].
  - split; [|cbn [k_next]; by rewrite Hnx]. intros q i Hq. by apply Hon in Hq.
  - split; [apply Hon|by rewrite Hnx].
  - done.
  - destruct (now s p) as [[|i]|]; [done| |done]. split; [by apply Hmk|done].
Qed.

(** a file that is being written *)
Record writing (s : disk) (p : list bytes) (i : nat) (st : bytes * bool) (k0 : nat) : Prop := {
  wr_steady : steady s k0 p (Some (TFile i));
  wr_bytes : k_files s !! i = Some st;
  wr_only : ∀ q, (q, Some (TFile i)) ∈ k_log s → q = p;
  wr_next : i < k_next s }.
Definition effect (p : list bytes) (st : bytes * bool) (o : fop) : bytes * bool :=
  match o with
  | Change q f => if decide (q = p) then (f st.1, false) else st
  | Sync q | SyncData q => if decide (q = p) then (st.1, true) else st
  | _ => st
  end.
Lemma on_file_bytes s q g p i st k0 : writing s p i st k0 →
  k_files (on_file s q g) !! i = Some (if decide (q = p) then g st else st).
Proof.
  intros Hw. unfold on_file. pose proof (steady_now _ _ _ _ (wr_steady _ _ _ _ _ Hw)) as Hn.
  case_decide as Hq.
  - subst q. rewrite Hn. cbn. by rewrite lookup_alter, (wr_bytes _ _ _ _ _ Hw).
  - destruct (now s q) as [[|j]|] eqn:E; cbn; try apply Hw.
    rewrite lookup_alter_ne; [apply Hw|]. intros ->. apply entry_elem in E. by apply (wr_only _ _ _ _ _ Hw) in E.
Qed.
Lemma on_file_log s q g : k_log (on_file s q g) = k_log s.
Proof. unfold on_file. by repeat case_match. Qed.
Lemma exec_only s o p i : i < k_next s → (∀ q, (q, Some (TFile i)) ∈ k_log s → q = p) →
  ∀ q, (q, Some (TFile i)) ∈ k_log (exec s o) → q = p.
Proof.
  intros Hi Ho q. destruct o as [r|r|r f|r|r|r|r]; cbn [exec k_log]; rewrite ?on_file_log; repeat case_match; cbn [k_log]; auto;
    rewrite elem_of_app, elem_of_list_singleton; intros [?|Hq]; auto; try done.
  injection Hq as _ ->. lia.
Qed.
Lemma writing_exec s p i st k0 o : writing s p i st k0 → o ≠ Remove p → writing (exec s o) p i (effect p st o) k0.
Proof.
  intros Hw Ho. split.
  - apply steady_exec; [apply Hw|]. right. by right.
  - destruct o as [q|q|q f|q|q|q|q]; cbn [exec effect].
    + repeat case_match; cbn; apply Hw.
    + repeat case_match; cbn; try apply Hw. rewrite lookup_insert_ne; [apply Hw|].
      pose proof (wr_next _ _ _ _ _ Hw). lia.
    + erewrite on_file_bytes by exact Hw. by case_decide.
    + cbn [k_files]. erewrite on_file_bytes by exact Hw. by case_decide.
    + erewrite on_file_bytes by exact Hw. by case_decide.
    + cbn. apply Hw.
    + repeat case_match; cbn; apply Hw.
  - apply exec_only; apply Hw.
  - eapply Nat.lt_le_trans; [apply Hw|]. destruct o as [q|q|q f|q|q|q|q]; cbn [exec]; unfold on_file; repeat case_match; cbn; lia.
Qed.
Lemma open_writing s p : disk_ok s → absent s p → writing (exec s (Open p)) p (k_next s) ([], false) (length (k_log (exec s (Open p)))).
Proof.
  intros Hk Ha. cbn [exec]. rewrite Ha. split.
  - apply steady_here. unfold now. cbn [k_log]. rewrite entry_snoc. cbn. by rewrite decide_True.
  - cbn. apply lookup_insert.
  - intros q. cbn. rewrite elem_of_app, elem_of_list_singleton. intros [Hq|Hq]; [apply Hk in Hq as [? _]; lia|]. by injection Hq as ->.
  - cbn. lia.
Qed.
Lemma writing_later s p i st k0 k1 : writing s p i st k0 → k0 ≤ k1 ≤ length (k_log s) → writing s p i st k1.
Proof. intros [? ? ? ?] ?. split; try done. by eapply steady_later. Qed.

(** runs *)
Definition exs (s : disk) (os : list fop) : disk := foldl exec s os.
Lemma perform_exs s tr : perform s tr = exs s tr.*2.
Proof. unfold perform, exs. revert s. induction tr as [|e tr IH]; intros s; [done|]. cbn. apply IH. Qed.
Lemma exs_app s a b : exs s (a ++ b) = exs (exs s a) b.
Proof. apply foldl_app. Qed.
Lemma exs_cons s o b : exs s (o :: b) = exs (exec s o) b.
Proof. done. Qed.
Lemma exs_inv (P : disk → Prop) (Q : fop → Prop) os : (∀ s o, P s → Q o → P (exec s o)) →
  ∀ s, P s → (∀ o, o ∈ os → Q o) → P (exs s os).
Proof.
  intros HP. induction os as [|o os IH]; intros s Hs Ho; [done|]. rewrite exs_cons. apply IH.
  - apply HP; [done|]. apply Ho. left.
  - intros o' ?. apply Ho. by right.
Qed.
Lemma disk_ok_exs s os : disk_ok s → disk_ok (exs s os).
Proof. intros Hs. apply (exs_inv disk_ok (λ _, True)); [|done|done]. intros ? ? ? _. by apply disk_ok_exec. Qed.
Lemma absent_exs s p os : absent s p → (∀ o, o ∈ os → op_path o ≠ p) → absent (exs s os) p.
Proof. intros Hs Ho. apply (exs_inv (λ s, absent s p) (λ o, op_path o ≠ p)); [|done|done]. intros. by apply absent_exec. Qed.
Lemma no_file_exs s p os : no_file s p → Open p ∉ os → no_file (exs s os) p.
Proof.
  intros Hs Ho. apply (exs_inv (λ s, no_file s p) (λ o, o ≠ Open p)); [|done|]. { intros. by apply no_file_exec. }
  intros o ? ->. done.
Qed.
Lemma steady_dir_exs s k p os : steady s k p (Some TDir) → steady (exs s os) k p (Some TDir).
Proof. intros Hs. apply (exs_inv (λ s, steady s k p (Some TDir)) (λ _, True)); [|done|done]. intros ? ? ? _. apply steady_exec; [done|]. right. by left. Qed.
Lemma writing_exs s p i st k os : writing s p i st k → Remove p ∉ os →
  writing (exs s os) p i (foldl (effect p) st (filter (about p) os)) k.
Proof.
  revert s st. induction os as [|o os IH]; intros s st Hw Hr; [done|]. rewrite exs_cons.
  apply not_elem_of_cons in Hr as [Hr1 Hr2].
  assert (writing (exec s o) p i (effect p st o) k) as Hw1 by (apply writing_exec; [done|congruence]).
  specialize (IH _ _ Hw1 Hr2). rewrite filter_cons. case_decide as Ha; [exact IH|].
  assert (effect p st o = st) as E; [|by rewrite E in IH].
  unfold about in Ha. destruct o as [q|q|q f|q|q|q|q]; cbn [effect op_path] in *; try done; by rewrite decide_False.
Qed.
Lemma writing_off s p i st k os : writing s p i st k → (∀ o, o ∈ os → op_path o ≠ p) → writing (exs s os) p i st k.
Proof.
  intros Hw Ho. apply (exs_inv (λ s, writing s p i st k) (λ o, op_path o ≠ p)); [|done|done].
  intros s' o Hw' Ho'. pose proof (writing_exec s' p i st k o Hw') as H.
  assert (effect p st o = st) as E.
  { destruct o as [q|q|q f|q|q|q|q]; cbn [effect op_path] in *; try done; by rewrite decide_False. }
  rewrite E in H. apply H. intros ->. done.
Qed.
Lemma filter_about_first p os o rest : filter (about p) os = o :: rest →
  ∃ a b, os = a ++ o :: b ∧ (∀ o', o' ∈ a → op_path o' ≠ p) ∧ filter (about p) b = rest.
Proof.
  induction os as [|x os IH]; [done|]. rewrite filter_cons. case_decide as Hx.
  - intros [= -> <-]. exists [], os. split; [done|]. split; [by intros ? ?%elem_of_nil|done].
  - intros (a & b & -> & Ha & Hb)%IH. exists (x :: a), b. split; [done|]. split; [|done].
    intros o' [->|?]%elem_of_cons; auto.
Qed.
Lemma effect_appends p c b (chunks : list bytes) :
  foldl (effect p) (c, b) (appends p chunks ++ [Sync p]) = (c ++ mjoin chunks, true).
Proof.
  unfold appends. revert c b. induction chunks as [|x chunks IH]; intros c b.
  - cbn. rewrite decide_True by done. by rewrite app_nil_r.
  - rewrite fmap_cons. cbn [app foldl effect]. rewrite decide_True by done. cbn [fst snd]. rewrite IH.
    rewrite <-app_assoc. done.
Qed.
(** a file of which all operations are there is on the disk *)
Lemma file_written s p os chunks : disk_ok s → absent s p → filter (about p) os = file_ops p chunks →
  ∃ i, writing (exs s os) p i (mjoin chunks, true) (length (k_log (exs s os))).
Proof.
  intros Hk Ha Hf. apply filter_about_first in Hf as (a & b & -> & Hna & Hb).
  rewrite exs_app, exs_cons.
  assert (Remove p ∉ b) as Hr.
  { intros Hr. assert (Remove p ∈ filter (about p) b) as Hr' by (apply elem_of_list_filter; done).
    rewrite Hb, elem_of_app in Hr'. unfold appends in Hr'. destruct Hr' as [(?&?&?)%elem_of_list_fmap|?%elem_of_list_singleton]; done. }
  pose proof (open_writing (exs s a) p (disk_ok_exs _ _ Hk) (absent_exs _ _ _ Ha Hna)) as Hw.
  pose proof (writing_exs _ _ _ _ _ b Hw Hr) as Hw'. rewrite Hb, effect_appends in Hw'. cbn [app] in Hw'.
  eexists. eapply writing_later; [exact Hw'|]. split; [|done]. apply Hw'.
Qed.

(** traces of one caller among others *)
Lemma own_app a b : own (a ++ b) = own a ++ own b.
Proof. apply omap_app. Qed.
Lemma own_app_inv tr a b : own tr = a ++ b → ∃ t1 t2, tr = t1 ++ t2 ∧ own t1 = a ∧ own t2 = b.
Proof.
  revert a. induction tr as [|[w o] tr IH]; intros a E.
  - exists [], []. cbn in E. symmetry in E. apply app_nil in E as [-> ->]. done.
  - destruct w.
    + change (o :: own tr = a ++ b) in E. destruct a as [|x a].
      * exists [], ((true, o) :: tr). done.
      * injection E as <- E. destruct (IH _ E) as (t1 & t2 & -> & <- & <-). exists ((true, o) :: t1), t2. done.
    + destruct (IH a E) as (t1 & t2 & -> & <- & <-). exists ((false, o) :: t1), t2. done.
Qed.
Lemma own_cons_inv tr o b : own tr = o :: b → ∃ t1 t2, tr = t1 ++ (true, o) :: t2 ∧ own t1 = [] ∧ own t2 = b.
Proof.
  induction tr as [|[w x] tr IH]; intros E; [done|]. destruct w.
  - injection E as <- <-. exists [], tr. done.
  - destruct (IH E) as (t1 & t2 & -> & ? & ?). exists ((false, x) :: t1), t2. done.
Qed.
Lemma op_cases tr o : o ∈ tr.*2 → o ∈ own tr ∨ o ∈ others tr.
Proof.
  intros ([w x] & -> & Hx)%elem_of_list_fmap. unfold own, others. rewrite !elem_of_list_omap. destruct w; eauto.
Qed.
Lemma others_app a b : others (a ++ b) = others a ++ others b.
Proof. apply omap_app. Qed.
Lemma filter_own (p : list bytes) tr : (∀ o, o ∈ others tr → op_path o ≠ p) → filter (about p) tr.*2 = filter (about p) (own tr).
Proof.
  induction tr as [|[w o] tr IH]; intros Ho; [done|]. destruct w.
  - change (own ((true, o) :: tr)) with (o :: own tr). rewrite fmap_cons, !filter_cons. cbn [snd].
    rewrite IH by done. done.
  - change (others ((false, o) :: tr)) with (o :: others tr) in Ho. change (own ((false, o) :: tr)) with (own tr).
    rewrite fmap_cons, filter_cons. cbn [snd]. rewrite decide_False; [|by apply Ho; left].
    apply IH. intros o' ?. apply Ho. by right.
Qed.

(** ** Layers *)
Record layer_safe (s : disk) (n : lname) (files : list (bytes * list bytes)) (k : nat) : Prop := {
  ls_flushed : k ≤ k_flushed s;
  ls_synced : k ≤ default 0 (k_synced s !! layer_dir [] n);
  ls_above : steady s k (take 1 (layer_dir [] n)) (Some TDir);
  ls_dir : steady s k (layer_dir [] n) (Some TDir);
  ls_files : ∀ f chunks, (f, chunks) ∈ files → ∃ i, writing s (layer_file [] n f) i (mjoin chunks, true) k }.
Lemma flushed_exec s o k : k ≤ k_flushed s → k ≤ length (k_log s) → k ≤ k_flushed (exec s o).
Proof.
  intros H1 H2. destruct o as [q|q|q f|q|q|q|q]; cbn [exec]; unfold on_file; repeat case_match; cbn; done.
Qed.
Lemma synced_exec s o k p : k ≤ default 0 (k_synced s !! p) → k ≤ length (k_log s) → k ≤ default 0 (k_synced (exec s o) !! p).
Proof.
  intros H1 H2. destruct o as [q|q|q f|q|q|q|q]; cbn [exec]; unfold on_file; repeat case_match; cbn; try done.
  destruct (decide (q = p)) as [->|Hq]; [by rewrite lookup_insert|by rewrite lookup_insert_ne].
Qed.
Lemma layer_safe_exs s n files k os : layer_safe s n files k →
  (∀ o, o ∈ os → op_path o ∉ (λ f : bytes * list bytes, layer_file [] n f.1) <$> files) → layer_safe (exs s os) n files k.
Proof.
  intros Hs Ho. apply (exs_inv (λ s, layer_safe s n files k) (λ o, op_path o ∉ (λ f : bytes * list bytes, layer_file [] n f.1) <$> files));
    [|done|done].
  clear. intros s o [H1 H2 H3 H4 H5] Ho. split.
  - apply flushed_exec; [done|]. apply H3.
  - apply synced_exec; [done|]. apply H3.
  - apply steady_exec; auto.
  - apply steady_exec; auto.
  - intros f chunks Hf. destruct (H5 f chunks Hf) as [i Hi]. exists i.
    apply (writing_off s _ i _ k [o] Hi). intros o' ->%elem_of_list_singleton E. apply Ho. rewrite E.
    apply elem_of_list_fmap. by exists (f, chunks).
Qed.

Section layer.
  Context (n : lname) (files : list (bytes * list bytes)).
  Notation dir := (layer_dir [] n).
  Notation pre := (take 1 (layer_dir [] n)).
  Lemma path_file f : layer_file [] n f ≠ dir ∧ layer_file [] n f ≠ pre.
  Proof. split; intros E; apply (f_equal length) in E; done. Qed.
  Lemma path_dir : dir ≠ pre.
  Proof. intros E. by apply (f_equal length) in E. Qed.
  Lemma layer_written s tr ops : disk_ok s → new_layer s n files → writes_layer n files ops → own tr = ops →
    leave_layer n files (others tr) → ∃ k, length (k_log s) ≤ k ∧ layer_safe (perform s tr) n files k.
  Proof.
    intros Hk [Hnew Hpre] (mid & -> & Hmid & Hfiles) Hown [Hoff Hopen].
    cbn [app] in Hown. apply own_cons_inv in Hown as (t0 & tr1 & -> & O0 & Hown).
    apply own_cons_inv in Hown as (t1 & tr2 & -> & O1 & Hown).
    apply own_app_inv in Hown as (t2 & tr3 & -> & O2 & Hown).
    apply own_cons_inv in Hown as (t3 & t4 & -> & O3 & O4).
    assert (Hpart : ∀ t, (∃ a b, t0 ++ (true, MkDir pre) :: t1 ++ (true, MkDir dir) :: t2 ++ t3 ++ (true, SyncDir dir) :: t4 = a ++ t ++ b) →
      ∀ o, o ∈ others t → op_path o ∉ layer_paths n files ∧ o ≠ Open pre).
    { intros t (a & b & E) o Ho.
      assert (o ∈ others (a ++ t ++ b)) as Ho'; [rewrite !others_app, !elem_of_app; auto|].
      rewrite <-E in Ho'. split; [by apply Hoff|]. intros ->. by apply Hopen. }
    assert (P0 := Hpart t0 ltac:(by eexists [], _)).
    assert (P1 := Hpart t1 ltac:(eexists (t0 ++ [_]), _; by rewrite <-!app_assoc)).
    assert (P2 := Hpart t2 ltac:(eexists (t0 ++ _ :: t1 ++ [_]), _; by rewrite <-!app_assoc; cbn; rewrite <-!app_assoc)).
    assert (P3 := Hpart t3 ltac:(eexists (t0 ++ _ :: t1 ++ _ :: t2), _; by rewrite <-!app_assoc; cbn; rewrite <-!app_assoc)).
    assert (P4 := Hpart t4 ltac:(eexists (t0 ++ _ :: t1 ++ _ :: t2 ++ t3 ++ [_]), []; rewrite app_nil_r; by rewrite <-!app_assoc; cbn; rewrite <-!app_assoc; cbn; rewrite <-!app_assoc)).
    clear Hpart Hoff Hopen.
    assert (Q : ∀ t, own t = [] → (∀ o, o ∈ others t → op_path o ∉ layer_paths n files ∧ o ≠ Open pre) →
      ∀ o, o ∈ t.*2 → op_path o ∉ layer_paths n files ∧ o ≠ Open pre).
    { intros t E Ht o [Ho|Ho]%op_cases; [by rewrite E in Ho; apply elem_of_nil in Ho|auto]. }
    assert (Q0 := Q t0 O0 P0). assert (Q1 := Q t1 O1 P1). assert (Q3 := Q t3 O3 P3). assert (Q4 := Q t4 O4 P4). clear Q.
    rewrite perform_exs, !fmap_app, !fmap_cons, !fmap_app, !fmap_cons, !fmap_app, !fmap_cons. cbn [snd].
    rewrite exs_app, exs_cons, exs_app, exs_cons, exs_app, exs_app, exs_cons.
    set (s0 := exs s t0.*2). set (s1 := exec s0 (MkDir pre)). set (s2 := exs s1 t1.*2). set (s3 := exec s2 (MkDir dir)).
    set (s4 := exs s3 t2.*2). set (s5 := exs s4 t3.*2).
    assert (Hpre0 : no_file s0 pre). { apply no_file_exs; [done|]. intros [_ ?]%Q0. done. }
    pose proof (mkdir_steady s0 pre Hpre0) as S1. fold s1 in S1.
    assert (In : ∀ p, p ∈ layer_paths n files → p ≠ pre ∧ (p = dir ∨ p ≠ dir)).
    { intros p [->|(f & -> & _)%elem_of_list_fmap]%elem_of_cons; [|by split; [apply path_file|right; apply path_file]].
      split; [apply path_dir|by left]. }
    assert (A2 : ∀ p, p ∈ layer_paths n files → absent s2 p).
    { intros p Hp. apply absent_exs; [apply absent_exec; [apply absent_exs; [by apply Hnew|]|]|].
      - intros o [Ho _]%Q0 E. by rewrite E in Ho.
      - cbn. apply not_eq_sym. by apply In.
      - intros o [Ho _]%Q1 E. by rewrite E in Ho. }
    assert (Hd : dir ∈ layer_paths n files) by left.
    assert (S3 : steady s3 (length (k_log s3)) dir (Some TDir)).
    { apply mkdir_steady. intros i. rewrite (A2 dir Hd). done. }
    assert (K3 : disk_ok s3).
    { apply disk_ok_exec, disk_ok_exs, disk_ok_exec, disk_ok_exs. done. }
    assert (W4 : ∀ f chunks, (f, chunks) ∈ files → ∃ i, writing s4 (layer_file [] n f) i (mjoin chunks, true) (length (k_log s4))).
    { intros f chunks Hf. assert (layer_file [] n f ∈ layer_paths n files) as Hp.
      { right. apply elem_of_list_fmap. by exists (f, chunks). }
      apply file_written; [done| |].
      - apply absent_exec; [by apply A2|]. cbn. apply not_eq_sym, path_file.
      - rewrite filter_own; [rewrite O2; by apply Hfiles|]. intros o [Ho _]%P2 E. by rewrite E in Ho. }
    assert (Hlen : ∀ s os, length (k_log s) ≤ length (k_log (exs s os))).
    { clear. intros s os. revert s. induction os as [|o os IH]; intros s; [done|]. rewrite exs_cons. specialize (IH (exec s o)).
      destruct (exec_log s o) as [E|(v & E & _)]; rewrite E in IH; [|rewrite app_length in IH; cbn in IH]; lia. }
    assert (L1 : length (k_log s1) ≤ length (k_log s5)).
    { trans (length (k_log s2)); [apply Hlen|]. trans (length (k_log s3)); [apply (Hlen s2 [MkDir dir])|].
      trans (length (k_log s4)); apply Hlen. }
    assert (L3 : length (k_log s3) ≤ length (k_log s5)). { trans (length (k_log s4)); apply Hlen. }
    assert (Hoffp : ∀ o, op_path o ∉ layer_paths n files → op_path o ∉ (λ f : bytes * list bytes, layer_file [] n f.1) <$> files).
    { intros o Ho Hin. apply Ho. by right. }
    exists (length (k_log s5)). split.
    { trans (length (k_log s0)); [apply Hlen|]. trans (length (k_log s1)); [apply (Hlen s0 [MkDir pre])|exact L1]. }
    apply layer_safe_exs.
    2:{ intros o [Ho _]%Q4. by apply Hoffp. }
    split.
    - cbn. done.
    - cbn. by rewrite lookup_insert.
    - apply steady_exec; [|right; by left]. eapply steady_later; [|split; [exact L1|done]].
      by apply steady_dir_exs, steady_dir_exs, (steady_dir_exs s2 _ _ [MkDir dir]), steady_dir_exs.
    - apply steady_exec; [|right; by left]. eapply steady_later; [|split; [exact L3|done]].
      by apply steady_dir_exs, steady_dir_exs.
    - intros f chunks Hf. destruct (W4 f chunks Hf) as [i Hi]. exists i.
      assert (layer_file [] n f ∈ layer_paths n files) as Hp.
      { right. apply elem_of_list_fmap. by exists (f, chunks). }
      apply (writing_off s5 _ i _ _ [SyncDir dir]).
      + eapply writing_later; [|split; [apply (Hlen s4)|done]]. apply (writing_off s4 _ i _ _ t3.*2); [done|].
        intros o [Ho _]%Q3 E. by rewrite E in Ho.
      + intros o ->%elem_of_list_singleton. cbn. apply not_eq_sym, path_file.
  Qed.

  Lemma above_file f : above (layer_file [] n f) = [pre; dir].
  Proof. done. Qed.
  Lemma read_safe s k v : layer_safe s n files k → kept s v →
    v_entry v pre = Some TDir → v_entry v dir = Some TDir →
    (∀ f chunks i, (f, chunks) ∈ files → writing s (layer_file [] n f) i (mjoin chunks, true) k →
      v_entry v (layer_file [] n f) = Some (TFile i)) →
    layer_found v n files.
  Proof.
    intros Hs Hv Hp Hd Hf f chunks Hin. destruct (ls_files _ _ _ _ Hs f chunks Hin) as [i Hi].
    unfold read_after. rewrite above_file. rewrite decide_True by (repeat constructor; done).
    rewrite (Hf _ _ _ Hin Hi). f_equal. apply Hv. apply Hi.
  Qed.
  Lemma journal_found s k v : layer_safe s n files k → journal_loss s v → layer_found v n files.
  Proof.
    intros Hs [Hv (j & Hj & He)]. pose proof (ls_flushed _ _ _ _ Hs).
    apply (read_safe s k v Hs Hv).
    - rewrite He. apply (ls_above _ _ _ _ Hs). lia.
    - rewrite He. apply (ls_dir _ _ _ _ Hs). lia.
    - intros f chunks i _ Hi. rewrite He. apply (wr_steady _ _ _ _ _ Hi). lia.
  Qed.
  Lemma posix_found s k v : layer_safe s n files k → posix_loss s v → layer_found v n files ∨ layer_gone v n.
  Proof.
    intros Hs [Hv He].
    destruct (decide (v_entry v pre = Some TDir)) as [Hp|Hp].
    2:{ right. intros f. unfold read_after. rewrite above_file. rewrite decide_False; [done|].
        intros [? _]%Forall_cons. done. }
    destruct (decide (v_entry v dir = Some TDir)) as [Hd|Hd].
    2:{ right. intros f. unfold read_after. rewrite above_file. rewrite decide_False; [done|].
        intros [_ [? _]%Forall_cons]%Forall_cons. done. }
    left. apply (read_safe s k v Hs Hv Hp Hd). intros f chunks i _ Hi.
    destruct (He (layer_file [] n f)) as (j & Hj & ->). apply (wr_steady _ _ _ _ _ Hi).
    change (parent_path (layer_file [] n f)) with dir in Hj. pose proof (ls_synced _ _ _ _ Hs). lia.
  Qed.
  Lemma layer_written_more s tr ops more : disk_ok s → new_layer s n files → writes_layer n files ops → own tr = ops ++ more →
    keep_off (layer_paths n files) more → leave_layer n files (others tr) →
    ∃ k, length (k_log s) ≤ k ∧ layer_safe (perform s tr) n files k.
  Proof.
    intros Hk Hnew Hw Hown Hmore [Hoff Hopen]. apply own_app_inv in Hown as (t1 & t2 & -> & O1 & O2).
    rewrite others_app in Hoff, Hopen.
    destruct (layer_written s t1 ops Hk Hnew Hw O1) as (k & Hl & Hs).
    { split; [intros o Ho; apply Hoff, elem_of_app; by left|]. intros Ho. apply Hopen, elem_of_app. by left. }
    exists k. split; [done|]. rewrite perform_exs, fmap_app, exs_app, <-(perform_exs s t1). apply layer_safe_exs; [done|].
    intros o Ho Hin. assert (op_path o ∉ layer_paths n files) as Hn; [|by apply Hn; right].
    apply op_cases in Ho as [Ho|Ho]; [apply Hmore; by rewrite <-O2|]. apply Hoff, elem_of_app. by right.
  Qed.
End layer.

Lemma layer_after_crash s tr n files ops more v : disk_ok s → new_layer s n files → writes_layer n files ops →
  own tr = ops ++ more → keep_off (layer_paths n files) more → leave_layer n files (others tr) →
  journal_loss (perform s tr) v → layer_found v n files.
Proof.
  intros Hk Hn Hw Ho Hm Hl Hv. destruct (layer_written_more n files s tr ops more Hk Hn Hw Ho Hm Hl) as (k & _ & Hs).
  by apply (journal_found n files _ k v Hs).
Qed.
Lemma layer_after_crash_posix s tr n files ops more v : disk_ok s → new_layer s n files → writes_layer n files ops →
  own tr = ops ++ more → keep_off (layer_paths n files) more → leave_layer n files (others tr) →
  posix_loss (perform s tr) v → layer_found v n files ∨ layer_gone v n.
Proof.
  intros Hk Hn Hw Ho Hm Hl Hv. destruct (layer_written_more n files s tr ops more Hk Hn Hw Ho Hm Hl) as (k & _ & Hs).
  by apply (posix_found n files _ k v Hs).
Qed.

(** ** Archives *)
Lemma exs_length s os : length (k_log s) ≤ length (k_log (exs s os)).
Proof.
  revert s. induction os as [|o os IH]; intros s; [done|]. rewrite exs_cons. specialize (IH (exec s o)).
  destruct (exec_log s o) as [E|(v & E & _)]; rewrite E in IH; [|rewrite app_length in IH; cbn in IH]; lia.
Qed.
Record archive_safe (s : disk) (n : lname) (c : bytes) (k : nat) : Prop := {
  as_flushed : k ≤ k_flushed s;
  as_synced : k ≤ default 0 (k_synced s !! take 1 (larch_path [] n));
  as_dir : steady s k (take 1 (larch_path [] n)) (Some TDir);
  as_file : ∃ i, writing s (larch_path [] n) i (c, true) k }.
Lemma archive_safe_exs s n c k os : archive_safe s n c k → (∀ o, o ∈ os → op_path o ≠ larch_path [] n) → archive_safe (exs s os) n c k.
Proof.
  intros Hs Ho. apply (exs_inv (λ s, archive_safe s n c k) (λ o, op_path o ≠ larch_path [] n)); [|done|done].
  clear. intros s o [H1 H2 H3 (i & Hi)] Ho. split.
  - apply flushed_exec; [done|]. apply H3.
  - apply synced_exec; [done|]. apply H3.
  - apply steady_exec; auto.
  - exists i. apply (writing_off s _ i _ k [o] Hi). by intros o' ->%elem_of_list_singleton.
Qed.
Lemma filter_all p (os : list fop) : Forall (λ o, op_path o = p) os → filter (about p) os = os.
Proof. induction 1; [done|]. rewrite filter_cons, decide_True by done. by f_equal. Qed.
Lemma file_ops_about p chunks : Forall (λ o, op_path o = p) (file_ops p chunks).
Proof.
  constructor; [done|]. apply Forall_app. split; [|by constructor]. apply Forall_fmap, Forall_forall. done.
Qed.
Lemma archive_written s tr n chunks more : disk_ok s → new_archive s n → own tr = writes_archive n chunks ++ more →
  keep_off [larch_path [] n] more → leave_archive n (others tr) →
  ∃ k, length (k_log s) ≤ k ∧ archive_safe (perform s tr) n (mjoin chunks) k.
Proof.
  set (p := larch_path [] n). set (d := take 1 p). intros Hk [Ha Hd] Hown Hmore [Hoff Hopen].
  assert (Hpd : p ≠ d). { intros E. by apply (f_equal length) in E. }
  unfold writes_archive in Hown. fold p d in Hown. rewrite <-!app_assoc in Hown. cbn [app] in Hown.
  apply own_cons_inv in Hown as (t0 & tr1 & -> & O0 & Hown).
  apply (own_app_inv tr1 (file_ops p chunks)) in Hown as (t1 & tr2 & -> & O1 & Hown).
  apply own_cons_inv in Hown as (t2 & t3 & -> & O2 & O3).
  assert (Hpart : ∀ t, (∃ a b, t0 ++ (true, MkDir d) :: t1 ++ t2 ++ (true, SyncDir d) :: t3 = a ++ t ++ b) →
    ∀ o, o ∈ others t → op_path o ≠ p ∧ o ≠ Open d).
  { intros t (a & b & E) o Ho.
    assert (o ∈ others (a ++ t ++ b)) as Ho'; [rewrite !others_app, !elem_of_app; auto|].
    rewrite <-E in Ho'. split; [intros Hp; apply (Hoff o Ho'); rewrite Hp; left|]. intros ->. by apply Hopen. }
  assert (P0 := Hpart t0 ltac:(by eexists [], _)).
  assert (P1 := Hpart t1 ltac:(eexists (t0 ++ [_]), _; by rewrite <-!app_assoc)).
  assert (P2 := Hpart t2 ltac:(eexists (t0 ++ _ :: t1), _; by rewrite <-!app_assoc)).
  assert (P3 := Hpart t3 ltac:(eexists (t0 ++ _ :: t1 ++ t2 ++ [_]), []; rewrite app_nil_r; by rewrite <-!app_assoc; cbn; rewrite <-!app_assoc)).
  clear Hpart Hoff Hopen.
  assert (Q : ∀ t, own t = [] → (∀ o, o ∈ others t → op_path o ≠ p ∧ o ≠ Open d) → ∀ o, o ∈ t.*2 → op_path o ≠ p ∧ o ≠ Open d).
  { intros t E Ht o [Ho|Ho]%op_cases; [by rewrite E in Ho; apply elem_of_nil in Ho|auto]. }
  assert (Q0 := Q t0 O0 P0). assert (Q2 := Q t2 O2 P2).
  rewrite perform_exs, !fmap_app, !fmap_cons, !fmap_app, !fmap_cons. cbn [snd].
  rewrite exs_app, exs_cons, exs_app, exs_app, exs_cons.
  set (s0 := exs s t0.*2). set (s1 := exec s0 (MkDir d)). set (s2 := exs s1 t1.*2). set (s3 := exs s2 t2.*2).
  assert (Hd0 : no_file s0 d). { apply no_file_exs; [done|]. intros [_ ?]%Q0. done. }
  pose proof (mkdir_steady s0 d Hd0) as S1. fold s1 in S1.
  destruct (file_written s1 p t1.*2 chunks) as [i Hi].
  { by apply disk_ok_exec, disk_ok_exs. }
  { apply absent_exec; [apply absent_exs; [done|]; intros o Ho; by apply Q0|]. by apply not_eq_sym. }
  { rewrite filter_own; [rewrite O1; apply filter_all, file_ops_about|]. intros o Ho. by apply P1. }
  fold s2 in Hi.
  assert (L1 : length (k_log s1) ≤ length (k_log s3)). { trans (length (k_log s2)); apply exs_length. }
  exists (length (k_log s3)). split.
  { trans (length (k_log s0)); [apply exs_length|]. trans (length (k_log s1)); [apply (exs_length s0 [MkDir d])|exact L1]. }
  apply archive_safe_exs.
  2:{ intros o [Ho|Ho]%op_cases; [|by apply P3]. rewrite O3 in Ho. intros E. apply (Hmore o Ho). rewrite E. left. }
  split.
  - cbn. done.
  - change (take 1 (larch_path [] n)) with d. cbn. by rewrite lookup_insert.
  - apply steady_exec; [|right; by left]. eapply steady_later; [|split; [exact L1|done]]. by apply steady_dir_exs, steady_dir_exs.
  - exists i. apply (writing_off s3 _ i _ _ [SyncDir d]).
    + eapply writing_later; [|split; [apply (exs_length s2)|done]]. apply (writing_off s2 _ i _ _ t2.*2); [done|].
      intros o Ho. by apply Q2.
    + intros o ->%elem_of_list_singleton. by apply not_eq_sym.
Qed.
Lemma above_archive n : above (larch_path [] n) = [take 1 (larch_path [] n)].
Proof. done. Qed.
Lemma archive_after_crash s tr n chunks more v : disk_ok s → new_archive s n → own tr = writes_archive n chunks ++ more →
  keep_off [larch_path [] n] more → leave_archive n (others tr) → journal_loss (perform s tr) v →
  read_after v (larch_path [] n) = Some (mjoin chunks).
Proof.
  intros Hk Hn Ho Hm Hl [Hv (j & Hj & He)].
  destruct (archive_written s tr n chunks more Hk Hn Ho Hm Hl) as (k & _ & [H1 H2 H3 (i & Hi)]).
  unfold read_after. rewrite above_archive, decide_True.
  2:{ repeat constructor. rewrite He. apply H3. lia. }
  rewrite He, (proj2 (wr_steady _ _ _ _ _ Hi)) by lia. f_equal. apply Hv, Hi.
Qed.
Lemma settled_exec s p o : settled s p → op_path o ≠ p ∨ now s p = Some TDir → settled (exec s o) p ∧ now (exec s o) p = now s p.
Proof.
  intros (k0 & Hk & Hl & Hv) Ho. assert (steady s k0 p (now s p)) as Hs by done.
  assert (steady (exec s o) k0 p (now s p)) as Hs'. { apply steady_exec; [done|]. destruct Ho; auto. }
  pose proof (steady_now _ _ _ _ Hs') as E. split; [|done]. exists k0. split; [by apply synced_exec|]. rewrite E. exact Hs'.
Qed.
Lemma settled_exs s p os : settled s p → (∀ o, o ∈ os → op_path o ≠ p) ∨ now s p = Some TDir → settled (exs s os) p ∧ now (exs s os) p = now s p.
Proof.
  revert s. induction os as [|o os IH]; intros s Hs Ho; [done|]. rewrite exs_cons.
  destruct (settled_exec s p o Hs) as [H1 H2]. { destruct Ho as [Ho|Ho]; [left; apply Ho; left|by right]. }
  destruct (IH (exec s o) H1) as [H3 H4]. { destruct Ho as [Ho|Ho]; [left; intros; apply Ho; by right|right; congruence]. }
  split; [done|congruence].
Qed.
(** with a directory that is there for good, the archive is there whatever the file system *)
Lemma archive_after_crash_posix s tr n chunks more v : disk_ok s → new_archive s n → own tr = writes_archive n chunks ++ more →
  keep_off [larch_path [] n] more → leave_archive n (others tr) → posix_loss (perform s tr) v →
  (read_after v (larch_path [] n) = Some (mjoin chunks) ∨ v_entry v (take 1 (larch_path [] n)) ≠ Some TDir) ∧
  (settled s (take 1 (larch_path [] n)) → now s (take 1 (larch_path [] n)) = Some TDir →
   read_after v (larch_path [] n) = Some (mjoin chunks)).
Proof.
  intros Hk Hn Ho Hm Hl [Hv He].
  destruct (archive_written s tr n chunks more Hk Hn Ho Hm Hl) as (k & _ & [H1 H2 H3 (i & Hi)]).
  assert (HR : v_entry v (take 1 (larch_path [] n)) = Some TDir → read_after v (larch_path [] n) = Some (mjoin chunks)).
  { intros Hd. unfold read_after. rewrite above_archive, decide_True by (by repeat constructor).
    destruct (He (larch_path [] n)) as (j & Hj & ->).
    change (parent_path (larch_path [] n)) with (take 1 (larch_path [] n)) in Hj.
    rewrite (proj2 (wr_steady _ _ _ _ _ Hi)) by lia. f_equal. apply Hv, Hi. }
  split.
  - destruct (decide (v_entry v (take 1 (larch_path [] n)) = Some TDir)); auto.
  - intros Hs Hd. apply HR. rewrite perform_exs in He.
    destruct (settled_exs s (take 1 (larch_path [] n)) tr.*2 Hs) as [(k0 & Hk0 & Hl0 & Hv0) En]; [by right|].
    destruct (He (take 1 (larch_path [] n))) as (j & Hj & ->). rewrite Hv0 by lia. by rewrite En.
Qed.

(** ** Labels *)
Lemma a_file_writing s p : disk_ok s → a_file s p → ∃ i st, writing s p i st (length (k_log s)) .
Proof.
  intros Hk (i & Hi). destruct (Hk p i (entry_elem _ _ _ Hi)) as (H1 & [st Hst] & H3). exists i, st. split; [by apply steady_here|done..].
Qed.
Lemma file_updated s p i st k tr ops : writing s p i st k → own tr = ops → (∀ o, o ∈ others tr → op_path o ≠ p) →
  Forall (λ o, op_path o = p) ops → Remove p ∉ ops → writing (perform s tr) p i (foldl (effect p) st ops) k.
Proof.
  intros Hw Ho Hoff Hall Hr. rewrite perform_exs.
  assert (Remove p ∉ tr.*2) as Hr'.
  { intros [H|H]%op_cases; [by rewrite Ho in H|by apply Hoff in H]. }
  pose proof (writing_exs s p i st k _ Hw Hr') as H. rewrite filter_own, Ho, filter_all in H; done.
Qed.
Lemma above_label name : above (label_path name) = [].
Proof. done. Qed.
Lemma flushed_exs s os k : k ≤ k_flushed s → k ≤ length (k_log s) → k ≤ k_flushed (exs s os).
Proof.
  intros H1 H2. apply (exs_inv (λ s, k ≤ k_flushed s ∧ k ≤ length (k_log s)) (λ _, True)); [|done|done].
  intros s' o [? ?] _. split; [by apply flushed_exec|]. pose proof (exs_length s' [o]) as Hx. cbn in Hx. lia.
Qed.
Lemma label_not_layer name n files p : p ∈ layer_paths n files → p ≠ label_path name.
Proof. intros [->|(f & -> & _)%elem_of_list_fmap]%elem_of_cons E; by apply (f_equal length) in E. Qed.
Lemma writes_layer_off n files ops name : writes_layer n files ops → take 1 (layer_dir [] n) ≠ label_path name →
  ∀ o, o ∈ ops → op_path o ≠ label_path name.
Proof.
  intros (mid & -> & Hmid & _) Hp o. rewrite !elem_of_app, elem_of_cons, !elem_of_list_singleton.
  rewrite Forall_forall in Hmid.
  intros [[->| ->]|[Ho| ->]]; [done| | |].
  - apply (label_not_layer name n files). left.
  - apply Hmid in Ho. apply (label_not_layer name n files). by right.
  - apply (label_not_layer name n files). left.
Qed.
Lemma head_after_crash s tr n files ops name upd contents v : disk_ok s → new_layer s n files → writes_layer n files ops →
  a_file s (label_path name) → take 1 (layer_dir [] n) ≠ label_path name →
  own tr = ops ++ upd →
  Forall (λ o, op_path o = label_path name) upd → Remove (label_path name) ∉ upd →
  (∀ i st k, writing s (label_path name) i st k → foldl (effect (label_path name)) st upd = (contents, true)) →
  leave_layer n files (others tr) → keep_off [label_path name] (others tr) →
  journal_loss (perform s tr) v → layer_found v n files ∧ read_after v (label_path name) = Some contents.
Proof.
  intros Hk Hn Hw Ha Hpre Ho Hall Hr Heff Hl Hlab Hv.
  assert (keep_off (layer_paths n files) upd) as Hm.
  { intros o Hin Hp. rewrite Forall_forall in Hall. apply (label_not_layer name n files _ Hp). by apply Hall. }
  split; [by apply (layer_after_crash s tr n files ops upd v)|].
  apply own_app_inv in Ho as (t1 & t2 & -> & O1 & O2). rewrite others_app in Hlab.
  destruct (a_file_writing s _ Hk Ha) as (i & st & Hi).
  destruct Hl as [Hl1 Hl2]. rewrite others_app in Hl1, Hl2.
  destruct (layer_written n files s t1 ops Hk Hn Hw O1) as (k & Hlen & Hs).
  { split; [intros o Hin; apply Hl1, elem_of_app; by left|]. intros Hin. apply Hl2, elem_of_app. by left. }
  assert (Hi1 : writing (perform s t1) (label_path name) i st (length (k_log s))).
  { rewrite perform_exs. apply writing_off; [done|]. intros o [Hin|Hin]%op_cases.
    - rewrite O1 in Hin. by apply (writes_layer_off n files ops name Hw Hpre).
    - intros E. apply (Hlab o); [apply elem_of_app; by left|]. rewrite E. left. }
  pose proof (file_updated _ _ _ _ _ t2 upd Hi1 O2) as Hi2.
  assert (Ef : perform s (t1 ++ t2) = perform (perform s t1) t2) by apply foldl_app.
  rewrite <-Ef in Hi2. feed specialize Hi2.
  { intros o Hin E. apply (Hlab o); [apply elem_of_app; by right|]. rewrite E. left. }
  { done. } { done. }
  rewrite (Heff _ _ _ Hi) in Hi2.
  destruct Hv as [Hv (j & Hj & He)]. unfold read_after. rewrite above_label, decide_True by constructor.
  rewrite He, (proj2 (wr_steady _ _ _ _ _ Hi2)).
  - f_equal. apply Hv, Hi2.
  - assert (length (k_log s) ≤ k_flushed (perform s (t1 ++ t2))); [|lia].
    rewrite Ef, (perform_exs _ t2). apply flushed_exs; [|apply Hi1]. pose proof (ls_flushed _ _ _ _ Hs). lia.
Qed.
Lemma effect_updates p st contents :
  foldl (effect p) st [Change p (λ _, []); Change p (λ old, old ++ contents); SyncData p] = (contents, true).
Proof. cbn. by rewrite !decide_True by done. Qed.
Lemma head_updated s tr n files ops name contents v : disk_ok s → new_layer s n files → writes_layer n files ops →
  a_file s (label_path name) → take 1 (layer_dir [] n) ≠ label_path name →
  own tr = ops ++ updates_label name contents → leave_layer n files (others tr) → keep_off [label_path name] (others tr) →
  journal_loss (perform s tr) v → layer_found v n files ∧ read_after v (label_path name) = Some contents.
Proof.
  intros Hk Hn Hw Ha Hp Ho. apply (head_after_crash s tr n files ops name (updates_label name contents)); try done.
  - by repeat constructor.
  - unfold updates_label. intros Hin. repeat (apply elem_of_cons in Hin as [?|Hin]; [done|]). by apply elem_of_nil in Hin.
  - intros i st k _. apply effect_updates.
Qed.
Lemma head_updated_cached s tr n files ops name old contents v : disk_ok s → new_layer s n files → writes_layer n files ops →
  (∃ i b, now s (label_path name) = Some (TFile i) ∧ k_files s !! i = Some (old, b)) → take 1 (layer_dir [] n) ≠ label_path name →
  own tr = ops ++ updates_label_cached name contents → leave_layer n files (others tr) → keep_off [label_path name] (others tr) →
  journal_loss (perform s tr) v → layer_found v n files ∧ read_after v (label_path name) = Some (write_over old contents).
Proof.
  intros Hk Hn Hw (i & b & Hi & Hb) Hp Ho. apply (head_after_crash s tr n files ops name (updates_label_cached name contents)); try done.
  - by exists i.
  - by repeat constructor.
  - unfold updates_label_cached. intros Hin. repeat (apply elem_of_cons in Hin as [?|Hin]; [done|]). by apply elem_of_nil in Hin.
  - intros i' st k Hw'. pose proof (steady_now _ _ _ _ (wr_steady _ _ _ _ _ Hw')) as E. rewrite Hi in E. injection E as <-.
    rewrite (wr_bytes _ _ _ _ _ Hw') in Hb. injection Hb as ->. cbn. by rewrite !decide_True by done.
Qed.
(** a label made by the store with a cache *)
Lemma created_after_crash s tr name v : disk_ok s → absent s (label_path name) → own tr = creates_label_cached name →
  keep_off [label_path name] (others tr) → journal_loss (perform s tr) v →
  read_after v (label_path name) = Some new_label_contents.
Proof.
  intros Hk Ha Ho Hoff [Hv (j & Hj & He)].
  assert (Hoff' : ∀ o, o ∈ others tr → op_path o ≠ label_path name).
  { intros o Hin E. apply (Hoff o Hin). rewrite E. left. }
  change (creates_label_cached name) with ([Open (label_path name); Change (label_path name) (λ old, old ++ new_label_contents)] ++ [Sync (label_path name)]) in Ho.
  apply own_app_inv in Ho as (t1 & tr2 & -> & O1 & Ho). apply own_cons_inv in Ho as (t2 & t3 & -> & O2 & O3).
  apply own_cons_inv in O1 as (t0 & t1' & -> & O0 & O1).
  assert (Ef : perform s ((t0 ++ (true, Open (label_path name)) :: t1') ++ t2 ++ (true, Sync (label_path name)) :: t3) =
    exs (exec (exs (exs (exec (exs s t0.*2) (Open (label_path name))) t1'.*2) t2.*2) (Sync (label_path name))) t3.*2).
  { rewrite perform_exs, !fmap_app, exs_app, exs_app, exs_app. done. }
  rewrite Ef in *. clear Ef. rewrite !others_app in Hoff'.
  assert (H0 : ∀ o, o ∈ t0.*2 → op_path o ≠ label_path name).
  { intros o [Hin|Hin]%op_cases; [by rewrite O0 in Hin; apply elem_of_nil in Hin|]. apply Hoff'. rewrite !elem_of_app. auto. }
  assert (H1 : ∀ o, o ∈ others t1' → op_path o ≠ label_path name).
  { intros o Hin. apply Hoff'. rewrite !elem_of_app. left. right. change (others ((true, Open (label_path name)) :: t1')) with (others t1'). done. }
  assert (H2 : ∀ o, o ∈ t2.*2 → op_path o ≠ label_path name).
  { intros o [Hin|Hin]%op_cases; [by rewrite O2 in Hin; apply elem_of_nil in Hin|]. apply Hoff'. rewrite !elem_of_app. auto. }
  assert (H3 : ∀ o, o ∈ t3.*2 → op_path o ≠ label_path name).
  { intros o [Hin|Hin]%op_cases; [by rewrite O3 in Hin; apply elem_of_nil in Hin|]. apply Hoff'. rewrite !elem_of_app. right. right.
    change (others ((true, Sync (label_path name)) :: t3)) with (others t3). done. }
  set (s0 := exs s t0.*2) in *.
  pose proof (open_writing s0 (label_path name) (disk_ok_exs _ _ Hk) (absent_exs _ _ _ Ha H0)) as W0.
  set (s1 := exec s0 (Open (label_path name))) in *.
  assert (W1 := file_updated s1 _ _ _ _ t1' _ W0 O1 H1). feed specialize W1. { by repeat constructor. }
  { intros Hin. apply elem_of_cons in Hin as [?|Hin]; [done|]. by apply elem_of_nil in Hin. }
  rewrite perform_exs in W1. set (s2 := exs s1 t1'.*2) in *. cbn in W1. rewrite decide_True in W1 by done.
  assert (W2 := writing_off s2 _ _ _ _ t2.*2 W1 H2). set (s3 := exs s2 t2.*2) in *.
  assert (W3 : writing (exec s3 (Sync (label_path name))) (label_path name) (k_next s0) (new_label_contents, true) (length (k_log s1))).
  { assert (W := writing_exec _ _ _ _ _ (Sync (label_path name)) W2 ltac:(done)). cbn [effect] in W. by rewrite decide_True in W. }
  assert (W4 := writing_off _ _ _ _ _ t3.*2 W3 H3).
  unfold read_after. rewrite above_label, decide_True by constructor.
  rewrite He, (proj2 (wr_steady _ _ _ _ _ W4)).
  - f_equal. apply Hv, W4.
  - etrans; [|apply Hj]. apply flushed_exs; [|apply W3]. cbn [exec k_flushed]. rewrite on_file_log. apply W2.
Qed.
(** a deleted label is gone for good once another layer is committed *)
Lemma deleted_after_crash s tr n files ops name v : disk_ok s → new_layer s n files → writes_layer n files ops →
  a_file s (label_path name) → take 1 (layer_dir [] n) ≠ label_path name →
  own tr = deletes_label name ++ ops → leave_layer n files (others tr) → keep_off [label_path name] (others tr) →
  journal_loss (perform s tr) v → read_after v (label_path name) = None.
Proof.
  intros Hk Hn Hw (i & Hi) Hp Ho [Hl1 Hl2] Hlab [Hv (j & Hj & He)].
  apply own_cons_inv in Ho as (t0 & t1 & -> & O0 & O1). rewrite others_app in Hl1, Hl2, Hlab.
  change (others ((true, Remove (label_path name)) :: t1)) with (others t1) in *.
  assert (H0 : ∀ o, o ∈ t0.*2 → op_path o ≠ label_path name).
  { intros o [Hin|Hin]%op_cases; [by rewrite O0 in Hin; apply elem_of_nil in Hin|]. intros E. apply (Hlab o); [apply elem_of_app; by left|rewrite E; left]. }
  assert (Ef : perform s (t0 ++ (true, Remove (label_path name)) :: t1) = perform (exec (exs s t0.*2) (Remove (label_path name))) t1).
  { rewrite !perform_exs, fmap_app, exs_app. done. }
  rewrite Ef in *. clear Ef.
  set (s0 := exs s t0.*2) in *.
  assert (N0 : now s0 (label_path name) = Some (TFile i)).
  { apply (steady_now s0 (length (k_log s))). apply (exs_inv (λ s', steady s' (length (k_log s)) (label_path name) (Some (TFile i))) (λ o, op_path o ≠ label_path name)); [|by apply steady_here|done].
    intros s' o Hs' Ho'. apply steady_exec; auto. }
  set (s1 := exec s0 (Remove (label_path name))) in *.
  assert (N1 : now s1 (label_path name) = None).
  { unfold s1. cbn [exec]. rewrite N0. unfold now. cbn [k_log]. rewrite entry_snoc. cbn [fst snd]. by rewrite decide_True. }
  destruct (layer_written n files s1 t1 ops) as (k & Hlen & Hs); try done.
  { by apply disk_ok_exec, disk_ok_exs. }
  { destruct Hn as [Hn1 Hn2]. split.
    - intros p Hin. apply absent_exec; [|apply not_eq_sym; by apply (label_not_layer name n files)]. apply absent_exs; [by apply Hn1|].
      intros o [Ho|Ho]%op_cases E; [by rewrite O0 in Ho; apply elem_of_nil in Ho|]. apply (Hl1 o); [apply elem_of_app; by left|by rewrite E].
    - apply no_file_exec; [|done]. apply no_file_exs; [done|]. intros [Ho|Ho]%op_cases; [by rewrite O0 in Ho; apply elem_of_nil in Ho|].
      apply Hl2, elem_of_app. by left. }
  { split; [intros o Hin; apply Hl1, elem_of_app; by right|]. intros Hin. apply Hl2, elem_of_app. by right. }
  assert (S2 : steady (perform s1 t1) (length (k_log s1)) (label_path name) None).
  { rewrite perform_exs. apply (exs_inv (λ s', steady s' (length (k_log s1)) (label_path name) None) (λ o, op_path o ≠ label_path name)); [|by apply steady_here|].
    - intros s' o Hs' Ho'. apply steady_exec; auto.
    - intros o [Ho|Ho]%op_cases; [|intros E; apply (Hlab o); [apply elem_of_app; by right|rewrite E; left]].
      rewrite O1 in Ho. by apply (writes_layer_off n files ops name Hw Hp). }
  unfold read_after. rewrite above_label, decide_True by constructor. rewrite He, (proj2 S2); [done|].
  pose proof (ls_flushed _ _ _ _ Hs). lia.
Qed.
Lemma prefix_not_label n name : take 1 (layer_dir [] n) ≠ label_path name.
Proof.
  intros E. injection E as E. apply (f_equal length) in E. rewrite take_length, app_length in E.
  change (length label_suffix) with 6 in E. lia.
Qed.

(** what is left of everything but some entries, which are as they were at other times *)
Definition all_but (s : disk) (older : gmap (list bytes) nat) : remains :=
  Remains (λ p, value_at s (default (length (k_log s)) (older !! p)) p) (λ i, default [] (fst <$> k_files s !! i)).
Lemma all_but_kept s older : kept s (all_but s older).
Proof. intros i c H. cbn. by rewrite H. Qed.
Lemma all_but_posix s older :
  map_Forall (λ p k, default 0 (k_synced s !! parent_path p) ≤ k ≤ length (k_log s)) older →
  map_Forall (λ _ k, k ≤ length (k_log s)) (k_synced s) → posix_loss s (all_but s older).
Proof.
  intros Ho Hs. split; [apply all_but_kept|]. intros p. eexists. split; [|done].
  destruct (older !! p) as [k|] eqn:E; cbn; [by apply Ho|]. split; [|done].
  destruct (k_synced s !! parent_path p) as [j|] eqn:Ej; cbn; [by apply (Hs _ _ Ej)|lia].
Qed.
Definition earlier (s : disk) (k : nat) : remains :=
  Remains (λ p, value_at s k p) (λ i, default [] (fst <$> k_files s !! i)).
Lemma earlier_journal s k : k_flushed s ≤ k ≤ length (k_log s) → journal_loss s (earlier s k).
Proof. intros Hk. split; [intros i c H; cbn; by rewrite H|]. by exists k. Qed.
Lemma dir_gone v n : v_entry v (layer_dir [] n) ≠ Some TDir → layer_gone v n.
Proof.
  intros Hd f. unfold read_after. rewrite above_file, decide_False; [done|]. intros [_ [? _]%Forall_cons]%Forall_cons. done.
Qed.
(** ** Several losses *)
Lemma layer_safe_restart s n files k v s1 : layer_safe s n files k → journal_loss s v → restarted v s1 →
  layer_safe s1 n files (length (k_log s1)).
Proof.
  intros Hs Hv [R1 R2 R3 R4 R5]. destruct Hv as [Hkept (j & Hj & He)]. pose proof (ls_flushed _ _ _ _ Hs) as Hf.
  assert (Hd : now s1 (layer_dir [] n) = Some TDir). { rewrite R2, He. apply (ls_dir _ _ _ _ Hs). lia. }
  split.
  - by rewrite R4.
  - by rewrite (R5 _ Hd).
  - apply steady_here. rewrite R2, He. apply (ls_above _ _ _ _ Hs). lia.
  - by apply steady_here.
  - intros f chunks Hin. destruct (ls_files _ _ _ _ Hs f chunks Hin) as [i Hi].
    assert (Hn : now s1 (layer_file [] n f) = Some (TFile i)). { rewrite R2, He. apply (wr_steady _ _ _ _ _ Hi). lia. }
    destruct (R1 _ _ (entry_elem _ _ _ Hn)) as (H1 & [e Hb] & H3). exists i. split; [by apply steady_here| |done..].
    rewrite Hb. f_equal. rewrite (R3 _ _ Hb). f_equal. apply Hkept, Hi.
Qed.
Lemma layer_safe_later n files s s' : later n files s s' → ∀ k, layer_safe s n files k → ∃ k', layer_safe s' n files k'.
Proof.
  induction 1 as [s|s os s' Ho _ IH|s v s1 s' Hv Hr _ IH]; intros k Hs; [eauto| |].
  - apply (IH k). apply (layer_safe_exs s n files k os Hs). intros o Hin Hp. apply (Ho o Hin). by right.
  - apply (IH (length (k_log s1))). by apply (layer_safe_restart s n files k v s1).
Qed.
Lemma layer_after_crashes s tr n files ops s' v : disk_ok s → new_layer s n files → writes_layer n files ops →
  own tr = ops → leave_layer n files (others tr) → later n files (perform s tr) s' → journal_loss s' v → layer_found v n files.
Proof.
  intros Hk Hn Hw Ho Hl Hla Hv. destruct (layer_written n files s tr ops Hk Hn Hw Ho Hl) as (k & _ & Hs).
  destruct (layer_safe_later n files _ _ Hla k Hs) as (k' & Hs'). by apply (journal_found n files _ k' v Hs').
Qed.
