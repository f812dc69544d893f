(** Facts about packs: what an exported pack contains, and what importing it does to a store *)
From Verif Require Import Prelude Names NamesFacts FileNames Archive ArchiveFacts ArchiveStore Pack SpecPack.

(** ** File names *)
Lemma may_have_nodup c : NoDup (may_have c).
Proof. apply (bool_decide_unpack _). destruct c; vm_compute; exact I. Qed.
Lemma may_have_types c : NoDup (type_of_name <$> may_have c).
Proof. apply (bool_decide_unpack _). destruct c; vm_compute; exact I. Qed.
Lemma forallb_elem {A} (p : A → bool) (l : list A) x : forallb p l = true → x ∈ l → p x = true.
Proof. intros H Hx. rewrite forallb_forall in H. by apply H, elem_of_list_In. Qed.
Lemma may_have_typed c f : f ∈ may_have c → ∃ ft, type_of_name f = Some ft ∧ ft < rollup_type.
Proof.
  assert (forallb (λ f, match type_of_name f with Some ft => bool_decide (ft < rollup_type) | None => false end) (may_have c) = true) as H.
  { destruct c; vm_compute; reflexivity. }
  intros Hf. pose proof (forallb_elem _ _ _ H Hf) as Hb. cbn in Hb. destruct (type_of_name f) as [ft|]; [|done].
  exists ft. split; [done|]. by apply bool_decide_eq_true in Hb.
Qed.
Lemma may_have_plain c f : f ∈ may_have c → plain_component (CName f).
Proof.
  assert (forallb (λ f, match f with [] => false | b :: bs => bool_decide (47 < b < 123 ∧ Forall (λ x, 45 < x < 123 ∧ x ≠ 47) bs) end) (may_have c) = true) as H.
  { destruct c; vm_compute; reflexivity. }
  intros Hf. pose proof (forallb_elem _ _ _ H Hf) as Hb. cbn in Hb. destruct f as [|b bs]; [done|]. by apply bool_decide_eq_true in Hb.
Qed.
Lemma must_may c f : f ∈ must_have c → f ∈ may_have c.
Proof.
  unfold must_have, may_have, file_names. rewrite fmap_app, !elem_of_app. intros [H|H]; [by left|]. right; right.
  destruct c; rewrite fmap_app, elem_of_app; by left.
Qed.
Lemma parent_may c : parent_file ∈ may_have c ↔ c = true.
Proof.
  assert (bool_decide (parent_file ∈ may_have c) = c) as H by (destruct c; vm_compute; reflexivity).
  split; [intros Hp|intros ->]; [by rewrite bool_decide_eq_true_2 in H|by apply bool_decide_eq_true in H].
Qed.
Lemma rollup_may c : rollup_file ∉ may_have c.
Proof. apply (bool_decide_eq_false_1 _). destruct c; vm_compute; reflexivity. Qed.
Lemma parent_typed : type_of_name parent_file = Some parent_type.
Proof. by vm_compute. Qed.
Lemma rollup_typed : type_of_name rollup_file = Some rollup_type.
Proof. by vm_compute. Qed.
Lemma types_inj c f g : f ∈ may_have c → g ∈ may_have c → type_of_name f = type_of_name g → f = g.
Proof.
  intros (i & Hi)%elem_of_list_lookup (j & Hj)%elem_of_list_lookup E.
  assert ((type_of_name <$> may_have c) !! i = Some (type_of_name f)) as Hi' by (by rewrite list_lookup_fmap, Hi).
  assert ((type_of_name <$> may_have c) !! j = Some (type_of_name f)) as Hj' by (rewrite list_lookup_fmap, Hj; cbn; by rewrite E).
  pose proof (NoDup_lookup _ _ _ _ (may_have_types c) Hi' Hj') as ->. congruence.
Qed.
Lemma parent_type_unique c f : f ∈ may_have c → type_of_name f = Some parent_type → f = parent_file.
Proof.
  assert (forallb (λ f, bool_decide (type_of_name f = Some parent_type → f = parent_file)) (may_have c) = true) as H.
  { destruct c; vm_compute; reflexivity. }
  intros Hf. pose proof (forallb_elem _ _ _ H Hf) as Hb. by apply bool_decide_eq_true in Hb.
Qed.

Lemma hex_plain (n : lname) : name_ok n → plain_component (CName (name_to_string n)).
Proof.
  intros Hn. pose proof (name_to_string_hex n Hn) as H. pose proof (name_to_string_len n Hn) as Hl.
  destruct (name_to_string n) as [|b bs]; [done|]. apply Forall_cons in H as [H1 H2]. cbn [plain_component].
  split; [lia|]. eapply Forall_impl; [exact H2|]. cbn. lia.
Qed.

(** ** What an exported pack contains *)
Definition dir_entry (n : lname) : entry := Entry [CName (name_to_string n)] false 0 [].
Definition data_entry (n : lname) (fb : bytes * bytes) : entry :=
  Entry [CName (name_to_string n); CName fb.1] true (length fb.2) fb.2.
Definition shown_files (look : bytes → option bytes) (l : list bytes) : list (bytes * bytes) :=
  omap (λ f, (λ b, (f, b)) <$> look f) l.
Definition layer_entries (look : bytes → option bytes) (c : bool) (n : lname) : list entry :=
  dir_entry n :: (data_entry n <$> shown_files look (may_have c)).

Lemma shown_files_app look l l' : shown_files look (l ++ l') = shown_files look l ++ shown_files look l'.
Proof. apply omap_app. Qed.
Lemma shown_files_cons look f l : shown_files look (f :: l) =
  match look f with Some b => (f, b) :: shown_files look l | None => shown_files look l end.
Proof. unfold shown_files. cbn [omap list_omap]. by destruct (look f). Qed.
Lemma elem_shown look l f b : (f, b) ∈ shown_files look l ↔ f ∈ l ∧ look f = Some b.
Proof.
  unfold shown_files. rewrite elem_of_list_omap. split.
  - intros (g & Hg & E). destruct (look g) eqn:El; [|done]. cbn in E. by injection E as -> ->.
  - intros [Hf E]. exists f. by rewrite E.
Qed.
Lemma shown_nodup look l : NoDup l → NoDup (shown_files look l).*1.
Proof.
  induction 1 as [|f l Hf Hl IH]; [constructor|]. rewrite shown_files_cons. destruct (look f) as [b|]; [|done].
  rewrite fmap_cons. constructor; [|done]. intros ((g & b') & E & Hg)%elem_of_list_fmap. cbn in E. subst g.
  by apply elem_shown in Hg as [? _].
Qed.
Lemma shown_lookup look l f : NoDup l → f ∈ l →
  (list_to_map (shown_files look l) : gmap (list nat) (list nat)) !! f = look f.
Proof.
  intros Hn Hf. destruct (look f) as [b|] eqn:E.
  - apply elem_of_list_to_map; [by apply shown_nodup|]. by apply elem_shown.
  - apply not_elem_of_list_to_map. intros ((g & b') & E' & Hg)%elem_of_list_fmap. cbn in E'. subst g.
    apply elem_shown in Hg as [_ ?]. congruence.
Qed.

Section export.
Context {S : Type} (st : pls S).
Lemma readable_shows (s : S) n f : readable st s n f →
  (p_exists st s n f = Ok false ∧ shows st s n f = None) ∨
  ∃ b, p_exists st s n f = Ok true ∧ shows st s n f = Some b ∧ p_map st s n f = Ok b ∧ p_size st s n f = Ok (length b).
Proof.
  intros [H|(b & H1 & H2 & H3)]; unfold shows.
  - left. by rewrite H.
  - right. exists b. by rewrite H1, H2.
Qed.
Lemma append_one (s : S) n f : readable st s n f → append_if_exists st s n f = Ok (data_entry n <$> shown_files (shows st s n) [f]).
Proof.
  intros Hr. unfold append_if_exists, file_entry. rewrite shown_files_cons.
  apply readable_shows in Hr as [[H1 H2]|(b & H1 & H2 & H3 & H4)]; rewrite H1, H2; cbn [obind]; [done|].
  rewrite H3. cbn [obind]. rewrite H4. done.
Qed.
Lemma append_opt (s : S) n l : (∀ f, f ∈ l → readable st s n f) →
  concat_all (append_if_exists st s n) l = Ok (data_entry n <$> shown_files (shows st s n) l).
Proof.
  induction l as [|f l IH]; intros Hr; [done|]. cbn [concat_all]. rewrite append_one by (apply Hr; left).
  cbn [obind]. rewrite IH by (intros; apply Hr; by right). cbn [obind]. f_equal.
  by rewrite <- fmap_app, <- shown_files_app.
Qed.
Lemma append_same (s : S) n f : is_Some (shows st s n f) → append_file st s n f = append_if_exists st s n f.
Proof.
  intros [b Hb]. unfold append_file, append_if_exists, shows in *. by destruct (p_exists st s n f) as [[]| |].
Qed.
Lemma append_req (s : S) n l : (∀ f, f ∈ l → readable st s n f ∧ is_Some (shows st s n f)) →
  concat_all (append_file st s n) l = Ok (data_entry n <$> shown_files (shows st s n) l).
Proof.
  intros H. rewrite <- append_opt by (intros; by apply H). induction l as [|f l IH]; [done|]. cbn [concat_all].
  rewrite append_same by (apply H; left). by rewrite IH by (intros; apply H; by right).
Qed.
Lemma append_layer_ok (s : S) n : complete st s n →
  append_layer st s n = Ok (layer_entries (shows st s n) (is_child st s n) n).
Proof.
  intros ((c & Hc) & Hr & Hm & _). unfold append_layer.
  assert (is_child st s n = c) as Ec. { unfold is_child. rewrite Hc. destruct c; by vm_compute. }
  rewrite Ec in *. unfold may_have, must_have in Hr, Hm.
  rewrite append_req.
  2:{ intros f Hf. split; [apply Hr|apply Hm]; [rewrite !elem_of_app; by left|]. unfold file_names. rewrite fmap_app, elem_of_app. by left. }
  cbn [obind]. rewrite append_opt by (intros f Hf; apply Hr; rewrite !elem_of_app; right; by left).
  cbn [obind]. rewrite Hc. cbn [obind].
  unfold layer_entries, may_have.
  destruct c.
  - rewrite append_req.
    2:{ intros f Hf. split; [apply Hr|apply Hm]; unfold file_names; rewrite !fmap_app, !elem_of_app; tauto. }
    cbn [obind]. rewrite append_opt.
    2:{ intros f Hf. apply Hr. unfold file_names. rewrite !fmap_app, !elem_of_app; tauto. }
    cbn [obind]. unfold file_names. rewrite !fmap_app, !shown_files_app, !fmap_app. done.
  - rewrite append_req.
    2:{ intros f Hf. split; [apply Hr|apply Hm]; unfold file_names; rewrite !fmap_app, !elem_of_app; tauto. }
    cbn [obind]. rewrite append_opt.
    2:{ intros f Hf. apply Hr. unfold file_names. rewrite !fmap_app, !elem_of_app; tauto. }
    cbn [obind]. unfold file_names. rewrite !fmap_app, !shown_files_app, !fmap_app. done.
Qed.
Lemma export_ok (s : S) ids : (∀ n, n ∈ ids → complete st s n) →
  export_entries st s ids = Ok (mjoin ((λ n, layer_entries (shows st s n) (is_child st s n) n) <$> ids)).
Proof.
  unfold export_entries. induction ids as [|n ids IH]; intros H; [done|]. cbn [concat_all].
  rewrite append_layer_ok by (apply H; left). cbn [obind]. by rewrite IH by (intros; apply H; by right).
Qed.
(** a layer without one of the files it needs is not exported *)
Lemma append_missing (s : S) n l f : f ∈ l → p_exists st s n f = Ok false → ∀ es, concat_all (append_file st s n) l ≠ Ok es.
Proof.
  induction l as [|g l IH]; intros Hf He es; [by apply elem_of_nil in Hf|]. cbn [concat_all].
  apply elem_of_cons in Hf as [->|Hf].
  - unfold append_file. by rewrite He.
  - destruct (append_file st s n g); cbn [obind]; [|done..]. specialize (IH Hf He).
    destruct (concat_all _ l) as [x| |]; cbn [obind]; [|done..]. by destruct (IH x).
Qed.
End export.

Lemma layer_entries_ok look c (n : lname) : name_ok n → Forall entry_ok (layer_entries look c n).
Proof.
  intros Hn. apply Forall_cons. split.
  - split_and!; [done|done|]. apply Forall_singleton. by apply hex_plain.
  - apply Forall_fmap, Forall_forall. intros [f b] [Hf _]%elem_shown. split_and!; [done|done|].
    apply Forall_cons. split; [by apply hex_plain|]. apply Forall_singleton. by apply (may_have_plain c).
Qed.
