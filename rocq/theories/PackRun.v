(** A tar codec that meets the contract, and stores with layers for the examples *)
From Verif Require Import Prelude ListFacts Names NamesFacts FileNames Archive ArchiveStore ArchiveRun Pack SpecPack PackFacts PackImport PackBackends
  PackApi PackArchive.

Global Instance component_eq : EqDecision component.
Proof. solve_decision. Defined.
Global Instance component_countable : Countable component.
Proof.
  apply (inj_countable'
    (λ c, match c with CName b => inl b | CNonUtf8 => inr 0 | CUp => inr 1 | CRoot => inr 2 | CDot => inr 3 end)
    (λ x, match x with inl b => CName b | inr 0 => CNonUtf8 | inr 1 => CUp | inr 2 => CRoot | inr _ => CDot end)).
  by intros [].
Defined.
Global Instance entry_eq : EqDecision entry.
Proof. solve_decision. Defined.
Global Instance entry_countable : Countable entry.
Proof.
  apply (inj_countable' (λ e, (e_path e, e_file e, e_size e, e_data e)) (λ '(p, f, k, d), Entry p f k d)). by intros [].
Defined.
(** the whole list of entries as one number *)
Definition plain_tar : tar_codec := Tar
  (λ es, [encode_nat es])
  (λ b, match b with
        | [x] => match decode_nat x with Some es => Ok <$> (es : list entry) | None => [Err InvalidData] end
        | _ => [Err InvalidData]
        end).
Lemma plain_tar_ok : tar_ok plain_tar.
Proof. intros es _. cbn [plain_tar tc_read tc_write]. by rewrite decode_encode_nat. Qed.
(** bytes that are no pack *)
Lemma plain_tar_bad : tc_read plain_tar [] = [Err InvalidData].
Proof. reflexivity. Qed.

Definition name_a : lname := [1; 2; 3; 4; 5]%N.
Definition name_b : lname := [6; 7; 8; 9; 10]%N.
Definition name_c : lname := [11; 12; 13; 14; 15]%N.
Lemma names_ok : Forall name_ok [name_a; name_b; name_c].
Proof. repeat constructor; vm_compute; done. Qed.
Definition some_files (child : bool) : gmap (list nat) (list nat) :=
  list_to_map ((λ f, (f, if decide (f = parent_file) then parent_contents name_a else take 5 f)) <$> may_have child).
(** a base layer [name_a] with a child layer [name_b] *)
Definition two_layers : gmap (list N) (gmap (list nat) (list nat)) := <[name_a := some_files false]> {[ name_b := some_files true ]}.
Lemma some_files_must child f : f ∈ must_have child → is_Some (some_files child !! f).
Proof.
  intros Hf. assert (forallb (λ f, bool_decide (is_Some (some_files child !! f))) (must_have child) = true) as H by (destruct child; vm_compute; reflexivity).
  apply (forallb_elem _ _ _ H) in Hf. by apply bool_decide_eq_true in Hf.
Qed.
Lemma two_layers_a : two_layers !! name_a = Some (some_files false).
Proof. unfold two_layers. apply lookup_insert. Qed.
Lemma two_layers_b : two_layers !! name_b = Some (some_files true).
Proof. unfold two_layers. rewrite lookup_insert_ne by done. apply lookup_singleton. Qed.
Lemma some_files_size child : (N.of_nat (sum_list (length <$> omap (some_files child !!.) (may_have child))) ≤ u64_max)%N.
Proof. destruct child; vm_compute; intros H; discriminate H. Qed.
Lemma some_files_child child : child = bool_decide (is_Some (some_files child !! parent_file)).
Proof. destruct child; vm_compute; reflexivity. Qed.
Lemma two_layers_complete n : n ∈ [name_a; name_b] → complete memory_pls two_layers n.
Proof.
  rewrite !elem_of_cons, elem_of_nil. intros [->|[->|[]]].
  - apply (like_complete memory_pls two_layers name_a (some_files false) false memory_like two_layers_a (some_files_child false));
      [apply some_files_must|apply some_files_size].
  - apply (like_complete memory_pls two_layers name_b (some_files true) true memory_like two_layers_b (some_files_child true));
      [apply some_files_must|apply some_files_size].
Qed.
Lemma some_files_parent : some_files true !! parent_file = Some (parent_contents name_a).
Proof. vm_compute. reflexivity. Qed.
Lemma some_files_base : some_files false !! parent_file = None.
Proof. vm_compute. reflexivity. Qed.
Lemma two_layers_parent : parent_is memory_pls two_layers name_a None ∧ parent_is memory_pls two_layers name_b (Some name_a).
Proof.
  split.
  - cbn [parent_is memory_pls p_exists]. unfold f_look. rewrite two_layers_a. cbn [mbind option_bind]. rewrite some_files_base.
    rewrite bool_decide_eq_false_2; [done|]. by intros [??].
  - unfold parent_is. split; [by apply (proj1 (Forall_cons _ _ _) names_ok)|]. rewrite like_shows by apply memory_like. unfold f_look. rewrite two_layers_b. cbn [mbind option_bind].
    apply some_files_parent.
Qed.

(** ** Cases *)
Lemma new_good (k : backend) : backend_good k (backend_new k) ∧ ∀ n, p_dir (backend_pls k) (backend_new k) n = Ok false.
Proof.
  destruct k as [|over|c]; cbn [backend_good backend_new backend_pls].
  - split; [done|]. intros n. reflexivity.
  - split; [done|]. intros n. reflexivity.
  - split.
    + apply (exec_good c []); [constructor|done].
    + intros n. cbn [archive_pls p_dir]. unfold ap_dir, locked, as_directory_exists. cbn [astore_new as_poisoned as_constr as_disk].
      reflexivity.
Qed.
Lemma missing_made (k : backend) : backend_ok k → ∃ tc b pack (n : lname) b', tar_ok tc ∧ backend_good k b ∧ name_ok n ∧ tc_read tc pack = [] ∧
  p_dir (backend_pls k) b n = Ok false ∧ import_layers (backend_pls k) tc b pack [n] [n] = (Ok tt, b') ∧
  p_dir (backend_pls k) b' n = Ok true ∧ empty_layer (backend_pls k) b' n.
Proof.
  intros Hk. destruct (new_good k) as [Hg Hd].
  assert (name_ok name_c) as Hn by (by apply (Forall_forall name_ok [name_a; name_b; name_c]); [apply names_ok|right; right; left]).
  destruct (transport BMemory k plain_tar two_layers (backend_new k) [] [name_c] [name_c] Hk plain_tar_ok Hg)
    as (pack & b' & E1 & E2 & _ & _ & H & _).
  - constructor.
  - by apply Forall_singleton.
  - constructor.
  - apply NoDup_singleton.
  - split; [apply NoDup_singleton|done].
  - intros n Hx. by apply elem_of_nil in Hx.
  - intros n _. apply Hd.
  - exists plain_tar, (backend_new k), pack, name_c, b'. pose proof (H name_c ltac:(left) ltac:(by intros ?%elem_of_nil)) as He.
    split; [apply plain_tar_ok|]. split; [done|]. split; [done|]. split.
    { unfold export_layers, export_entries in E1. cbn [concat_all obind] in E1. injection E1 as <-. exact (plain_tar_ok [] (Forall_nil_2 _)). }
    split; [apply Hd|]. split; [done|]. split; [apply He|done].
Qed.
Lemma memory_erases : ∃ tc s pack (n : lname) s' k, tar_ok tc ∧ complete memory_pls s n ∧ p_dir memory_pls s n = Ok true ∧
  import_layers memory_pls tc s pack [n] [n] = (Err k, s') ∧ (∀ f, shows memory_pls s' n f = None) ∧ ∃ f b, shows memory_pls s n f = Some b.
Proof.
  destruct (memory_again plain_tar two_layers [] [name_b] [name_b] InvalidData [] plain_tar_bad) as (s' & E & H).
  exists plain_tar, two_layers, [], name_b, s', InvalidData. split; [apply plain_tar_ok|].
  split; [apply two_layers_complete; right; left|]. split; [|split; [done|split]].
  - cbn [memory_pls p_dir]. rewrite two_layers_b. reflexivity.
  - intros f. apply H. left.
  - exists parent_file, (parent_contents name_a). apply two_layers_parent.
Qed.
Lemma failed_then_panics (c : codec) : ∃ tc s pack (n : lname) k s1, tar_ok tc ∧ archive_good s ∧
  import_layers (archive_pls c) tc s pack [n] [n] = (Err k, s1) ∧
  ∀ tc' pack', ∃ s2, import_layers (archive_pls c) tc' s1 pack' [n] [n] = (Panic, s2) ∧ ∀ n', p_dir (archive_pls c) s2 n' = Panic.
Proof.
  destruct (new_good (BArchive c)) as [Hg Hd]. destruct (archive_create c astore_new name_c Hg (Hd name_c)) as (s1 & E & _).
  assert (import_layers (archive_pls c) plain_tar astore_new [] [name_c] [name_c] = (Err InvalidData, s1)) as Ei.
  { unfold import_layers, import_entries. rewrite plain_tar_bad. cbn [each]. by rewrite E. }
  exists plain_tar, astore_new, [], name_c, InvalidData, s1. split; [apply plain_tar_ok|]. split; [done|]. split; [done|].
  intros tc' pack'. destruct (failed_import c plain_tar tc' astore_new [] pack' name_c [] [name_c] InvalidData s1 [] [name_c] plain_tar_bad Ei) as (s2 & E2 & Hp).
  exists s2. split; [done|]. intros n'. exact (proj1 (poisoned_calls c s2 n' [] Hp)).
Qed.
Lemma archive_twice (c : codec) (tc : tar_codec) (s : astore) pack n order : archive_good s → p_dir (archive_pls c) s n = Ok false →
  ∃ s', import_layers (archive_pls c) tc s pack [n; n] order = (Panic, s') ∧ ∀ n', p_dir (archive_pls c) s' n' = Panic.
Proof.
  intros Hg Hd. destruct (archive_create c s n Hg Hd) as (s1 & E & Hg1 & (Hb1 & cm & Hb2 & _) & _).
  exists (poison s1). split.
  - unfold import_layers, import_entries. cbn [each]. rewrite E. cbn [archive_pls p_create]. unfold ap_create. rewrite Hb1, Hb2. by destruct (as_poisoned s1).
  - intros n'. exact (proj1 (poisoned_calls c (poison s1) n' [] eq_refl)).
Qed.
Lemma same_loads {S T A} (ss : pls S) (ts : pls T) (s : S) (t : T) (n : lname) (load : bool → (bytes → option bytes) → A) :
  (∀ c g h, (∀ f, f ∈ may_have c → g f = h f) → load c g = load c h) → same_files ss ts s t n →
  load (is_child ts t n) (shows ts t n) = load (is_child ss s n) (shows ss s n).
Proof. intros Hl (_ & Hc & Hf & _). rewrite Hc. by apply Hl. Qed.
Lemma same_parent {S T} (ss : pls S) (ts : pls T) (s : S) (t : T) (n : lname) (q : option lname) :
  same_files ss ts s t n → parent_is ss s n q → parent_is ts t n q.
Proof.
  intros (_ & Hc & Hf & _ & (x & Hx) & _). destruct q as [p|]; unfold parent_is.
  - intros [Hp Hs]. split; [done|]. rewrite Hf; [done|]. apply parent_may. unfold is_child. apply bool_decide_eq_true.
    unfold shows in Hs. by destruct (p_exists ss s n parent_file) as [[|]| |].
  - intros Hs. unfold is_child in Hc. rewrite Hs, (bool_decide_eq_false_2 (Ok false = Ok true)) in Hc by done.
    apply bool_decide_eq_false in Hc. rewrite Hx in *. by destruct x.
Qed.
Lemma files_complete (st : pls (gmap (list N) (gmap (list nat) (list nat)))) (s : gmap (list N) (gmap (list nat) (list nat))) (n : lname) (m : gmap (list nat) (list nat)) (child : bool) :
  st = memory_pls ∨ (∃ over, st = directory_pls over) →
  s !! n = Some m → child = bool_decide (is_Some (m !! parent_file)) → (∀ f, f ∈ must_have child → is_Some (m !! f)) →
  (N.of_nat (sum_list (length <$> omap (m !!.) (may_have child))) ≤ u64_max)%N → complete st s n.
Proof.
  intros Hst. apply (like_complete st s n m child). destruct Hst as [->|[over ->]]; [apply memory_like|apply directory_like].
Qed.
Lemma transport_case : tar_ok plain_tar ∧ codec_ok plain_codec ∧ archive_good astore_new ∧
  (∀ n, n ∈ [name_a; name_b] → complete memory_pls two_layers n) ∧
  (∀ n, p_dir (archive_pls plain_codec) astore_new n = Ok false) ∧
  is_child memory_pls two_layers name_a = false ∧ is_child memory_pls two_layers name_b = true ∧
  import_order [name_a; name_b] [name_b; name_a] ∧ Forall name_ok [name_a; name_b].
Proof.
  split; [apply plain_tar_ok|]. split; [apply plain_codec_ok|]. split; [apply (new_good (BArchive plain_codec))|].
  split; [apply two_layers_complete|]. split; [apply (new_good (BArchive plain_codec))|]. split; [|split; [|split]].
  - rewrite like_child by apply memory_like. unfold f_look. rewrite two_layers_a. cbn [mbind option_bind]. by rewrite some_files_base.
  - rewrite like_child by apply memory_like. unfold f_look. rewrite two_layers_b. cbn [mbind option_bind]. by rewrite some_files_parent.
  - split.
    + apply NoDup_cons. split; [|apply NoDup_singleton]. rewrite elem_of_list_singleton. discriminate.
    + intros n. rewrite !elem_of_cons, elem_of_nil. tauto.
  - exact (proj1 (proj1 (Forall_app name_ok [name_a; name_b] [name_c]) names_ok)).
Qed.
Lemma parents_case : tar_ok plain_tar ∧
  ∀ n, n ∈ [name_a; name_b] → complete memory_pls two_layers n ∧
    parent_is memory_pls two_layers n (if decide (n = name_b) then Some name_a else None).
Proof.
  split; [apply plain_tar_ok|]. intros n Hn. split; [by apply two_layers_complete|]. destruct two_layers_parent as [Ha Hb].
  rewrite !elem_of_cons, elem_of_nil in Hn. destruct Hn as [->|[->|[]]].
  - rewrite decide_False by discriminate. exact Ha.
  - rewrite decide_True by reflexivity. exact Hb.
Qed.
Lemma foreign_pack : ∃ tc pack e, tc_read tc pack = [Ok e] ∧ pack_layer_parents tc pack = Panic.
Proof. exists (Tar (λ _, []) (λ _, [Ok (Entry [] true 0 [])])), [], (Entry [] true 0 []). by split. Qed.
