(** Vocabulary for stating properties of packs.  Definitions only. *)
From Verif Require Import Prelude Names FileNames Archive ArchiveStore Pack.

Section spec.
Context {S : Type} (st : pls S).
(** the contents of a file, as [file_exists] and [get_file] show them *)
Definition shows (s : S) (n : lname) (f : bytes) : option bytes :=
  match p_exists st s n f, p_map st s n f with Ok true, Ok b => Some b | _, _ => None end.
(** a child layer is one with a parent file *)
Definition is_child (s : S) (n : lname) : bool := bool_decide (p_exists st s n parent_file = Ok true).
(** calls about a file succeed and fit together *)
Definition readable (s : S) (n : lname) (f : bytes) : Prop :=
  p_exists st s n f = Ok false ∨
  ∃ b, p_exists st s n f = Ok true ∧ p_map st s n f = Ok b ∧ p_size st s n f = Ok (length b).
End spec.

(** The files that a base layer (or a child layer) must have, and those that it has at most, apart
    from the rollup file (consts.rs:508-589). *)
Definition must_have (child : bool) : list bytes :=
  file_names (shared_required_files ++ (if child then child_layer_required_files else base_layer_required_files)).
Definition may_have (child : bool) : list bytes :=
  file_names (shared_required_files) ++ filter (λ f, f ≠ rollup_file) (file_names shared_optional_files) ++
  file_names (if child then child_layer_required_files ++ child_layer_optional_files
              else base_layer_required_files ++ base_layer_optional_files).

Section spec2.
Context {S : Type} (st : pls S).
(** the layer has all the files that it needs *)
Definition complete (s : S) (n : lname) : Prop :=
  (∃ b, p_exists st s n parent_file = Ok b) ∧
  (∀ f, f ∈ may_have (is_child st s n) → readable st s n f) ∧
  (∀ f, f ∈ must_have (is_child st s n) → is_Some (shows st s n f)) ∧
  (N.of_nat (sum_list (length <$> omap (shows st s n) (may_have (is_child st s n)))) ≤ u64_max)%N.
(** nothing that can be asked about the layer has changed *)
Definition untouched (s s' : S) (n : lname) : Prop :=
  p_dir st s' n = p_dir st s n ∧
  ∀ f, p_exists st s' n f = p_exists st s n f ∧ p_map st s' n f = p_map st s n f ∧ p_size st s' n f = p_size st s n f.
(** there is a directory for the layer, without any file that a layer has *)
Definition empty_layer (s : S) (n : lname) : Prop :=
  p_dir st s n = Ok true ∧ ∀ c f, f ∈ rollup_file :: may_have c → shows st s n f = None.
End spec2.

(** The layer [n] of [t] is the layer [n] of [s]: it is there, with the same files, except that it
    has no rollup. *)
Definition same_files {S T} (ss : pls S) (ts : pls T) (s : S) (t : T) (n : lname) : Prop :=
  p_dir ts t n = Ok true ∧ is_child ts t n = is_child ss s n ∧
  (∀ f, f ∈ may_have (is_child ss s n) → shows ts t n f = shows ss s n f) ∧
  shows ts t n rollup_file = None ∧ complete ts t n.

(** What is taken for granted about each store: the bytes of an archive can be read again. *)
Definition backend_ok (k : backend) : Prop := match k with BArchive c => codec_ok c | _ => True end.
(** The states an archive store can be in when no call has panicked: a rollup file is only there
    when the layer is, and files of layers under construction exist and are different files. *)
Definition files_apart (s : astore) : Prop :=
  ∀ n m ft n' m' ft' h, as_constr s !! n = Some m → m !! ft = Some h → as_constr s !! n' = Some m' → m' !! ft' = Some h →
    n' = n ∧ ft' = ft.
Definition archive_good (s : astore) : Prop :=
  as_poisoned s = false ∧ (∀ n, is_Some (as_rollups s !! n) → is_Some (as_disk s !! n)) ∧
  (∀ n m ft h, as_constr s !! n = Some m → m !! ft = Some h → is_Some (as_cells s !! h) ∧ ft < rollup_type) ∧
  files_apart s.
Definition backend_good (k : backend) : backend_state k → Prop :=
  match k with
  | BArchive c => archive_good
  | _ => λ _, True
  end.
(** the parent that the files of a layer name; a parent file is made from the name of the parent *)
Definition parent_is {S} (st : pls S) (s : S) (n : lname) (q : option lname) : Prop :=
  match q with
  | Some p => name_ok p ∧ shows st s n parent_file = Some (parent_contents p)
  | None => p_exists st s n parent_file = Ok false
  end.
(** a store without layers *)
Definition backend_new (k : backend) : backend_state k :=
  match k with BMemory => ∅ | BDirectory _ => ∅ | BArchive _ => astore_new end.
