(** What a store in one directory is to its users: labels and layers that have nothing to do with
    each other.  Definitions only. *)
From Verif Require Import Prelude Names FileNames LabelSeq LabelPath SpecLabelPath Archive ArchiveStore Pack Backend StoreDir.

(** the calls of one store among those of both *)
Definition lefts {A B} (l : list (A + B)) : list A := omap (λ x, match x with inl a => Some a | inr _ => None end) l.
Definition rights {A B} (l : list (A + B)) : list B := omap (λ x, match x with inl _ => None | inr b => Some b end) l.

(** a file name that is no path, and not that of a label *)
Definition plain_file (f : bytes) : Prop :=
  f ≠ [] ∧ f ≠ [46] ∧ f ≠ [46; 46] ∧ 47 ∉ f ∧ 0 ∉ f ∧ length f ≤ 255 ∧ drop (length f - 6) f ≠ label_suffix.
(** names are five words, and files have plain names *)
Definition plain_bcall (c : bcall) : Prop :=
  match c with
  | BCreate n | BFinalize n | BDir n | BParentOf n | BRollupOf n | BRollup n _ => name_ok n
  | BWrite n f _ | BExists n f | BMap n f | BSize n f => name_ok n ∧ plain_file f
  end.
(** a directory without layers; it may be full of other things *)
Definition no_layer_dirs (root : list bytes) (fs : fsys) : Prop :=
  ∀ n, name_ok n → fs_files fs !! (root ++ [take 3 (name_to_string n)]) = None ∧
    ∀ ps, layer_dir root n ++ ps ∉ fs_dirs fs ∧ fs_files fs !! (layer_dir root n ++ ps) = None.

(** archives: the files by the names of layers *)
Record archive_files := ArchiveFiles { af_layers : gmap (list N) (list nat); af_rollups : gmap (list N) (list nat) }.
Definition afound (r : option bytes) : outcome bytes := match r with Some d => Ok d | None => Err NotFound end.
Definition archive_map_call (m : archive_files) (c : afcall) : afanswer * archive_files :=
  match c with
  | AfLayer n => (AfBytes (afound (af_layers m !! n)), m)
  | AfRollup n => (AfBytes (afound (af_rollups m !! n)), m)
  | AfWrite n pos b =>
      (AfDone (Ok tt), ArchiveFiles (<[n := write_at (default [] (af_layers m !! n)) pos b]> (af_layers m)) (af_rollups m))
  | AfNote n d =>
      match af_layers m !! n with
      | Some _ => (AfDone (Ok tt), ArchiveFiles (af_layers m) (<[n := d]> (af_rollups m)))
      | None => (AfDone (Err NotFound), m)
      end
  end.
Fixpoint archive_map_run (m : archive_files) (cs : list afcall) : list afanswer * archive_files :=
  match cs with
  | [] => ([], m)
  | c :: cs' =>
      let '(r, m1) := archive_map_call m c in
      let '(rs, m2) := archive_map_run m1 cs' in (r :: rs, m2)
  end.
Definition plain_afcall (c : afcall) : Prop :=
  match c with AfLayer n | AfRollup n | AfWrite n _ _ | AfNote n _ => name_ok n end.
Definition no_archives (root : list bytes) (fs : fsys) : Prop :=
  ∀ n, name_ok n → fs_files fs !! (root ++ [take 3 (name_to_string n)]) = None ∧
    larch_path root n ∉ fs_dirs fs ∧ fs_files fs !! larch_path root n = None ∧
    rollup_path root n ∉ fs_dirs fs ∧ fs_files fs !! rollup_path root n = None.
