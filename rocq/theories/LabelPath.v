(** Where the directory label store keeps the label of a name: src/storage/directory.rs:171-307, with
    the paths that label names make.  [LabelSeq] takes a label name for a file name. *)
From Verif Require Import Prelude Names LabelSeq.

(** The files of the system by their absolute paths, and the directories.  There are no links. *)
Record fsys := FS { fs_dirs : gset (list (list nat)); fs_files : gmap (list (list nat)) (list nat) }.
(** ".label" *)
Definition label_suffix : bytes := [46; 108; 97; 98; 101; 108].

(** the pieces of a path between slashes; the last one is given separately *)
Fixpoint split_last (s : bytes) : list bytes * bytes :=
  match s with
  | [] => ([], [])
  | b :: s' =>
      let '(ps, l) := split_last s' in
      if decide (b = 47) then ([] :: ps, l)
      else match ps with [] => ([], b :: l) | p :: ps' => ((b :: p) :: ps', l) end
  end.
(** how the operating system follows directories: nothing and "." stay, ".." goes up, other names
    have to be directories; names longer than 255 bytes are errors, and so are files *)
Fixpoint follow (fs : fsys) (cur : list bytes) (ps : list bytes) : outcome (list bytes) :=
  match ps with
  | [] => Ok cur
  | p :: ps' =>
      if decide (p = [] ∨ p = [46]) then follow fs cur ps'
      else if decide (p = [46; 46]) then follow fs (take (length cur - 1) cur) ps'
      else if decide (255 < length p) then Err OtherError
      else if decide (cur ++ [p] ∈ fs_dirs fs) then follow fs (cur ++ [p]) ps'
      else match fs_files fs !! (cur ++ [p]) with Some _ => Err OtherError | None => Err NotFound end
  end.
(** directory.rs:221-222, 247-248, 275-276, 292-293: [PathBuf::push] of the name with ".label" starts
    at the root if the name begins with a slash; a name with a zero byte is no path *)
Definition label_file (fs : fsys) (root : list bytes) (name : bytes) : outcome (list bytes) :=
  if decide (0 ∈ name) then Err InvalidInput
  else
    let '(ps, l) := split_last (name ++ label_suffix) in
    obind (follow fs (match name with 47 :: _ => [] | _ => root end) ps) (λ d,
      if decide (255 < length l) then Err OtherError else Ok (d ++ [l])).
(** [Path::file_stem] of a file name that ends with ".label": what comes before the last dot, or
    everything if that is nothing *)
Definition stem (f : bytes) : bytes := match take (length f - 6) f with [] => f | s => s end.
(** directory.rs:173, 187: the name that a label gets when it is read *)
Definition read_name (name : bytes) : bytes := stem (split_last (name ++ label_suffix)).2.

(** directory.rs:199-217: the files in the directory of the store that end with ".label" *)
Definition label_files (fs : fsys) (root : list bytes) : list (bytes * bytes) :=
  omap (λ e : list bytes * bytes,
    match last e.1 with
    | Some f => if decide (e.1 = root ++ [f] ∧ drop (length f - 6) f = label_suffix) then Some (stem f, e.2) else None
    | None => None
    end) (map_to_list (fs_files fs)).
Definition put_file (fs : fsys) (p : list bytes) (d : bytes) : fsys := FS (fs_dirs fs) (<[p := d]> (fs_files fs)).
(** opening a file to read it; a directory can be opened and not be read *)
Definition read_path (fs : fsys) (p : list bytes) : outcome bytes :=
  match fs_files fs !! p with
  | Some d => Ok d
  | None => if decide (p ∈ fs_dirs fs) then Err OtherError else Err NotFound
  end.

(** directory.rs:197-307, one call at a time *)
Definition path_call (root : list bytes) (fs : fsys) (c : lcall) : lres * fsys :=
  match c with
  | CCreate n =>
      match label_file fs root n with
      | Err k => (RCreate (Err k), fs)
      | Panic => (RCreate Panic, fs)
      | Ok p =>
          if decide (p ∈ fs_dirs fs ∨ is_Some (fs_files fs !! p)) then (RCreate (Err InvalidInput), fs)
          else (RCreate (Ok (label_new_empty n)), put_file fs p new_label_contents)
      end
  | CGet n =>
      (RGet match obind (obind (label_file fs root n) (read_path fs)) (get_label_from_data (read_name n)) with
            | Ok l => Ok (Some l) | Err NotFound => Ok None | Err k => Err k | Panic => Panic
            end, fs)
  | CSet l layer =>
      match with_updated_layer l layer with
      | None => (RSet Panic, fs)
      | Some nl =>
          match obind (label_file fs root (lb_name l)) (λ p, obind (read_path fs p) (λ d,
                  obind (get_label_from_data (read_name (lb_name l)) d) (λ l', Ok (p, l')))) with
          | Ok (p, l') =>
              if decide (l' = l) then (RSet (Ok (Some nl)), put_file fs p (label_contents nl))
              else (RSet (Ok None), fs)
          | Err k => (RSet (Err k), fs)
          | Panic => (RSet Panic, fs)
          end
      end
  | CDelete n =>
      match label_file fs root n with
      | Err NotFound => (RDelete (Ok false), fs)
      | Err k => (RDelete (Err k), fs)
      | Panic => (RDelete Panic, fs)
      | Ok p =>
          if decide (p ∈ fs_dirs fs) then (RDelete (Err OtherError), fs)
          else (RDelete (Ok (bool_decide (is_Some (fs_files fs !! p)))), FS (fs_dirs fs) (delete p (fs_files fs)))
      end
  | CLabels => (RLabels (obind (all_labels (label_files fs root)) (λ ls, Ok (snd <$> ls))), fs)
  end.
