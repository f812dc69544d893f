(** A store in one directory: the label store and the layer store are given the same path
    (src/store/mod.rs:919-958), and their files are next to each other.  [LabelPath] has the label
    store over paths; this file has the layer store of a directory (src/storage/directory.rs:18-115)
    and the files of the archive store (src/storage/archive.rs:97-123) over paths. *)
From Verif Require Import Prelude Names FileNames LabelSeq LabelPath Archive ArchiveStore Pack Backend.

(** ** Layers as directories *)
(** directory.rs:18, 52-56: "abc/abc…", of the text of the name *)
Definition layer_dir (root : list bytes) (n : lname) : list bytes := root ++ [take 3 (name_to_string n); name_to_string n].
(** directory.rs:75-82; for names of files that have no slash and are neither "." nor ".." *)
Definition layer_file (root : list bytes) (n : lname) (f : bytes) : list bytes := layer_dir root n ++ [f].
(** [fs::create_dir_all] below a directory: a file in the way is an error.  (The call goes up
    before it goes down; there is nothing below a file, so that is the same.) *)
Fixpoint make_dirs (fs : fsys) (cur ps : list bytes) : outcome fsys :=
  match ps with
  | [] => Ok fs
  | p :: ps' =>
      match fs_files fs !! (cur ++ [p]) with
      | Some _ => Err OtherError
      | None => make_dirs (FS ({[cur ++ [p]]} ∪ fs_dirs fs) (fs_files fs)) (cur ++ [p]) ps'
      end
  end.
Section dir.
Context (root : list bytes) (over : bytes → bytes → bytes).
(** directory.rs:51-60 [create_named_directory] *)
Definition dp_create (fs : fsys) (n : lname) : outcome unit * fsys :=
  match make_dirs fs root [take 3 (name_to_string n); name_to_string n] with
  | Ok fs' => (Ok tt, fs')
  | Err k => (Err k, fs)
  | Panic => (Panic, fs)
  end.
(** directory.rs:62-72 [directory_exists] *)
Definition dp_dir (fs : fsys) (n : lname) : outcome bool := Ok (bool_decide (layer_dir root n ∈ fs_dirs fs)).
(** directory.rs:83-95 [file_exists] *)
Definition dp_exists (fs : fsys) (n : lname) (f : bytes) : outcome bool := Ok (bool_decide (is_Some (fs_files fs !! layer_file root n f))).
(** [FileBackedStore] of tdb-succinct at the path that directory.rs:74-81 [get_file] gives: reading *)
Definition dp_map (fs : fsys) (n : lname) (f : bytes) : outcome bytes := read_path fs (layer_file root n f).
Definition dp_size (fs : fsys) (n : lname) (f : bytes) : outcome nat := obind (dp_map fs n f) (λ b, Ok (length b)).
(** and writing: the file is made if the directory is there; [over] is as for [directory_pls] *)
Definition dp_write (fs : fsys) (n : lname) (f b : bytes) : outcome unit * fsys :=
  if decide (layer_dir root n ∈ fs_dirs fs) then
    if decide (layer_file root n f ∈ fs_dirs fs) then (Err OtherError, fs)
    else (Ok tt, put_file fs (layer_file root n f)
                   match fs_files fs !! layer_file root n f with Some old => over old b | None => b end)
  else (Err NotFound, fs).
(** directory.rs:96-114 [finalize]: the directory is opened *)
Definition dp_finalize (fs : fsys) (n : lname) : outcome unit * fsys :=
  if decide (layer_dir root n ∈ fs_dirs fs) then (Ok tt, fs)
  else match fs_files fs !! layer_dir root n with Some _ => (Ok tt, fs) | None => (Err NotFound, fs) end.
Definition dir_pls : pls fsys := PLS _ dp_dir dp_exists dp_map dp_size dp_create dp_write dp_finalize.

(** one call of either store *)
Definition store_call (fs : fsys) (c : lcall + bcall) : (lres + banswer) * fsys :=
  match c with
  | inl c => let '(r, fs') := path_call root fs c in (inl r, fs')
  | inr c => let '(r, fs') := call_step dir_pls (default_parent dir_pls) fs c in (inr r, fs')
  end.
Fixpoint store_run (fs : fsys) (cs : list (lcall + bcall)) : list (lres + banswer) * fsys :=
  match cs with
  | [] => ([], fs)
  | c :: cs' =>
      let '(r, fs1) := store_call fs c in
      let '(rs, fs2) := store_run fs1 cs' in (r :: rs, fs2)
  end.

(** ** Layers as archives *)
(** ".larch" and ".rollup.hex" *)
Definition larch_suffix : bytes := [46; 108; 97; 114; 99; 104].
Definition rollup_suffix : bytes := [46; 114; 111; 108; 108; 117; 112; 46; 104; 101; 120].
(** archive.rs:106-113 [path_for_layer] *)
Definition larch_path (n : lname) : list bytes := root ++ [take 3 (name_to_string n); name_to_string n ++ larch_suffix].
(** archive.rs:115-122 [path_for_rollup] *)
Definition rollup_path (n : lname) : list bytes := root ++ [take 3 (name_to_string n); name_to_string n ++ rollup_suffix].
(** what the archive store does with files: reading one, writing a piece of an archive at a position
    (archive.rs:167-184, after making the directory), and replacing the note of a rollup
    (archive.rs:324-340) *)
Inductive afcall :=
  | AfLayer (n : lname)
  | AfRollup (n : lname)
  | AfWrite (n : lname) (pos : nat) (b : bytes)
  | AfNote (n : lname) (d : bytes).
Inductive afanswer := AfBytes (r : outcome bytes) | AfDone (r : outcome unit).
Definition archive_file_call (fs : fsys) (c : afcall) : afanswer * fsys :=
  match c with
  | AfLayer n => (AfBytes (read_path fs (larch_path n)), fs)
  | AfRollup n => (AfBytes (read_path fs (rollup_path n)), fs)
  | AfWrite n pos b =>
      match make_dirs fs root [take 3 (name_to_string n)] with
      | Ok fs' =>
          if decide (larch_path n ∈ fs_dirs fs') then (AfDone (Err OtherError), fs')
          else (AfDone (Ok tt), put_file fs' (larch_path n) (write_at (default [] (fs_files fs' !! larch_path n)) pos b))
      | Err k => (AfDone (Err k), fs)
      | Panic => (AfDone Panic, fs)
      end
  | AfNote n d =>
      match read_path fs (larch_path n) with
      | Ok _ =>
          if decide (rollup_path n ∈ fs_dirs fs) then (AfDone (Err OtherError), fs)
          else (AfDone (Ok tt), put_file fs (rollup_path n) d)
      | Err k => (AfDone (Err k), fs)
      | Panic => (AfDone Panic, fs)
      end
  end.
Definition archive_store_call (fs : fsys) (c : lcall + afcall) : (lres + afanswer) * fsys :=
  match c with
  | inl c => let '(r, fs') := path_call root fs c in (inl r, fs')
  | inr c => let '(r, fs') := archive_file_call fs c in (inr r, fs')
  end.
Fixpoint archive_store_run (fs : fsys) (cs : list (lcall + afcall)) : list (lres + afanswer) * fsys :=
  match cs with
  | [] => ([], fs)
  | c :: cs' =>
      let '(r, fs1) := archive_store_call fs c in
      let '(rs, fs2) := archive_store_run fs1 cs' in (r :: rs, fs2)
  end.
End dir.
