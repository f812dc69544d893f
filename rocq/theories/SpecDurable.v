(** Vocabulary for stating what survives a loss of power.  Definitions only. *)
From Verif Require Import Prelude Names LabelPath StoreDir Durable.

(** A state of a directory: the numbers of files in use are below the next one, each belongs to
    one path (the store makes no links), and each file has its bytes. *)
Definition disk_ok (s : disk) : Prop := ∀ p i, (p, Some (TFile i)) ∈ k_log s →
  i < k_next s ∧ is_Some (k_files s !! i) ∧ ∀ q, (q, Some (TFile i)) ∈ k_log s → q = p.
(** An empty directory. *)
Definition disk_empty : disk := Disk [] ∅ 0 ∅ 0.
(** There is nothing at a path. *)
Definition absent (s : disk) (p : list bytes) : Prop := now s p = None.
Definition no_file (s : disk) (p : list bytes) : Prop := ∀ i, now s p ≠ Some (TFile i).
Definition a_file (s : disk) (p : list bytes) : Prop := ∃ i, now s p = Some (TFile i).
(** Nobody else has to do with the paths. *)
Definition keep_off (ps : list (list bytes)) (os : list fop) : Prop := ∀ o, o ∈ os → op_path o ∉ ps.
Definition layer_paths (n : lname) (files : list (bytes * list bytes)) : list (list bytes) :=
  layer_dir [] n :: ((λ f : bytes * list bytes, layer_file [] n f.1) <$> files).
(** The name is new: there is neither its directory nor one of its files, nor a file where the
    directory above has to be. *)
Definition new_layer (s : disk) (n : lname) (files : list (bytes * list bytes)) : Prop :=
  (∀ p, p ∈ layer_paths n files → absent s p) ∧ no_file s (take 1 (layer_dir [] n)).
(** Nobody else has to do with the layer, or makes a file where the directory above has to be. *)
Definition leave_layer (n : lname) (files : list (bytes * list bytes)) (os : list fop) : Prop :=
  keep_off (layer_paths n files) os ∧ Open (take 1 (layer_dir [] n)) ∉ os.
(** All files of the layer are found as they were written, or none is. *)
Definition layer_found (v : remains) (n : lname) (files : list (bytes * list bytes)) : Prop :=
  ∀ f chunks, (f, chunks) ∈ files → read_after v (layer_file [] n f) = Some (mjoin chunks).
Definition layer_gone (v : remains) (n : lname) : Prop := ∀ f, read_after v (layer_file [] n f) = None.
(** The same for an archive store: one file, in a directory that holds others as well. *)
Definition new_archive (s : disk) (n : lname) : Prop := absent s (larch_path [] n) ∧ no_file s (take 1 (larch_path [] n)).
Definition leave_archive (n : lname) (os : list fop) : Prop :=
  keep_off [larch_path [] n] os ∧ Open (take 1 (larch_path [] n)) ∉ os.
(** The entry at a path has been the same since its directory was synchronized. *)
Definition settled (s : disk) (p : list bytes) : Prop :=
  ∃ k0, k0 ≤ default 0 (k_synced s !! parent_path p) ∧ k0 ≤ length (k_log s) ∧ ∀ k, k0 ≤ k → value_at s k p = now s p.
(** The machine is started again on what was left: all of it is on the disk. *)
Record restarted (v : remains) (s : disk) : Prop := {
  re_ok : disk_ok s;
  re_entry : ∀ p, now s p = v_entry v p;
  re_files : ∀ i e, k_files s !! i = Some e → e = (v_bytes v i, true);
  re_flushed : k_flushed s = length (k_log s);
  re_synced : ∀ p, now s p = Some TDir → k_synced s !! p = Some (length (k_log s)) }.
(** Anything that happens later, to other paths than those of the layer: operations, and losses of power of a file
    system with a journal, each followed by a restart. *)
Inductive later (n : lname) (files : list (bytes * list bytes)) : disk → disk → Prop :=
  | later_here s : later n files s s
  | later_ops s os s' : keep_off (layer_paths n files) os → later n files (foldl exec s os) s' → later n files s s'
  | later_loss s v s1 s' : journal_loss s v → restarted v s1 → later n files s1 s' → later n files s s'.
