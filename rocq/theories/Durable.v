(** What a loss of power leaves of a directory, and the operations on files by which the calls of
    the store write layers and labels.  The code asks for its data to be put on the disk
    ([sync_all], [sync_data]) and says why ("ensure the underlying directory record is properly
    synchronized", src/storage/directory.rs:98, src/storage/archive.rs:187); this file says what
    that is good for.

    Simplifications: a list of operations holds those that succeed, so that nothing is written
    below a directory that is not there; the store removes no directories and renames nothing. *)
From Verif Require Import Prelude Names LabelSeq LabelPath StoreDir.

(** ** The file system *)
(** What an entry of a directory leads to: a directory, or a file by its number (inode). *)
Inductive target := TDir | TFile (i : nat).
#[global] Instance target_eq_dec : EqDecision target.
Proof. solve_decision. Defined.
(** [k_log]: every change of an entry so far, oldest first.  [k_synced]: for a directory, how many
    of the changes had happened when it was last synchronized.  [k_flushed]: the same for the
    last time that anything was synchronized.  [k_files]: the bytes of a file, and whether they
    have been synchronized since they were last changed.  [k_next]: the number of the next file. *)
Record disk := Disk {
  k_log : list (list bytes * option target);
  k_synced : gmap (list bytes) nat;
  k_flushed : nat;
  k_files : gmap nat (bytes * bool);
  k_next : nat }.
(** what the entry at a path is after the given changes *)
Definition entry (lg : list (list bytes * option target)) (p : list bytes) : option target :=
  foldl (λ (v : option target) (e : list bytes * option target), if decide (e.1 = p) then e.2 else v) None lg.
Definition value_at (s : disk) (k : nat) (p : list bytes) : option target := entry (take k (k_log s)) p.
Definition now (s : disk) (p : list bytes) : option target := entry (k_log s) p.

(** [MkDir]: a step of [create_dir_all].  [Open]: opening with [create].  [Change]: any number of
    writes, or cutting off.  [Sync]: [sync_all] of a file.  [SyncData]: [sync_data].  [SyncDir]:
    [sync_all] of a directory.  [Remove]: [remove_file]. *)
Inductive fop :=
  | MkDir (p : list bytes) | Open (p : list bytes) | Change (p : list bytes) (f : bytes → bytes)
  | Sync (p : list bytes) | SyncData (p : list bytes) | SyncDir (p : list bytes) | Remove (p : list bytes).
Definition op_path (o : fop) : list bytes :=
  match o with MkDir p | Open p | Change p _ | Sync p | SyncData p | SyncDir p | Remove p => p end.
Definition on_file (s : disk) (p : list bytes) (g : bytes * bool → bytes * bool) : disk :=
  match now s p with
  | Some (TFile i) => Disk (k_log s) (k_synced s) (k_flushed s) (alter g i (k_files s)) (k_next s)
  | _ => s
  end.
Definition exec (s : disk) (o : fop) : disk :=
  match o with
  | MkDir p =>
      match now s p with
      | Some _ => s
      | None => Disk (k_log s ++ [(p, Some TDir)]) (k_synced s) (k_flushed s) (k_files s) (k_next s)
      end
  | Open p =>
      match now s p with
      | Some _ => s
      | None => Disk (k_log s ++ [(p, Some (TFile (k_next s)))]) (k_synced s) (k_flushed s)
                  (<[k_next s := ([], false)]> (k_files s)) (S (k_next s))
      end
  | Change p f => on_file s p (λ e, (f e.1, false))
  | Sync p =>
      let s' := on_file s p (λ e, (e.1, true)) in
      Disk (k_log s') (k_synced s') (length (k_log s')) (k_files s') (k_next s')
  | SyncData p => on_file s p (λ e, (e.1, true))
  | SyncDir p => Disk (k_log s) (<[p := length (k_log s)]> (k_synced s)) (length (k_log s)) (k_files s) (k_next s)
  | Remove p =>
      match now s p with
      | Some (TFile _) => Disk (k_log s ++ [(p, None)]) (k_synced s) (k_flushed s) (k_files s) (k_next s)
      | _ => s
      end
  end.
(** operations of one caller ([true]) and of everybody else ([false]), in the order in which they
    take effect *)
Definition perform (s : disk) (tr : list (bool * fop)) : disk := foldl (λ (s : disk) (e : bool * fop), exec s e.2) s tr.
Definition own (tr : list (bool * fop)) : list fop := omap (λ e : bool * fop, if e.1 then Some e.2 else None) tr.
Definition others (tr : list (bool * fop)) : list fop := omap (λ e : bool * fop, if e.1 then None else Some e.2) tr.

(** ** Loss of power *)
(** What is found afterwards: the entries, and the bytes of every file. *)
Record remains := Remains { v_entry : list bytes → option target; v_bytes : nat → bytes }.
(** Bytes that were synchronized are there.  Others may be anything. *)
Definition kept (s : disk) (v : remains) : Prop := ∀ i c, k_files s !! i = Some (c, true) → v_bytes v i = c.
Definition parent_path (p : list bytes) : list bytes := take (length p - 1) p.
(** What POSIX promises: an entry is as it was when its directory was last synchronized, or as it
    was at any time since then, each by itself. *)
Definition posix_loss (s : disk) (v : remains) : Prop :=
  kept s v ∧ ∀ p, ∃ k, default 0 (k_synced s !! parent_path p) ≤ k ≤ length (k_log s) ∧ v_entry v p = value_at s k p.
(** What file systems with a journal do: changes of entries reach the disk in their order, and
    synchronizing a file or a directory takes along all earlier ones.  [sync_data] is not
    counted on for this. *)
Definition journal_loss (s : disk) (v : remains) : Prop :=
  kept s v ∧ ∃ k, k_flushed s ≤ k ≤ length (k_log s) ∧ ∀ p, v_entry v p = value_at s k p.
(** the directories above a path *)
Definition above (p : list bytes) : list (list bytes) := (λ j, take j p) <$> seq 1 (length p - 1).
(** reading a file afterwards; the directory of the store itself, the empty path, is there *)
Definition read_after (v : remains) (p : list bytes) : option bytes :=
  if decide (Forall (λ q, v_entry v q = Some TDir) (above p)) then
    match v_entry v p with Some (TFile i) => Some (v_bytes v i) | _ => None end
  else None.

(** ** The calls *)
Definition appends (p : list bytes) (chunks : list bytes) : list fop := (λ c, Change p (λ old, old ++ c)) <$> chunks.
(** A file of a layer that is written from the start to the end: src/storage/layer.rs:655-665,
    src/storage/pack.rs:115-121, and the builders of tdb-succinct, which all end with [flush] and
    [sync_all]. *)
Definition file_ops (p : list bytes) (chunks : list bytes) : list fop := Open p :: appends p chunks ++ [Sync p].
Definition about (p : list bytes) (o : fop) : Prop := op_path o = p.
#[global] Instance about_dec p o : Decision (about p o).
Proof. unfold about. apply _. Defined.
(** Writing a layer into a directory store: the directory (src/storage/directory.rs:51-60), the files, in any order and
    at the same time (src/layer/internal/child.rs:533-547 and others), then [finalize]
    (src/storage/directory.rs:96-114; src/storage/layer.rs:1589-1591, 1747, 1783, 1818, 2214, src/storage/pack.rs:129).
    [files]: for each name the pieces in which the file is written. *)
Definition writes_layer (n : lname) (files : list (bytes * list bytes)) (ops : list fop) : Prop :=
  ∃ mid, ops = [MkDir (take 1 (layer_dir [] n)); MkDir (layer_dir [] n)] ++ mid ++ [SyncDir (layer_dir [] n)] ∧
    Forall (λ o, op_path o ∈ (λ f : bytes * list bytes, layer_file [] n f.1) <$> files) mid ∧
    ∀ f chunks, (f, chunks) ∈ files → filter (about (layer_file [] n f)) mid = file_ops (layer_file [] n f) chunks.
(** Writing a layer into an archive store: src/storage/archive.rs:167-195 *)
Definition writes_archive (n : lname) (chunks : list bytes) : list fop :=
  [MkDir (take 1 (larch_path [] n))] ++ file_ops (larch_path [] n) chunks ++ [SyncDir (take 1 (larch_path [] n))].
(** The note of a rollup of a directory store, src/storage/layer.rs:678-690, and of an archive store,
    src/storage/archive.rs:324-340, when there was none *)
Definition writes_note (n : lname) (f : bytes) (contents : bytes) : list fop := file_ops (layer_file [] n f) [contents].
Definition writes_archive_note (n : lname) (contents : bytes) : list fop := file_ops (rollup_path [] n) [contents].
(** Labels, of names without slashes.  The directory store synchronizes with [sync_data]
    (src/storage/locking.rs:222-225): creating (src/storage/directory.rs:222-245), updating (258-284), deleting (286-305 and, with a cache, 445-456).
    The store with a cache: creating (368-402, [sync_all]), updating (408-443). *)
Definition label_path (name : bytes) : list bytes := [name ++ label_suffix].
Definition creates_label (name : bytes) : list fop :=
  [Open (label_path name); Change (label_path name) (λ old, old ++ new_label_contents); SyncData (label_path name)].
Definition creates_label_cached (name : bytes) : list fop :=
  [Open (label_path name); Change (label_path name) (λ old, old ++ new_label_contents); Sync (label_path name)].
Definition updates_label (name : bytes) (contents : bytes) : list fop :=
  [Change (label_path name) (λ _, []); Change (label_path name) (λ old, old ++ contents); SyncData (label_path name)].
Definition updates_label_cached (name : bytes) (contents : bytes) : list fop :=
  [Change (label_path name) (λ old, write_over old contents); SyncData (label_path name)].
Definition deletes_label (name : bytes) : list fop := [Remove (label_path name)].
