(** Model of [ArchiveLayerStore] (archive.rs:1318-1509) over [DirectoryArchiveBackend]: layers under
    construction live in memory, a finalized layer is one [.larch] file on disk.  Any number of
    tasks call the store; a call under the lock of the construction map is one step, and writing
    the archive to disk takes any number of steps. *)
From Verif Require Import Prelude Names FileNames Archive.

Record astore := AStore {
  as_disk : gmap lname bytes;              (* the [.larch] files *)
  as_rollups : gmap lname bytes;           (* the [.rollup.hex] files *)
  as_constr : gmap lname (gmap nat nat);   (* the construction map: layer, file type, file *)
  as_cells : gmap nat cfile;               (* the construction files *)
  as_writes : gmap nat (lname * nat * bytes); (* calls of [store_layer_file] that are running:
                                                 layer, bytes written, bytes still to be written *)
  as_poisoned : bool }.                    (* a task panicked while it held the lock for writing *)
Definition astore_new : astore := AStore ∅ ∅ ∅ ∅ ∅ false.

(** What an observer sees *)
Inductive aitem :=
  | ICreate (n : lname) (r : outcome unit)
  | IOpen (n : lname) (ft : nat) (h : nat)   (* [get_file] gives the construction file [h] *)
  | IWrite (h : nat) (b : bytes) (r : outcome unit)
  | ISync (h : nat) (r : outcome unit)
  | IFinalize (n : lname)                    (* [finalize] has taken the files of the layer *)
  | IFinalizePanic (n : lname)
  | IStored (n : lname)                      (* [finalize] returns *)
  | IRollup (n : lname) (r : outcome unit)
  | ICrash.

Definition set_constr (s : astore) m : astore := AStore (as_disk s) (as_rollups s) m (as_cells s) (as_writes s) (as_poisoned s).
Definition set_cells (s : astore) m : astore := AStore (as_disk s) (as_rollups s) (as_constr s) m (as_writes s) (as_poisoned s).
Definition set_writes (s : astore) m : astore := AStore (as_disk s) (as_rollups s) (as_constr s) (as_cells s) m (as_poisoned s).
Definition set_disk (s : astore) m : astore := AStore m (as_rollups s) (as_constr s) (as_cells s) (as_writes s) (as_poisoned s).
Definition set_rollups (s : astore) m : astore := AStore (as_disk s) m (as_constr s) (as_cells s) (as_writes s) (as_poisoned s).
Definition poison (s : astore) : astore := AStore (as_disk s) (as_rollups s) (as_constr s) (as_cells s) (as_writes s) true.
(** a new process *)
Definition restart (s : astore) : astore := AStore (as_disk s) (as_rollups s) ∅ (as_cells s) ∅ false.

(** archive.rs:1476-1480: the files of a layer that are finalized *)
Definition finalized_files (cells : gmap nat cfile) (m : gmap nat nat) : list (nat * bytes) :=
  omap (λ '(ft, h), match cells !! h with Some (Finalized b) => Some (ft, b) | _ => None end) (map_to_list m).
(** writing at a position of a file that is not truncated *)
Definition write_at (d : bytes) (pos : nat) (b : bytes) : bytes := take pos d ++ b ++ drop (pos + length b) d.
Definition unit_of {A} (r : outcome A) : outcome unit := obind r (λ _, Ok tt).

Section store.
Context (c : codec).

Inductive astep : astore → option aitem → astore → Prop :=
  (** archive.rs:1383-1400 [create_named_directory]; the check of the disk and the change of the map
      are one step *)
  | a_create s n :
      as_poisoned s = false → as_disk s !! n = None → as_constr s !! n = None →
      astep s (Some (ICreate n (Ok tt))) (set_constr s (<[n := ∅]> (as_constr s)))
  | a_create_exists s n :
      is_Some (as_disk s !! n) → astep s (Some (ICreate n Panic)) s
  | a_create_under s n :
      as_disk s !! n = None → (as_poisoned s = true ∨ is_Some (as_constr s !! n)) →
      astep s (Some (ICreate n Panic)) (poison s)
  (** archive.rs:1415-1448 [get_file] of a layer under construction; looking and inserting are one
      step *)
  | a_open_old s n ft h m :
      as_poisoned s = false → as_constr s !! n = Some m → m !! ft = Some h →
      astep s (Some (IOpen n ft h)) s
  | a_open_new s n ft h m :
      as_poisoned s = false → as_constr s !! n = Some m → m !! ft = None → ft < rollup_type → as_cells s !! h = None →
      astep s (Some (IOpen n ft h))
        (set_cells (set_constr s (<[n := <[ft := h]> m]> (as_constr s))) (<[h := UnderConstruction []]> (as_cells s)))
  (** archive.rs:697-714 and 735-752 *)
  | a_write s h b f f' :
      as_cells s !! h = Some f → cfile_write f b = Ok f' →
      astep s (Some (IWrite h b (Ok tt))) (set_cells s (<[h := f']> (as_cells s)))
  | a_write_err s h b f k :
      as_cells s !! h = Some f → cfile_write f b = Err k → astep s (Some (IWrite h b (Err k))) s
  | a_sync s h f f' :
      as_cells s !! h = Some f → cfile_sync f = Ok f' →
      astep s (Some (ISync h (Ok tt))) (set_cells s (<[h := f']> (as_cells s)))
  | a_sync_err s h f k :
      as_cells s !! h = Some f → cfile_sync f = Err k → astep s (Some (ISync h (Err k))) s
  (** archive.rs:1468-1504 [finalize]: the layer leaves the construction map, then its archive is
      made.  The sizes add up to a [usize]. *)
  | a_finalize s n m t :
      as_poisoned s = false → as_constr s !! n = Some m → as_writes s !! t = None →
      (N.of_nat (length (mjoin ((finalized_files (as_cells s) m).*2))) ≤ u64_max)%N →
      astep s (Some (IFinalize n))
        (set_writes (set_constr s (delete n (as_constr s)))
           (<[t := (n, 0, archive_bytes c (finalized_files (as_cells s) m))]> (as_writes s)))
  | a_finalize_panic s n :
      (as_poisoned s = true ∨ as_constr s !! n = None) → astep s (Some (IFinalizePanic n)) (poison s)
  (** archive.rs:167-197 [store_layer_file]: the file is opened without truncating it and written
      piece by piece *)
  | a_chunk s t n pos rest k :
      as_writes s !! t = Some (n, pos, rest) → k ≤ length rest →
      astep s None
        (set_writes (set_disk s (<[n := write_at (default [] (as_disk s !! n)) pos (take k rest)]> (as_disk s)))
           (<[t := (n, pos + k, drop k rest)]> (as_writes s)))
  | a_stored s t n pos :
      as_writes s !! t = Some (n, pos, []) →
      astep s (Some (IStored n)) (set_writes s (delete t (as_writes s)))
  (** archive.rs:1184-1194: writing a rollup file *)
  | a_rollup s n b d :
      rollup_file_sync (as_disk s !! n) b = Ok d →
      astep s (Some (IRollup n (Ok tt))) (set_rollups s (<[n := d]> (as_rollups s)))
  | a_rollup_err s n b k :
      rollup_file_sync (as_disk s !! n) b = Err k → astep s (Some (IRollup n (Err k))) s
  (** the process dies and another one opens the store; construction files of the old one remain
      in [as_cells] for their handles only *)
  | a_crash s : astep s (Some ICrash) (restart s).

Inductive aexec (s : astore) : list aitem → astore → Prop :=
  | ae_nil : aexec s [] s
  | ae_tau tr s1 s2 : aexec s tr s1 → astep s1 None s2 → aexec s tr s2
  | ae_item tr s1 i s2 : aexec s tr s1 → astep s1 (Some i) s2 → aexec s (tr ++ [i]) s2.

(** ** Queries of the store *)
(** archive.rs:1402-1413 [directory_exists] *)
Definition as_directory_exists (s : astore) (n : lname) : bool :=
  if as_constr s !! n then true else layer_exists (as_disk s !! n).
(** archive.rs:1450-1466 [file_exists] *)
Definition as_file_exists (s : astore) (n : lname) (ft : nat) : outcome bool :=
  if decide (ft = rollup_type) then rollup_file_exists (as_disk s !! n) (as_rollups s !! n)
  else match as_constr s !! n with
       | Some m => Ok (bool_decide (is_Some (m !! ft)))
       | None => layer_file_exists (as_disk s !! n) ft
       end.
(** archive.rs:1415-1448 [get_file], then 1067-1073 and 1247-1253 [map] *)
Definition as_map (s : astore) (n : lname) (ft : nat) : outcome bytes :=
  if decide (ft = rollup_type) then rollup_file_map (as_disk s !! n) (as_rollups s !! n)
  else match as_constr s !! n with
       | Some m =>
           match m !! ft with
           | Some h => match as_cells s !! h with Some f => cfile_map f | None => Panic end
           | None => cfile_map (UnderConstruction [])
           end
       | None =>
           obind (structure_bytes c (as_disk s !! n) ft) (λ r,
             match r with Some b => Ok b | None => Err NotFound end)
       end.
(** archive.rs:1506-1508 [layer_parent] *)
Definition as_parent (s : astore) (n : lname) : outcome (option lname) := get_parent c (as_disk s !! n).
End store.

(** archive.rs:225-243 [get_layer_names]: the entries of the top directory with name and whether
    they are files; names are UTF-8 *)
Definition larch : bytes := [46; 108; 97; 114; 99; 104].
Fixpoint archive_names (es : list (bytes * bool)) : outcome (list lname) :=
  match es with
  | [] => Ok []
  | (e, is_file) :: es' =>
      if decide (drop (length e - 6) e = larch ∧ is_file = true) then
        obind (string_to_name (take (length e - 6) e)) (λ n,
        obind (archive_names es') (λ ns, Ok (n :: ns)))
      else archive_names es'
  end.
(** archive.rs:106-122: each layer's files are in the directory named after the first 3 digits *)
Definition archive_entries (s : astore) : list (bytes * bool) :=
  (λ n, (take 3 (name_to_string n), false)) <$> elements (dom (D := gset lname) (as_disk s)).
(** archive.rs:1366-1381 [directories]; the result is sorted, which is left out *)
Definition as_directories (s : astore) : outcome (list lname) :=
  obind (archive_names (archive_entries s)) (λ ns,
    Ok (remove_dups (ns ++ elements (dom (D := gset lname) (as_constr s))))).
