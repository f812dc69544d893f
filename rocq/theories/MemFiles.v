(** The files of layers in memory (src/storage/memory.rs:14-75), with the steps of concurrent calls.  A file is a shared
    cell of its own: a call that asks for a file gets a handle of the cell, and the store has a map from names to
    handles. *)
From Verif Require Import Prelude Names.

(** Handles are numbers.  [mf_cells]: what the file with each handle contains; [None]: nothing was written
    ([MemoryBackedStore] of tdb-succinct, which exists once it was written).  [mf_waiting]: the calls of [get_file] that
    found no file and are about to make one *)
Record mfstate := MFState {
  mf_dirs : gmap lname (gmap bytes nat);
  mf_cells : list (option bytes);
  mf_waiting : gmap nat (lname * bytes) }.
Definition mf_init : mfstate := MFState ∅ [] ∅.
Definition mf_handle (s : mfstate) (n : lname) (f : bytes) : option nat := mf_dirs s !! n ≫= λ fs, fs !! f.
Inductive mfev :=
  | MFCreate (n : lname)                                    (* create_named_directory *)
  | MFExists (n : lname) (f : bytes) (b : bool)             (* file_exists gave b *)
  | MFStart (t : nat) (n : lname) (f : bytes)               (* call t of get_file found no file *)
  | MFGot (t : nat) (n : lname) (f : bytes) (r : outcome nat) (* call t of get_file gave the handle r *)
  | MFWrite (h : nat) (b : bytes)                           (* everything was written with a handle *)
  | MFRead (h : nat) (b : option bytes).                    (* reading with a handle; [None]: not found *)
Inductive mfstep : mfstate → mfev → mfstate → Prop :=
  (** memory.rs:34-39: a map without files, also if there was one *)
  | mf_create d c w n : mfstep (MFState d c w) (MFCreate n) (MFState (<[n := ∅]> d) c w)
  (** memory.rs:46-57 *)
  | mf_exists s n f : mfstep s (MFExists n f (match mf_handle s n f with
      | Some h => match mf_cells s !! h with Some (Some _) => true | _ => false end | None => false end)) s
  (** memory.rs:59-63 *)
  | mf_found s t n f h : mf_waiting s !! t = None → mf_handle s n f = Some h → mfstep s (MFGot t n f (Ok h)) s
  (** memory.rs:71-73 *)
  | mf_nodir s t n f : mf_waiting s !! t = None → mf_dirs s !! n = None → mfstep s (MFGot t n f (Err NotFound)) s
  (** memory.rs:64: the lock is released *)
  | mf_missing d c w t n f fs : w !! t = None → d !! n = Some fs → fs !! f = None →
      mfstep (MFState d c w) (MFStart t n f) (MFState d c (<[t := (n, f)]> w))
  (** memory.rs:65-70: it is taken again; whether there is a file by now is not looked at *)
  | mf_make d c w t n f fs : w !! t = Some (n, f) → d !! n = Some fs →
      mfstep (MFState d c w) (MFGot t n f (Ok (length c))) (MFState (<[n := <[f := length c]> fs]> d) (c ++ [None]) (delete t w))
  (** a call that is dropped while it waits for the lock *)
  | mf_cancel d c w t n f : w !! t = Some (n, f) → mfstep (MFState d c w) (MFGot t n f (Err OtherError)) (MFState d c (delete t w))
  | mf_write d c w h b : h < length c → mfstep (MFState d c w) (MFWrite h b) (MFState d (<[h := Some b]> c) w)
  | mf_read s h o : mf_cells s !! h = Some o → mfstep s (MFRead h o) s.
Inductive mfexec : mfstate → list mfev → mfstate → Prop :=
  | mfexec_nil s : mfexec s [] s
  | mfexec_step s tr s' e s'' : mfexec s tr s' → mfstep s' e s'' → mfexec s (tr ++ [e]) s''.
