(** The directory label store when the crate is built with the feature [noreadlock]
    (Cargo.toml:42; src/storage/locking.rs:56, 94): a caller that reads a label takes no lock.
    Callers that update and create labels lock as before.  As nothing keeps others from writing
    meanwhile, reading is not one step here: [read_to_end] (src/storage/directory.rs:171-180)
    takes one piece after the other, until there are no bytes beyond those it has. *)
From Verif Require Import Prelude Names LabelConc.

(** Where a caller that reads is *)
Inductive reader :=
  | ROpen (n : bytes)                       (* directory.rs:244-255 *)
  | RRead (n : bytes) (i : ino) (got : bytes).
Definition reading (p : pc) : Prop :=
  match p with PGetOpen _ | PGetLock _ _ | PGetRead _ _ | PGetDone _ _ _ => True | _ => False end.
(** No caller reads with a lock, and a caller that reads does nothing else. *)
Definition apart (s : lstate) (rd : gmap tid reader) : Prop :=
  (∀ t p, s_threads s !! t = Some p → ¬ reading p) ∧ (∀ t, is_Some (rd !! t) → s_threads s !! t = None).

Inductive nstep : lstate * gmap tid reader → option lev → lstate * gmap tid reader → Prop :=
  (* the other calls: as in [LabelConc.v] *)
  | n_other s e s' rd : lstep s e s' → apart s' rd → nstep (s, rd) e (s', rd)
  (* get_label *)
  | n_start s rd t n : s_threads s !! t = None → rd !! t = None → nstep (s, rd) None (s, <[t := ROpen n]> rd)
  | n_absent s rd t n : rd !! t = Some (ROpen n) → s_dir s !! n = None →
      nstep (s, rd) (Some (EvGet t n None (Ok None))) (s, delete t rd)
  | n_open s rd t n i : rd !! t = Some (ROpen n) → s_dir s !! n = Some i →
      nstep (s, rd) None (s, <[t := RRead n i []]> rd)
  | n_read s rd t n i got nd a rest : rd !! t = Some (RRead n i got) → s_inodes s !! i = Some nd →
      drop (length got) (i_data nd) = a ++ rest → a ≠ [] →
      nstep (s, rd) None (s, <[t := RRead n i (got ++ a)]> rd)
  | n_done s rd t n i got nd : rd !! t = Some (RRead n i got) → s_inodes s !! i = Some nd →
      length (i_data nd) ≤ length got →
      nstep (s, rd) (Some (EvGet t n (Some i) (get_result (get_label_from_data n got)))) (s, delete t rd).
Inductive nexec : list lev → lstate * gmap tid reader → Prop :=
  | nexec_nil : nexec [] (lstate_init, ∅)
  | nexec_step tr s e s' : nexec tr s → nstep s e s' → nexec (tr ++ option_list e) s'.
