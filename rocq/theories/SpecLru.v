(** What the properties of the archive cache say *)
From Verif Require Import Prelude Names FileNames Archive ArchiveFacts Lru.

(** the contents of an archive as the archive store makes them *)
Definition is_archive (c : codec) (x : bytes) : Prop := ∃ L, files_ok L ∧ x = archive_bytes c L.
(** calls about the files that exist *)
Definition op_ok (o : lop) : Prop :=
  match o with
  | LRead _ (KSlice ft) | LRead _ (KFrom ft _) | LQuery _ (QFileExists ft) | LQuery _ (QFileSize ft) => ft ≤ rollup_type
  | _ => True
  end.
(** the calls of a run: about files that exist, storing archives, and each layer at most once *)
Definition calls_ok (c : codec) (d : gmap lname bytes) (tr : list levent) : Prop :=
  (∀ n x, d !! n = Some x → is_archive c x) ∧
  (∀ t o, LCall t o ∈ tr → op_ok o) ∧
  (∀ t n x, LCall t (LStore n x) ∈ tr → is_archive c x) ∧
  (∀ tr1 t n x tr2, tr = tr1 ++ LCall t (LStore n x) :: tr2 → d !! n = None ∧ ∀ t' x', LCall t' (LStore n x') ∉ tr1).
Definition no_cancel (tr : list levent) : Prop := ∀ t, LCancel t ∉ tr.
(** the error of an operation of the origin that failed *)
Definition load_error {A} (tr : list levent) (n : lname) (r : outcome A) : Prop := ∃ k, r = Err k ∧ LIoError n k ∈ tr.
(** the calls that have not returned *)
Definition open_step (m : gmap nat lop) (e : levent) : gmap nat lop :=
  match e with
  | LCall t o => <[t := o]> m
  | LDone t _ _ | LCancel t => delete t m
  | LIoError _ _ => m
  | LCrash => ∅
  end.
Definition open_calls (tr : list levent) : gmap nat lop := foldl open_step ∅ tr.
(** the bytes that the cache holds *)
Definition cached_bytes (ca : list (lname * centry)) : nat :=
  sum_list ((λ x : lname * centry, match x.2 with Resolved y => length y | Resolving _ => 0 end) <$> ca).
