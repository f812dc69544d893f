(** What a layer store is to its users: layers, each with files, until finalized open for new
    files, and afterwards with at most a rollup besides.  Definitions only. *)
From Verif Require Import Prelude Names FileNames Archive ArchiveStore Pack SpecPack Backend.

Record slot := Slot {
  sl_files : gmap (list nat) (list nat);   (* by name *)
  sl_done : bool;                          (* finalized *)
  sl_rollup : option lname }.
Notation layers := (gmap (list N) slot) (only parsing).

Definition sl_found {A} (r : option A) : outcome A := match r with Some a => Ok a | None => Err NotFound end.
Definition file_of (i : layers) (n : lname) (f : bytes) : option bytes := i !! n ≫= λ sl, sl_files sl !! f.

Definition ideal_step (i : layers) (call : bcall) : banswer * layers :=
  match call with
  | BCreate n => (ADone (Ok tt), <[n := Slot ∅ false None]> i)
  | BWrite n f b => (ADone (Ok tt), alter (λ sl, Slot (<[f := b]> (sl_files sl)) (sl_done sl) (sl_rollup sl)) n i)
  | BFinalize n => (ADone (Ok tt), alter (λ sl, Slot (sl_files sl) true (sl_rollup sl)) n i)
  | BRollup n m => (ADone (Ok tt), alter (λ sl, Slot (sl_files sl) (sl_done sl) (Some m)) n i)
  | BDir n => (ABool (Ok (bool_decide (is_Some (i !! n)))), i)
  | BExists n f =>
      (ABool (Ok (if decide (f = rollup_file) then bool_decide (is_Some (i !! n ≫= sl_rollup))
                  else bool_decide (is_Some (file_of i n f)))), i)
  | BMap n f => (ABytes (sl_found (file_of i n f)), i)
  | BSize n f => (ASize (sl_found (length <$> file_of i n f)), i)
  | BParentOf n =>
      (AName (obind (sl_found (i !! n)) (λ sl,
        match sl_files sl !! parent_file with
        | Some b => obind (read_parent b) (λ p, Ok (Some p))
        | None => Ok None
        end)), i)
  | BRollupOf n => (AName (Ok (i !! n ≫= sl_rollup)), i)
  end.
Fixpoint ideal_run (i : layers) (calls : list bcall) : list banswer * layers :=
  match calls with
  | [] => ([], i)
  | call :: calls' =>
      let '(a, i1) := ideal_step i call in
      let '(l, i2) := ideal_run i1 calls' in (a :: l, i2)
  end.

(** all the files are such as a base layer (or a child layer) has *)
Definition files_for (child : bool) (m : gmap (list nat) (list nat)) : Prop := ∀ f, is_Some (m !! f) → f ∈ may_have child.
Definition files_size (m : gmap (list nat) (list nat)) : N := N.of_nat (sum_list (length <$> (map_to_list m).*2)).
(** the layer may be asked for the file: a base layer is not asked for files of child layers, nor
    the other way around *)
Definition may_ask (i : layers) (n : lname) (f : bytes) : Prop :=
  ∃ child, f ∈ may_have child ∧ ∀ sl, i !! n = Some sl → files_for child (sl_files sl).

(** How the stores are used by the rest of the code: layers get new names, files are written once
    and before the layer is finalized, the parent file names a layer, and rollups are given to
    finalized layers. *)
Definition proper (i : layers) (call : bcall) : Prop :=
  match call with
  | BCreate n => i !! n = None
  | BWrite n f b =>
      ∃ sl child, i !! n = Some sl ∧ sl_done sl = false ∧ files_for child (sl_files sl) ∧ f ∈ may_have child ∧
        sl_files sl !! f = None ∧ (f = parent_file → ∃ p, name_ok p ∧ b = parent_contents p)
  | BFinalize n =>
      ∃ sl child, i !! n = Some sl ∧ sl_done sl = false ∧ files_for child (sl_files sl) ∧ (files_size (sl_files sl) ≤ u64_max)%N
  | BRollup n m => ∃ sl, i !! n = Some sl ∧ sl_done sl = true ∧ name_ok m
  | BDir n => True
  | BExists n f => f = rollup_file ∨ f = parent_file ∨ may_ask i n f
  | BMap n f => may_ask i n f
  | BSize n f => may_ask i n f
  | BParentOf n => ∀ sl, i !! n = Some sl → sl_done sl = true
  | BRollupOf n => True
  end.
Fixpoint properly (i : layers) (calls : list bcall) : Prop :=
  match calls with
  | [] => True
  | call :: calls' => proper i call ∧ properly (ideal_step i call).2 calls'
  end.

(** What is taken for granted about each store: the bytes of an archive can be read again, and a
    file that is written again with as many bytes contains them, whether it is truncated or not. *)
Definition trusted (k : backend) : Prop :=
  match k with
  | BMemory => True
  | BDirectory over => ∀ old b, length old = length b → over old b = b
  | BArchive c => codec_ok c
  end.
