(** Labels as a map from names, and the names that work in a directory.  Definitions only. *)
From Verif Require Import Prelude Names LabelSeq LabelSpec LabelPath.

(** what a label store is to its users *)
Notation labels := (gmap (list nat) label) (only parsing).
Definition map_call (m : labels) (c : lcall) : lres * labels :=
  match c with
  | CCreate n =>
      match m !! n with
      | Some _ => (RCreate (Err InvalidInput), m)
      | None => (RCreate (Ok (Label n None 0)), <[n := Label n None 0]> m)
      end
  | CGet n => (RGet (Ok (m !! n)), m)
  | CSet l layer =>
      if decide (lb_version l < u64_max)%N then
        match m !! lb_name l with
        | None => (RSet (Err NotFound), m)
        | Some l' =>
            let nl := Label (lb_name l) layer (lb_version l + 1) in
            if decide (l' = l) then (RSet (Ok (Some nl)), <[lb_name l := nl]> m) else (RSet (Ok None), m)
        end
      else (RSet Panic, m)
  | CDelete n => (RDelete (Ok (bool_decide (is_Some (m !! n)))), delete n m)
  | CLabels => (RLabels (Ok (snd <$> map_to_list m)), m)
  end.

(** neither empty nor too long, without slash and zero *)
Definition plain_name (n : bytes) : Prop := n ≠ [] ∧ 47 ∉ n ∧ 0 ∉ n ∧ length n ≤ 249.
Definition plain_call (c : lcall) : Prop :=
  match c with
  | CCreate n | CGet n | CDelete n => plain_name n
  | CSet l _ => plain_name (lb_name l)
  | CLabels => True
  end.
(** a directory without labels; it may be full of other things *)
Definition no_labels (root : list bytes) (fs : fsys) : Prop :=
  ∀ f, drop (length f - 6) f = label_suffix → root ++ [f] ∉ fs_dirs fs ∧ fs_files fs !! (root ++ [f]) = None.
(** the file of a name *)
Definition own_file (root : list bytes) (n : bytes) : list bytes := root ++ [n ++ label_suffix].
(** the name of a directory *)
Definition plain_piece (p : bytes) : Prop := p ≠ [] ∧ p ≠ [46] ∧ p ≠ [46; 46] ∧ 47 ∉ p ∧ 0 ∉ p ∧ length p ≤ 255.
(** directories one in the other, with a slash after each *)
Fixpoint slashed (ps : list bytes) : bytes := match ps with [] => [] | p :: ps' => p ++ 47 :: slashed ps' end.
(** they are all there *)
Definition dirs_there (fs : fsys) (root ps : list bytes) : Prop := ∀ i, 1 ≤ i ≤ length ps → root ++ take i ps ∈ fs_dirs fs.
(** a name that cannot be one, and the kind of error it gives: with a zero; with the name of a directory or of the label too long; with a file
    where there has to be a directory *)
Definition bad_name (fs : fsys) (root : list bytes) (name : bytes) (k : ekind) : Prop :=
  0 ∈ name ∧ k = InvalidInput ∨
  0 ∉ name ∧ k = OtherError ∧ ∃ ps p, Forall plain_piece ps ∧ dirs_there fs root ps ∧ 47 ∉ p ∧ p ≠ [] ∧
    (name = slashed ps ++ p ∧ 249 < length p ∨
     ∃ rest, name = slashed ps ++ p ++ 47 :: rest ∧
       (255 < length p ∨ plain_piece p ∧ root ++ ps ++ [p] ∉ fs_dirs fs ∧ is_Some (fs_files fs !! (root ++ ps ++ [p])))).
