(** Vocabulary for listings of labels.  Definitions only. *)
From Verif Require Import Prelude Names LabelConc LabelSpec LabelList.

(** The calls, where reading an entry is a call of [get_label] *)
Definition calls (tr : list xev) : list lev := omap (λ x, match x with XCall e | XEntry e => Some e | _ => None end) tr.
(** The labels that a listing has read, in order *)
Definition entries (t : tid) (tr : list xev) : list label :=
  omap (λ x, match x with XEntry (EvGet u _ _ (Ok (Some l))) => if decide (u = t) then Some l else None | _ => None end) tr.
(** [t] lists the labels: the directory is [dir] when it begins, [mid] happens, and then it returns [r] *)
Definition listing (tr : list xev) (t : tid) (pre : list xev) (dir : gmap bytes ino) (mid : list xev) (r : outcome (list label)) : Prop :=
  (∃ post, tr = pre ++ XBegin t dir :: mid ++ XList t r :: post) ∧ ∀ dir', XBegin t dir' ∉ mid.
(** A label is deleted *)
Definition xdeleted (n : bytes) (tr : list xev) : Prop := ∃ u, XCall (EvDelete u n true) ∈ tr.
(** A label is updated, in the file [i] *)
Definition xupdated (i : ino) (tr : list xev) : Prop := ∃ u l nl, XCall (EvSet u l nl (Some i) (Ok (Some nl))) ∈ tr.
(** The creation of the label in the file [i] has returned *)
Definition xcreated (i : ino) (tr : list xev) : Prop := ∃ u n l, XCall (EvCreate u n (Some i) (Ok l)) ∈ tr.
