(** Vocabulary for heads that are loaded.  Definitions only. *)
From Verif Require Import Prelude Names LabelConc Head HeadLoad.

(** The answers of the label store *)
Definition answers (tr : list fev) : list lev := omap (λ e, match e with FItem it => it_lev it | _ => None end) tr.
(** The label store gives only labels without a layer and labels that an update, which has returned, has set *)
Definition faithful (evs : list lev) : Prop := ∀ pre t n i l post, evs = pre ++ EvGet t n i (Ok (Some l)) :: post →
  lb_layer l = None ∨ ∃ u l0 j, EvSet u l0 l j (Ok (Some l)) ∈ pre.
