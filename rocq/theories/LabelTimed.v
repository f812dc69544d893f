(** The callers of the directory label store (LabelConc.v), with a record of when calls begin and return. *)
From Verif Require Import Prelude Names LabelSeq LabelConc.

(** directory.rs:219-306: a call begins or returns *)
Inductive titem :=
  | Begins (t : tid) (c : lcall)
  | Ends (e : lev).
(** where a call begins; label.rs:28-34 is evaluated first for an update *)
Definition begins (c : lcall) (p : pc) : Prop :=
  match c, p with
  | CGet n, PGetOpen m => m = n
  | CSet l layer, PSetOpen m nl => m = l ∧ with_updated_layer l layer = Some nl
  | CCreate n, PCreStat m => m = n
  | CDelete n, PDel m => m = n
  | _, _ => False
  end.
Inductive texec : list titem → lstate → Prop :=
  | texec_nil : texec [] lstate_init
  | texec_begin tr s t c p :
      texec tr s → s_threads s !! t = None → begins c p → lstep s None (goto s t p) → texec (tr ++ [Begins t c]) (goto s t p)
  | texec_step tr s e s' :
      texec tr s → lstep s e s' → (∀ t, s_threads s !! t = None → s_threads s' !! t = None) → texec (tr ++ option_list (Ends <$> e)) s'.
