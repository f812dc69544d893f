(** Vocabulary for readers without locks.  Definitions only. *)
From Verif Require Import Prelude Names LabelConc LabelNoLock.

(** the calls other than reading *)
Definition is_get (e : lev) : bool := match e with EvGet _ _ _ _ => true | _ => false end.
Definition no_gets (tr : list lev) : list lev := filter (λ e, is_get e = false) tr.
(** who made a call *)
Definition caller (e : lev) : tid := match e with EvGet t _ _ _ | EvSet t _ _ _ _ | EvCreate t _ _ _ | EvDelete t _ _ => t end.
(** steps during which the file [i] has the text [d] *)
Inductive nquiet (i : ino) (d : bytes) : lstate * gmap tid reader → list lev → lstate * gmap tid reader → Prop :=
  | nquiet_here s : i_data <$> s_inodes s.1 !! i = Some d → nquiet i d s [] s
  | nquiet_step s e s1 es s' : i_data <$> s_inodes s.1 !! i = Some d → nstep s e s1 → nquiet i d s1 es s' →
      nquiet i d s (option_list e ++ es) s'.
