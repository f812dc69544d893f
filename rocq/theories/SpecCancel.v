(** What callers see of one label when calls may be given up.  Definitions only. *)
From Verif Require Import Prelude Names LabelConc LabelSpec LabelCancel.

(** the file a call worked on *)
Definition xev_ino (e : xlev) : option ino :=
  match e with
  | Returned e => ev_ino e
  | StopGet _ _ i _ | StopSet _ _ _ i _ | StopCreate _ _ i _ => i
  | StopDelete _ _ => None
  end.
Definition xon_file (i : ino) (tr : list xlev) : list xlev := filter (λ e, xev_ino e = Some i) tr.
(** the calls that returned *)
Fixpoint returned (tr : list xlev) : list lev :=
  match tr with [] => [] | Returned e :: tr => e :: returned tr | _ :: tr => returned tr end.

(** One call on a file.  The state is the label, or nothing when the file does not hold one: then reading and updating fail. *)
Inductive xreg : option label → xlev → option label → Prop :=
  | xreg_returned c e c' : reg c e c' → xreg c (Returned e) c'
  | xreg_get_fails t n i k : xreg None (Returned (EvGet t n i (Err k))) None
  | xreg_set_fails t l nl i k : xreg None (Returned (EvSet t l nl i (Err k))) None
  | xreg_stop_get c t n i r : xreg c (StopGet t n i r) c
  (* an update that was given up has not happened, or has happened, or the label is lost *)
  | xreg_set_before c t l nl i r : xreg c (StopSet t l nl i r) c
  | xreg_set_after l nl t i r : updates l nl → xreg (Some l) (StopSet t l nl i r) (Some nl)
  | xreg_set_lost l nl t i r : xreg (Some l) (StopSet t l nl i r) None
  (* a creation that was given up has happened or has left a file without a label *)
  | xreg_create_before t n i r : xreg None (StopCreate t n i r) None
  | xreg_create_after t n i r : xreg None (StopCreate t n i r) (Some (Label n None 0)).
Inductive xhistory : option label → list xlev → option label → Prop :=
  | xhistory_nil c : xhistory c [] c
  | xhistory_cons c e c' es c'' : xreg c e c' → xhistory c' es c'' → xhistory c (e :: es) c''.

(** the call failed *)
Definition fails (e : lev) : Prop :=
  match e with EvGet _ _ _ r => ∃ k, r = Err k | EvSet _ _ _ _ r => ∃ k, r = Err k | EvCreate _ _ _ r => ∃ k, r = Err k | EvDelete _ _ _ => False end.

(** the points at which a call has not begun to change anything *)
Definition unchanged_yet (p : pc) : Prop :=
  match p with PSetWrite _ _ _ _ _ | PCreLock _ _ | PCreWrite _ _ _ _ | PDel _ => False | _ => True end.
(** any point *)
Definition anywhere (p : pc) : Prop := True.

(** What a caller has asked for, and the call that an event says was given up *)
Inductive asked := AskGet (n : bytes) | AskSet (l nl : label) | AskCreate (n : bytes) | AskDelete (n : bytes).
Definition asks (p : pc) : asked :=
  match p with
  | PGetOpen n | PGetLock n _ | PGetRead n _ | PGetDone n _ _ => AskGet n
  | PSetOpen l nl | PSetLock l nl _ | PSetRead l nl _ | PSetGot l nl _ _ | PSetWrite l nl _ _ _ => AskSet l nl
  | PCreStat n | PCreOpen n | PCreLock n _ | PCreWrite n _ _ _ => AskCreate n
  | PDel n => AskDelete n
  end.
Definition given_up (e : xlev) : option (tid * asked) :=
  match e with
  | Returned _ => None
  | StopGet t n _ _ => Some (t, AskGet n)
  | StopSet t l nl _ _ => Some (t, AskSet l nl)
  | StopCreate t n _ _ => Some (t, AskCreate n)
  | StopDelete t n => Some (t, AskDelete n)
  end.
