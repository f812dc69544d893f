(** Vocabulary for stating what a failing disk does to labels.  Definitions only. *)
From Verif Require Import Prelude Names LabelSeq LabelFault.

(** the call returned an error or panicked *)
Definition failed (r : lres) : Prop :=
  match r with
  | RCreate (Err _ | Panic) | RGet (Err _ | Panic) | RSet (Err _ | Panic) | RDelete (Err _ | Panic) | RLabels (Err _ | Panic) => True
  | _ => False
  end.
(** the call says that it has made or updated a label *)
Definition wrote (r : lres) : Prop :=
  match r with RCreate (Ok _) | RSet (Ok (Some _)) => True | _ => False end.
(** the label that a call is about; listing the labels is about all *)
Definition about (c : lcall) (n : bytes) : Prop :=
  match c with CCreate m | CGet m | CDelete m => m = n | CSet l _ => lb_name l = n | CLabels => True end.
(** calls without a fault *)
Definition later {St} (call : St → lcall → lres * St) (s : St) (cs : list lcall) : list (lcall * lres) := zip cs (fst (run call s cs)).
