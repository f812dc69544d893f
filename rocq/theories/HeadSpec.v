(** What the properties of named graphs say. *)
From Verif Require Import Prelude Names LabelConc LabelSpec Head.

(** [a] is [x] or an ancestor of [x] *)
Definition ancestor (s : hstate) (a x : lname) : Prop := rtc (λ x y, h_parents s !! x = Some y) x a.
(** the calls on the label store *)
Definition levs (its : list hitem) : list lev := omap it_lev its.
(** the label [n] after these calls, if they go as the label store promises *)
Definition label_after (n : bytes) (its : list hitem) (c : option label) : Prop :=
  history name_reg None (on_name n (levs its)) c.
(** the label store answers as it promises: [get_label] returns labels of the name asked for, and
    the calls on [n] are those on a compare-and-swap register *)
Record serves (n : bytes) (its : list hitem) : Prop := {
  serves_names it t m i l : it ∈ its → it_lev it = Some (EvGet t m i (Ok (Some l))) → lb_name l = m;
  serves_history : ∃ c, label_after n its c }.
(** the heads a named graph is given, one after the other *)
Definition head_of (n : bytes) (e : lev) : option lname :=
  match e with EvSet _ l nl _ (Ok (Some _)) => if decide (lb_name l = n) then lb_layer nl else None | _ => None end.
Definition heads (n : bytes) (its : list hitem) : list lname := omap (head_of n) (levs its).
(** all callers that update the named graph use [set_head] *)
Definition only_set_head (n : bytes) (its : list hitem) : Prop :=
  ∀ it t op r, it ∈ its → it_ret it = Some (t, op, r) → op_name op = n → (∃ x, op = SetHead n x) ∨ op = HeadVersion n.
(** [l] was the label at some point *)
Definition seen (n : bytes) (its : list hitem) (l : label) : Prop := ∃ pre post, its = pre ++ post ∧ label_after n pre (Some l).
