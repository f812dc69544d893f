(** Vocabulary for stating what becomes of an update of a named graph.  Definitions only. *)
From Verif Require Import Prelude Succinct TripleFiles Merge Layer Builder Rollup Squash MergeBase Names Spec LabelConc LabelSpec Head HeadSpec
  Store SpecStore.

(** [newer ++ older] are the layers of a graph, the newest first.  One of the [newer] ones takes the triple away: the
    graph shows it just before that layer and not just after it. *)
Definition taken_away (newer older : list (lname * layer)) (vt : vtriple) : Prop :=
  ∃ above e below T T', newer = above ++ e :: below ∧ shown (below ++ older).*2 = Some T ∧
    shown (e :: below ++ older).*2 = Some T' ∧ vt ∈ T ∧ vt ∉ T'.
(** One of the [newer] ones puts it in. *)
Definition put_in (newer older : list (lname * layer)) (vt : vtriple) : Prop :=
  ∃ above e below T T', newer = above ++ e :: below ∧ shown (below ++ older).*2 = Some T ∧
    shown (e :: below ++ older).*2 = Some T' ∧ vt ∉ T ∧ vt ∈ T'.
(** A caller was told that the layer [x] is now the head of the graph [n]. *)
Definition told (n : bytes) (x : lname) (its : list hitem) : Prop :=
  ∃ it t, it ∈ its ∧ it_ret it = Some (t, SetHead n x, RBool true).
(** The graph [n] has the head [y]. *)
Definition head_now (n : bytes) (its : list hitem) (y : lname) : Prop :=
  ∃ l, label_after n its (Some l) ∧ lb_layer l = Some y.
(** The layer [y] carries on from the layer [x] in the store [s]: it has the layers of [x], and [newer] ones.  Every
    triple of [x] is there, unless a newer layer takes it away; no triple is there that [x] does not have, unless a newer
    layer puts it in. *)
Record carries_on (s : store) (x y : lname) (newer older : list (lname * layer)) (T T' : list vtriple) : Prop := {
  co_older : stored s x older;
  co_all : stored s y (newer ++ older);
  co_before : shown older.*2 = Some T;
  co_after : shown (newer ++ older).*2 = Some T';
  co_kept : ∀ vt, vt ∈ T → vt ∈ T' ∨ taken_away newer older vt;
  co_new : ∀ vt, vt ∈ T' → vt ∈ T ∨ put_in newer older vt }.
