(** [head_version], src/store/mod.rs:699-727, with the loading of the layer that the label names, and calls that are given
    a layer of another store: [set_head], [force_set_head] and [force_set_head_version] (mod.rs:734-816) take the name of
    any [StoreLayer] and do not look at the store it belongs to.  The other steps are those of [Head.v].
    Loading is one step: a layer that is in the store loads (C14, C38, C47), one that is not gives [None].
    A caller that loads may go on after a crash here, which allows more runs than there are. *)
From Verif Require Import Prelude Names LabelConc Head.

(** The callers that have read a label and load the layer: the name of the graph, the layer, the version *)
Notation loading := (gmap tid (bytes * lname * N)) (only parsing).
Notation fstate := (hstate * gmap tid (bytes * lname * N))%type (only parsing).
Inductive fev :=
  | FItem (it : hitem)                              (* a step of [Head.v]; a head without a layer is returned at once *)
  | FForeign (t : tid) (op : hop)                   (* a call begins with a layer that may be of another store *)
  | FHead (t : tid) (n : bytes) (x : lname) (v : N) (* [head_version] returns a layer *)
  | FMissing (t : tid) (n : bytes) (x : lname).     (* mod.rs:713-719: the layer is not found *)
Definition head_read (it : hitem) : option (tid * (bytes * lname * N)) :=
  match it_ret it with Some (t, HeadVersion n, RHead (Some x) v) => Some (t, (n, x, v)) | _ => None end.

Inductive fstep : fstate → fev → fstate → Prop :=
  | f_step h ld it h' : hstep h it h' → (∀ t, is_Some (ld !! t) → h_threads h' !! t = None) →
      fstep (h, ld) (FItem it) (h', match head_read it with Some (t, x) => <[t := x]> ld | None => ld end)
  | f_foreign h ld t op x : h_threads h !! t = None → ld !! t = None → op_layer op = Some x →
      fstep (h, ld) (FForeign t op) (hgoto h t (HGet op), ld)
  (* the parent of a layer that is not there is asked for; some stores say that it has none ([h_walk_end]) *)
  | f_walk_missing h ld t op l a cur : h_threads h !! t = Some (HWalk op l a cur) → cur ≠ a → cur ∉ h_layers h →
      fstep (h, ld) (FItem (HItem None (Some (t, op, RErr)))) (hleave h t, ld)
  | f_loaded h ld t n x v : ld !! t = Some (n, x, v) → x ∈ h_layers h → fstep (h, ld) (FHead t n x v) (h, delete t ld)
  | f_missing h ld t n x v : ld !! t = Some (n, x, v) → x ∉ h_layers h → fstep (h, ld) (FMissing t n x) (h, delete t ld).
Inductive fexec : list fev → fstate → Prop :=
  | fexec_nil : fexec [] (hstate_init, ∅)
  | fexec_step tr s e s' : fexec tr s → fstep s e s' → fexec (tr ++ [e]) s'.
