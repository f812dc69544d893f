(** Named graphs, src/store/mod.rs:684-821: callers of [set_head], [force_set_head],
    [force_set_head_version] and [head_version].  Each caller calls the label store and looks at
    parent files step by step; other callers, and commits of new layers, come in between in any
    order.  What the label store answers is left open here: the steps consume its answers as
    events, and a label store adds which sequences of events it allows ([LabelConc],
    [LabelSeq]).  Loading the layer that the head points at is in [HeadLoad]; here [head_version]
    returns its name. *)
From Verif Require Import Prelude Names LabelConc.

Inductive hop :=
  | SetHead (n : bytes) (layer : lname)
  | ForceHead (n : bytes) (layer : lname)
  | ForceVersion (n : bytes) (layer : lname) (v : N)
  | HeadVersion (n : bytes).
Definition op_name (op : hop) : bytes :=
  match op with SetHead n _ | ForceHead n _ | ForceVersion n _ _ | HeadVersion n => n end.
(** the layer to set; [StoreLayer::name] *)
Definition op_layer (op : hop) : option lname :=
  match op with SetHead _ x | ForceHead _ x | ForceVersion _ x _ => Some x | HeadVersion _ => None end.

(** What a call returned: for [set_head], [force_set_head_version] a truth value, for
    [force_set_head] that it has returned, for [head_version] the name of the layer and the version *)
Inductive hres :=
  | RBool (b : bool)
  | RDone
  | RHead (layer : option lname) (v : N)
  | RErr
  | RPanic.

(** Where a caller is *)
Inductive hpc :=
  | HGet (op : hop)                          (* in get_label *)
  | HWalk (op : hop) (l : label) (a cur : lname)   (* in layer_is_ancestor_of, layer.rs:2219-2236 *)
  | HSet (op : hop) (l : label).             (* in set_label *)

(** The layers and the parent files, and the callers *)
Record hstate := HState {
  h_layers : gset lname;
  h_parents : gmap lname lname;
  h_threads : gmap tid hpc }.
Definition hstate_init : hstate := HState ∅ ∅ ∅.
Definition hgoto (s : hstate) (t : tid) (p : hpc) : hstate :=
  HState (h_layers s) (h_parents s) (<[t := p]> (h_threads s)).
Definition hleave (s : hstate) (t : tid) : hstate :=
  HState (h_layers s) (h_parents s) (delete t (h_threads s)).

(** What a step shows: the answer of the label store it consumes, and the return of a call *)
Record hitem := HItem { it_lev : option lev; it_ret : option (tid * hop * hres) }.

(** mod.rs:735-742, 771-775, 802-806: what follows when the label was read *)
Definition after_get (op : hop) (l : label) : hpc + hres :=
  match op with
  | SetHead n layer =>
      match lb_layer l with
      | None => inl (HSet op l)
      | Some a => inl (HWalk op l a layer)
      end
  | ForceHead n layer => inl (HSet op l)
  | ForceVersion n layer v => if (lb_version l =? v)%N then inl (HSet op l) else inr (RBool false)
  | HeadVersion n => inr (RHead (lb_layer l) (lb_version l))
  end.
(** mod.rs:744-753, 776-786, 807-815: what follows when [set_label] returned [Some] or [None] *)
Definition after_set (op : hop) (ok : bool) : hpc + hres :=
  match op with
  | ForceHead n layer => if ok then inr RDone else inl (HGet op)
  | _ => inr (RBool ok)
  end.
Definition continue (s : hstate) (t : tid) (x : hpc + hres) : hstate :=
  match x with inl p => hgoto s t p | inr _ => hleave s t end.
Definition returns (t : tid) (op : hop) (x : hpc + hres) : option (tid * hop * hres) :=
  match x with inl _ => None | inr r => Some (t, op, r) end.

Inductive hstep : hstate → hitem → hstate → Prop :=
  (* a layer is committed, with or without a parent *)
  | h_commit s x p :
      x ∉ h_layers s → match p with Some p => p ∈ h_layers s | None => True end →
      hstep s (HItem None None)
        (HState ({[x]} ∪ h_layers s) (match p with Some p => <[x := p]> (h_parents s) | None => h_parents s end) (h_threads s))
  (* calls on label stores that are not updates, by anyone *)
  | h_other s e :
      (∀ t l nl i r, e ≠ EvSet t l nl i r) → hstep s (HItem (Some e) None) s
  (* a call begins; the layer passed exists *)
  | h_call s t op :
      h_threads s !! t = None → match op_layer op with Some x => x ∈ h_layers s | None => True end →
      hstep s (HItem None None) (hgoto s t (HGet op))
  (* get_label returns *)
  | h_get s t op i l :
      h_threads s !! t = Some (HGet op) →
      hstep s (HItem (Some (EvGet t (op_name op) i (Ok (Some l)))) (returns t op (after_get op l)))
        (continue s t (after_get op l))
  | h_get_none s t op i :
      h_threads s !! t = Some (HGet op) →
      hstep s (HItem (Some (EvGet t (op_name op) i (Ok None))) (Some (t, op, RErr))) (hleave s t)
  | h_get_err s t op i k :
      h_threads s !! t = Some (HGet op) →
      hstep s (HItem (Some (EvGet t (op_name op) i (Err k))) (Some (t, op, RErr))) (hleave s t)
  (* layer_is_ancestor_of, layer.rs:2219-2236 *)
  | h_walk_found s t op l a :
      h_threads s !! t = Some (HWalk op l a a) → hstep s (HItem None None) (hgoto s t (HSet op l))
  | h_walk_up s t op l a cur p :
      h_threads s !! t = Some (HWalk op l a cur) → cur ≠ a → h_parents s !! cur = Some p →
      hstep s (HItem None None) (hgoto s t (HWalk op l a p))
  | h_walk_end s t op l a cur :
      h_threads s !! t = Some (HWalk op l a cur) → cur ≠ a → h_parents s !! cur = None →
      hstep s (HItem None (Some (t, op, RBool false))) (hleave s t)
  (* set_label returns *)
  | h_set s t op l layer nl i r :
      h_threads s !! t = Some (HSet op l) → op_layer op = Some layer →
      with_updated_layer l (Some layer) = Some nl →
      hstep s (HItem (Some (EvSet t l nl i (Ok r))) (returns t op (after_set op (bool_decide (is_Some r)))))
        (continue s t (after_set op (bool_decide (is_Some r))))
  | h_set_err s t op l layer nl i k :
      h_threads s !! t = Some (HSet op l) → op_layer op = Some layer →
      with_updated_layer l (Some layer) = Some nl →
      hstep s (HItem (Some (EvSet t l nl i (Err k))) (Some (t, op, RErr))) (hleave s t)
  (* the version overflows, label.rs:31 *)
  | h_set_panic s t op l layer :
      h_threads s !! t = Some (HSet op l) → op_layer op = Some layer →
      with_updated_layer l (Some layer) = None →
      hstep s (HItem None (Some (t, op, RPanic))) (hleave s t)
  (* the process stops and starts again *)
  | h_crash s : hstep s (HItem None None) (HState (h_layers s) (h_parents s) ∅).

Inductive hexec : list hitem → hstate → Prop :=
  | hexec_nil : hexec [] hstate_init
  | hexec_step its s it s' : hexec its s → hstep s it s' → hexec (its ++ [it]) s'.
