(** Named graphs with a record of when calls begin and return, src/store/mod.rs:695-855.  The steps of [head_version], [set_head],
    [force_set_head] and [force_set_head_version] are those of Head.v; here they go together with [Store::create], [open] and [delete],
    which make one call on the label store each, and every call on the label store takes time: it begins, and returns later. *)
From Verif Require Import Prelude Names LabelSeq LabelConc LabelTimed SpecLinear Head.

(** mod.rs:838-855; [NamedGraph::delete], mod.rs:818-820, is [Delete] *)
Inductive gop :=
  | Graph (op : hop)
  | Create (n : bytes)
  | Open (n : bytes)
  | Delete (n : bytes).
Definition gop_name (o : gop) : bytes := match o with Graph op => op_name op | Create n | Open n | Delete n => n end.
(** What a call returned: one of Head.v; that the graph was created; whether the graph was there to be opened or deleted; an error *)
Inductive gres :=
  | GHead (r : hres)
  | GDone
  | GFound (b : bool)
  | GErr.
(** the call on the label store that a graph is created, opened, deleted with, and what becomes of its answer *)
Definition direct_call (o : gop) : option lcall :=
  match o with Graph _ => None | Create n => Some (CCreate n) | Open n => Some (CGet n) | Delete n => Some (CDelete n) end.
Definition direct_res (e : lev) : gres :=
  match e with
  | EvCreate _ _ _ (Ok _) => GDone
  | EvGet _ _ _ (Ok (Some _)) => GFound true
  | EvGet _ _ _ (Ok None) => GFound false
  | EvDelete _ _ b => GFound b
  | _ => GErr
  end.

(** The layers and the callers of Head.v, the other callers, and the calls on the label store that have begun *)
Record gstate := GState { g_heads : hstate; g_direct : gmap tid gop; g_pend : gmap tid lcall }.
Definition gstate_init : gstate := GState hstate_init ∅ ∅.
(** the call on the label store that is to be made next *)
Definition next_call (g : gstate) (t : tid) : option lcall :=
  match h_threads (g_heads g) !! t with
  | Some (HGet op) => Some (CGet (op_name op))
  | Some (HSet op l) => Some (CSet l (op_layer op))
  | Some (HWalk _ _ _ _) => None
  | None => g_direct g !! t ≫= direct_call
  end.
(** A call begins; a call on the label store begins or returns; a call returns *)
Inductive nitem :=
  | Starts (t : tid) (o : gop)
  | OnLabel (x : titem)
  | Returns (t : tid) (o : gop) (r : gres).
Definition ret_items (r : option (tid * hop * hres)) : list nitem :=
  match r with Some (t, op, r) => [Returns t (Graph op) (GHead r)] | None => [] end.

Inductive gexec : list nitem → gstate → Prop :=
  | gexec_nil : gexec [] gstate_init
  (* a call of Head.v begins *)
  | gexec_call tr h d p t op :
      gexec tr (GState h d p) → d !! t = None → h_threads h !! t = None →
      match op_layer op with Some x => x ∈ h_layers h | None => True end →
      gexec (tr ++ [Starts t (Graph op)]) (GState (hgoto h t (HGet op)) d p)
  (* create, open or delete begins *)
  | gexec_direct tr h d p t o c :
      gexec tr (GState h d p) → d !! t = None → h_threads h !! t = None → direct_call o = Some c →
      gexec (tr ++ [Starts t o]) (GState h (<[t := o]> d) p)
  (* a call on the label store begins *)
  | gexec_begin tr h d p t c :
      gexec tr (GState h d p) → next_call (GState h d p) t = Some c → p !! t = None →
      gexec (tr ++ [OnLabel (Begins t c)]) (GState h d (<[t := c]> p))
  (* a call on the label store returns; the call that made it goes on, or returns *)
  | gexec_end tr h d p c e r h' q :
      gexec tr (GState h d p) → p !! ev_tid e = Some c → answers c e → h_threads h !! ev_tid e = Some q →
      hstep h (HItem (Some e) r) h' → (∀ u, u ≠ ev_tid e → h_threads h' !! u = h_threads h !! u) → h_threads h' !! ev_tid e ≠ Some q →
      gexec (tr ++ OnLabel (Ends e) :: ret_items r) (GState h' d (delete (ev_tid e) p))
  | gexec_direct_end tr h d p c e o :
      gexec tr (GState h d p) → p !! ev_tid e = Some c → answers c e → d !! ev_tid e = Some o →
      gexec (tr ++ [OnLabel (Ends e); Returns (ev_tid e) o (direct_res e)]) (GState h (delete (ev_tid e) d) (delete (ev_tid e) p))
  (* a layer is committed; a caller looks at a parent file, or panics *)
  | gexec_silent tr h d p r h' :
      gexec tr (GState h d p) → hstep h (HItem None r) h' → (∀ t, h_threads h !! t = None → h_threads h' !! t = None) →
      (∀ t, is_Some (p !! t) → h_threads h' !! t = h_threads h !! t) →
      gexec (tr ++ ret_items r) (GState h' d p).
Definition label_items (tr : list nitem) : list titem := omap (λ x, match x with OnLabel y => Some y | _ => None end) tr.
