(** Model of a loaded layer and its ancestors (src/layer/internal/mod.rs, src/layer/layer.rs,
    src/layer/id_map.rs).  [None] at the outermost option is a panic. *)
From Verif Require Import Prelude Succinct TripleFiles Merge.

(** A string is its list of bytes.  A value ([TypedDictEntry] of tdb-succinct) is the number
    of its data type and its bytes.  layer.rs:370 [ObjectType]: [inl] is a node, [inr] a
    value. *)
Definition str : Type := list nat.
Definition val : Type := nat * list nat.
Definition obj : Type := str + val.
(** layer.rs:204 [ValueTriple] *)
Definition vtriple : Type := str * str * obj.

(** One layer, without its parent: internal/base.rs:24-41, internal/child.rs:24-52.
    [BaseLayer], [ChildLayer] and [RollupLayer] are read through the accessors of
    internal/mod.rs:69-255 only; a base layer has no negative files.  The counts of the
    parent that a child layer stores are computed from the parent when it is loaded
    (child.rs:91-97), so they are computed from the stack here. *)
Record layer := Layer {
  l_nodes : list str; l_preds : list str; l_vals : list val;
  l_nvmap : option (list nat); l_pmap : option (list nat);
  l_pos : tfiles; l_neg : option tfiles }.

(** A layer with all its [immediate_parent]s (mod.rs:50): the layer itself comes first, the
    layer without a parent last. *)
Notation stack := (list layer) (only parsing).

(** ** Id maps, id_map.rs:31-56 *)
Definition outer_to_inner (m : option (list nat)) (id : nat) : option nat :=
  match m with
  | None => Some id
  | Some w =>
      if decide (length w < id) then Some id
      else match id with 0 => None | S i => S <$> wt_lookup_one w i end
  end.
Definition inner_to_outer (m : option (list nat)) (id : nat) : option nat :=
  match m with
  | None => Some id
  | Some w =>
      if decide (length w < id) then Some id
      else match id with 0 => None | S i => S <$> wt_decode_one w i end
  end.

(** ** Counts, mod.rs:546-554 *)
Definition l_nv (l : layer) : nat := length (l_nodes l) + length (l_vals l).
Fixpoint nv_count (st : stack) : nat :=
  match st with [] => 0 | l :: st' => nv_count st' + length (l_nodes l) + length (l_vals l) end.
Fixpoint pred_count (st : stack) : nat :=
  match st with [] => 0 | l :: st' => pred_count st' + length (l_preds l) end.
(** mod.rs:807-823 *)
Fixpoint all_counts (st : stack) : nat * nat * nat :=
  match st with
  | [] => (0, 0, 0)
  | l :: st' =>
      let '(n, p, v) := all_counts st' in
      (length (l_nodes l) + n, length (l_preds l) + p, length (l_vals l) + v)
  end.

(** ** Strings to ids, mod.rs:556-627.  The inner option is the result of the function. *)
Fixpoint subject_id (st : stack) (s : str) : option (option nat) :=
  match st with
  | [] => Some None
  | l :: st' =>
      match dict_id (l_nodes l) s with
      | Some id => id' ← inner_to_outer (l_nvmap l) id; Some (Some (id' + nv_count st'))
      | None => subject_id st' s
      end
  end.
Fixpoint predicate_id (st : stack) (s : str) : option (option nat) :=
  match st with
  | [] => Some None
  | l :: st' =>
      match dict_id (l_preds l) s with
      | Some id => id' ← inner_to_outer (l_pmap l) id; Some (Some (id' + pred_count st'))
      | None => predicate_id st' s
      end
  end.
(** mod.rs:592-608, a copy of [subject_id] *)
Definition object_node_id := subject_id.
Fixpoint object_value_id (st : stack) (v : val) : option (option nat) :=
  match st with
  | [] => Some None
  | l :: st' =>
      match dict_id (l_vals l) v with
      | Some id =>
          id' ← inner_to_outer (l_nvmap l) (id + length (l_nodes l));
          Some (Some (id' + nv_count st'))
      | None => object_value_id st' v
      end
  end.

(** ** Ids to strings, mod.rs:629-779.  The loop keeps the number of ids of the layers below
    in [parent_count]; the subtractions cannot underflow because [parent_count] starts as the
    sum over the whole stack. *)
Fixpoint id_subject_loop (st : stack) (id parent_count : nat) : option (option str) :=
  match st with
  | [] => Some None
  | l :: [] => i ← outer_to_inner (l_nvmap l) id; Some (dict_get (l_nodes l) i)
  | l :: st' =>
      let parent_count := parent_count - length (l_nodes l) - length (l_vals l) in
      if decide (parent_count < id) then
        i ← outer_to_inner (l_nvmap l) (id - parent_count); Some (dict_get (l_nodes l) i)
      else id_subject_loop st' id parent_count
  end.
Definition id_subject (st : stack) (id : nat) : option (option str) :=
  if decide (id = 0) then Some None else id_subject_loop st id (nv_count st).

Fixpoint id_predicate_loop (st : stack) (id parent_count : nat) : option (option str) :=
  match st with
  | [] => Some None
  | l :: [] => i ← outer_to_inner (l_pmap l) id; Some (dict_get (l_preds l) i)
  | l :: st' =>
      let parent_count := parent_count - length (l_preds l) in
      if decide (parent_count < id) then
        i ← outer_to_inner (l_pmap l) (id - parent_count); Some (dict_get (l_preds l) i)
      else id_predicate_loop st' id parent_count
  end.
Definition id_predicate (st : stack) (id : nat) : option (option str) :=
  if decide (id = 0) then Some None else id_predicate_loop st id (pred_count st).

(** mod.rs:712-727 *)
Definition layer_object (l : layer) (id : nat) : option (option obj) :=
  i ← outer_to_inner (l_nvmap l) id;
  if decide (length (l_nodes l) < i) then
    Some (inr <$> dict_get (l_vals l) (i - length (l_nodes l)))
  else Some (inl <$> dict_get (l_nodes l) i).
Fixpoint id_object_loop (st : stack) (id parent_count : nat) : option (option obj) :=
  match st with
  | [] => Some None
  | l :: [] => layer_object l id
  | l :: st' =>
      let parent_count := parent_count - length (l_nodes l) - length (l_vals l) in
      if decide (parent_count < id) then layer_object l (id - parent_count)
      else id_object_loop st' id parent_count
  end.
Definition id_object (st : stack) (id : nat) : option (option obj) :=
  if decide (id = 0) then Some None else id_object_loop st id (nv_count st).

(** mod.rs:755-776 *)
Definition layer_is_node (l : layer) (id : nat) : option (option bool) :=
  i ← outer_to_inner (l_nvmap l) id;
  Some (if decide (length (l_nodes l) + length (l_vals l) < i) then None
        else if decide (length (l_nodes l) < i) then Some false else Some true).
Fixpoint id_object_is_node_loop (st : stack) (id parent_count : nat) : option (option bool) :=
  match st with
  | [] => Some None
  | l :: [] => layer_is_node l id
  | l :: st' =>
      let parent_count := parent_count - length (l_nodes l) - length (l_vals l) in
      if decide (parent_count < id) then layer_is_node l (id - parent_count)
      else id_object_is_node_loop st' id parent_count
  end.
Definition id_object_is_node (st : stack) (id : nat) : option (option bool) :=
  if decide (id = 0) then Some None else id_object_is_node_loop st id (nv_count st).
(** layer.rs:64-66 *)
Definition id_object_is_value (st : stack) (id : nat) : option (option bool) :=
  r ← id_object_is_node st id; Some (option_map negb r).
(** layer.rs:41-54; the [expect]s panic on an object of the other kind *)
Definition id_object_node (st : stack) (id : nat) : option (option str) :=
  r ← id_object st id;
  match r with None => Some None | Some (inl s) => Some (Some s) | Some (inr _) => None end.
Definition id_object_value (st : stack) (id : nat) : option (option val) :=
  r ← id_object st id;
  match r with None => Some None | Some (inr v) => Some (Some v) | Some (inl _) => None end.

(** ** Additions and removals of one layer, mod.rs:257-485 *)
Definition addition_exists (l : layer) (t : triple) : option bool := layer_triple_exists (l_pos l) t.
Definition removal_exists (l : layer) (t : triple) : option bool :=
  match l_neg l with None => Some false | Some tf => layer_triple_exists tf t end.
Definition addition_count (l : layer) : option nat := tf_count (l_pos l).
Definition removal_count (l : layer) : option nat :=
  match l_neg l with None => Some 0 | Some tf => tf_count tf end.
Definition l_additions (l : layer) : option (list triple) := tf_triples (l_pos l).
Definition l_removals (l : layer) : option (list triple) :=
  match l_neg l with None => Some [] | Some tf => tf_triples tf end.
Definition l_additions_s (l : layer) (s : nat) : option (list triple) := tf_triples_s (l_pos l) s.
Definition l_removals_s (l : layer) (s : nat) : option (list triple) :=
  match l_neg l with None => Some [] | Some tf => tf_triples_s tf s end.
Definition l_additions_sp (l : layer) (s p : nat) : option (list triple) := tf_triples_sp (l_pos l) s p.
Definition l_removals_sp (l : layer) (s p : nat) : option (list triple) :=
  match l_neg l with None => Some [] | Some tf => tf_triples_sp tf s p end.
Definition l_additions_p (l : layer) (p : nat) : option (list triple) := tf_triples_p (l_pos l) p.
Definition l_removals_p (l : layer) (p : nat) : option (list triple) :=
  match l_neg l with None => Some [] | Some tf => tf_triples_p tf p end.
(** mod.rs:402-411, 424-433: these stop when the object changes, they do not compare it *)
Definition l_additions_o (l : layer) (o : nat) : option (list triple) := tf_triples_o_internal (l_pos l) o.
Definition l_removals_o (l : layer) (o : nat) : option (list triple) :=
  match l_neg l with None => Some [] | Some tf => tf_triples_o_internal tf o end.

(** ** Counts of triples, mod.rs:781-805, layer.rs:161-163 *)
Fixpoint addition_counts (st : stack) : option nat :=
  match st with
  | [] => Some 0
  | l :: st' => n ← addition_count l; m ← addition_counts st'; Some (n + m)
  end.
Fixpoint removal_counts (st : stack) : option nat :=
  match st with
  | [] => Some 0
  | l :: st' => n ← removal_count l; m ← removal_counts st'; Some (n + m)
  end.
(** the subtraction panics when it underflows *)
Definition triple_count (st : stack) : option nat :=
  a ← addition_counts st; r ← removal_counts st;
  if decide (r ≤ a) then Some (a - r) else None.

(** ** Existence, mod.rs:825-849 *)
Fixpoint exists_loop (st : stack) (t : triple) : option bool :=
  match st with
  | [] => Some false
  | l :: st' =>
      a ← addition_exists l t;
      if (a : bool) then Some true else
      r ← removal_exists l t;
      if (r : bool) then Some false else exists_loop st' t
  end.
Definition triple_exists (st : stack) (t : triple) : option bool :=
  if decide (t_s t = 0 ∨ t_p t = 0 ∨ t_o t = 0) then Some false else exists_loop st t.

(** ** Iteration over a stack, mod.rs:851-885.  The fuel bounds the number of stored
    triples. *)
Definition neg_fuel (l : layer) : nat := match l_neg l with None => 0 | Some tf => tf_fuel tf end.
Fixpoint stack_fuel (st : stack) : nat :=
  match st with [] => 1 | l :: st' => tf_fuel (l_pos l) + neg_fuel l + stack_fuel st' end.

(** subject_iterator.rs:225-246 *)
Definition sit_from (st : stack) : list (option sit) * list (option sit) :=
  ((λ l, Some (tf_iter (l_pos l))) <$> st, (λ l, tf_iter <$> l_neg l) <$> st).
Definition stack_collect (F : nat) (its : list (option sit) * list (option sit)) : option (list triple) :=
  collect (merged_next (λ t, t) (opt_next sit_next) (opt_next sit_peek) F) F its.
Definition triples (st : stack) : option (list triple) :=
  stack_collect (stack_fuel st) (sit_from st).
Definition triples_s (st : stack) (s : nat) : option (list triple) :=
  pos ← seek_all (λ it, sit_seek_subject it s) (sit_from st).1;
  neg ← seek_all (λ it, sit_seek_subject it s) (sit_from st).2;
  l ← stack_collect (stack_fuel st) (pos, neg);
  Some (take_while (λ t : triple, bool_decide (t_s t = s)) l).
Definition triples_sp (st : stack) (s p : nat) : option (list triple) :=
  pos ← seek_all (λ it, sit_seek_sp it s p) (sit_from st).1;
  neg ← seek_all (λ it, sit_seek_sp it s p) (sit_from st).2;
  l ← stack_collect (stack_fuel st) (pos, neg);
  Some (take_while (λ t : triple, bool_decide (t_s t = s ∧ t_p t = p)) l).
(** predicate_iterator.rs:122-145 *)
Definition pit_from (st : stack) (p : nat) : list (option pit) * list (option pit) :=
  ((λ l, tf_iter_p (l_pos l) p) <$> st, (λ l, tf ← l_neg l; tf_iter_p tf p) <$> st).
Definition triples_p (st : stack) (p : nat) : option (list triple) :=
  let F := stack_fuel st in
  collect (merged_next (λ t, t) (opt_next pit_next) (opt_next pit_peek) F) F (pit_from st p).
(** object_iterator.rs:189-222 *)
Definition oit_from (st : stack) : list (option oit) * list (option oit) :=
  ((λ l, Some (tf_iter_o (l_pos l) false)) <$> st, (λ l, (λ tf, tf_iter_o tf false) <$> l_neg l) <$> st).
Definition triples_o (st : stack) (o : nat) : option (list triple) :=
  let F := stack_fuel st in
  pos ← seek_all (λ it, oit_seek it o) (oit_from st).1;
  neg ← seek_all (λ it, oit_seek it o) (oit_from st).2;
  l ← collect (merged_next okey (opt_next oit_next) (opt_next oit_peek) F) F (pos, neg);
  Some (take_while (λ t : triple, bool_decide (t_o t = o)) l).

(** ** [single_triple_sp], mod.rs:887-957 *)
(** mod.rs:919-925: all objects from a position to the end of its run *)
Fixpoint run_objects (fuel : nat) (spo : adj) (pos : nat) : option (list nat) :=
  match fuel with
  | 0 => None
  | S f =>
      num ← num_at_pos spo pos;
      bit ← bit_at_pos spo pos;
      if (bit : bool) then Some [num] else r ← run_objects f spo (S pos); Some (num :: r)
  end.
(** mod.rs:938-951: the first object of the run that is not excluded *)
Fixpoint first_not_in (fuel : nat) (spo : adj) (pos : nat) (exclude : list nat) : option (option nat) :=
  match fuel with
  | 0 => None
  | S f =>
      num ← num_at_pos spo pos;
      if decide (num ∉ exclude) then Some (Some num)
      else bit ← bit_at_pos spo pos;
           if (bit : bool) then Some None else first_not_in f spo (S pos) exclude
  end.
Definition tf_position (tf : tfiles) (s p : nat) : option (option nat) :=
  sp_o_position (tf_subjects tf) (tf_sp tf) (tf_spo tf) s p.
Fixpoint single_loop (st : stack) (s p : nat) (exclude : list nat) : option (option triple) :=
  match st with
  | [] => Some None
  | l :: st' =>
      match st' with
      | [] => Some None
      | parent :: _ =>
          excl ← match l_neg l with
                 | None => Some []
                 | Some tf =>
                     pos ← tf_position tf s p;
                     match pos with
                     | None => Some []
                     | Some pos => run_objects (S (right_count (tf_spo tf))) (tf_spo tf) pos
                     end
                 end;
          pos ← tf_position (l_pos parent) s p;
          found ← match pos with
                  | None => Some None
                  | Some pos =>
                      first_not_in (S (right_count (tf_spo (l_pos parent)))) (tf_spo (l_pos parent))
                        pos (excl ++ exclude)
                  end;
          match found with
          | Some o => Some (Some (mkt s p o))
          | None => single_loop st' s p (excl ++ exclude)
          end
      end
  end.
Definition single_triple_sp (st : stack) (s p : nat) : option (option triple) :=
  match st with
  | [] => None
  | l :: _ =>
      pos ← tf_position (l_pos l) s p;
      match pos with
      | Some pos => o ← num_at_pos (tf_spo (l_pos l)) pos; Some (Some (mkt s p o))
      | None => single_loop st s p []
      end
  end.

(** ** Net changes of the topmost layers, subject_iterator.rs:329-453; [st] holds the layers
    above the ancestor *)
Definition stack_changes (st : stack) : option (list (bool * triple)) :=
  let F := stack_fuel st in
  collect (change_next (λ t, t) (opt_next sit_next) (opt_next sit_peek) F) F (sit_from st).

(** ** Triples of strings, layer.rs:83-152 *)
Definition object_id (st : stack) (o : obj) : option (option nat) :=
  match o with inl n => object_node_id st n | inr v => object_value_id st v end.
Definition value_triple_to_id (st : stack) (vt : vtriple) : option (option triple) :=
  s ← subject_id st vt.1.1;
  match s with
  | None => Some None
  | Some s =>
      p ← predicate_id st vt.1.2;
      match p with
      | None => Some None
      | Some p =>
          o ← object_id st vt.2;
          match o with None => Some None | Some o => Some (Some (mkt s p o)) end
      end
  end.
Definition value_triple_exists (st : stack) (vt : vtriple) : option bool :=
  t ← value_triple_to_id st vt;
  match t with None => Some false | Some t => triple_exists st t end.
Definition id_triple_to_string (st : stack) (t : triple) : option (option vtriple) :=
  s ← id_subject st (t_s t);
  match s with
  | None => Some None
  | Some s =>
      p ← id_predicate st (t_p t);
      match p with
      | None => Some None
      | Some p =>
          o ← id_object st (t_o t);
          match o with None => Some None | Some o => Some (Some ((s, p, o) : vtriple)) end
      end
  end.
