(** Model of rolling up layers: merging their dictionaries, building the id maps and writing
    the net changes (src/storage/delta.rs, src/layer/id_map.rs).  [None] is a panic. *)
From Verif Require Import Prelude Succinct TripleFiles Merge Layer Builder.

(** ** Merging sorted lists.  tdb-succinct [util::sorted_iterator]: repeatedly take the
    smallest head, the first one among equals (id_map.rs:137-153, [min_by]). *)
Section kmerge.
  Context {A K : Type} `{Ord K} (key : A → K).
  Fixpoint pick (ls : list (list A)) : option (A * list (list A)) :=
    match ls with
    | [] => None
    | [] :: ls' => '(x, r) ← pick ls'; Some (x, [] :: r)
    | (y :: l) :: ls' =>
        match pick ls' with
        | None => Some (y, l :: ls')
        | Some (x, r) => if decide (olt (key x) (key y)) then Some (x, (y :: l) :: r) else Some (y, l :: ls')
        end
    end.
  Fixpoint kmerge_loop (fuel : nat) (ls : list (list A)) : list A :=
    match fuel with
    | 0 => []
    | S f => match pick ls with None => [] | Some (x, r) => x :: kmerge_loop f r end
    end.
  Definition kmerge (ls : list (list A)) : list A := kmerge_loop (length (mjoin ls)) ls.
End kmerge.

(** tdb-succinct [merge_string_dictionaries], [merge_typed_dictionaries] *)
Definition merge_dicts {A} `{Ord A} (ds : list (list A)) : list A := kmerge (λ x, x) ds.

(** ** Id maps, id_map.rs:78-182.  Layers are listed from the bottom up, each with the id map
    used for it. *)
(** id_map.rs:97-102, 113-118, 127-132: the entries of one dictionary with their ids in the
    rolled up layer, before the subtraction of 1 *)
Fixpoint entries {A} (m : option (list nat)) (off i : nat) (d : list A) : option (list (nat * A)) :=
  match d with
  | [] => Some []
  | e :: d' => id ← inner_to_outer m (S i); r ← entries m off (S i) d'; Some ((id + off, e) :: r)
  end.
(** id_map.rs:92-136.  [dic] is the dictionary of a layer, [shift] the number of ids that the
    layer gives to other strings first, [size] the number of all its ids. *)
Fixpoint entry_iters {A} (dic : layer → list A) (shift size : layer → nat) (off : nat)
    (ls : list (layer * option (list nat))) : option (list (list (nat * A))) :=
  match ls with
  | [] => Some []
  | (l, m) :: ls' =>
      es ← entries m off (shift l) (dic l);
      r ← entry_iters dic shift size (off + size l) ls';
      Some (es :: r)
  end.
Definition node_iters := entry_iters l_nodes (λ _, 0) l_nv 0.
Definition value_iters := entry_iters l_vals (λ l, length (l_nodes l)) l_nv 0.
Definition pred_iters := entry_iters l_preds (λ _, 0) (λ l, length (l_preds l)) 0.
(** id_map.rs:155-162: [id - 1], in the order of the merged dictionary *)
Definition merged_ids {A} `{Ord A} (its : list (list (nat * A))) : list nat :=
  (λ e, e.1 - 1) <$> kmerge snd its.

(** The dictionaries and id maps of a rollup of the layers [ls]; [nvms] and [pms] are the id
    maps the code passes for them. *)
Definition rollup_dicts (ls : list layer) (nvms pms : list (option (list nat)))
    (pos : tfiles) (neg : option tfiles) : option layer :=
  nis ← node_iters (zip ls nvms);
  vis ← value_iters (zip ls nvms);
  pis ← pred_iters (zip ls pms);
  Some (Layer (merge_dicts (l_nodes <$> ls)) (merge_dicts (l_preds <$> ls)) (merge_dicts (l_vals <$> ls))
          (Some (merged_ids nis ++ merged_ids vis)) (Some (merged_ids pis)) pos neg).

(** delta.rs:221-243, 270-299 [delta_rollup]: a base layer that replaces the stack *)
Definition rollup (st : stack) : option layer :=
  let ls := reverse st in
  ts ← triples st;
  pos ← build_tfiles false ts;
  rollup_dicts ls (l_nvmap <$> ls) (l_pmap <$> ls) pos None.

(** The changes written by a partial rollup, delta.rs:345-361, 398-428 *)
Definition rollup_changes (st : stack) : option (tfiles * tfiles) :=
  cs ← stack_changes st;
  pos ← build_tfiles true (snd <$> filter (λ c, c.1 = true) cs);
  neg ← build_tfiles true (snd <$> filter (λ c, c.1 = false) cs);
  Some (pos, neg).

(** delta.rs:142-219, 367-434 [delta_rollup_upto]: a child layer that replaces the layers
    above [upto].  [mem] are the loaded layers above the bound, [disk] the layers as they are
    on disk from the bound down to [upto], both from the top down.  delta.rs:192-200 passes the
    node and value id maps of the loaded layers where their predicate id maps are needed. *)
Definition rollup_upto (mem disk : stack) : option layer :=
  let ls := reverse (mem ++ disk) in
  '(pos, neg) ← rollup_changes (reverse disk ++ mem);
  rollup_dicts ls (l_nvmap <$> ls) ((l_pmap <$> reverse disk) ++ (l_nvmap <$> reverse mem)) pos (Some neg).
(** delta.rs:245-268, 301-365 [imprecise_delta_rollup_upto]: only the loaded layers above the
    bound *)
Definition imprecise_rollup_upto (mem : stack) : option layer :=
  let ls := reverse mem in
  '(pos, neg) ← rollup_changes mem;
  rollup_dicts ls (l_nvmap <$> ls) (l_pmap <$> ls) pos (Some neg).
