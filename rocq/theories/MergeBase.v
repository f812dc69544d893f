(** Model of merging base layers (src/layer/internal/base_merge.rs).  [None] is a panic or an
    error. *)
From Verif Require Import Prelude Succinct TripleFiles Merge Layer Builder Rollup.

(** tdb-succinct [dedup_merge_string_dictionaries_stream] and
    [dedup_merge_typed_dictionary_streams], called at base_merge.rs:31-77: the merged
    dictionary, without repetitions, and for each input the positions its entries got. *)
Definition dedup_merge {A} `{Ord A, EqDecision A} (ds : list (list A)) : option (list (list nat) * list A) :=
  let m := dedup (osort (mjoin ds)) in
  maps ← mapM (mapM (λ x, pred <$> dict_id m x)) ds;
  Some (maps, m).

(** [map[id - 1]]; id 0 is an index out of range *)
Definition map_get (m : list nat) (id : nat) : option nat := match id with 0 => None | S i => m !! i end.
(** base_merge.rs:79-96 [map_triple] *)
Definition map_triple (node_map pred_map value_map : list nat) (num_nodes : nat) (t : triple) : option triple :=
  s ← map_get node_map (t_s t);
  p ← map_get pred_map (t_p t);
  o ← (if decide (t_o t - 1 < length node_map)
       then o ← map_get node_map (t_o t); Some (o + 1)
       else o ← value_map !! (t_o t - 1 - length node_map); Some (o + num_nodes + 1));
  Some (mkt (s + 1) (p + 1) o).

(** base.rs:478-490 [open_base_triple_stream] *)
Definition base_triple_stream (tf : tfiles) : option (list triple) :=
  base_stream (adj_stream_pairs (tf_sp tf)) (0, 0) 0 (adj_stream_pairs (tf_spo tf)).

(** base_merge.rs:226-247 *)
Fixpoint map_streams (nm pm vm : list (list nat)) (num_nodes : nat) (ls : list layer) : option (list (list triple)) :=
  match ls, nm, pm, vm with
  | [], _, _, _ => Some []
  | l :: ls', n :: nm', p :: pm', v :: vm' =>
      ts ← base_triple_stream (l_pos l);
      ts ← mapM (map_triple n p v num_nodes) ts;
      r ← map_streams nm' pm' vm' num_nodes ls';
      Some (ts :: r)
  | _, _, _, _ => None
  end.
(** base_merge.rs:168-294 [merge_base_layers].  [heap_sorted_stream] (tdb-succinct) merges the
    sorted streams; repeated triples are skipped at 266-268.  The id maps of the inputs are
    not consulted, and the output has none. *)
Definition merge_base_layers (ls : list layer) : option layer :=
  '(nm, nodes) ← dedup_merge (l_nodes <$> ls);
  '(pm, prs) ← dedup_merge (l_preds <$> ls);
  '(vm, vals) ← dedup_merge (l_vals <$> ls);
  streams ← map_streams nm pm vm (length nodes) ls;
  base_layer nodes prs vals (dedup (kmerge (λ t, t) streams)).
