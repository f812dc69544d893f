(** Numbers of a fixed width: the writers of TripleFiles.v, Builder.v, Rollup.v, Squash.v and
    MergeBase.v once more, with the bit widths they choose for their arrays, and the object
    index with the chunks it is sorted in.  [None] is a panic or an error, as there.

    [width] is tdb-succinct's [util::calculate_width]; [limit] is builder.rs:365
    [SINGLE_SORT_LIMIT]. *)
From Verif Require Import Prelude Succinct TripleFiles Merge Layer Builder Rollup Squash MergeBase.

Section widths.
  Context (width : nat → nat) (limit : nat).

  (** tdb-succinct, [push] of [LogArrayFileBuilder] and [LogArrayBufBuilder] and
      [build_wavelet_tree_from_iter]: a number that does not fit the width is refused *)
  Definition fitting (w : nat) (ns : list nat) : Prop := Forall (λ n, n < 2 ^ w) ns.
  #[global] Instance fitting_dec w ns : Decision (fitting w ns).
  Proof. unfold fitting. apply _. Defined.

  (** tdb-succinct [AdjacencyListBuilder::push]: the numbers go to an array of width [w] *)
  Definition adjw_push (w : nat) (b : adjb) (left right : nat) : option adjb :=
    b' ← adjb_push b left right;
    if decide (fitting w (drop (length (b_nums b)) (b_nums b'))) then Some b' else None.
  Fixpoint adjw_push_all (w : nat) (b : adjb) (prs : list (nat * nat)) : option adjb :=
    match prs with
    | [] => Some b
    | (l, r) :: prs' => b' ← adjw_push w b l r; adjw_push_all w b' prs'
    end.

  (** builder.rs:284-323 [add_triple]; [wp] and [wo] are the widths chosen at 229-230 *)
  Definition tfw_add (wp wo : nat) (b : tfb) (t : triple) : option tfb :=
    let '(s, p, o) := t in
    if decide (s = 0 ∨ p = 0 ∨ o = 0) then Some b
    else if decide (s < tfb_last_s b) then None
    else if decide (tfb_last_s b = s ∧ tfb_last_p b = p) then
      spo ← adjw_push wo (tfb_spo b) (adjb_count (tfb_sp b) + 1) o;
      Some (TFB (tfb_subjects b) (tfb_sp b) spo s p)
    else
      let subjects :=
        match tfb_subjects b with
        | Some ss => Some (if decide (s = tfb_last_s b) then ss else ss ++ [s])
        | None => None
        end in
      let mapped := match subjects with Some ss => length ss | None => s end in
      sp ← adjw_push wp (tfb_sp b) mapped p;
      spo ← adjw_push wo (tfb_spo b) (adjb_count sp + 1) o;
      Some (TFB subjects sp spo s p).
  (** builder.rs:328-338 *)
  Fixpoint tfw_add_all (wp wo : nat) (b : tfb) (ts : list triple) : option tfb :=
    match ts with
    | [] => Some b
    | t :: ts' => b' ← tfw_add wp wo b t; tfw_add_all wp wo b' ts'
    end.

  (** builder.rs:340-363 [finalize]: the subjects are written with the width of the last *)
  Definition write_subjects (subjects : option (list nat)) : option (option (list nat)) :=
    match subjects with
    | None => Some None
    | Some ss => if decide (fitting (width (default 0 (last ss))) ss) then Some (Some ss) else None
    end.

  (** builder.rs:378-418: the pairs are gathered.  Whenever [limit] more have come, they are
      sorted and put away, in arrays of the width of the greatest left-hand side so far and of
      the width [wo] of the numbers of sp_o.  The result: the chunks put away, the pairs that
      are left, and [greatest_sp]. *)
  Fixpoint gather (wo tally : nat) (chunks : list (list (nat * nat))) (pairs : list (nat * nat)) (greatest : nat)
      (stream : list (nat * nat)) : option (list (list (nat * nat)) * list (nat * nat) * nat) :=
    match stream with
    | [] => Some (chunks, pairs, greatest)
    | (sp, o) :: stream' =>
        let pairs := pairs ++ [(o, sp)] in
        let tally := S tally in
        if decide (tally mod limit = 0) then
          let chunk := osort pairs in
          if decide (fitting (width sp) (snd <$> chunk) ∧ fitting wo (fst <$> chunk))
          then gather wo tally (chunks ++ [chunk]) [] sp stream'
          else None
        else gather wo tally chunks pairs sp stream'
    end.

  (** builder.rs:466-484, with the last object *)
  Fixpoint pushw_sparse (w : nat) (b : adjb) (objects : list nat) (last_object object_ix : nat)
      (prs : list (nat * nat)) : option (adjb * list nat * nat) :=
    match prs with
    | [] => Some (b, objects, last_object)
    | (o, sp) :: prs' =>
        let '(objects', last', ix') :=
          if decide (last_object < o) then (objects ++ [o], o, S object_ix)
          else (objects, last_object, object_ix) in
        b' ← adjw_push w b ix' sp;
        pushw_sparse w b' objects' last' ix' prs'
    end.

  (** builder.rs:367-502 [build_object_index].  The pairs that are left are sorted, by
      [par_sort_unstable] or slice by slice and then again (421-440): one sort.  The chunks and
      the rest are then merged by tdb-succinct's [heap_sorted_iter], for which [kmerge] of
      Rollup.v stands. *)
  Definition object_index_w (wo : nat) (spo : adj) (sparse : bool) : option (adj * option (list nat)) :=
    '(chunks, pairs, greatest) ← gather wo 0 [] [] 0 (adj_stream_pairs spo);
    let prs := kmerge (λ e, e) (chunks ++ [osort pairs]) in
    let w := width greatest in
    if sparse then
      '(b, objects, last_object) ← pushw_sparse w adjb_new [] 0 0 prs;
      if decide (fitting (width last_object) objects)
      then Some (adjb_finalize b, Some objects) else None
    else
      b ← adjw_push_all w adjb_new prs;
      Some (adjb_finalize b, None).

  (** builder.rs:221-363, 518-554: the files of a list of triples; [counts] are the numbers of
      nodes, predicates and values the builder is made with.  The predicate wavelet tree takes
      the width of the s_p numbers it is made from. *)
  Definition build_tfiles_w (counts : nat * nat * nat) (sparse : bool) (ts : list triple) : option tfiles :=
    let '(nodes, prs, vals) := counts in
    let wp := width prs in
    let wo := width (nodes + vals) in
    b ← tfw_add_all wp wo (tfb_new sparse) ts;
    subjects ← write_subjects (tfb_subjects b);
    let sp := adjb_finalize (tfb_sp b) in
    let spo := adjb_finalize (tfb_spo b) in
    '(ops, objects) ← object_index_w wo spo sparse;
    Some (TF subjects objects sp spo ops (adj_nums sp)).

  (** child.rs:402-424: the counts of the parent are added *)
  Definition with_parent (st : stack) (nodes prs : list str) (vals : list val) : nat * nat * nat :=
    let '(n, p, v) := all_counts st in (length nodes + n, length prs + p, length vals + v).
  (** [child_layer] and [base_layer] of Builder.v; child.rs:338-379, base.rs:282-322: the counts
      are those of the dictionaries just written *)
  Definition child_layer_w (st : stack) (nodes prs : list str) (vals : list val) (A R : list triple)
    : option layer :=
    nodes ← filter_opt (not_known (subject_id st)) nodes;
    prs ← filter_opt (not_known (predicate_id st)) prs;
    vals ← filter_opt (not_known (object_value_id st)) vals;
    A ← filter_opt (λ t, e ← triple_exists st t; Some (negb e)) A;
    R ← filter_opt (triple_exists st) R;
    pos ← build_tfiles_w (with_parent st nodes prs vals) true A;
    neg ← build_tfiles_w (with_parent st nodes prs vals) true R;
    Some (Layer nodes prs vals None None pos (Some neg)).
  Definition base_layer_w (nodes prs : list str) (vals : list val) (A : list triple) : option layer :=
    pos ← build_tfiles_w (length nodes, length prs, length vals) false A;
    Some (Layer nodes prs vals None None pos None).

  (** [commit] and [build] of Builder.v *)
  Section commit.
    Context (nvord : list (obj * nat) → list (obj * nat)) (prord : list (str * nat) → list (str * nat)).
    Definition commit_w (st : stack) (b : builder) : option layer :=
      let nv := nv_count st in
      let np := pred_count st in
      let A := dedup (osort (b_adds b)) in
      let R := dedup (osort (b_rems b)) in
      let '(A, R) := noops nv np A R in
      '(nvex, pex) ← existences nv np (replicate (b_ncnt b + b_vcnt b) false)
                       (replicate (b_pcnt b) false) (A ++ R);
      nvs ← used nv nvex (nvord (b_nvs b));
      prs ← used np pex (prord (b_prs b));
      let nodes := osort (only_nodes nvs) in
      let vals := osort (only_vals nvs) in
      let prs := osort prs in
      nvm ← fill nv (replicate (b_ncnt b + b_vcnt b) 0) (nv + 1) (snd <$> nodes);
      nvm ← fill nv nvm (nv + length nodes + 1) (snd <$> vals);
      pm ← fill np (replicate (b_pcnt b) 0) (np + 1) (snd <$> prs);
      A ← mapM (remap_triple nv np nvm pm) A;
      R ← mapM (remap_triple nv np nvm pm) R;
      let A := osort A in
      let R := osort R in
      match st with
      | [] => base_layer_w (fst <$> nodes) (fst <$> prs) (fst <$> vals) A
      | _ => child_layer_w st (fst <$> nodes) (fst <$> prs) (fst <$> vals) A R
      end.
    Definition build_w (st : stack) (cs : list op) : option (list layer) :=
      b ← do_ops st (builder_new st) cs;
      l ← commit_w st b;
      Some (l :: st).
  End commit.

  (** id_map.rs:163-180: an id map is a wavelet tree of the width of the number [wrote] of
      entries that were merged.  Its width is not stored: base.rs:72-82, child.rs:87-97 and
      storage/layer.rs:1666, 1687 take the number [read] of entries in the dictionaries instead.
      A tree taken to have another width would be garbled. *)
  Definition idmap_w (wrote read : nat) (m : list nat) : option (list nat) :=
    if decide (fitting (width wrote) m ∧ width wrote = width read) then Some m else None.
  (** [rollup_dicts] of Rollup.v *)
  Definition rollup_dicts_w (ls : list layer) (nvms pms : list (option (list nat)))
      (pos : tfiles) (neg : option tfiles) : option layer :=
    nis ← node_iters (zip ls nvms);
    vis ← value_iters (zip ls nvms);
    pis ← pred_iters (zip ls pms);
    let nodes := merge_dicts (l_nodes <$> ls) in
    let prs := merge_dicts (l_preds <$> ls) in
    let vals := merge_dicts (l_vals <$> ls) in
    nvm ← idmap_w (sum_list (l_nv <$> ls)) (length nodes + length vals) (merged_ids nis ++ merged_ids vis);
    pm ← idmap_w (sum_list ((λ l, length (l_preds l)) <$> ls)) (length prs) (merged_ids pis);
    Some (Layer nodes prs vals (Some nvm) (Some pm) pos neg).

  (** delta.rs:270-299 *)
  Definition rollup_w (st : stack) : option layer :=
    let ls := reverse st in
    ts ← triples st;
    pos ← build_tfiles_w (all_counts st) false ts;
    rollup_dicts_w ls (l_nvmap <$> ls) (l_pmap <$> ls) pos None.
  Definition rollup_changes_w (counts : nat * nat * nat) (st : stack) : option (tfiles * tfiles) :=
    cs ← stack_changes st;
    pos ← build_tfiles_w counts true (snd <$> filter (λ c, c.1 = true) cs);
    neg ← build_tfiles_w counts true (snd <$> filter (λ c, c.1 = false) cs);
    Some (pos, neg).
  (** delta.rs:367-434 and 301-365; [below] are the ancestors of the loaded layers [mem], as
      they are loaded *)
  Definition rollup_upto_w (mem disk below : stack) : option layer :=
    let ls := reverse (mem ++ disk) in
    '(pos, neg) ← rollup_changes_w (all_counts (mem ++ below)) (reverse disk ++ mem);
    rollup_dicts_w ls (l_nvmap <$> ls) ((l_pmap <$> reverse disk) ++ (l_nvmap <$> reverse mem)) pos (Some neg).
  Definition imprecise_rollup_upto_w (mem below : stack) : option layer :=
    let ls := reverse mem in
    '(pos, neg) ← rollup_changes_w (all_counts (mem ++ below)) mem;
    rollup_dicts_w ls (l_nvmap <$> ls) (l_pmap <$> ls) pos (Some neg).

  (** storage/layer.rs:1831-1961 and 1963-2188 *)
  Definition squash_w (st : stack) : option layer :=
    ts ← triples st;
    d ← squash_dicts 0 0 (reverse st) ts;
    ts ← mapM (squash_triple d) ts;
    base_layer_w (fst <$> sq_nodes d) (fst <$> sq_preds d) (fst <$> sq_vals d) (osort ts).
  Definition squash_upto_w (disk base : stack) : option layer :=
    let b := nv_count base in
    let bp := pred_count base in
    cs ← stack_changes (reverse disk);
    d ← squash_dicts b bp (reverse disk) (snd <$> filter (λ c, c.1 = true) cs);
    cs ← mapM (squash_change b bp d) cs;
    let cs := osort (change_rank <$> cs) in
    let nodes := fst <$> sq_nodes d in
    let prs := fst <$> sq_preds d in
    let vals := fst <$> sq_vals d in
    pos ← build_tfiles_w (with_parent base nodes prs vals) true (snd <$> filter (λ c, c.1 = 0) cs);
    neg ← build_tfiles_w (with_parent base nodes prs vals) true (snd <$> filter (λ c, c.1 = 1) cs);
    Some (Layer nodes prs vals None None pos (Some neg)).
  (** base_merge.rs:168-294 *)
  Definition merge_base_layers_w (ls : list layer) : option layer :=
    '(nm, nodes) ← dedup_merge (l_nodes <$> ls);
    '(pm, prs) ← dedup_merge (l_preds <$> ls);
    '(vm, vals) ← dedup_merge (l_vals <$> ls);
    streams ← map_streams nm pm vm (length nodes) ls;
    base_layer_w nodes prs vals (dedup (kmerge (λ t, t) streams)).
End widths.
