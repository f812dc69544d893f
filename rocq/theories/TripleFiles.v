(** The triple files of one layer: how they are written and how they are read.
    Models src/layer/builder.rs, src/layer/internal/subject_iterator.rs,
    predicate_iterator.rs, object_iterator.rs and the lookups of
    src/layer/internal/mod.rs.  [None] is a panic (or exhausted fuel, which the theorems
    exclude). *)
From Verif Require Import Prelude Succinct.

(** src/layer/layer.rs:176-182 [IdTriple]; the derived [Ord] is lexicographic *)
Definition triple : Type := nat * nat * nat.
Definition t_s (t : triple) : nat := t.1.1.
Definition t_p (t : triple) : nat := t.1.2.
Definition t_o (t : triple) : nat := t.2.
Definition mkt (s p o : nat) : triple := (s, p, o).
(** object_iterator.rs:236-240: the key by which triples are ordered when grouped by object *)
Definition okey (t : triple) : nat * (nat * nat) := (t_o t, (t_s t, t_p t)).

(** ** Writing *)

(** src/layer/builder.rs:210-218 [TripleFileBuilder] (the files themselves are what
    [tfb_finalize] returns) *)
Record tfb := TFB {
  tfb_subjects : option (list nat);
  tfb_sp : adjb;
  tfb_spo : adjb;
  tfb_last_s : nat;
  tfb_last_p : nat }.

(** builder.rs:221-279 [new]; [sparse] says whether a subjects file was given.
    The bit widths computed there only bound the numbers; they are in Widths.v. *)
Definition tfb_new (sparse : bool) : tfb :=
  TFB (if sparse then Some [] else None) adjb_new adjb_new 0 0.

(** builder.rs:284-323 [add_triple] *)
Definition tfb_add (b : tfb) (t : triple) : option tfb :=
  let '(s, p, o) := t in
  if decide (s = 0 ∨ p = 0 ∨ o = 0) then Some b
  else if decide (s < tfb_last_s b) then None
  else if decide (tfb_last_s b = s ∧ tfb_last_p b = p) then
    spo ← adjb_push (tfb_spo b) (adjb_count (tfb_sp b) + 1) o;
    Some (TFB (tfb_subjects b) (tfb_sp b) spo s p)
  else
    let subjects :=
      match tfb_subjects b with
      | Some ss => Some (if decide (s = tfb_last_s b) then ss else ss ++ [s])
      | None => None
      end in
    let mapped := match subjects with Some ss => length ss | None => s end in
    sp ← adjb_push (tfb_sp b) mapped p;
    spo ← adjb_push (tfb_spo b) (adjb_count sp + 1) o;
    Some (TFB subjects sp spo s p).

(** builder.rs:328-338 [add_id_triples] *)
Fixpoint tfb_add_all (b : tfb) (ts : list triple) : option tfb :=
  match ts with
  | [] => Some b
  | t :: ts' => b' ← tfb_add b t; tfb_add_all b' ts'
  end.

(** The files of one set of triples of a layer: subjects, objects (sparse numbering
    only), s_p, sp_o, o_ps adjacency lists and the predicate wavelet tree. *)
Record tfiles := TF {
  tf_subjects : option (list nat);
  tf_objects : option (list nat);
  tf_sp : adj;
  tf_spo : adj;
  tf_ops : adj;
  tf_wt : list nat }.

(** builder.rs:466-489: pushing the sorted (object, sp) pairs while renumbering the
    objects to a contiguous range *)
Fixpoint push_sparse (b : adjb) (objects : list nat) (last_object object_ix : nat)
    (prs : list (nat * nat)) : option (adjb * list nat) :=
  match prs with
  | [] => Some (b, objects)
  | (o, sp) :: prs' =>
      let '(objects', last', ix') :=
        if decide (last_object < o) then (objects ++ [o], o, S object_ix)
        else (objects, last_object, object_ix) in
      b' ← adjb_push b ix' sp;
      push_sparse b' objects' last' ix' prs'
  end.

(** builder.rs:367-502 [build_object_index]: the pairs of sp_o are swapped, sorted, and
    pushed into the o_ps list.  The chunked sort for more than 2^31 pairs and the final
    [heap_sorted_iter] are modelled by one sort here, and step by step in Widths.v. *)
Definition build_object_index (spo : adj) (sparse : bool) : option (adj * option (list nat)) :=
  let prs := osort ((λ pr, (pr.2, pr.1)) <$> adj_stream_pairs spo) in
  if sparse then
    '(b, objects) ← push_sparse adjb_new [] 0 0 prs;
    Some (adjb_finalize b, Some objects)
  else
    b ← adjb_push_all adjb_new prs;
    Some (adjb_finalize b, None).

(** builder.rs:340-363 [finalize] followed by 533-554 [build_indexes];
    builder.rs:518-531: the wavelet tree is built from the numbers of s_p *)
Definition tfb_finalize (b : tfb) (sparse_objects : bool) : option tfiles :=
  let sp := adjb_finalize (tfb_sp b) in
  let spo := adjb_finalize (tfb_spo b) in
  '(ops, objects) ← build_object_index spo sparse_objects;
  Some (TF (tfb_subjects b) objects sp spo ops (adj_nums sp)).

(** All of it: a layer's triple files from a list of triples.  Base layers are written
    with [sparse = false] (src/layer/internal/base.rs:324-403), child layers with
    [sparse = true] (src/layer/internal/child.rs:394-558). *)
Definition build_tfiles (sparse : bool) (ts : list triple) : option tfiles :=
  b ← tfb_add_all (tfb_new sparse) ts;
  tfb_finalize b sparse.

(** ** Point lookup *)

(** internal/mod.rs:1003-1016: the scan over the predicates of one subject *)
Fixpoint scan_sp (fuel : nat) (sp : adj) (pos predicate : nat) : option (option nat) :=
  match fuel with
  | 0 => None
  | S f =>
      bit ← bit_at_pos sp pos;
      num ← num_at_pos sp pos;
      if decide (num = predicate) then Some (Some pos)
      else if (bit : bool) then Some None
      else scan_sp f sp (S pos) predicate
  end.

(** internal/mod.rs:978-1019 [sp_o_position]: outer [None] panic, inner [None] not found *)
Definition sp_o_position (subjects : option (list nat)) (sp spo : adj) (s p : nat)
  : option (option nat) :=
  if decide (s = 0 ∨ p = 0) then Some None
  else
    let s_position :=
      match subjects with
      | None => if decide (left_count sp < s) then None else Some (s - 1)
      | Some ss => mla_index_of ss s
      end in
    match s_position with
    | None => Some None
    | Some sp0 =>
        off ← offset_for sp (sp0 + 1);
        found ← scan_sp (S (right_count sp)) sp off p;
        match found with
        | None => Some None
        | Some pos => r ← offset_for spo (pos + 1); Some (Some r)
        end
    end.

(** internal/mod.rs:1044-1057: the scan over the objects of one pair *)
Fixpoint scan_spo (fuel : nat) (spo : adj) (pos object : nat) : option bool :=
  match fuel with
  | 0 => None
  | S f =>
      bit ← bit_at_pos spo pos;
      num ← num_at_pos spo pos;
      if decide (num = object) then Some true
      else if (bit : bool) then Some false
      else scan_spo f spo (S pos) object
  end.

(** internal/mod.rs:1021-1060 [layer_triple_exists] *)
Definition layer_triple_exists (tf : tfiles) (t : triple) : option bool :=
  let '(s, p, o) := t in
  if decide (o = 0) then Some false
  else
    pos ← sp_o_position (tf_subjects tf) (tf_sp tf) (tf_spo tf) s p;
    match pos with
    | None => Some false
    | Some pos => scan_spo (S (right_count (tf_spo tf))) (tf_spo tf) pos o
    end.

(** ** Enumeration by subject *)

(** subject_iterator.rs:8-16 [InternalLayerTripleSubjectIterator] *)
Record sit := SIT {
  si_subjects : option (list nat);
  si_sp : adj;
  si_spo : adj;
  si_s_pos : nat;
  si_sp_pos : nat;
  si_spo_pos : nat;
  si_peeked : option triple }.

(** subject_iterator.rs:19-33 [new] *)
Definition sit_new (subjects : option (list nat)) (sp spo : adj) : sit :=
  SIT subjects sp spo 0 0 0 None.

(** subject_iterator.rs:87-90 and 51-54 *)
Definition sit_find_subject (it : sit) (s : nat) : nat :=
  match si_subjects it with
  | None => s - 1
  | Some ss => mla_nearest_index_of ss s
  end.

Definition sit_at (it : sit) (s sp spo : nat) : sit :=
  SIT (si_subjects it) (si_sp it) (si_spo it) s sp spo None.

(** subject_iterator.rs:41-63 [seek_subject_ref] *)
Definition sit_seek_subject (it : sit) (s : nat) : option sit :=
  if decide (s = 0) then Some (sit_at it 0 0 0)
  else
    let s_pos := sit_find_subject it s in
    if decide (left_count (si_sp it) ≤ s_pos) then
      Some (sit_at it s_pos (right_count (si_sp it)) (right_count (si_spo it)))
    else
      sp_pos ← offset_for (si_sp it) (s_pos + 1);
      spo_pos ← offset_for (si_spo it) (sp_pos + 1);
      Some (sit_at it s_pos sp_pos spo_pos).

(** subject_iterator.rs:97-106: skip the smaller predicates of the subject; returns the
    new s position and s_p position *)
Fixpoint seek_pred (fuel : nat) (sp : adj) (s_pos pos predicate : nat) : option (nat * nat) :=
  match fuel with
  | 0 => None
  | S f =>
      num ← num_at_pos sp pos;
      if decide (num < predicate) then
        bit ← bit_at_pos sp pos;
        if (bit : bool) then Some (S s_pos, S pos)
        else seek_pred f sp s_pos (S pos) predicate
      else Some (s_pos, pos)
  end.

(** subject_iterator.rs:71-110 [seek_subject_predicate_ref] *)
Definition sit_seek_sp (it : sit) (s p : nat) : option sit :=
  if decide (p = 0) then sit_seek_subject it s
  else if decide (s = 0) then Some (sit_at it 0 0 0)
  else
    let s_pos := sit_find_subject it s in
    if decide (left_count (si_sp it) ≤ s_pos) then
      Some (sit_at it s_pos (right_count (si_sp it)) (right_count (si_spo it)))
    else
      off ← offset_for (si_sp it) (s_pos + 1);
      '(s_pos', sp_pos) ← seek_pred (S (right_count (si_sp it))) (si_sp it) s_pos off p;
      spo_pos ← offset_for (si_spo it) (sp_pos + 1);
      Some (sit_at it s_pos' sp_pos spo_pos).

(** subject_iterator.rs:112-118 [seek_s_p_pos] *)
Definition sit_seek_s_p_pos (it : sit) (pos : nat) : option sit :=
  spo_pos ← offset_for (si_spo it) (pos + 1);
  Some (sit_at it (left_at_pos (si_sp it) pos - 1) pos spo_pos).

(** subject_iterator.rs:137-175: the loop of [next] (without a peeked element) *)
Fixpoint sit_loop (fuel : nat) (it : sit) : option (option triple * sit) :=
  match fuel with
  | 0 => None
  | S f =>
      if decide (right_count (si_spo it) ≤ si_spo_pos it) then Some (None, it)
      else
        let s_pos := si_s_pos it in
        s_p_bit ← bit_at_pos (si_sp it) (si_sp_pos it);
        predicate ← num_at_pos (si_sp it) (si_sp_pos it);
        if decide (predicate = 0) then
          sit_loop f (sit_at it (if (s_p_bit : bool) then S s_pos else s_pos)
                        (S (si_sp_pos it)) (S (si_spo_pos it)))
        else
          sp_o_bit ← bit_at_pos (si_spo it) (si_spo_pos it);
          object ← num_at_pos (si_spo it) (si_spo_pos it);
          let it' := sit_at it
            (if (sp_o_bit && s_p_bit)%bool then S s_pos else s_pos)
            (if (sp_o_bit : bool) then S (si_sp_pos it) else si_sp_pos it)
            (S (si_spo_pos it)) in
          if decide (object = 0) then sit_loop f it'
          else
            subject ← match si_subjects it with
                      | Some ss => mla_entry ss s_pos
                      | None => Some (S s_pos)
                      end;
            Some (Some (mkt subject predicate object), it')
  end.

(** subject_iterator.rs:130-136 [next] *)
Definition sit_next (it : sit) : option (option triple * sit) :=
  match si_peeked it with
  | Some t => Some (Some t, sit_at it (si_s_pos it) (si_sp_pos it) (si_spo_pos it))
  | None => sit_loop (S (right_count (si_spo it))) it
  end.

Definition sit_set_peeked (it : sit) (o : option triple) : sit :=
  SIT (si_subjects it) (si_sp it) (si_spo it) (si_s_pos it) (si_sp_pos it) (si_spo_pos it) o.

(** subject_iterator.rs:120-124 [peek] *)
Definition sit_peek (it : sit) : option (option triple * sit) :=
  '(o, it') ← sit_next it; Some (o, sit_set_peeked it' o).

(** ** Enumeration by predicate *)

(** predicate_iterator.rs:6-13 [InternalLayerTriplePredicateIterator] *)
Record pit := PIT {
  pi_lookup : list nat;
  pi_sub : sit;
  pi_pos : nat;
  pi_boundary : bool;
  pi_peeked : option triple }.

(** predicate_iterator.rs:16-37 [new] *)
Definition pit_new (lookup : list nat) (subjects : option (list nat)) (sp spo : adj) : pit :=
  PIT lookup (sit_new subjects sp spo) 0 true None.

(** predicate_iterator.rs:39-52 [next_pos]; [false] when there is no further position *)
Definition pit_next_pos (it : pit) : option (bool * pit) :=
  if decide (length (pi_lookup it) ≤ pi_pos it) then Some (false, it)
  else
    pos ← pi_lookup it !! pi_pos it;
    sub ← sit_seek_s_p_pos (pi_sub it) pos;
    Some (true, PIT (pi_lookup it) sub (S (pi_pos it)) (pi_boundary it) (pi_peeked it)).

(** predicate_iterator.rs:79-94: deliver the next triple of the subject iterator and see
    whether the one after it belongs to the same pair *)
Definition pit_deliver (it : pit) : option (option triple * pit) :=
  '(result, sub1) ← sit_next (pi_sub it);
  '(nxt, sub2) ← sit_peek sub1;
  let boundary :=
    bool_decide (nxt = None ∨ (fst <$> nxt) ≠ (fst <$> result)) in
  Some (result, PIT (pi_lookup it) sub2 (pi_pos it) boundary (pi_peeked it)).

(** predicate_iterator.rs:64-95 [next] *)
Definition pit_next (it : pit) : option (option triple * pit) :=
  match pi_peeked it with
  | Some t => Some (Some t, PIT (pi_lookup it) (pi_sub it) (pi_pos it) (pi_boundary it) None)
  | None =>
      if pi_boundary it then
        '(ok, it') ← pit_next_pos it;
        if (ok : bool) then pit_deliver it' else Some (None, it')
      else pit_deliver it
  end.

(** predicate_iterator.rs:54-58 [peek] *)
Definition pit_peek (it : pit) : option (option triple * pit) :=
  '(o, it') ← pit_next it;
  Some (o, PIT (pi_lookup it') (pi_sub it') (pi_pos it') (pi_boundary it') o).

(** ** Enumeration by object *)

(** object_iterator.rs:6-17 [InternalLayerTripleObjectIterator] *)
Record oit := OIT {
  oi_subjects : option (list nat);
  oi_objects : option (list nat);
  oi_ops : adj;
  oi_sp : adj;
  oi_stop : bool;
  oi_o_pos : nat;
  oi_ops_pos : nat;
  oi_peeked : option triple;
  oi_hit : bool }.

(** object_iterator.rs:20-38 [new] *)
Definition oit_new (subjects objects : option (list nat)) (ops sp : adj) (stop : bool) : oit :=
  OIT subjects objects ops sp stop 0 0 None false.

Definition oit_at (it : oit) (o_pos ops_pos : nat) (hit : bool) : oit :=
  OIT (oi_subjects it) (oi_objects it) (oi_ops it) (oi_sp it) (oi_stop it) o_pos ops_pos None hit.

(** object_iterator.rs:46-67 [seek_object_ref] *)
Definition oit_seek (it : oit) (o : nat) : option oit :=
  if decide (o = 0) then Some (oit_at it 0 0 false)
  else
    let o_pos := match oi_objects it with
                 | None => o - 1
                 | Some os => mla_nearest_index_of os o
                 end in
    if decide (left_count (oi_ops it) ≤ o_pos) then
      Some (oit_at it o_pos (right_count (oi_ops it)) false)
    else
      ops_pos ← offset_for (oi_ops it) (o_pos + 1);
      Some (oit_at it o_pos ops_pos false).

(** object_iterator.rs:75-83 [stop_at_boundary] *)
Definition oit_stop_at_boundary (it : oit) (stop : bool) : oit :=
  OIT (oi_subjects it) (oi_objects it) (oi_ops it) (oi_sp it) stop (oi_o_pos it) (oi_ops_pos it)
    (oi_peeked it) (oi_hit it).

(** object_iterator.rs:101-140: the loop of [next] *)
Fixpoint oit_loop (fuel : nat) (it : oit) : option (option triple * oit) :=
  match fuel with
  | 0 => None
  | S f =>
      if (oi_stop it && oi_hit it)%bool then Some (None, it)
      else if decide (right_count (oi_ops it) ≤ oi_ops_pos it) then Some (None, it)
      else
        let o_pos := oi_o_pos it in
        bit ← bit_at_pos (oi_ops it) (oi_ops_pos it);
        sp_num ← num_at_pos (oi_ops it) (oi_ops_pos it);
        let it' := oit_at it (if (bit : bool) then S o_pos else o_pos) (S (oi_ops_pos it))
                     (if (bit && oi_stop it)%bool then true else oi_hit it) in
        if decide (sp_num = 0) then oit_loop f it'
        else
          '(mapped, predicate) ← pair_at_pos (oi_sp it) (sp_num - 1);
          subject ← match oi_subjects it with
                    | Some ss => mla_entry ss (mapped - 1)
                    | None => Some mapped
                    end;
          object ← match oi_objects it with
                   | Some os => mla_entry os o_pos
                   | None => Some (S o_pos)
                   end;
          Some (Some (mkt subject predicate object), it')
  end.

(** object_iterator.rs:93-99 [next] *)
Definition oit_next (it : oit) : option (option triple * oit) :=
  match oi_peeked it with
  | Some t => Some (Some t, oit_at it (oi_o_pos it) (oi_ops_pos it) (oi_hit it))
  | None => oit_loop (S (right_count (oi_ops it))) it
  end.

(** object_iterator.rs:69-73 [peek] *)
Definition oit_peek (it : oit) : option (option triple * oit) :=
  '(o, it') ← oit_next it;
  Some (o, OIT (oi_subjects it') (oi_objects it') (oi_ops it') (oi_sp it') (oi_stop it')
             (oi_o_pos it') (oi_ops_pos it') o (oi_hit it')).

(** ** Running an iterator *)

(** [Iterator::collect]: call [next] until it yields nothing *)
Fixpoint collect {St A} (next : St → option (option A * St)) (fuel : nat) (st : St)
  : option (list A) :=
  match fuel with
  | 0 => None
  | S f =>
      '(o, st') ← next st;
      match o with
      | None => Some []
      | Some t => ts ← collect next f st'; Some (t :: ts)
      end
  end.

(** [Iterator::take_while], applied to the collected list: the code is lazy, the elements
    delivered are the same *)
Fixpoint take_while {A} (f : A → bool) (l : list A) : list A :=
  match l with
  | [] => []
  | x :: l' => if f x then x :: take_while f l' else []
  end.

(** ** Queries on one set of triples (internal/mod.rs:298-485 and
    src/storage/layer.rs:2283-2486, 2558-2648) *)
Definition tf_iter (tf : tfiles) : sit := sit_new (tf_subjects tf) (tf_sp tf) (tf_spo tf).
Definition tf_fuel (tf : tfiles) : nat := S (right_count (tf_spo tf) + right_count (tf_ops tf)).

(** internal/mod.rs:298-323 *)
Definition tf_triples (tf : tfiles) : option (list triple) :=
  collect sit_next (tf_fuel tf) (tf_iter tf).
(** internal/mod.rs:325-345 *)
Definition tf_triples_s (tf : tfiles) (s : nat) : option (list triple) :=
  it ← sit_seek_subject (tf_iter tf) s;
  ts ← collect sit_next (tf_fuel tf) it;
  Some (take_while (λ t, bool_decide (t_s t = s)) ts).
(** internal/mod.rs:347-369 *)
Definition tf_triples_sp (tf : tfiles) (s p : nat) : option (list triple) :=
  it ← sit_seek_sp (tf_iter tf) s p;
  ts ← collect sit_next (tf_fuel tf) it;
  Some (take_while (λ t, bool_decide (t_p t = p ∧ t_s t = s)) ts).
(** internal/mod.rs:371-410 *)
Definition tf_iter_p (tf : tfiles) (p : nat) : option pit :=
  (λ lookup, pit_new lookup (tf_subjects tf) (tf_sp tf) (tf_spo tf)) <$> wt_lookup (tf_wt tf) p.
Definition tf_triples_p (tf : tfiles) (p : nat) : option (list triple) :=
  match tf_iter_p tf p with
  | None => Some []
  | Some it => collect pit_next (tf_fuel tf) it
  end.
(** internal/mod.rs:423-431, 444-467 *)
Definition tf_iter_o (tf : tfiles) (stop : bool) : oit :=
  oit_new (tf_subjects tf) (tf_objects tf) (tf_ops tf) (tf_sp tf) stop.
(** storage/layer.rs:2427-2470 with 2607-2632: the delta query as answered from disk *)
Definition tf_triples_o (tf : tfiles) (o : nat) : option (list triple) :=
  it ← oit_seek (tf_iter_o tf true) o;
  ts ← collect oit_next (tf_fuel tf) it;
  Some (take_while (λ t, bool_decide (t_o t = o)) ts).
(** internal/mod.rs:412-421, 433-442: the delta query as answered by a loaded layer *)
Definition tf_triples_o_internal (tf : tfiles) (o : nat) : option (list triple) :=
  it ← oit_seek (tf_iter_o tf false) o;
  collect oit_next (tf_fuel tf) (oit_stop_at_boundary it true).
(** internal/mod.rs:469-485, storage/layer.rs:2634-2648; the subtraction panics on underflow *)
Definition tf_count (tf : tfiles) : option nat :=
  let zeros := match wt_lookup (tf_wt tf) 0 with Some l => length l | None => 0 end in
  if decide (right_count (tf_spo tf) < zeros) then None
  else Some (right_count (tf_spo tf) - zeros).

(** ** Streams from disk *)

(** src/layer/internal/base.rs:422-476 [BaseTripleStream::poll_next], run to the end: keep
    the current (subject, predicate) and advance s_p whenever the sp number of the next
    sp_o pair grows.  [None] is the error "unexpected end of s_p_stream". *)
Fixpoint base_stream (s_p : list (nat * nat)) (last_s_p : nat * nat) (last_sp : nat)
    (sp_o : list (nat * nat)) : option (list triple) :=
  match sp_o with
  | [] => Some []
  | (sp, o) :: sp_o' =>
      if decide (last_sp < sp) then
        match s_p with
        | [] => None
        | (s, p) :: s_p' => ts ← base_stream s_p' (s, p) sp sp_o'; Some (mkt s p o :: ts)
        end
      else
        ts ← base_stream s_p last_s_p last_sp sp_o';
        Some (mkt last_s_p.1 last_s_p.2 o :: ts)
  end.

(** src/layer/internal/child.rs:590-682 [ChildTripleStream::poll_next], run to the end:
    as above, but the subjects file is advanced whenever the subject number grows. *)
Fixpoint child_stream (subjects : list nat) (s_p : list (nat * nat)) (last_mapped_s : nat)
    (last_s_p : nat * nat) (last_sp : nat) (sp_o : list (nat * nat)) : option (list triple) :=
  match sp_o with
  | [] => Some []
  | (sp, o) :: sp_o' =>
      if decide (last_sp < sp) then
        match s_p with
        | [] => None
        | (s, p) :: s_p' =>
            if decide (last_s_p.1 < s) then
              match subjects with
              | [] => None
              | ms :: subjects' =>
                  ts ← child_stream subjects' s_p' ms (s, p) sp sp_o'; Some (mkt ms p o :: ts)
              end
            else
              ts ← child_stream subjects s_p' last_mapped_s (s, p) sp sp_o';
              Some (mkt last_mapped_s p o :: ts)
        end
      else
        ts ← child_stream subjects s_p last_mapped_s last_s_p last_sp sp_o';
        Some (mkt last_mapped_s last_s_p.2 o :: ts)
  end.

(** base.rs:478-490 [open_base_triple_stream], child.rs:684-700 [open_child_triple_stream] *)
Definition tf_stream (tf : tfiles) : option (list triple) :=
  match tf_subjects tf with
  | None => base_stream (adj_stream_pairs (tf_sp tf)) (0, 0) 0 (adj_stream_pairs (tf_spo tf))
  | Some ss =>
      child_stream ss (adj_stream_pairs (tf_sp tf)) 0 (0, 0) 0 (adj_stream_pairs (tf_spo tf))
  end.
