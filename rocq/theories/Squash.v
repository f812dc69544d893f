(** Model of squashing layers into a new layer with ids of its own (src/storage/layer.rs:1831-2188).
    [None] is a panic. *)
From Verif Require Import Prelude Succinct TripleFiles Merge Layer Builder Rollup.

(** layer.rs:1855-1864 ([base] is 0) and 2016-2024: the slot of an id in a vector with one
    slot more than there are ids *)
Definition sq_mark (base : nat) (ex : list bool) (id : nat) : option (list bool) :=
  if decide (base ≤ id) then vset ex (id - base) true else Some ex.
Fixpoint sq_existences (b bp : nat) (nvex pex : list bool) (ts : list triple)
  : option (list bool * list bool) :=
  match ts with
  | [] => Some (nvex, pex)
  | t :: ts' =>
      nvex ← sq_mark b nvex (t_s t);
      pex ← sq_mark bp pex (t_p t);
      nvex ← sq_mark b nvex (t_o t);
      sq_existences b bp nvex pex ts'
  end.

(** layer.rs:1872-1918, 2030-2081: the entries of all dictionaries with their ids, as far as
    the ids are used; [off] is the number of ids below the first layer *)
Fixpoint sq_used {A} (base : nat) (ex : list bool) (es : list (nat * A)) : option (list (A * nat)) :=
  match es with
  | [] => Some []
  | (id, x) :: es' =>
      e ← ex !! (id - base);
      r ← sq_used base ex es';
      Some (if (e : bool) then (x, id) :: r else r)
  end.
Definition sq_collect {A} (dic : layer → list A) (mp : layer → option (list nat)) (shift size : layer → nat)
    (base : nat) (ex : list bool) (ls : list layer) : option (list (A * nat)) :=
  its ← entry_iters dic shift size base (zip ls (mp <$> ls));
  sq_used base ex (mjoin its).

(** layer.rs:1923-1937, 2086-2101: [v[old - base] = next], for consecutive [next] *)
Fixpoint sq_fill (base : nat) (v : list nat) (next : nat) (olds : list nat) : option (list nat) :=
  match olds with
  | [] => Some v
  | old :: olds' => v' ← vset v (old - base) next; sq_fill base v' (S next) olds'
  end.

(** The parts of a squashed layer: nodes, predicates and values, each with the old id, and the
    two maps from old to new ids.  [ls] are the layers from the bottom up, [b] and [bp] the
    numbers of ids of nodes and values and of predicates below them, [ts] the triples whose
    strings are kept. *)
Record sq_parts := SqParts {
  sq_nodes : list (str * nat);
  sq_preds : list (str * nat);
  sq_vals : list (val * nat);
  sq_nvm : list nat;
  sq_pm : list nat }.
Definition squash_dicts (b bp : nat) (ls : list layer) (ts : list triple) : option sq_parts :=
  let n := length (mjoin (l_nodes <$> ls)) + length (mjoin (l_vals <$> ls)) in
  let np := length (mjoin (l_preds <$> ls)) in
  '(nvex, pex) ← sq_existences b bp (replicate (n + 1) false) (replicate (np + 1) false) ts;
  nodes ← sq_collect l_nodes l_nvmap (λ _, 0) l_nv b nvex ls;
  prs ← sq_collect l_preds l_pmap (λ _, 0) (λ l, length (l_preds l)) bp pex ls;
  vals ← sq_collect l_vals l_nvmap (λ l, length (l_nodes l)) l_nv b nvex ls;
  let nodes := osort nodes in
  let prs := osort prs in
  let vals := osort vals in
  nvm ← sq_fill b (replicate (n + 1) 0) (b + 1) (snd <$> nodes);
  nvm ← sq_fill b nvm (length nodes + 1 + b) (snd <$> vals);
  pm ← sq_fill bp (replicate (np + 1) 0) (bp + 1) (snd <$> prs);
  Some (SqParts nodes prs vals nvm pm).

(** layer.rs:1831-1961 [squash] *)
Definition squash_triple (d : sq_parts) (t : triple) : option triple :=
  s ← sq_nvm d !! t_s t; p ← sq_pm d !! t_p t; o ← sq_nvm d !! t_o t; Some (mkt s p o).
Definition squash (st : stack) : option layer :=
  ts ← triples st;
  d ← squash_dicts 0 0 (reverse st) ts;
  ts ← mapM (squash_triple d) ts;
  base_layer (fst <$> sq_nodes d) (fst <$> sq_preds d) (fst <$> sq_vals d) (osort ts).

(** layer.rs:2128-2148 *)
Definition sq_remap (base : nat) (v : list nat) (id : nat) : option nat :=
  if decide (id ≤ base) then Some id else v !! (id - base).
Definition squash_change (b bp : nat) (d : sq_parts) (c : bool * triple) : option (bool * triple) :=
  s ← sq_remap b (sq_nvm d) (t_s c.2);
  p ← sq_remap bp (sq_pm d) (t_p c.2);
  o ← sq_remap b (sq_nvm d) (t_o c.2);
  Some (c.1, mkt s p o).
(** subject_iterator.rs:322-326: additions come first when changes are sorted *)
Definition change_rank (c : bool * triple) : nat * triple := ((if c.1 then 0 else 1), c.2).
(** layer.rs:1963-2188 [squash_upto].  [disk] are the layers above [upto] as they are on
    disk, from the top down, [base] is [upto] with its ancestors.  A dictionary or id map
    always exists for an existing layer, see 1597-1703. *)
Definition squash_upto (disk base : stack) : option layer :=
  let b := nv_count base in
  let bp := pred_count base in
  cs ← stack_changes (reverse disk);
  d ← squash_dicts b bp (reverse disk) (snd <$> filter (λ c, c.1 = true) cs);
  cs ← mapM (squash_change b bp d) cs;
  let cs := osort (change_rank <$> cs) in
  pos ← build_tfiles true (snd <$> filter (λ c, c.1 = 0) cs);
  neg ← build_tfiles true (snd <$> filter (λ c, c.1 = 1) cs);
  Some (Layer (fst <$> sq_nodes d) (fst <$> sq_preds d) (fst <$> sq_vals d) None None pos (Some neg)).
