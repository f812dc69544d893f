(** Model of a layer store by names: directories with layer files, parent files and rollup files
    (src/storage/layer.rs), the cache of loaded layers (src/storage/cache.rs) and the calls of
    src/store/mod.rs.  Calls are programs that look at the store and write to it step by step, so
    that calls of several threads can be interleaved. *)
From Verif Require Import Prelude Succinct TripleFiles Merge Layer Builder Rollup Squash MergeBase Names Spec WfFacts MergeBaseFacts.

(** A directory.  The files of a layer are taken to appear at once; those of a base layer and of a
    child layer have different names (consts.rs:96-589), so a layer with negative files cannot be loaded as a
    base layer, nor the other way round.  [d_stands] is history and not on disk: whether the name of the directory was
    ever written to a rollup file. *)
Record dent := Dent {
  d_files : option layer;
  d_parent : option lname;
  d_rollup : option lname;
  d_stands : bool }.
Notation namemap := (@gmap (list N) (@list_eq_dec N N_eq_dec) (@list_countable N N_eq_dec N_countable)).
Notation store := (namemap dent).
Definition s_parent (s : store) (x : lname) : option lname := s !! x ≫= d_parent.
Definition s_rollup (s : store) (x : lname) : option lname := s !! x ≫= d_rollup.
Definition s_stands (s : store) (x : lname) : bool := from_option d_stands false (s !! x).
Definition s_files (s : store) (x : lname) : option layer := s !! x ≫= d_files.
Definition base_files (s : store) (x : lname) : option layer :=
  l ← s_files s x; match l_neg l with None => Some l | Some _ => None end.
Definition child_files (s : store) (x : lname) : option layer :=
  l ← s_files s x; match l_neg l with Some _ => Some l | None => None end.

(** A loaded layer, [InternalLayer] (internal/mod.rs:24-56): the layer and its ancestors from the top
    down, each with its name, its parent's name, and whether it is a rollup that stands for it *)
Record lent := Lent {
  n_name : lname;
  n_parent : option lname;
  n_rollup : bool;
  n_layer : layer }.
Notation loaded := (list lent).
Definition layers (L : loaded) : stack := n_layer <$> L.
Definition l_name (L : loaded) : option lname := n_name <$> head L.
Definition name_of (L : loaded) : lname := default [] (l_name L).
Definition l_parent (L : loaded) : option lname := head L ≫= n_parent.
(** rollup.rs:12-36: [layer] stands for [x], whose parent is [p] *)
Definition wrap (x : lname) (p : option lname) (L : loaded) : loaded :=
  match L with [] => [] | e :: L' => Lent x p true (n_layer e) :: L' end.

(** cache.rs:37-89, the layers that are cached and not dropped yet, by name *)
Notation lcache := (namemap (list lent)).

(** ** Programs *)
Inductive write :=
  | WParent (x p : lname)
  | WFiles (x : lname) (l : layer)
  | WRollup (x r : lname)
  | WCache (L : loaded)
  | WInvalidate (x : lname).
(** Directories are given new names; [rand::random] (layer.rs:360-363) is taken to avoid names that are in use.
    [Assume b] marks a point where the execution is only followed if [b] holds: see its uses. *)
Inductive prog (A : Type) :=
  | Ret (r : outcome A)
  | Look (k : store → lcache → prog A)
  | Alloc (k : lname → prog A)
  | Put (w : write) (p : prog A)
  | Assume (b : bool) (p : prog A).
Arguments Ret {A}. Arguments Look {A}. Arguments Alloc {A}. Arguments Put {A}. Arguments Assume {A}.
Fixpoint pbind {A B} (p : prog A) (f : A → prog B) : prog B :=
  match p with
  | Ret (Ok a) => f a
  | Ret (Err k) => Ret (Err k)
  | Ret Panic => Ret Panic
  | Look k => Look (λ s c, pbind (k s c) f)
  | Alloc k => Alloc (λ n, pbind (k n) f)
  | Put w p => Put w (pbind p f)
  | Assume b p => Assume b (pbind p f)
  end.
Definition lift {A} (r : option A) (e : outcome A) : prog A := Ret (match r with Some a => Ok a | None => e end).

(** ** Writing *)
Definition set_dent (s : store) (x : lname) (f : dent → dent) : store :=
  match s !! x with Some d => <[x := f d]> s | None => s end.
Definition write_store (w : write) (s : store) : store :=
  match w with
  | WParent x p => set_dent s x (λ d, Dent (d_files d) (Some p) (d_rollup d) (d_stands d))
  | WFiles x l => set_dent s x (λ d, Dent (Some l) (d_parent d) (d_rollup d) (d_stands d))
  | WRollup x r => set_dent (set_dent s r (λ d, Dent (d_files d) (d_parent d) (d_rollup d) true))
                   x (λ d, Dent (d_files d) (d_parent d) (Some r) (d_stands d))
  | WCache _ | WInvalidate _ => s
  end.
(** cache.rs:71-88 *)
Definition write_cache (w : write) (c : lcache) : lcache :=
  match w with
  | WCache (e :: L) => <[n_name e := e :: L]> c
  | WInvalidate x => delete x c
  | _ => c
  end.
Definition new_dir (n : lname) (s : store) : store := <[n := Dent None None None false]> s.

(** ** Loading, layer.rs:1433-1587.  [cached] is false for [NOCACHE]. *)
Notation todo := (list ((list N) * option ((list N) * option (list N)))).
Definition cache_get (cached : bool) (c : lcache) (x : lname) : option loaded := if cached then c !! x else None.
Definition cache_put {A} (cached : bool) (L : loaded) (p : prog A) : prog A := if cached then Put (WCache L) p else p.
(** layer.rs:1451-1512; each round is one step: the rollup file is the only one that is ever
    rewritten, and a cached layer may disappear at any time.  [fuel] bounds the number of rounds. *)
Fixpoint find_start (cached : bool) (fuel : nat) (td : todo) : prog (option loaded * todo) :=
  match fuel, td with
  | 0, _ | _, [] => Ret Panic
  | S f, (x, r) :: rest =>
      let cur := match r with Some (rl, _) => rl | None => x end in
      Look (λ s c,
        match cache_get cached c cur with
        | Some L =>
            match r with
            | None => Ret (Ok (Some L, rest))
            | Some (_, op) =>
                if decide (1 < length L) then
                  match op with
                  | Some p => Ret (Ok (Some (wrap x (Some p) L), rest))
                  | None => Ret Panic
                  end
                else Ret (Ok (Some (wrap x op L), rest))
            end
        | None =>
            match s_rollup s cur with
            | Some rl =>
                if decide (rl = cur) then Ret Panic
                else find_start cached f ((cur, Some (rl, s_parent s cur)) :: rest)
            | None =>
                match s_parent s cur with
                | Some p => find_start cached f ((p, None) :: td)
                | None => Ret (Ok (None, td))
                end
            end
        end)
  end.
(** layer.rs:1514-1546 *)
Definition load_base (cached : bool) (x : lname) (r : option (lname * option lname)) : prog loaded :=
  match r with
  | None =>
      Look (λ s _, match base_files s x with
        | None => Ret (Err NotFound)
        | Some l => let L := [Lent x None false l] in cache_put cached L (Ret (Ok L))
        end)
  | Some (rl, op) =>
      Look (λ s _, match base_files s rl with
        | None => Ret (Err NotFound)
        | Some l =>
            let L := [Lent rl None false l] in
            cache_put cached L (cache_put cached (wrap x op L) (Ret (Ok (wrap x op L))))
        end)
  end.
(** layer.rs:1548-1581 *)
Fixpoint load_children (cached : bool) (anc : loaded) (td : todo) : prog loaded :=
  match td with
  | [] => Ret (Ok anc)
  | (x, None) :: rest =>
      Look (λ s _, match child_files s x with
        | None => Ret (Err NotFound)
        | Some l =>
            let L := Lent x (l_name anc) false l :: anc in
            cache_put cached L (load_children cached L rest)
        end)
  | (x, Some (rl, op)) :: rest =>
      match op with
      | None => Ret Panic
      | Some p =>
          Look (λ s _, match child_files s rl with
            | None => Ret (Err NotFound)
            | Some l =>
                let L := Lent rl (l_name anc) false l :: anc in
                cache_put cached L (cache_put cached (wrap x (Some p) L) (load_children cached (wrap x (Some p) L) rest))
            end)
      end
  end.
(** layer.rs:1438-1587.  The assertion on the name, 1583, is not part of a release build. *)
Definition get_layer (cached : bool) (x : lname) : prog (option loaded) :=
  Look (λ s c,
    match cache_get cached c x with
    | Some L => Ret (Ok (Some L))
    | None =>
        match s !! x with
        | None => Ret (Ok None)
        | Some _ =>
            pbind (find_start cached (S (size s)) [(x, None)]) (λ r,
              match r with
              | (Some anc, td) => pbind (load_children cached anc td) (λ L, Ret (Ok (Some L)))
              | (None, []) => Ret Panic
              | (None, (y, rl) :: td) =>
                  pbind (load_base cached y rl) (λ anc,
                    pbind (load_children cached anc td) (λ L, Ret (Ok (Some L))))
              end)
        end
    end).
(** mod.rs:262-275, 302-304 and others *)
Definition get_existing (cached : bool) (x : lname) : prog loaded :=
  pbind (get_layer cached x) (λ r, match r with Some L => Ret (Ok L) | None => Ret (Err NotFound) end).

(** ** Walking along parent files *)
(** layer.rs:36-49, 2488-2502: the names from [x] to its base layer, from the top down *)
Fixpoint walk (fuel : nat) (s : store) (x : lname) : option (list lname) :=
  match fuel with
  | 0 => None
  | S f => match s_parent s x with None => Some [x] | Some p => cons x <$> walk f s p end
  end.
(** layer.rs:51-69: the names from [x] down to [upto], without it *)
Fixpoint walk_upto (fuel : nat) (s : store) (x upto : lname) : outcome (list lname) :=
  match fuel with
  | 0 => Panic
  | S f =>
      if decide (x = upto) then Ok []
      else match s_parent s x with
           | Some p => obind (walk_upto f s p upto) (λ ns, Ok (x :: ns))
           | None => Err NotFound
           end
  end.
(** layer.rs:2504-2527, from the top down *)
Fixpoint names_upto (fuel : nat) (s : store) (x upto : lname) : outcome (list lname) :=
  match fuel with
  | 0 => Panic
  | S f =>
      match s_parent s x with
      | Some p => if decide (p = upto) then Ok [x] else obind (names_upto f s p upto) (λ ns, Ok (x :: ns))
      | None => Err NotFound
      end
  end.
(** layer.rs:2219-2236 *)
Fixpoint is_ancestor (fuel : nat) (s : store) (x a : lname) : outcome bool :=
  match fuel with
  | 0 => Panic
  | S f =>
      if decide (a = x) then Ok true
      else match s_parent s x with Some p => is_ancestor f s p a | None => Ok false end
  end.
Definition fuel_of (s : store) : nat := S (size s).
(** layer.rs:2488-2502 and 2504-2527 *)
Definition stack_names (s : store) (x : lname) : option (list lname) := reverse <$> walk (fuel_of s) s x.
Definition stack_names_upto (s : store) (x upto : lname) : outcome (list lname) :=
  obind (names_upto (fuel_of s) s x upto) (λ ns, Ok (reverse ns)).
(** the files on disk of several layers, layer.rs:1597-1703 *)
Definition disk_layers (s : store) (ns : list lname) : outcome (list layer) :=
  match mapM (s_files s) ns with Some ls => Ok ls | None => Err NotFound end.
(** layer.rs:335-352 *)
Definition layer_changes_upto (s : store) (x upto : lname) : outcome (list (bool * triple)) :=
  obind (obind (walk_upto (fuel_of s) s x upto) (disk_layers s))
    (λ ls, match stack_changes (reverse ls) with Some cs => Ok cs | None => Panic end).
(** layer.rs:320-333: reads the files of the given layer in every round *)
Definition layer_changes (s : store) (x : lname) : outcome (list (bool * triple)) :=
  match walk (fuel_of s) s x with
  | None => Panic
  | Some ns =>
      obind (disk_layers s ((λ _, x) <$> ns))
        (λ ls, match stack_changes (reverse ls) with Some cs => Ok cs | None => Panic end)
  end.

(** ** Queries by name: dictionaries, counts, id maps, additions and removals of one layer *)
(** layer.rs:1597-1703, 2238-2486: read from the files of the layer *)
Definition direct_read {A} (f : layer → A) (s : store) (x : lname) : option A := f <$> s_files s x.
(** cache.rs:138-287, 339-492, 521-540: answered by the cached layer, unless that is a rollup *)
Definition cached_read {A} (f : layer → A) (s : store) (c : lcache) (x : lname) : option A :=
  match c !! x with
  | Some (e :: _) => if n_rollup e then direct_read f s x else Some (f (n_layer e))
  | _ => direct_read f s x
  end.
(** cache.rs:186-201: reads the other dictionary when the layer is not cached *)
Definition direct_pred_count (s : store) (x : lname) : option nat := direct_read (λ l, length (l_preds l)) s x.
Definition direct_val_count (s : store) (x : lname) : option nat := direct_read (λ l, length (l_vals l)) s x.
Definition cached_pred_count (s : store) (c : lcache) (x : lname) : option nat :=
  match c !! x with
  | Some (e :: _) => if n_rollup e then direct_val_count s x else Some (length (l_preds (n_layer e)))
  | _ => direct_val_count s x
  end.
(** The additions and removals of one object, store/mod.rs:513-540.  From the files, layer.rs:2427-2470: the objects are compared. *)
Definition disk_additions_o (l : layer) (o : nat) : option (list triple) := tf_triples_o (l_pos l) o.
Definition disk_removals_o (l : layer) (o : nat) : option (list triple) :=
  match l_neg l with None => Some [] | Some tf => tf_triples_o tf o end.
Definition direct_additions_o (s : store) (x : lname) (o : nat) : option (option (list triple)) := direct_read (λ l, disk_additions_o l o) s x.
Definition direct_removals_o (s : store) (x : lname) (o : nat) : option (option (list triple)) := direct_read (λ l, disk_removals_o l o) s x.
(** cache.rs:493-519: the cached layer does not compare them (internal/mod.rs:412-421, 433-442) *)
Definition cached_additions_o (s : store) (c : lcache) (x : lname) (o : nat) : option (option (list triple)) :=
  match c !! x with
  | Some (e :: _) => if n_rollup e then direct_additions_o s x o else Some (l_additions_o (n_layer e) o)
  | _ => direct_additions_o s x o
  end.
Definition cached_removals_o (s : store) (c : lcache) (x : lname) (o : nat) : option (option (list triple)) :=
  match c !! x with
  | Some (e :: _) => if n_rollup e then direct_removals_o s x o else Some (l_removals_o (n_layer e) o)
  | _ => direct_removals_o s x o
  end.
(** cache.rs:129-136 *)
Definition cached_parent (s : store) (c : lcache) (x : lname) : option lname :=
  match c !! x with Some L => l_parent L | None => s_parent s x end.

(** ** Creating layers *)
(** layer.rs:717-737 *)
Definition create_child (cached : bool) (p : lname) : prog (lname * loaded) :=
  pbind (get_existing cached p) (λ L, Alloc (λ n, Put (WParent n p) (Ret (Ok (n, L))))).
(** a commit, layer.rs:1706-1725, simple_builder.rs.  Calls with ids that no triple of the parent can have are left
    out of account (they make the commit panic, or worse). *)
Definition calls_ok (st : stack) (cs : list op) : bool := bool_decide (Forall (λ c, is_Some (op_vt st c)) cs).
Definition build_on (nvord : list (obj * nat) → list (obj * nat)) (prord : list (str * nat) → list (str * nat))
    (st : stack) (cs : list op) (n : lname) : prog lname :=
  Assume (calls_ok st cs)
    (match build nvord prord st cs with
     | Some (l :: _) => Put (WFiles n l) (Ret (Ok n))
     | _ => Ret Panic
     end).
Definition new_base nvord prord (cs : list op) : prog lname := Alloc (build_on nvord prord [] cs).
Definition new_child (cached : bool) nvord prord (p : lname) (cs : list op) : prog lname :=
  pbind (create_child cached p) (λ '(n, L), build_on nvord prord (layers L) cs n).

(** ** Rollups *)
(** layer.rs:1822-1829, cache.rs:305-312 *)
Definition register_rollup (cached : bool) (x r : lname) : prog lname :=
  let inv := if cached then Put (WInvalidate x) (Ret (Ok r)) else Ret (Ok r) in
  if decide (x = r) then inv else Put (WRollup x r) inv.
(** layer.rs:1727-1750 *)
Definition perform_rollup (L : loaded) : prog lname :=
  let x := name_of L in
  match l_parent L with
  | None => Ret (Ok x)
  | Some _ =>
      Look (λ s _,
        let make := Alloc (λ n, match rollup (layers L) with
                                | Some l => Put (WFiles n l) (Ret (Ok n))
                                | None => Ret Panic
                                end) in
        match s_rollup s x with
        | Some r => match s_parent s r with None => Ret (Ok r) | Some _ => make end
        | None => make
        end)
  end.
(** delta.rs:37: [truncate] at the position of a name; the names are from the top down here *)
Fixpoint below (ns : list lname) (x : lname) : list lname :=
  match ns with
  | [] => []
  | y :: ns' => if decide (y = x) then ns' else below ns' x
  end.
(** delta.rs:8-45 [safe_upto_bound], after the names above [upto] were read from disk *)
Fixpoint safe_bound (ns : list lname) (L : loaded) (upto : lname) : lname :=
  match L with
  | [] => upto
  | e :: L' =>
      match L' with
      | [] => n_name e
      | e' :: _ =>
          if decide (n_name e' = upto) then upto
          else if decide (n_name e' ∈ ns) then safe_bound (below ns (n_name e')) L' upto
          else n_name e
      end
  end.
(** internal/mod.rs:502-527 [immediate_layers_upto] *)
Fixpoint above (L : loaded) (b : lname) : outcome loaded :=
  match L with
  | [] => Panic
  | e :: L' => if decide (n_name e = b) then Ok [] else obind (above L' b) (λ m, Ok (e :: m))
  end.
Definition layers_upto (L : loaded) (b : lname) : outcome loaded :=
  match L with
  | e :: _ => if decide (n_name e = b) then Panic else above L b
  | [] => Panic
  end.
(** layer.rs:1757-1778, 1792-1813: reasons not to make a new rollup *)
Definition upto_shortcut {A} (L : loaded) (upto : lname) (done : lname → prog A) (make : prog A) : prog A :=
  let x := name_of L in
  if decide (x = upto) then done x
  else if decide (l_parent L = Some upto) then done x
  else Look (λ s _,
    match s_rollup s x with
    | Some r =>
        match s_parent s r with
        | Some q => if decide (q = upto) then done r else make
        | None => Ret (Err NotFound)
        end
    | None => make
    end).
(** layer.rs:1752-1785, delta.rs:367-434.  The predicate id maps that the code mixes up with others
    (delta.rs:192-200) are assumed not to matter. *)
Definition perform_rollup_upto (cached : bool) (L : loaded) (upto : lname) : prog lname :=
  upto_shortcut L upto (λ r, Ret (Ok r))
    (pbind (create_child cached upto) (λ '(n, _),
      Look (λ s _, pbind (Ret (names_upto (fuel_of s) s (name_of L) upto)) (λ ns,
      let b := safe_bound ns L upto in
      Look (λ s _, pbind (Ret (obind (walk_upto (fuel_of s) s b upto) (disk_layers s))) (λ disk,
      pbind (Ret (layers_upto L b)) (λ mem,
      Assume (bool_decide (Forall (λ l, l_nvmap l = l_pmap l) (layers mem)))
        (match rollup_upto (layers mem) disk with
         | Some l => Put (WFiles n l) (Ret (Ok n))
         | None => Ret Panic
         end)))))))).
(** layer.rs:1787-1820, delta.rs:301-365.  The bound is assumed to be the layer that was asked for: the new
    layer becomes a child of that one in any case. *)
Definition perform_imprecise (cached : bool) (L : loaded) (upto : lname) : prog lname :=
  upto_shortcut L upto (λ r, Ret (Ok r))
    (pbind (create_child cached upto) (λ '(n, _),
      Look (λ s _, pbind (Ret (names_upto (fuel_of s) s (name_of L) upto)) (λ ns,
      let b := safe_bound ns L upto in
      Assume (bool_decide (b = upto))
      (pbind (Ret (layers_upto L b)) (λ mem,
        match imprecise_rollup_upto (layers mem) with
        | Some l => Put (WFiles n l) (Ret (Ok n))
        | None => Ret Panic
        end)))))).
(** mod.rs:320-363, layer.rs:155-215, cache.rs:314-317.  The imprecise form uses no cache (layer.rs:206-215). *)
Definition do_rollup (cached : bool) (x : lname) : prog lname :=
  pbind (get_existing cached x) (λ L,
    pbind (perform_rollup L) (λ r, register_rollup cached (name_of L) r)).
Definition do_rollup_upto (cached : bool) (x upto : lname) : prog lname :=
  pbind (get_existing cached x) (λ L,
    pbind (perform_rollup_upto cached L upto) (λ r, register_rollup cached (name_of L) r)).
Definition do_imprecise (cached : bool) (x upto : lname) : prog lname :=
  pbind (get_existing cached x) (λ L,
    pbind (perform_imprecise false L upto) (λ r, register_rollup cached (name_of L) r)).

(** ** Squashing and merging *)
(** mod.rs:301-311, layer.rs:1831-1961 *)
Definition do_squash (cached : bool) (x : lname) : prog lname :=
  pbind (get_existing cached x) (λ L,
    Alloc (λ n, match squash (layers L) with
                | Some l => Put (WFiles n l) (Ret (Ok n))
                | None => Ret Panic
                end)).
(** mod.rs:277-291, layer.rs:1963-2188.  Only the name of the loaded layer is used; the parent file is written last. *)
Definition do_squash_upto (cached : bool) (x upto : lname) : prog lname :=
  pbind (get_existing cached x) (λ L,
    Look (λ s _,
      match s !! upto with
      | None => Ret (Err NotFound)
      | Some _ =>
          pbind (lift (walk (fuel_of s) s upto) Panic) (λ bs,
          pbind (Ret (disk_layers s bs)) (λ base,
          pbind (Ret (obind (names_upto (fuel_of s) s (name_of L) upto) (disk_layers s))) (λ top,
          Alloc (λ n, match squash_upto top base with
                      | Some l => Put (WFiles n l) (Put (WParent n upto) (Ret (Ok n)))
                      | None => Ret Panic
                      end))))
      end)).
(** layer.rs:2190-2217.  Layers with id maps, which are merged wrongly, are left out of account. *)
Fixpoint merge_inputs (s : store) (xs : list lname) : outcome (list layer) :=
  match xs with
  | [] => Ok []
  | x :: xs' =>
      match s_parent s x with
      | Some _ => Err OtherError
      | None =>
          match base_files s x with
          | Some l => obind (merge_inputs s xs') (λ ls, Ok (l :: ls))
          | None => Err NotFound
          end
      end
  end.
Definition do_merge (xs : list lname) : prog lname :=
  Look (λ s _, pbind (Ret (merge_inputs s xs)) (λ ls,
    Assume (bool_decide (Forall (λ l, l_nvmap l = None ∧ l_pmap l = None) ls))
      (Alloc (λ n, match merge_base_layers ls with
                   | Some l => Put (WFiles n l) (Ret (Ok n))
                   | None => Ret Panic
                   end)))).

(** ** Importing, pack.rs:63-134.  A pack is given by its layers, each with its ancestors as they are in the store it
    was exported from; the files of a layer and the name of its parent are what is in the pack.  That the layers below
    an imported layer are here when its turn comes, and are the layers that the other store has under their names, is
    assumed; so is that no requested name is in use. *)
#[global] Instance adj_eq_dec : EqDecision adj.
Proof. solve_decision. Defined.
#[global] Instance tfiles_eq_dec : EqDecision tfiles.
Proof. solve_decision. Defined.
#[global] Instance layer_eq_dec : EqDecision layer.
Proof. solve_decision. Defined.
Fixpoint chain_here (s : store) (c : list (lname * layer)) : bool :=
  match c with
  | [] => true
  | (x, l) :: c' => bool_decide (s_files s x = Some l ∧ s_parent s x = fst <$> head c') && chain_here s c'
  end.
Fixpoint make_dirs {A} (ns : list lname) (p : prog A) : prog A :=
  match ns with
  | [] => p
  | n :: ns' => Alloc (λ m, Assume (bool_decide (m = n)) (make_dirs ns' p))
  end.
Fixpoint write_pack (ns : list lname) (pk : list (list (lname * layer))) : prog unit :=
  match pk with
  | [] => Ret (Ok tt)
  | [] :: pk' => write_pack ns pk'
  | ((n, l) :: anc) :: pk' =>
      if decide (n ∈ ns) then
        Look (λ s _, Assume (chain_here s anc)
          (let files := Put (WFiles n l) (write_pack ns pk') in
           match anc with (p, _) :: _ => Put (WParent n p) files | [] => files end))
      else write_pack ns pk'
  end.
Definition do_import (pk : list (list (lname * layer))) (ns : list lname) : prog unit := make_dirs ns (write_pack ns pk).
(** What can be in a pack: layers of a store, each once.  Every layer of a store meets this (C34_packable). *)
Definition packable (c : list (lname * layer)) : Prop :=
  c ≠ [] ∧ wf c.*2 ∧ (∀ i x l, c !! i = Some (x, l) → (l_neg l = None ↔ S i = length c)) ∧
  (∀ x l, c = [(x, l)] → l_nvmap l = None → l_pmap l = None → base_of l).
Definition pack_ok (pk : list (list (lname * layer))) : Prop := Forall packable pk ∧ NoDup (omap head pk).*1.

(** ** Calls and threads *)
Inductive scall :=
  | SGet (x : lname)
  | SBase (nvord : list (obj * nat) → list (obj * nat)) (prord : list (str * nat) → list (str * nat)) (cs : list op)
  | SChild (nvord : list (obj * nat) → list (obj * nat)) (prord : list (str * nat) → list (str * nat)) (x : lname) (cs : list op)
  | SRollup (x : lname)
  | SRollupUpto (x upto : lname)
  | SImprecise (x upto : lname)
  | SSquash (x : lname)
  | SSquashUpto (x upto : lname)
  | SMerge (xs : list lname)
  | SImport (pk : list (list (lname * layer))) (ns : list lname).
Inductive sres := RLayer (L : option loaded) | RName (n : lname) | RDone.
Definition pmap {A B} (f : A → B) (p : prog A) : prog B := pbind p (λ a, Ret (Ok (f a))).
Definition program (cached : bool) (k : scall) : prog sres :=
  match k with
  | SGet x => pmap RLayer (get_layer cached x)
  | SBase nvord prord cs => pmap RName (new_base nvord prord cs)
  | SChild nvord prord x cs => pmap RName (new_child cached nvord prord x cs)
  | SRollup x => pmap RName (do_rollup cached x)
  | SRollupUpto x upto => pmap RName (do_rollup_upto cached x upto)
  | SImprecise x upto => pmap RName (do_imprecise cached x upto)
  | SSquash x => pmap RName (do_squash cached x)
  | SSquashUpto x upto => pmap RName (do_squash_upto cached x upto)
  | SMerge xs => pmap RName (do_merge xs)
  | SImport pk ns => pmap (λ _, RDone) (do_import pk ns)
  end.
(** Hash maps list their entries in any order *)
Definition call_ok (k : scall) : Prop :=
  match k with
  | SBase nvord prord _ | SChild nvord prord _ _ => (∀ m, nvord m ≡ₚ m) ∧ (∀ m, prord m ≡ₚ m)
  | SImport pk _ => pack_ok pk
  | _ => True
  end.

Record gstate := GState {
  g_store : store;
  g_cache : lcache;
  g_threads : gmap nat (scall * prog sres) }.
Definition gstate_init : gstate := GState ∅ ∅ ∅.
Inductive gev :=
  | GStart (t : nat) (k : scall)
  | GDone (t : nat) (k : scall) (r : outcome sres)
  | GCrash.
(** A rollup of a layer that was made as a rollup is left out of account: loading can then give a layer with
    another name.  [rollup] and the like do not return the names of the layers they make. *)
Definition no_nesting (s : store) (w : write) : Prop :=
  match w with
  | WRollup x r => s_rollup s r = None ∧ s_stands s x = false
  | _ => True
  end.
(** Threads on a store with a cache ([cached]) or without.  Cached layers are dropped at any
    time, and the process may stop and start again. *)
Inductive gstep (cached : bool) : gstate → option gev → gstate → Prop :=
  | g_start s c th t k :
      th !! t = None → call_ok k →
      gstep cached (GState s c th) (Some (GStart t k)) (GState s c (<[t := (k, program cached k)]> th))
  | g_look s c th t k f :
      th !! t = Some (k, Look f) →
      gstep cached (GState s c th) None (GState s c (<[t := (k, f s c)]> th))
  | g_alloc s c th t k f n :
      th !! t = Some (k, Alloc f) → s !! n = None →
      gstep cached (GState s c th) None (GState (new_dir n s) c (<[t := (k, f n)]> th))
  | g_put s c th t k w p :
      th !! t = Some (k, Put w p) → no_nesting s w →
      gstep cached (GState s c th) None (GState (write_store w s) (write_cache w c) (<[t := (k, p)]> th))
  | g_assume s c th t k p :
      th !! t = Some (k, Assume true p) →
      gstep cached (GState s c th) None (GState s c (<[t := (k, p)]> th))
  | g_done s c th t k r :
      th !! t = Some (k, Ret r) →
      gstep cached (GState s c th) (Some (GDone t k r)) (GState s c (delete t th))
  | g_drop s c th x :
      gstep cached (GState s c th) None (GState s (delete x c) th)
  | g_crash s c th :
      gstep cached (GState s c th) (Some GCrash) (GState s ∅ ∅).
Inductive gexec (cached : bool) : gstate → list gev → gstate → Prop :=
  | gexec_nil g : gexec cached g [] g
  | gexec_step g tr g' e g'' : gexec cached g tr g' → gstep cached g' e g'' → gexec cached g (tr ++ option_list e) g''.

#[global] Instance no_nesting_dec s w : Decision (no_nesting s w).
Proof. destruct w; apply _. Defined.
(** A program that runs by itself, with names for its directories *)
Fixpoint run {A : Type} (ns : list lname) (s : store) (c : lcache) (p : prog A) : option (outcome A * store * lcache) :=
  match p with
  | Ret r => Some (r, s, c)
  | Look k => run ns s c (k s c)
  | Alloc k =>
      match ns with
      | n :: ns' => match s !! n with None => run ns' (new_dir n s) c (k n) | Some _ => None end
      | [] => None
      end
  | Put w p => if decide (no_nesting s w) then run ns (write_store w s) (write_cache w c) p else None
  | Assume b p => if b then run ns s c p else None
  end.
(** The same without what the executions above leave out of account *)
Fixpoint run_any {A : Type} (ns : list lname) (s : store) (c : lcache) (p : prog A) : option (outcome A * store * lcache) :=
  match p with
  | Ret r => Some (r, s, c)
  | Look k => run_any ns s c (k s c)
  | Alloc k =>
      match ns with
      | n :: ns' => match s !! n with None => run_any ns' (new_dir n s) c (k n) | Some _ => None end
      | [] => None
      end
  | Put w p => run_any ns (write_store w s) (write_cache w c) p
  | Assume _ p => run_any ns s c p
  end.
(** One call after another *)
Fixpoint script_any (cached : bool) (ks : list (list lname * scall)) (s : store) (c : lcache) : option (list (outcome sres) * store * lcache) :=
  match ks with
  | [] => Some ([], s, c)
  | (ns, k) :: ks' =>
      '(r, s', c') ← run_any ns s c (program cached k);
      '(rs, s'', c'') ← script_any cached ks' s' c';
      Some (r :: rs, s'', c'')
  end.

(** ** Listing the layers *)
(** memory.rs:29-32, layer.rs:1429-1431 *)
Definition memory_layers (s : store) : outcome (list lname) := Ok (elements (dom (D := gset lname) s)).
(** directory.rs:34-51: the entries of the top directory are the first three characters of the names
    (directory.rs:53-62), each once *)
Definition top_entries (s : store) : list bytes :=
  elements (list_to_set (C := gset bytes) ((λ x, take 3 (name_to_string x)) <$> elements (dom (D := gset lname) s))).
Fixpoint omapM {A B} (f : A → outcome B) (l : list A) : outcome (list B) :=
  match l with
  | [] => Ok []
  | a :: l' => obind (f a) (λ b, obind (omapM f l') (λ bs, Ok (b :: bs)))
  end.
Definition directory_layers (s : store) : outcome (list lname) := omapM string_to_name (top_entries s).
