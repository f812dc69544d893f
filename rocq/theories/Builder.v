(** Model of the layer builder (src/layer/simple_builder.rs) and of the file builders it
    drives (src/layer/internal/base.rs, src/layer/internal/child.rs).  [None] is a panic.
    The parent is given by its stack; the empty stack means that there is no parent. *)
From Verif Require Import Prelude Succinct TripleFiles Merge Layer.

(** simple_builder.rs:52-66.  The two hash maps are lists of their entries in some order;
    the functions below only look up keys, add fresh keys, and list the entries. *)
Record builder := Builder {
  b_adds : list triple; b_rems : list triple;
  b_nvs : list (obj * nat); b_prs : list (str * nat);
  b_nvcount : nat; b_pcount : nat;
  b_ncnt : nat; b_pcnt : nat; b_vcnt : nat }.

(** simple_builder.rs:70-107 [new], [from_parent] *)
Definition builder_new (st : stack) : builder :=
  Builder [] [] [] [] (nv_count st) (pred_count st) 0 0 0.

(** [HashMap::get] *)
Fixpoint assoc {K V} `{EqDecision K} (m : list (K * V)) (k : K) : option V :=
  match m with
  | [] => None
  | (k', v) :: m' => if decide (k = k') then Some v else assoc m' k
  end.

(** simple_builder.rs:113-130 for a subject (an [ObjectType::Node]), 150-184 for an object:
    the id of a node or value, a fresh one when neither the builder nor the parent knows it *)
Definition intern_obj (st : stack) (b : builder) (x : obj) : option (builder * nat) :=
  match assoc (b_nvs b) x with
  | Some n => Some (b, n)
  | None =>
      r ← object_id st x;
      match r with
      | Some n =>
          Some (Builder (b_adds b) (b_rems b) ((x, n) :: b_nvs b) (b_prs b)
                  (b_nvcount b) (b_pcount b) (b_ncnt b) (b_pcnt b) (b_vcnt b), n)
      | None =>
          let n := S (b_nvcount b) in
          Some (Builder (b_adds b) (b_rems b) ((x, n) :: b_nvs b) (b_prs b)
                  n (b_pcount b)
                  (match x with inl _ => S (b_ncnt b) | inr _ => b_ncnt b end)
                  (b_pcnt b)
                  (match x with inl _ => b_vcnt b | inr _ => S (b_vcnt b) end), n)
      end
  end.
(** simple_builder.rs:132-149 *)
Definition intern_pred (st : stack) (b : builder) (p : str) : option (builder * nat) :=
  match assoc (b_prs b) p with
  | Some n => Some (b, n)
  | None =>
      r ← predicate_id st p;
      match r with
      | Some n =>
          Some (Builder (b_adds b) (b_rems b) (b_nvs b) ((p, n) :: b_prs b)
                  (b_nvcount b) (b_pcount b) (b_ncnt b) (b_pcnt b) (b_vcnt b), n)
      | None =>
          let n := S (b_pcount b) in
          Some (Builder (b_adds b) (b_rems b) (b_nvs b) ((p, n) :: b_prs b)
                  (b_nvcount b) n (b_ncnt b) (S (b_pcnt b)) (b_vcnt b), n)
      end
  end.
(** simple_builder.rs:109-188 *)
Definition calculate_triple (st : stack) (b : builder) (vt : vtriple) : option (builder * triple) :=
  '(b, s) ← intern_obj st b (inl vt.1.1);
  '(b, p) ← intern_pred st b vt.1.2;
  '(b, o) ← intern_obj st b vt.2;
  Some (b, mkt s p o).

(** simple_builder.rs:200-216 *)
Definition push_add (b : builder) (t : triple) : builder :=
  Builder (b_adds b ++ [t]) (b_rems b) (b_nvs b) (b_prs b) (b_nvcount b) (b_pcount b)
    (b_ncnt b) (b_pcnt b) (b_vcnt b).
Definition push_rem (b : builder) (t : triple) : builder :=
  Builder (b_adds b) (b_rems b ++ [t]) (b_nvs b) (b_prs b) (b_nvcount b) (b_pcount b)
    (b_ncnt b) (b_pcnt b) (b_vcnt b).
Inductive op :=
  | AddValue (vt : vtriple) | RemoveValue (vt : vtriple)
  | AddId (t : triple) | RemoveId (t : triple).
Definition do_op (st : stack) (b : builder) (c : op) : option builder :=
  match c with
  | AddValue vt => '(b, t) ← calculate_triple st b vt; Some (push_add b t)
  | RemoveValue vt => '(b, t) ← calculate_triple st b vt; Some (push_rem b t)
  | AddId t => Some (push_add b t)
  | RemoveId t => Some (push_rem b t)
  end.
Fixpoint do_ops (st : stack) (b : builder) (cs : list op) : option builder :=
  match cs with
  | [] => Some b
  | c :: cs' => b' ← do_op st b c; do_ops st b' cs'
  end.

(** ** Commit, simple_builder.rs:218-420 *)

(** simple_builder.rs:259-267, 276-281: a removal that mentions an id the parent does not
    have *)
Definition out_of_range (nv np : nat) (t : triple) : Prop := nv < t_s t ∨ np < t_p t ∨ nv < t_o t.
#[global] Instance out_of_range_dec nv np t : Decision (out_of_range nv np t).
Proof. unfold out_of_range. apply _. Defined.
Definition zero3 : triple := mkt 0 0 0.
Definition clear_range (nv np : nat) (t : triple) : triple :=
  if decide (out_of_range nv np t) then zero3 else t.

(** simple_builder.rs:248-290; both lists are sorted.  The same triple in both becomes
    zeroes in both. *)
Fixpoint noops (nv np : nat) (A : list triple) : list triple → list triple * list triple :=
  fix go (R : list triple) : list triple * list triple :=
    match R with
    | [] => (A, [])
    | r :: R' =>
        match A with
        | [] => ([], clear_range nv np <$> R)
        | a :: A' =>
            if decide (olt a r) then let '(x, y) := noops nv np A' R in (a :: x, y)
            else if decide (olt r a) then let '(x, y) := go R' in (x, clear_range nv np r :: y)
            else let '(x, y) := noops nv np A' R' in (zero3 :: x, zero3 :: y)
        end
    end.

(** [v[i] = x] and [bitvec.set(i, x)]: panic when [i] is out of range *)
Definition vset {A} (v : list A) (i : nat) (x : A) : option (list A) :=
  if decide (i < length v) then Some (<[i := x]> v) else None.

(** simple_builder.rs:293-310 *)
Definition mark (off : nat) (ex : list bool) (id : nat) : option (list bool) :=
  if decide (off < id) then vset ex (id - off - 1) true else Some ex.
Fixpoint existences (nv np : nat) (nvex pex : list bool) (ts : list triple)
  : option (list bool * list bool) :=
  match ts with
  | [] => Some (nvex, pex)
  | t :: ts' =>
      nvex ← mark nv nvex (t_s t);
      pex ← mark np pex (t_p t);
      nvex ← mark nv nvex (t_o t);
      existences nv np nvex pex ts'
  end.

(** simple_builder.rs:317-342: the entries with an id that is new and still used *)
Fixpoint used {K} (off : nat) (ex : list bool) (m : list (K * nat)) : option (list (K * nat)) :=
  match m with
  | [] => Some []
  | (k, id) :: m' =>
      if decide (id ≤ off) then used off ex m'
      else
        e ← ex !! (id - off - 1);
        r ← used off ex m';
        Some (if (e : bool) then (k, id) :: r else r)
  end.
Definition only_nodes (l : list (obj * nat)) : list (str * nat) :=
  omap (λ e, match e.1 with inl n => Some (n, e.2) | inr _ => None end) l.
Definition only_vals (l : list (obj * nat)) : list (val * nat) :=
  omap (λ e, match e.1 with inr v => Some (v, e.2) | inl _ => None end) l.

(** simple_builder.rs:349-363: [v[old - off - 1] = next], for consecutive [next] *)
Fixpoint fill (off : nat) (v : list nat) (next : nat) (olds : list nat) : option (list nat) :=
  match olds with
  | [] => Some v
  | old :: olds' => v' ← vset v (old - off - 1) next; fill off v' (S next) olds'
  end.

(** simple_builder.rs:366-379 *)
Definition remap (off : nat) (v : list nat) (id : nat) : option nat :=
  if decide (off < id) then v !! (id - off - 1) else Some id.
Definition remap_triple (nv np : nat) (nvm pm : list nat) (t : triple) : option triple :=
  s ← remap nv nvm (t_s t); p ← remap np pm (t_p t); o ← remap nv nvm (t_o t);
  Some (mkt s p o).

(** Filtering by a test that may panic: child.rs:493-529 *)
Fixpoint filter_opt {A} (f : A → option bool) (l : list A) : option (list A) :=
  match l with
  | [] => Some []
  | x :: l' => b ← f x; r ← filter_opt f l'; Some (if (b : bool) then x :: r else r)
  end.
(** child.rs:237-333: entries that the parent has are skipped *)
Definition not_known {A} (look : A → option (option nat)) (x : A) : option bool :=
  r ← look x; Some (match r with None => true | Some _ => false end).

(** child.rs:213-558 [ChildLayerFileBuilder]: the layer written from dictionaries and
    triples that are in order *)
Definition child_layer (st : stack) (nodes prs : list str) (vals : list val) (A R : list triple)
  : option layer :=
  nodes ← filter_opt (not_known (subject_id st)) nodes;
  prs ← filter_opt (not_known (predicate_id st)) prs;
  vals ← filter_opt (not_known (object_value_id st)) vals;
  A ← filter_opt (λ t, e ← triple_exists st t; Some (negb e)) A;
  R ← filter_opt (triple_exists st) R;
  pos ← build_tfiles true A;
  neg ← build_tfiles true R;
  Some (Layer nodes prs vals None None pos (Some neg)).
(** base.rs:150-403 [BaseLayerFileBuilder] *)
Definition base_layer (nodes prs : list str) (vals : list val) (A : list triple) : option layer :=
  pos ← build_tfiles false A;
  Some (Layer nodes prs vals None None pos None).

(** Commit.  The order in which the hash maps list their entries is arbitrary: [nvord] and
    [prord] stand for it. *)
Section commit.
  Context (nvord : list (obj * nat) → list (obj * nat)) (prord : list (str * nat) → list (str * nat)).
  Definition commit (st : stack) (b : builder) : option layer :=
    let nv := nv_count st in
    let np := pred_count st in
    let A := dedup (osort (b_adds b)) in
    let R := dedup (osort (b_rems b)) in
    let '(A, R) := noops nv np A R in
    '(nvex, pex) ← existences nv np (replicate (b_ncnt b + b_vcnt b) false)
                     (replicate (b_pcnt b) false) (A ++ R);
    nvs ← used nv nvex (nvord (b_nvs b));
    prs ← used np pex (prord (b_prs b));
    let nodes := osort (only_nodes nvs) in
    let vals := osort (only_vals nvs) in
    let prs := osort prs in
    nvm ← fill nv (replicate (b_ncnt b + b_vcnt b) 0) (nv + 1) (snd <$> nodes);
    nvm ← fill nv nvm (nv + length nodes + 1) (snd <$> vals);
    pm ← fill np (replicate (b_pcnt b) 0) (np + 1) (snd <$> prs);
    A ← mapM (remap_triple nv np nvm pm) A;
    R ← mapM (remap_triple nv np nvm pm) R;
    let A := osort A in
    let R := osort R in
    match st with
    | [] => base_layer (fst <$> nodes) (fst <$> prs) (fst <$> vals) A
    | _ => child_layer st (fst <$> nodes) (fst <$> prs) (fst <$> vals) A R
    end.
  (** A builder made from a parent, used, and committed: the new stack *)
  Definition build (st : stack) (cs : list op) : option (list layer) :=
    b ← do_ops st (builder_new st) cs;
    l ← commit st b;
    Some (l :: st).
End commit.
