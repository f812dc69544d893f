(** Several processes that have the same directory open as a store.  What is on disk they share; the
    cache of loaded layers is each process's own (mod.rs:951-958: every [open_directory_store] makes a new
    [LockingHashMapLayerCache]; the two archive stores, mod.rs:914-949, likewise).  The calls and their steps are
    those of Store.v.  Definitions only. *)
From Verif Require Import Prelude Succinct TripleFiles Merge Layer Builder Rollup Squash MergeBase Names LabelConc Head Store.

(** The threads have numbers of their own, whatever process they run in. *)
Record pstate := PState {
  p_store : store;
  p_caches : gmap nat lcache;
  p_threads : gmap nat (nat * (scall * prog sres)) }.
Definition pstate_init : pstate := PState ∅ ∅ ∅.
Definition cache_of (cs : gmap nat lcache) (i : nat) : lcache := default ∅ (cs !! i).
Inductive pev :=
  | PStart (i t : nat) (k : scall)
  | PDone (i t : nat) (k : scall) (r : outcome sres)
  | PCrash (i : nat).
(** A step of process [i]; [cached i] says whether it opened the store with a cache of layers.  What a step
    does to the cache ([write_cache]: cached_layer_store.rs, [cache_layer] and [invalidate]) it does to the cache of its
    own process.  [p_crash]: one process ends, in the middle of whatever it does; a new one may take its number.
    [no_nesting]: as in Store.v. *)
Inductive pstep (cached : nat → bool) : pstate → option pev → pstate → Prop :=
  | p_start s cs th i t k :
      th !! t = None → call_ok k →
      pstep cached (PState s cs th) (Some (PStart i t k)) (PState s cs (<[t := (i, (k, program (cached i) k))]> th))
  | p_look s cs th i t k f :
      th !! t = Some (i, (k, Look f)) →
      pstep cached (PState s cs th) None (PState s cs (<[t := (i, (k, f s (cache_of cs i)))]> th))
  | p_alloc s cs th i t k f n :
      th !! t = Some (i, (k, Alloc f)) → s !! n = None →
      pstep cached (PState s cs th) None (PState (new_dir n s) cs (<[t := (i, (k, f n))]> th))
  | p_put s cs th i t k w p :
      th !! t = Some (i, (k, Put w p)) → no_nesting s w →
      pstep cached (PState s cs th) None
        (PState (write_store w s) (<[i := write_cache w (cache_of cs i)]> cs) (<[t := (i, (k, p))]> th))
  | p_assume s cs th i t k p :
      th !! t = Some (i, (k, Assume true p)) →
      pstep cached (PState s cs th) None (PState s cs (<[t := (i, (k, p))]> th))
  | p_done s cs th i t k r :
      th !! t = Some (i, (k, Ret r)) →
      pstep cached (PState s cs th) (Some (PDone i t k r)) (PState s cs (delete t th))
  | p_drop s cs th i x :
      pstep cached (PState s cs th) None (PState s (<[i := delete x (cache_of cs i)]> cs) th)
  | p_crash s cs th i :
      pstep cached (PState s cs th) (Some (PCrash i)) (PState s (delete i cs) (filter (λ tk, tk.2.1 ≠ i) th)).
Inductive pexec (cached : nat → bool) : pstate → list pev → pstate → Prop :=
  | pexec_nil g : pexec cached g [] g
  | pexec_step g tr g' e g'' : pexec cached g tr g' → pstep cached g' e g'' → pexec cached g (tr ++ option_list e) g''.

(** One call after another, each in the process given *)
Fixpoint procs_run (cached : nat → bool) (ks : list (nat * (list lname * scall))) (s : store) (cs : gmap nat lcache) :
    option (list (outcome sres) * store * gmap nat lcache) :=
  match ks with
  | [] => Some ([], s, cs)
  | (i, (ns, k)) :: ks' =>
      '(r, s', c') ← run ns s (cache_of cs i) (program (cached i) k);
      '(rs, s'', cs') ← procs_run cached ks' s' (<[i := c']> cs);
      Some (r :: rs, s'', cs')
  end.

(** ** Named graphs *)
(** A caller in some process has a [StoreLayer] named [x] (mod.rs:46-63, 161-167, 262-363) *)
Definition pheld (tr : list pev) (x : lname) : Prop :=
  (∃ i t k, PDone i t k (Ok (RName x)) ∈ tr) ∨
  (∃ i t y L, PDone i t (SGet y) (Ok (RLayer (Some L))) ∈ tr ∧ l_name L = Some x).
(** The calls on named graphs (Head.v) of all processes, and their calls on layers, interleaved in any way.
    The layers known to the callers are layers that a call returned, and their ancestors.  When a process ends, its calls on
    named graphs get no further: they are just never stepped again. *)
Inductive qexec (cached : nat → bool) : list pev → list hitem → pstate → hstate → Prop :=
  | q_nil : qexec cached [] [] pstate_init hstate_init
  | q_store tr its g h e g' :
      qexec cached tr its g h → pstep cached g e g' → qexec cached (tr ++ option_list e) its g' h
  | q_head tr its g h it h' :
      qexec cached tr its g h → hstep h it h' →
      (∀ x, x ∈ h_layers h' → x ∉ h_layers h →
        (∃ y, pheld tr y ∧ rtc (λ a b, s_parent (p_store g) a = Some b) y x) ∧ h_parents h' !! x = s_parent (p_store g) x) →
      qexec cached tr (its ++ [it]) g h'.
