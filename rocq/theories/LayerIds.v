(** Which layers in memory are one and the same: loading with the cache, src/storage/cache.rs:37-89 and
    src/storage/layer.rs:1433-1586.  Handles of layers are compared by address, src/store/mod.rs:568-575.  The contents
    of the layers are left out, see [Store]; a layer in memory is a number that is not used twice. *)
From Verif Require Import Prelude Names.
From stdpp Require Import gmap.

(** ** Layers in memory *)
(** A layer holds its parent (child.rs) and, when it stands for a rollup, the layer made by the rollup (rollup.rs).
    [immediate_parent] of such a layer is that of the layer it holds (internal/mod.rs). *)
Record cell := Cell { c_name : lname; c_parent : option nat; c_inner : option nat }.
Inductive holds (h : gmap nat cell) : nat → nat → Prop :=
  | holds_self i : holds h i i
  | holds_parent i j k c : h !! i = Some c → c_parent c = Some j → holds h j k → holds h i k
  | holds_inner i j k c : h !! i = Some c → c_inner c = Some j → holds h j k → holds h i k.

(** ** The files that say what to load; what is in them does not matter here *)
Record disk := Disk { d_exists : lname → bool; d_parent : lname → option lname; d_rollup : lname → option lname }.

(** ** Programs: the steps between which other threads may come *)
Inductive iprog :=
  | IRet (r : outcome (option nat))
  | IStuck                                           (* no more fuel *)
  | IRead (x : lname) (k : option nat → iprog)       (* look into the map under the read lock *)
  | IUp (i : nat) (k : bool → iprog)                 (* [Weak::upgrade] *)
  | IRem (x : lname) (p : iprog)                     (* remove from the map under the write lock *)
  | IDisk (k : disk → iprog)
  | IFiles (x : lname) (k : bool → iprog)            (* read the files of a layer, which may fail *)
  | IPeek (i : nat) (k : cell → iprog)
  | INew (c : cell) (k : nat → iprog)                (* [Arc::new] *)
  | ICache (x : lname) (i : nat) (p : iprog).        (* [cache_layer] *)

(** cache.rs:48-69 *)
Definition from_cache (x : lname) (k : option nat → iprog) : iprog :=
  IRead x (λ w,
    match w with
    | None => k None
    | Some i => IUp i (λ b, if b then k (Some i) else IRem x (k None))
    end).
(** layer.rs:1552-1581, the layers above the one that was found or loaded first; an entry is a layer with its rollup
    and its parent according to the parent file *)
Notation todo := (lname * option (lname * option lname))%type (only parsing).
Fixpoint build (a : nat) (rest : list todo) : iprog :=
  match rest with
  | [] => IRet (Ok (Some a))
  | (orig, None) :: rest' =>
      IFiles orig (λ b, if b then INew (Cell orig (Some a) None) (λ j, ICache orig j (build j rest')) else IRet (Err OtherError))
  | (orig, Some (r, op)) :: rest' =>
      match op with
      | None => IRet Panic
      | Some _ =>
          IFiles r (λ b, if b then
            INew (Cell r (Some a) None) (λ j, ICache r j (
            INew (Cell orig (Some a) (Some j)) (λ j', ICache orig j' (build j' rest'))))
            else IRet (Err OtherError))
      end
  end.
(** layer.rs:1517-1547 *)
Definition build_base (e : todo) (rest : list todo) : iprog :=
  match e with
  | (orig, None) =>
      IFiles orig (λ b, if b then INew (Cell orig None None) (λ j, ICache orig j (build j rest)) else IRet (Err OtherError))
  | (orig, Some (r, op)) =>
      IFiles r (λ b, if b then
        INew (Cell r None None) (λ j, ICache r j (
        INew (Cell orig None (Some j)) (λ j', ICache orig j' (build j' rest))))
        else IRet (Err OtherError))
  end.
(** layer.rs:1449-1515; [layers_to_load] is [e] and below it [rest] *)
Fixpoint find_ancestor (fuel : nat) (e : todo) (rest : list todo) : iprog :=
  match fuel with
  | 0 => IStuck
  | S fuel' =>
      let cur := match snd e with Some (r, _) => r | None => fst e end in
      from_cache cur (λ w,
        match w with
        | Some i =>
            match snd e with
            | None => build i rest
            | Some (_, op) =>
                IPeek i (λ c,
                  match c_parent c, op with
                  | Some _, None => IRet Panic
                  | _, _ => INew (Cell (fst e) (c_parent c) (Some i)) (λ j, build j rest)
                  end)
            end
        | None =>
            IDisk (λ d,
              match d_rollup d cur with
              | Some r =>
                  if decide (r = cur) then IRet Panic
                  else IDisk (λ d', find_ancestor fuel' (cur, Some (r, d_parent d' cur)) rest)
              | None =>
                  IDisk (λ d',
                    match d_parent d' cur with
                    | Some p => find_ancestor fuel' (p, None) (e :: rest)
                    | None => build_base e rest
                    end)
              end)
        end)
  end.
(** layer.rs:1433-1447 *)
Definition get_layer_ids (fuel : nat) (x : lname) : iprog :=
  from_cache x (λ w,
    match w with
    | Some i => IRet (Ok (Some i))
    | None => IDisk (λ d, if d_exists d x then find_ancestor fuel (x, None) [] else IRet (Ok None))
    end).

(** ** Threads *)
Inductive icall :=
  | ILoad (x : lname)
  | IRegister (x : lname).   (* [register_rollup], cache.rs:305-312; the rollup file is written by a change of the disk *)
Definition icall_program (fuel : nat) (c : icall) : iprog :=
  match c with
  | ILoad x => get_layer_ids fuel x
  | IRegister x => IRem x (IRet (Ok None))
  end.
Record ithread := IThread { t_call : icall; t_held : list nat; t_prog : iprog }.
Record istate := IState {
  i_heap : gmap nat cell;
  i_cache : gmap lname nat;
  i_handles : list nat;
  i_disk : disk;
  i_threads : gmap nat ithread }.
(** [i] is held by a handle of a user *)
Definition in_use (i : nat) (s : istate) : Prop := ∃ h, h ∈ i_handles s ∧ holds (i_heap s) h i.
(** or by a thread that is loading *)
Definition alive (i : nat) (s : istate) : Prop :=
  in_use i s ∨ ∃ t th h, i_threads s !! t = Some th ∧ h ∈ t_held th ∧ holds (i_heap s) h i.

Inductive iev :=
  | IStart (t : nat) (c : icall)
  | IDone (t : nat) (c : icall) (r : outcome (option nat)).
(** one step of thread [t] *)
Inductive tstep (t : nat) : istate → option iev → istate → Prop :=
  | t_start h c hs d th k fuel :
      th !! t = None →
      tstep t (IState h c hs d th) (Some (IStart t k)) (IState h c hs d (<[t := IThread k [] (icall_program fuel k)]> th))
  | t_read h c hs d th k l x f :
      th !! t = Some (IThread k l (IRead x f)) →
      tstep t (IState h c hs d th) None (IState h c hs d (<[t := IThread k l (f (c !! x))]> th))
  | t_upgrade h c hs d th k l i f :
      th !! t = Some (IThread k l (IUp i f)) → alive i (IState h c hs d th) →
      tstep t (IState h c hs d th) None (IState h c hs d (<[t := IThread k (i :: l) (f true)]> th))
  | t_dead h c hs d th k l i f :
      th !! t = Some (IThread k l (IUp i f)) → ¬ alive i (IState h c hs d th) →
      tstep t (IState h c hs d th) None (IState h c hs d (<[t := IThread k l (f false)]> th))
  | t_remove h c hs d th k l x p :
      th !! t = Some (IThread k l (IRem x p)) →
      tstep t (IState h c hs d th) None (IState h (delete x c) hs d (<[t := IThread k l p]> th))
  | t_disk h c hs d th k l f :
      th !! t = Some (IThread k l (IDisk f)) →
      tstep t (IState h c hs d th) None (IState h c hs d (<[t := IThread k l (f d)]> th))
  | t_files h c hs d th k l x f b :
      th !! t = Some (IThread k l (IFiles x f)) →
      tstep t (IState h c hs d th) None (IState h c hs d (<[t := IThread k l (f b)]> th))
  | t_peek h c hs d th k l i f e :
      th !! t = Some (IThread k l (IPeek i f)) → h !! i = Some e →
      tstep t (IState h c hs d th) None (IState h c hs d (<[t := IThread k l (f e)]> th))
  | t_new h c hs d th k l e f j :
      th !! t = Some (IThread k l (INew e f)) → h !! j = None →
      tstep t (IState h c hs d th) None (IState (<[j := e]> h) c hs d (<[t := IThread k (j :: l) (f j)]> th))
  | t_cache h c hs d th k l x i p :
      th !! t = Some (IThread k l (ICache x i p)) →
      tstep t (IState h c hs d th) None (IState h (<[x := i]> c) hs d (<[t := IThread k l p]> th))
  | t_done h c hs d th k l r :
      th !! t = Some (IThread k l (IRet r)) →
      tstep t (IState h c hs d th) (Some (IDone t k r))
        (IState h c (match r with Ok (Some i) => i :: hs | _ => hs end) d (delete t th)).
Inductive istep : istate → option iev → istate → Prop :=
  | i_thread t s e s' : tstep t s e s' → istep s e s'
  | i_clone h c hs d th i : i ∈ hs → istep (IState h c hs d th) None (IState h c (i :: hs) d th)
  | i_drop h c hs1 i hs2 d th : istep (IState h c (hs1 ++ i :: hs2) d th) None (IState h c (hs1 ++ hs2) d th)
  | i_disk_changes h c hs d d' th : istep (IState h c hs d th) None (IState h c hs d' th).
(** Executions all of whose states are as [P] says *)
Inductive iexec (P : istate → Prop) : istate → list iev → istate → Prop :=
  | iexec_nil s : P s → iexec P s [] s
  | iexec_step s tr s' e s'' : iexec P s tr s' → istep s' e s'' → P s'' → iexec P s (tr ++ option_list e) s''.
(** One thread by itself *)
Inductive alone (t : nat) : istate → list iev → istate → Prop :=
  | alone_nil s : alone t s [] s
  | alone_step s tr s' e s'' : alone t s tr s' → tstep t s' e s'' → alone t s (tr ++ option_list e) s''.
Definition istate_init (d : disk) : istate := IState ∅ ∅ [] d ∅.
