(** Loading a layer in a process that has just started, with rollup files that need not be complete.  In Store.v a
    rollup file is written in one step; here what is read from it is given, so that a file of which only a part was
    written can be looked at. *)
From Verif Require Import Prelude Succinct TripleFiles Merge Layer Names Archive Store.

(** What a layer store says about the rollup of each layer: whether there is one, and which *)
Notation rollups := ((list N) → outcome (option (list N))).
(** layer.rs:373-375, 692-715 for the directory store: the contents of the rollup files *)
Definition dir_rollups (R : lname → option bytes) : rollups := λ x,
  match R x with None => Ok None | Some b => obind (read_rollup b) (λ n, Ok (Some n)) end.
(** the same for the archive store, archive.rs:301-322, 1092-1098, 1122-1135; the archives of the layers are there *)
Definition archive_rollups (R : lname → option bytes) : rollups := λ x,
  obind (rollup_file_exists (Some []) (R x)) (λ there,
    if (there : bool) then obind (rollup_file_map (Some []) (R x)) (λ b, obind (read_rollup b) (λ n, Ok (Some n))) else Ok None).

(** layer.rs:1451-1512 without cached layers, as [find_start] of Store.v *)
Fixpoint fresh_start (roll : rollups) (s : store) (fuel : nat) (td : todo) : outcome todo :=
  match fuel, td with
  | 0, _ | _, [] => Panic
  | S f, (x, r) :: rest =>
      let cur := match r with Some (rl, _) => rl | None => x end in
      obind (roll cur) (λ o,
        match o with
        | Some rl => if decide (rl = cur) then Panic else fresh_start roll s f ((cur, Some (rl, s_parent s cur)) :: rest)
        | None =>
            match s_parent s cur with
            | Some p => fresh_start roll s f ((p, None) :: td)
            | None => Ok td
            end
        end)
  end.
(** layer.rs:1514-1546, as [load_base] *)
Definition fresh_base (s : store) (x : lname) (r : option (lname * option lname)) : outcome loaded :=
  match r with
  | None => match base_files s x with None => Err NotFound | Some l => Ok [Lent x None false l] end
  | Some (rl, op) => match base_files s rl with None => Err NotFound | Some l => Ok (wrap x op [Lent rl None false l]) end
  end.
(** layer.rs:1548-1581, as [load_children] *)
Fixpoint fresh_children (s : store) (anc : loaded) (td : todo) : outcome loaded :=
  match td with
  | [] => Ok anc
  | (x, None) :: rest =>
      match child_files s x with
      | None => Err NotFound
      | Some l => fresh_children s (Lent x (l_name anc) false l :: anc) rest
      end
  | (x, Some (rl, op)) :: rest =>
      match op with
      | None => Panic
      | Some p =>
          match child_files s rl with
          | None => Err NotFound
          | Some l => fresh_children s (wrap x (Some p) (Lent rl (l_name anc) false l :: anc)) rest
          end
      end
  end.
(** layer.rs:1438-1587, as [get_layer] *)
Definition fresh_load (roll : rollups) (s : store) (x : lname) : outcome (option loaded) :=
  match s !! x with
  | None => Ok None
  | Some _ =>
      obind (fresh_start roll s (S (size s)) [(x, None)]) (λ td,
        match td with
        | [] => Panic
        | (y, rl) :: td => obind (fresh_base s y rl) (λ anc, obind (fresh_children s anc td) (λ L, Ok (Some L)))
        end)
  end.

(** The step of a call that records the rollup [r] of [y] (layer.rs:1822-1829) *)
Definition records (g : gstate) (y r : lname) : Prop :=
  ∃ t k p, g_threads g !! t = Some (k, Put (WRollup y r) p) ∧ no_nesting (g_store g) (WRollup y r).

(** The rollup files of the layers of a store, complete and with other contents for [y] *)
Definition rollup_files (contents : lname → bytes) (s : store) (x : lname) : option bytes := contents <$> s_rollup s x.
Definition with_file (R : lname → option bytes) (y : lname) (b : bytes) (x : lname) : option bytes :=
  if decide (x = y) then Some b else R x.
(** What a file may contain once the writing of [new] to it has begun, when it contained [old]: whether it is truncated
    is up to tdb-succinct (archive.rs:335: [File::create] truncates) *)
Inductive cut_off (old : option bytes) (new : bytes) : bytes → Prop :=
  | cut_truncated k : cut_off old new (take k new)
  | cut_mixed o k : old = Some o → cut_off old new (take k new ++ drop k o).

(** Where loading a layer leads: to its rollup, or to its parent when there is none *)
Definition leads (s : store) (x z : lname) : Prop :=
  s_rollup s x = Some z ∨ s_rollup s x = None ∧ s_parent s x = Some z.
