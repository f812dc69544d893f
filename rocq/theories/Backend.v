(** The three layer stores behind one interface: the calls of [PersistentLayerStore]
    (src/storage/layer.rs:355-395, 654-715) in the memory store, the directory store and the archive
    store, one call at a time. *)
From Verif Require Import Prelude Names FileNames Archive ArchiveStore Pack.

(** layer.rs:381-395 [layer_parent], as the memory and the directory store have it; reading the
    file in pieces gives what mapping it gives *)
Definition default_parent {S} (st : pls S) (s : S) (n : lname) : outcome (option lname) :=
  obind (p_dir st s n) (λ there,
  if (there : bool) then
    obind (p_exists st s n parent_file) (λ child,
      if (child : bool) then obind (p_map st s n parent_file) (λ b, obind (read_parent b) (λ p, Ok (Some p))) else Ok None)
  else Err NotFound).
(** archive.rs:1506-1508: the archive store has its own *)
Definition backend_parent (k : backend) : backend_state k → lname → outcome (option lname) :=
  match k with
  | BMemory => default_parent memory_pls
  | BDirectory over => default_parent (directory_pls over)
  | BArchive c => as_parent c
  end.
(** layer.rs:373-375 [layer_has_rollup] and, if there is one, 692-715 [read_rollup_file] *)
Definition rollup_of {S} (st : pls S) (s : S) (n : lname) : outcome (option lname) :=
  obind (p_exists st s n rollup_file) (λ there,
    if (there : bool) then obind (p_map st s n rollup_file) (λ b, obind (read_rollup b) (λ m, Ok (Some m))) else Ok None).

Inductive bcall :=
  | BCreate (n : lname)                 (* create_named_directory *)
  | BWrite (n : lname) (f b : bytes)    (* get_file, open_write, write_all, flush, sync_all *)
  | BFinalize (n : lname)               (* finalize *)
  | BRollup (n m : lname)               (* write_rollup_file, layer.rs:678-690 *)
  | BDir (n : lname)                    (* directory_exists *)
  | BExists (n : lname) (f : bytes)     (* file_exists *)
  | BMap (n : lname) (f : bytes)        (* get_file, map *)
  | BSize (n : lname) (f : bytes)       (* get_file, size *)
  | BParentOf (n : lname)               (* layer_parent *)
  | BRollupOf (n : lname).              (* layer_has_rollup, read_rollup_file *)
Inductive banswer :=
  | ADone (r : outcome unit)
  | ABool (r : outcome bool)
  | ABytes (r : outcome bytes)
  | ASize (r : outcome nat)
  | AName (r : outcome (option lname)).

(** what a call does, given the calls of the store and its [layer_parent] *)
Definition call_step {S} (st : pls S) (parent : S → lname → outcome (option lname)) (s : S) (call : bcall) : banswer * S :=
  match call with
  | BCreate n => let '(r, s') := p_create st s n in (ADone r, s')
  | BWrite n f b => let '(r, s') := p_write st s n f b in (ADone r, s')
  | BFinalize n => let '(r, s') := p_finalize st s n in (ADone r, s')
  | BRollup n m => let '(r, s') := p_write st s n rollup_file (rollup_contents m) in (ADone r, s')
  | BDir n => (ABool (p_dir st s n), s)
  | BExists n f => (ABool (p_exists st s n f), s)
  | BMap n f => (ABytes (p_map st s n f), s)
  | BSize n f => (ASize (p_size st s n f), s)
  | BParentOf n => (AName (parent s n), s)
  | BRollupOf n => (AName (rollup_of st s n), s)
  end.
Definition bstep (k : backend) : backend_state k → bcall → banswer * backend_state k :=
  call_step (backend_pls k) (backend_parent k).
Fixpoint brun (k : backend) (s : backend_state k) (calls : list bcall) : list banswer * backend_state k :=
  match calls with
  | [] => ([], s)
  | call :: calls' =>
      let '(a, s1) := bstep k s call in
      let '(l, s2) := brun k s1 calls' in (a :: l, s2)
  end.
