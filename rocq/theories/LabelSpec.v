(** What callers of a label store see of one label: a register with compare and swap.  The state
    is the label, or nothing while it is being created. *)
From Verif Require Import Prelude Names LabelSeq LabelConc.

(** [new] is what an update of [old] makes of it *)
Definition updates (l nl : label) : Prop := lb_name nl = lb_name l ∧ lb_version nl = (lb_version l + 1)%N.

(** one call, with its result, that happens all at once *)
Inductive reg : option label → lev → option label → Prop :=
  | reg_create t n i : reg None (EvCreate t n i (Ok (Label n None 0))) (Some (Label n None 0))
  | reg_get c t i : reg (Some c) (EvGet t (lb_name c) i (Ok (Some c))) (Some c)
  | reg_get_early t n i : reg None (EvGet t n i (Err InvalidData)) None
  | reg_set l nl t i : updates l nl → reg (Some l) (EvSet t l nl i (Ok (Some nl))) (Some nl)
  | reg_set_other c l nl t i : c ≠ l → reg (Some c) (EvSet t l nl i (Ok None)) (Some c)
  | reg_set_early l nl t i : reg None (EvSet t l nl i (Err InvalidData)) None.
(** a sequence of calls that happen one after the other *)
Inductive history (R : option label → lev → option label → Prop) : option label → list lev → option label → Prop :=
  | history_nil c : history R c [] c
  | history_cons c e c' es c'' : R c e c' → history R c' es c'' → history R c (e :: es) c''.

(** One call on a name that is never deleted.  Before the creation of the label is complete, calls
    find no file or an empty file, and another creation may already be refused. *)
Inductive name_reg : option label → lev → option label → Prop :=
  | name_file c e c' : reg c e c' → name_reg c e c'
  | name_get_absent t n : name_reg None (EvGet t n None (Ok None)) None
  | name_set_absent t l nl : name_reg None (EvSet t l nl None (Err NotFound)) None
  | name_create_taken c t n k : k = InvalidInput ∨ k = AlreadyExists → name_reg c (EvCreate t n None (Err k)) c
  | name_delete_absent t n : name_reg None (EvDelete t n false) None.

(** the file a call worked on *)
Definition ev_ino (e : lev) : option ino :=
  match e with EvGet _ _ i _ | EvSet _ _ _ i _ | EvCreate _ _ i _ => i | EvDelete _ _ _ => None end.
Definition ev_name (e : lev) : bytes :=
  match e with EvGet _ n _ _ | EvCreate _ n _ _ | EvDelete _ n _ => n | EvSet _ l _ _ _ => lb_name l end.
(** the calls that worked on a file *)
Definition on_file (i : ino) (tr : list lev) : list lev := filter (λ e, ev_ino e = Some i) tr.
(** the calls on a name *)
Definition on_name (n : bytes) (tr : list lev) : list lev := filter (λ e, ev_name e = n) tr.
(** the name was deleted *)
Definition deleted (n : bytes) (tr : list lev) : Prop := ∃ t, EvDelete t n true ∈ tr.

(** an update of the label [l] that succeeded *)
Definition updated (l : label) (e : lev) : Prop := ∃ t nl i, e = EvSet t l nl i (Ok (Some nl)).
(** a creation of the label [n] that succeeded *)
Definition created (n : bytes) (e : lev) : Prop := ∃ t i, e = EvCreate t n (Some i) (Ok (Label n None 0)).

(** what is in the file of a label *)
Definition on_disk (s : lstate) (n : bytes) : option bytes :=
  match s_dir s !! n with
  | Some i => i_data <$> s_inodes s !! i
  | None => None
  end.
(** a caller is in the middle of writing the label: it has opened the file to create the label, or
    emptied it to write an update *)
Definition writing (n : bytes) (s : lstate) : Prop :=
  ∃ t p, s_threads s !! t = Some p ∧
    match p with
    | PSetWrite l _ _ _ _ => lb_name l = n
    | PCreLock m _ | PCreWrite m _ _ _ => m = n
    | _ => False
    end.

(** ** One call at a time *)
(** the same answer, except for the order in which labels are listed *)
Definition same_answer (r r' : lres) : Prop :=
  match r, r' with
  | RLabels (Ok ls), RLabels (Ok ls') => ls ≡ₚ ls'
  | _, _ => r = r'
  end.
(** the same answer, except for that and for the kind of an error *)
Definition similar_answer (r r' : lres) : Prop :=
  match r, r' with
  | RCreate (Err _), RCreate (Err _) | RGet (Err _), RGet (Err _) | RSet (Err _), RSet (Err _)
  | RDelete (Err _), RDelete (Err _) | RLabels (Err _), RLabels (Err _) => True
  | _, _ => same_answer r r'
  end.
(** the arguments fit their types *)
Definition call_ok (c : lcall) : Prop :=
  match c with CSet l layer => label_ok l ∧ layer_ok layer | _ => True end.
Definition is_delete (c : lcall) : Prop := match c with CDelete _ => True | _ => False end.
Definition is_clear (c : lcall) : Prop := match c with CSet _ None => True | _ => False end.
(** the answer shows the label *)
Definition shows (l : label) (r : lres) : Prop :=
  match r with
  | RCreate (Ok l') | RGet (Ok (Some l')) | RSet (Ok (Some l')) => l = l'
  | RLabels (Ok ls) => l ∈ ls
  | _ => False
  end.
(** callers only update labels they have been shown *)
Definition honest (cs : list lcall) (rs : list lres) : Prop :=
  ∀ j l layer, cs !! j = Some (CSet l layer) → ∃ k r, k < j ∧ rs !! k = Some r ∧ shows l r.

(** the calls, with their callers, and answers as events; a call that panics, or that lists labels, is none *)
Definition event (t : tid) (c : lcall) (r : lres) : option lev :=
  match c, r with
  | CCreate n, RCreate (Ok l) => Some (EvCreate t n (Some 0) (Ok l))
  | CCreate n, RCreate (Err _) => Some (EvCreate t n None (Err InvalidInput))
  | CGet n, RGet (Ok None) => Some (EvGet t n None (Ok None))
  | CGet n, RGet r => Some (EvGet t n (Some 0) r)
  | CSet l layer, RSet r =>
      nl ← with_updated_layer l layer;
      match r with
      | Ok (Some nl) => Some (EvSet t l nl (Some 0) (Ok (Some nl)))
      | Ok None => Some (EvSet t l nl (Some 0) (Ok None))
      | Err _ => Some (EvSet t l nl None (Err NotFound))
      | Panic => None
      end
  | CDelete n, RDelete (Ok b) => Some (EvDelete t n b)
  | _, _ => None
  end.
Definition events (cs : list (tid * lcall)) (rs : list lres) : list lev :=
  omap (λ x : tid * lcall * lres, event (fst (fst x)) (snd (fst x)) (snd x)) (zip cs rs).

(** how often a label was created, and deleted *)
Definition is_creation (n : bytes) (e : lev) : bool :=
  match e with EvCreate _ m _ (Ok _) => bool_decide (m = n) | _ => false end.
Definition is_deletion (n : bytes) (e : lev) : bool :=
  match e with EvDelete _ m true => bool_decide (m = n) | _ => false end.
Definition creations (n : bytes) (tr : list lev) : nat := length (filter (is_creation n) tr).
Definition deletions (n : bytes) (tr : list lev) : nat := length (filter (is_deletion n) tr).
