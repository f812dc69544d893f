(** Model of [LruArchiveBackend] (archive.rs:356-645) over a [DirectoryArchiveBackend] for data and
    metadata: a cache of archives with, for each layer, at most one task that loads it, while others
    wait for that task.  Any number of tasks call the backend, each may be cancelled at each point
    where it waits, and the process may die.  Each operation of the origin may fail. *)
From Verif Require Import Prelude Names FileNames Archive ArchiveStore.

(** archive.rs:364-367 [CacheEntry]; a [Resolving] entry refers to a barrier *)
Inductive centry := Resolving (b : nat) | Resolved (x : bytes).
(** the cache, most recently used entry first *)
Notation lru := (list (lname * centry)) (only parsing).
(** [tokio::sync::RwLock<Option<Result<Bytes, ErrorKind>>>]: whether the resolver holds it for
    writing, and its value.  The layer is not part of the value; it is there to say what a barrier is
    about. *)
Record barrier := Barrier { br_layer : lname; br_held : bool; br_val : option (outcome bytes) }.

(** ** [LruCache] *)
Fixpoint cpeek (c : lru) (n : lname) : option centry :=
  match c with
  | [] => None
  | (m, e) :: c' => if decide (m = n) then Some e else cpeek c' n
  end.
Definition cremove (c : lru) (n : lname) : lru := filter (λ x : lname * centry, x.1 ≠ n) c.
(** [get] makes the entry the most recently used one *)
Definition ctouch (c : lru) (n : lname) : lru :=
  match cpeek c n with Some e => (n, e) :: cremove c n | None => c end.
(** [get_or_insert] *)
Definition cinsert (c : lru) (n : lname) (e : centry) : lru :=
  match cpeek c n with Some e' => (n, e') :: cremove c n | None => (n, e) :: c end.
(** changing the entry through [get_mut] *)
Definition cset (c : lru) (n : lname) (e : centry) : lru := (n, e) :: cremove c n.

(** ** Making space: archive.rs:405-437 [ensure_additional_cache_space] *)
Inductive space := Space (c : lru) | NoSpace | SpacePanic | SpaceLoops.
(** The least recently used entry that is resolved; entries behind it are promoted one by one, which
    puts them in front in the same order.  [None]: all entries are resolving. *)
Fixpoint pop_resolved (c : lru) : option (lru * bytes * lru) :=
  match c with
  | [] => None
  | (n, e) :: c' =>
      match pop_resolved c' with
      | Some (c1, x, c2) => Some ((n, e) :: c1, x, c2)
      | None => match e with Resolved x => Some ([], x, c') | Resolving _ => None end
      end
  end.
(** each round removes an entry, so that as many rounds as there are entries are enough *)
Fixpoint make_space (rounds : nat) (c : lru) (required : nat) : space :=
  match rounds with
  | 0 => SpacePanic
  | S rounds =>
      match c with
      | [] => SpacePanic
      | _ =>
          match pop_resolved c with
          | None => SpaceLoops
          | Some (c1, x, c2) =>
              if decide (required ≤ length x) then Space (c2 ++ c1)
              else make_space rounds (c2 ++ c1) (required - length x)
          end
      end
  end.
Definition additional_space (c : lru) (required : nat) : space :=
  if decide (required = 0) then Space c else make_space (S (length c)) c required.
(** archive.rs:439-457 [ensure_enough_cache_space]; the subtraction panics when it underflows *)
Definition enough_space (c : lru) (limit current required : nat) : space :=
  if decide (limit < required) then NoSpace
  else if decide (limit < current) then SpacePanic
  else if decide (limit - current < required) then additional_space c (required - (limit - current))
  else Space c.
(** archive.rs:459-463 [drop_from_cache] *)
Definition cdrop (c : lru) (n : lname) : option lru :=
  match cpeek c n with Some _ => Some (cremove c n) | None => None end.

(** ** Calls *)
Inductive lread :=
  | KBytes                     (* [get_layer_bytes] *)
  | KSlice (ft : nat)          (* [get_layer_structure_bytes] *)
  | KFrom (ft from : nat)      (* [read_layer_structure_bytes_from], then reading to the end *)
  | KParent.                   (* [get_parent] *)
Inductive lquery := QExists | QSize | QFileExists (ft : nat) | QFileSize (ft : nat).
Inductive lop := LRead (n : lname) (k : lread) | LQuery (n : lname) (q : lquery) | LStore (n : lname) (x : bytes).
Definition op_layer (o : lop) : lname := match o with LRead n _ | LQuery n _ | LStore n _ => n end.
Inductive lres := RBytes (x : bytes) | RFile (x : option bytes) | RNumber (k : nat) | RTruth (b : bool) | RLink (p : option lname) | RStored.

Section lru.
Context (c : codec).

(** what the origin answers when [f] is the layer's archive, if there is one; the reader of
    [read_layer_structure_bytes_from] delivers the bytes of its range (C30) *)
Definition origin_read (f : option bytes) (k : lread) : outcome lres :=
  match k with
  | KBytes => obind (layer_bytes f) (λ x, Ok (RBytes x))
  | KSlice ft => obind (structure_bytes c f ft) (λ o, Ok (RFile o))
  | KFrom ft from => obind (structure_from c f ft from) (λ '(rest, remaining), Ok (RBytes (take remaining rest)))
  | KParent => obind (get_parent c f) (λ p, Ok (RLink p))
  end.
Definition origin_query (f : option bytes) (q : lquery) : outcome lres :=
  match q with
  | QExists => Ok (RTruth (layer_exists f))
  | QSize => obind (layer_size f) (λ k, Ok (RNumber k))
  | QFileExists ft => obind (layer_file_exists f ft) (λ b, Ok (RTruth b))
  | QFileSize ft => obind (structure_size c f ft) (λ k, Ok (RNumber k))
  end.
(** archive.rs:524-537, 547-572 and 634-644: what is made of the bytes of the whole archive, or of the
    error; [advance] panics beyond the end *)
Definition cached_read (r : outcome bytes) (k : lread) : outcome lres :=
  match k with
  | KBytes => obind r (λ x, Ok (RBytes x))
  | KSlice ft => obind r (λ x, obind (slice_for c x ft) (λ o, Ok (RFile o)))
  | KFrom ft from =>
      obind r (λ x, obind (slice_for c x ft) (λ o,
        match o with
        | None => Err NotFound
        | Some y => if decide (length y < from) then Panic else Ok (RBytes (drop from y))
        end))
  | KParent => obind (parse_parent (obind r (λ x, slice_for c x parent_type))) (λ p, Ok (RLink p))
  end.
(** archive.rs:524-537 and 554-562: what becomes of [read_layer_structure_bytes_from] when the layer fits in
    the cache at the first look and no longer when [get_layer_structure_bytes] looks again *)
Definition slice_read (f : option bytes) (k : lread) : outcome lres :=
  match k with
  | KFrom ft from =>
      obind (structure_bytes c f ft) (λ o,
        match o with
        | None => Err NotFound
        | Some y => if decide (length y < from) then Panic else Ok (RBytes (drop from y))
        end)
  | _ => origin_read f k
  end.
(** archive.rs:580-625: metadata of an archive in the cache *)
Definition cached_query (x : bytes) (q : lquery) : outcome lres :=
  match q with
  | QExists => Ok (RTruth true)
  | QSize => Ok (RNumber (length x))
  | QFileExists ft => if decide (length x < 8) then Panic else Ok (RTruth (is_present (be_value (take 8 x)) ft))
  | QFileSize ft =>
      obind (parse_header c x) (λ '(h, _), obind (size_of h ft) (λ r,
        match r with Some k => Ok (RNumber k) | None => Err NotFound end))
  end.

(** where a task is *)
Inductive lpc :=
  | PFits (n : lname) (k : lread)              (* asks whether the layer fits in the cache *)
  | PGet (n : lname) (k : lread)               (* waits for the lock of the cache *)
  | PWait (n : lname) (b : nat) (k : lread)    (* waits for the task that loads the layer *)
  | PLoad (n : lname) (b : nat) (k : lread)    (* loads the layer from the origin *)
  | PFill (n : lname) (b : nat) (r : outcome bytes) (k : lread)  (* has loaded, waits for the lock of the cache *)
  | POrigin (n : lname) (k : lread)            (* reads from the origin *)
  | PQuery (n : lname) (q : lquery)            (* waits for the lock of the cache *)
  | PStore (n : lname) (x : bytes) (pos : nat) (* stores in the origin *)
  | PInsert (n : lname) (x : bytes)            (* has stored, waits for the lock of the cache *)
  | PAgain (n : lname) (k : lread)             (* asks once more whether the layer fits in the cache *)
  | PSlice (n : lname) (k : lread)             (* reads a file from the origin after that *)
  | PFail (n : lname) (e : ekind).             (* an operation of the origin has failed *)
Definition op_start (o : lop) : lpc :=
  match o with
  | LRead n KBytes => PGet n KBytes
  | LRead n k => PFits n k
  | LQuery n q => PQuery n q
  | LStore n x => PStore n x 0
  end.

Record lstate := LState {
  l_disk : gmap lname bytes;
  l_cache : lru;
  l_barriers : gmap nat barrier;
  l_tasks : gmap nat (lop * lpc) }.
Definition lru_new (d : gmap lname bytes) : lstate := LState d [] ∅ ∅.

Inductive levent :=
  | LCall (t : nat) (o : lop)
  | LDone (t : nat) (o : lop) (r : outcome lres)
  | LIoError (n : lname) (k : ekind)  (* an operation of the origin on the layer failed *)
  | LCancel (t : nat)
  | LCrash.

Context (limit current : nat).  (* [limit_bytes()] and [self.current], which is always 0 *)

(** archive.rs:580-586 with 399-402 [layer_fits_in_cache] *)
Definition fits (s : lstate) (n : lname) : outcome bool :=
  if decide (limit = 0) then Ok false
  else match cpeek (l_cache s) n with
       | Some (Resolved x) => Ok (bool_decide (length x ≤ limit))
       | _ => obind (layer_size (l_disk s !! n)) (λ k, Ok (bool_decide (k ≤ limit)))
       end.
(** the metadata calls hold the lock of the cache to their end *)
Definition query (s : lstate) (n : lname) (q : lquery) : outcome lres :=
  match cpeek (l_cache s) n with
  | Some (Resolved x) => cached_query x q
  | _ => origin_query (l_disk s !! n) q
  end.
(** archive.rs:554-557: [read_layer_structure_bytes_from] goes on with [get_layer_structure_bytes], which asks again *)
Definition when_fits (n : lname) (k : lread) : lpc := match k with KFrom _ _ => PAgain n k | _ => PGet n k end.
(** the layer, when the next step of the task asks the origin, apart from a load *)
Definition asks_origin (s : lstate) (p : lpc) : option lname :=
  match p with
  | PFits n _ | PAgain n _ =>
      if decide (limit = 0) then None
      else match cpeek (l_cache s) n with Some (Resolved _) => None | _ => Some n end
  | PQuery n _ => match cpeek (l_cache s) n with Some (Resolved _) => None | _ => Some n end
  | POrigin n _ | PSlice n _ | PStore n _ _ => Some n
  | _ => None
  end.
(** archive.rs:497-519: what becomes of the cache when the layer has been loaded; [None]: the task
    never ends *)
Definition fill (ca : lru) (n : lname) (r : outcome bytes) : option (lru * bool) :=
  match r with
  | Ok x =>
      match enough_space ca limit current (length x) with
      | Space ca' => match cpeek ca' n with Some _ => Some (cset ca' n (Resolved x), true) | None => Some (ca', false) end
      | NoSpace => match cdrop ca n with Some ca' => Some (ca', true) | None => Some (ca, false) end
      | SpacePanic => Some (ca, false)
      | SpaceLoops => None
      end
  | _ => match cdrop ca n with Some ca' => Some (ca', true) | None => Some (ca, false) end
  end.

Definition run (s : lstate) (t : nat) (o : lop) (p : lpc) : lstate :=
  LState (l_disk s) (l_cache s) (l_barriers s) (<[t := (o, p)]> (l_tasks s)).
Definition finish (s : lstate) (t : nat) : lstate :=
  LState (l_disk s) (l_cache s) (l_barriers s) (delete t (l_tasks s)).
Definition with_cache (s : lstate) ca : lstate := LState (l_disk s) ca (l_barriers s) (l_tasks s).
Definition with_barrier (s : lstate) b v : lstate := LState (l_disk s) (l_cache s) (<[b := v]> (l_barriers s)) (l_tasks s).
Definition with_disk (s : lstate) d : lstate := LState d (l_cache s) (l_barriers s) (l_tasks s).
(** a task that stops lets go of the barrier it holds, with the value it has *)
Definition release (s : lstate) (p : lpc) : lstate :=
  match p with
  | PLoad n b _ => with_barrier s b (Barrier n false None)
  | PFill n b r _ => with_barrier s b (Barrier n false (Some r))
  | _ => s
  end.

(** [pieces]: the origin may write an archive in several steps, as archive.rs:167-197 does *)
Context (pieces : bool).

(** the steps of a running task *)
Inductive tstep (s : lstate) (t : nat) (o : lop) : lpc → option levent → lstate → Prop :=
  | t_fits_yes n k : fits s n = Ok true → tstep s t o (PFits n k) None (run s t o (when_fits n k))
  | t_fits_no n k : fits s n = Ok false → tstep s t o (PFits n k) None (run s t o (POrigin n k))
  | t_fits_err n k e : fits s n = Err e → tstep s t o (PFits n k) (Some (LDone t o (Err e))) (finish s t)
  | t_origin n k : tstep s t o (POrigin n k) (Some (LDone t o (origin_read (l_disk s !! n) k))) (finish s t)
  (** archive.rs:468-487 *)
  | t_hit n k x : cpeek (l_cache s) n = Some (Resolved x) →
      tstep s t o (PGet n k) (Some (LDone t o (cached_read (Ok x) k))) (finish (with_cache s (ctouch (l_cache s) n)) t)
  | t_resolving n k b : cpeek (l_cache s) n = Some (Resolving b) →
      tstep s t o (PGet n k) None (run (with_cache s (ctouch (l_cache s) n)) t o (PWait n b k))
  | t_miss n k b : cpeek (l_cache s) n = None → l_barriers s !! b = None →
      tstep s t o (PGet n k) None
        (run (with_barrier (with_cache s (cinsert (l_cache s) n (Resolving b))) b (Barrier n true None)) t o (PLoad n b k))
  | t_wait n k b m v : l_barriers s !! b = Some (Barrier m false v) →
      tstep s t o (PWait n b k)
        (Some (LDone t o (cached_read (match v with Some r => r | None => Panic end) k))) (finish s t)
  (** archive.rs:488-494 *)
  | t_load n k b : 
      tstep s t o (PLoad n b k) None
        (run (with_barrier s b (Barrier n true (Some (layer_bytes (l_disk s !! n))))) t o (PFill n b (layer_bytes (l_disk s !! n)) k))
  | t_load_err n k b e :
      tstep s t o (PLoad n b k) (Some (LIoError n e))
        (run (with_barrier s b (Barrier n true (Some (Err e)))) t o (PFill n b (Err e) k))
  (** archive.rs:496-520 *)
  | t_fill n k b r ca ok : fill (l_cache s) n r = Some (ca, ok) →
      tstep s t o (PFill n b r k)
        (Some (LDone t o (if ok : bool then cached_read r k else Panic)))
        (finish (with_barrier (with_cache s ca) b (Barrier n false (Some r))) t)
  | t_query n q : tstep s t o (PQuery n q) (Some (LDone t o (query s n q))) (finish s t)
  (** archive.rs:539-546 *)
  | t_store n x : tstep s t o (PStore n x 0) None (run (with_disk s (<[n := x]> (l_disk s))) t o (PInsert n x))
  | t_piece n x pos k : pieces = true → 0 < k → pos + k ≤ length x →
      tstep s t o (PStore n x pos) None
        (run (with_disk s (<[n := write_at (default [] (l_disk s !! n)) pos (take k (drop pos x))]> (l_disk s))) t o (PStore n x (pos + k)))
  | t_pieces n x : pieces = true → 0 < length x → tstep s t o (PStore n x (length x)) None (run s t o (PInsert n x))
  | t_insert n x :
      tstep s t o (PInsert n x) (Some (LDone t o (Ok RStored))) (finish (with_cache s (cinsert (l_cache s) n (Resolved x))) t)
  (** archive.rs:524-537 for [read_layer_structure_bytes_from] *)
  | t_again_yes n k : fits s n = Ok true → tstep s t o (PAgain n k) None (run s t o (PGet n k))
  | t_again_no n k : fits s n = Ok false → tstep s t o (PAgain n k) None (run s t o (PSlice n k))
  | t_again_err n k e : fits s n = Err e → tstep s t o (PAgain n k) (Some (LDone t o (Err e))) (finish s t)
  | t_slice n k : tstep s t o (PSlice n k) (Some (LDone t o (slice_read (l_disk s !! n) k))) (finish s t)
  (** an operation of the origin fails, and the call with it *)
  | t_io_err p n e : asks_origin s p = Some n → tstep s t o p (Some (LIoError n e)) (run s t o (PFail n e))
  | t_failed n e : tstep s t o (PFail n e) (Some (LDone t o (Err e))) (finish s t).

Inductive lstep (s : lstate) : option levent → lstate → Prop :=
  | l_call t o : l_tasks s !! t = None → lstep s (Some (LCall t o)) (run s t o (op_start o))
  | l_task t o p e s' : l_tasks s !! t = Some (o, p) → tstep s t o p e s' → lstep s e s'
  | l_cancel t o p : l_tasks s !! t = Some (o, p) → lstep s (Some (LCancel t)) (finish (release s p) t)
  | l_crash : lstep s (Some LCrash) (lru_new (l_disk s)).

Inductive lexec (s : lstate) : list levent → lstate → Prop :=
  | le_nil : lexec s [] s
  | le_tau tr s1 s2 : lexec s tr s1 → lstep s1 None s2 → lexec s tr s2
  | le_event tr s1 e s2 : lexec s tr s1 → lstep s1 (Some e) s2 → lexec s (tr ++ [e]) s2.
End lru.
