(** The directory label store with any number of callers at once: every file system call of
    src/storage/directory.rs:171-307 and src/storage/locking.rs is a step of its own, writes may
    go through in pieces, and the callers' steps interleave in any order.  A file that is open
    keeps existing after its name has been removed, so that names and files (inodes) are kept
    apart.  Reading a whole file while holding its lock is one step.  The feature [noreadlock]
    (off by default) is the subject of [LabelNoLock.v]. *)
From Verif Require Import Prelude Names.

Notation tid := nat (only parsing).
Notation ino := nat (only parsing).

(** An open file: its contents, the owner of the exclusive lock and those of the shared lock
    (locking.rs:79-104, 154-201).  The last two fields say under which name and by which caller
    it was created; no step looks at them. *)
Record inode := Inode {
  i_data : bytes;
  i_excl : option tid;
  i_shared : list tid;
  i_name : bytes;
  i_creator : tid }.

(** Where a caller is *)
Inductive pc :=
  (* get_label, directory.rs:244-255, 171-180 *)
  | PGetOpen (n : bytes)
  | PGetLock (n : bytes) (i : ino)
  | PGetRead (n : bytes) (i : ino)
  | PGetDone (n : bytes) (i : ino) (d : bytes)
  (* set_label_option, directory.rs:257-284, 182-196 *)
  | PSetOpen (l nl : label)
  | PSetLock (l nl : label) (i : ino)
  | PSetRead (l nl : label) (i : ino)
  | PSetGot (l nl : label) (i : ino) (d : bytes)
  | PSetWrite (l nl : label) (i : ino) (pos : nat) (rest : bytes)
  (* create_label, directory.rs:219-242 *)
  | PCreStat (n : bytes)
  | PCreOpen (n : bytes)
  | PCreLock (n : bytes) (i : ino)
  | PCreWrite (n : bytes) (i : ino) (pos : nat) (rest : bytes)
  (* delete_label, directory.rs:286-306 *)
  | PDel (n : bytes).

Record lstate := LState {
  s_dir : gmap bytes ino;
  s_inodes : gmap ino inode;
  s_threads : gmap tid pc }.
Definition lstate_init : lstate := LState ∅ ∅ ∅.

(** What a call returned, and the file it worked on, if any *)
Inductive lev :=
  | EvGet (t : tid) (n : bytes) (i : option ino) (r : outcome (option label))
  | EvSet (t : tid) (l nl : label) (i : option ino) (r : outcome (option label))
  | EvCreate (t : tid) (n : bytes) (i : option ino) (r : outcome label)
  | EvDelete (t : tid) (n : bytes) (r : bool).

(** [seek] and [write_all]: the bytes at a position are replaced *)
Definition write_at (d : bytes) (pos : nat) (a : bytes) : bytes := take pos d ++ a ++ drop (pos + length a) d.

Definition set_data (nd : inode) (d : bytes) : inode :=
  Inode d (i_excl nd) (i_shared nd) (i_name nd) (i_creator nd).
Definition lock_excl (nd : inode) (t : tid) : inode :=
  Inode (i_data nd) (Some t) (i_shared nd) (i_name nd) (i_creator nd).
Definition unlock_excl (nd : inode) : inode :=
  Inode (i_data nd) None (i_shared nd) (i_name nd) (i_creator nd).
Definition lock_shared (nd : inode) (t : tid) : inode :=
  Inode (i_data nd) (i_excl nd) (t :: i_shared nd) (i_name nd) (i_creator nd).
Definition unlock_shared (nd : inode) (t : tid) : inode :=
  Inode (i_data nd) (i_excl nd) (filter (λ u, u ≠ t) (i_shared nd)) (i_name nd) (i_creator nd).

Definition goto (s : lstate) (t : tid) (p : pc) : lstate :=
  LState (s_dir s) (s_inodes s) (<[t := p]> (s_threads s)).
Definition leave (s : lstate) (t : tid) : lstate :=
  LState (s_dir s) (s_inodes s) (delete t (s_threads s)).
Definition put (s : lstate) (i : ino) (nd : inode) : lstate :=
  LState (s_dir s) (<[i := nd]> (s_inodes s)) (s_threads s).

(** directory.rs:248-253: an error [NotFound] is reported as no label *)
Definition get_result (r : outcome label) : outcome (option label) :=
  match r with Ok l => Ok (Some l) | Err NotFound => Ok None | Err k => Err k | Panic => Panic end.

(** One step of one caller; it may end the call with a result *)
Inductive lstep : lstate → option lev → lstate → Prop :=
  (* a call begins, with arguments that fit their types; label.rs:28-34 is evaluated first for
     an update *)
  | start_get s t n : s_threads s !! t = None → lstep s None (goto s t (PGetOpen n))
  | start_set s t l layer nl :
      s_threads s !! t = None → label_ok l → layer_ok layer → with_updated_layer l layer = Some nl →
      lstep s None (goto s t (PSetOpen l nl))
  | start_create s t n : s_threads s !! t = None → lstep s None (goto s t (PCreStat n))
  | start_delete s t n : s_threads s !! t = None → lstep s None (goto s t (PDel n))
  (* get_label *)
  | get_absent s t n :
      s_threads s !! t = Some (PGetOpen n) → s_dir s !! n = None →
      lstep s (Some (EvGet t n None (Ok None))) (leave s t)
  | get_open s t n i :
      s_threads s !! t = Some (PGetOpen n) → s_dir s !! n = Some i →
      lstep s None (goto s t (PGetLock n i))
  | get_lock s t n i nd :
      s_threads s !! t = Some (PGetLock n i) → s_inodes s !! i = Some nd → i_excl nd = None →
      lstep s None (goto (put s i (lock_shared nd t)) t (PGetRead n i))
  | get_read s t n i nd :
      s_threads s !! t = Some (PGetRead n i) → s_inodes s !! i = Some nd →
      lstep s None (goto s t (PGetDone n i (i_data nd)))
  | get_done s t n i d nd :
      s_threads s !! t = Some (PGetDone n i d) → s_inodes s !! i = Some nd →
      lstep s (Some (EvGet t n (Some i) (get_result (get_label_from_data n d))))
        (leave (put s i (unlock_shared nd t)) t)
  (* set_label, clear_label *)
  | set_absent s t l nl :
      s_threads s !! t = Some (PSetOpen l nl) → s_dir s !! lb_name l = None →
      lstep s (Some (EvSet t l nl None (Err NotFound))) (leave s t)
  | set_open s t l nl i :
      s_threads s !! t = Some (PSetOpen l nl) → s_dir s !! lb_name l = Some i →
      lstep s None (goto s t (PSetLock l nl i))
  | set_lock s t l nl i nd :
      s_threads s !! t = Some (PSetLock l nl i) → s_inodes s !! i = Some nd →
      i_excl nd = None → i_shared nd = [] →
      lstep s None (goto (put s i (lock_excl nd t)) t (PSetRead l nl i))
  | set_read s t l nl i nd :
      s_threads s !! t = Some (PSetRead l nl i) → s_inodes s !! i = Some nd →
      lstep s None (goto s t (PSetGot l nl i (i_data nd)))
  | set_bad s t l nl i d nd r :
      s_threads s !! t = Some (PSetGot l nl i d) → s_inodes s !! i = Some nd →
      match get_label_from_data (lb_name l) d with
      | Ok l' => l' ≠ l ∧ r = Ok None
      | Err k => r = Err k
      | Panic => r = Panic
      end →
      lstep s (Some (EvSet t l nl (Some i) r)) (leave (put s i (unlock_excl nd)) t)
  | set_truncate s t l nl i d nd :
      s_threads s !! t = Some (PSetGot l nl i d) → s_inodes s !! i = Some nd →
      get_label_from_data (lb_name l) d = Ok l →
      lstep s None (goto (put s i (set_data nd [])) t (PSetWrite l nl i 0 (label_contents nl)))
  | set_write s t l nl i pos a rest nd :
      s_threads s !! t = Some (PSetWrite l nl i pos (a ++ rest)) → s_inodes s !! i = Some nd →
      lstep s None (goto (put s i (set_data nd (write_at (i_data nd) pos a))) t
                      (PSetWrite l nl i (pos + length a) rest))
  | set_done s t l nl i pos nd :
      s_threads s !! t = Some (PSetWrite l nl i pos []) → s_inodes s !! i = Some nd →
      lstep s (Some (EvSet t l nl (Some i) (Ok (Some nl)))) (leave (put s i (unlock_excl nd)) t)
  (* create_label *)
  | create_exists s t n i :
      s_threads s !! t = Some (PCreStat n) → s_dir s !! n = Some i →
      lstep s (Some (EvCreate t n None (Err InvalidInput))) (leave s t)
  | create_stat s t n :
      s_threads s !! t = Some (PCreStat n) → s_dir s !! n = None →
      lstep s None (goto s t (PCreOpen n))
  | create_late s t n i :
      s_threads s !! t = Some (PCreOpen n) → s_dir s !! n = Some i →
      lstep s (Some (EvCreate t n None (Err AlreadyExists))) (leave s t)
  | create_open s t n i :
      s_threads s !! t = Some (PCreOpen n) → s_dir s !! n = None → s_inodes s !! i = None →
      lstep s None (LState (<[n := i]> (s_dir s)) (<[i := Inode [] None [] n t]> (s_inodes s))
                      (<[t := PCreLock n i]> (s_threads s)))
  | create_lock s t n i nd :
      s_threads s !! t = Some (PCreLock n i) → s_inodes s !! i = Some nd →
      i_excl nd = None → i_shared nd = [] →
      lstep s None (goto (put s i (lock_excl nd t)) t (PCreWrite n i 0 new_label_contents))
  | create_write s t n i pos a rest nd :
      s_threads s !! t = Some (PCreWrite n i pos (a ++ rest)) → s_inodes s !! i = Some nd →
      lstep s None (goto (put s i (set_data nd (write_at (i_data nd) pos a))) t
                      (PCreWrite n i (pos + length a) rest))
  | create_done s t n i pos nd :
      s_threads s !! t = Some (PCreWrite n i pos []) → s_inodes s !! i = Some nd →
      lstep s (Some (EvCreate t n (Some i) (Ok (label_new_empty n)))) (leave (put s i (unlock_excl nd)) t)
  (* delete_label *)
  | delete_absent s t n :
      s_threads s !! t = Some (PDel n) → s_dir s !! n = None →
      lstep s (Some (EvDelete t n false)) (leave s t)
  | delete_file s t n i :
      s_threads s !! t = Some (PDel n) → s_dir s !! n = Some i →
      lstep s (Some (EvDelete t n true))
        (LState (delete n (s_dir s)) (s_inodes s) (delete t (s_threads s))).

(** An execution from the empty directory and what the calls returned, in order. *)
Inductive lexec : list lev → lstate → Prop :=
  | lexec_nil : lexec [] lstate_init
  | lexec_step tr s e s' : lexec tr s → lstep s e s' → lexec (tr ++ option_list e) s'.
