(** Listing the labels of a directory label store while others use it: [labels], src/storage/directory.rs:199-219.
    The caller opens the directory and asks for one entry after the other ([read_dir], [next_entry]); the file of each
    entry is opened, locked for reading, and read ([get_label_from_file], directory.rs:171-180), as [get_label] does,
    but that there is no file is an error.  The first error ends the call.
    What the system says of a directory that changes while it is read (POSIX, readdir): an entry that is there all the
    time is given exactly once; one that is added or removed meanwhile may be given or not.
    Simplified: entries that are not files of labels are skipped and left out here; names are those of labels. *)
From Verif Require Import Prelude Names LabelConc.

Record lister := Lister {
  l_stay : gset bytes;        (* the names that have been in the directory since it was opened *)
  l_ever : gset bytes;        (* the names that have been there at some time since *)
  l_seen : list bytes;        (* the entries given so far *)
  l_at : option bytes;        (* the one whose file is being read *)
  l_got : list label }.
Definition names_of (s : lstate) : gset bytes := dom (s_dir s).
(** the directory may have changed *)
Definition watch (s : lstate) (L : lister) : lister :=
  Lister (l_stay L ∩ names_of s) (l_ever L ∪ names_of s) (l_seen L) (l_at L) (l_got L).
Definition next_entry (L : lister) (n : bytes) : lister := Lister (l_stay L) (l_ever L) (l_seen L ++ [n]) (Some n) (l_got L).
Definition push_label (L : lister) (l : label) : lister := Lister (l_stay L) (l_ever L) (l_seen L) None (l_got L ++ [l]).

(** What happens: a listing begins, with what is in the directory; a call of another caller returns; a listing has
    read a file; a listing returns *)
Inductive xev :=
  | XBegin (t : tid) (dir : gmap bytes ino)
  | XCall (e : lev)
  | XEntry (e : lev)
  | XList (t : tid) (r : outcome (list label)).
Notation xstate := (lstate * gmap tid lister)%type (only parsing).
(** [get_label_from_file]: as [get_label], but without a file there is an error *)
Definition entry_error (r : outcome (option label)) : option (outcome (list label)) :=
  match r with Ok (Some _) => None | Ok None => Some (Err NotFound) | Err k => Some (Err k) | Panic => Some Panic end.

Inductive xstep : xstate → list xev → xstate → Prop :=
  (* a step of a caller that is not listing *)
  | x_other s e s' ls : lstep s e s' → (∀ t, is_Some (ls !! t) → s_threads s' !! t = s_threads s !! t) →
      xstep (s, ls) (XCall <$> option_list e) (s', watch s' <$> ls)
  | x_begin s ls t : s_threads s !! t = None → ls !! t = None →
      xstep (s, ls) [XBegin t (s_dir s)] (s, <[t := Lister (names_of s) (names_of s) [] None []]> ls)
  | x_next s ls t L n : ls !! t = Some L → l_at L = None → n ∈ l_ever L → (n ∈ l_stay L → n ∉ l_seen L) →
      xstep (s, ls) [] (goto s t (PGetOpen n), <[t := next_entry L n]> ls)
  | x_read s s' ls t L : ls !! t = Some L → l_at L ≠ None → lstep s None s' → s_threads s' !! t ≠ s_threads s !! t →
      xstep (s, ls) [] (s', watch s' <$> ls)
  | x_got s s' ls t L n i l : ls !! t = Some L → l_at L = Some n → lstep s (Some (EvGet t n i (Ok (Some l)))) s' →
      xstep (s, ls) [XEntry (EvGet t n i (Ok (Some l)))] (s', <[t := push_label L l]> ls)
  | x_fails s s' ls t L n i r e : ls !! t = Some L → l_at L = Some n → lstep s (Some (EvGet t n i r)) s' → entry_error r = Some e →
      xstep (s, ls) [XEntry (EvGet t n i r); XList t e] (s', delete t ls)
  | x_end s ls t L : ls !! t = Some L → l_at L = None → (∀ n, n ∈ l_stay L → n ∈ l_seen L) →
      xstep (s, ls) [XList t (Ok (l_got L))] (s, delete t ls).
Inductive xexec : list xev → xstate → Prop :=
  | xexec_nil : xexec [] (lstate_init, ∅)
  | xexec_step tr s es s' : xexec tr s → xstep s es s' → xexec (tr ++ es) s'.
