(** The directory label stores when the disk fails: src/storage/directory.rs:128-307 and 317-457, one call at a
    time, as in [LabelSeq], with one failing file operation.  Which one and how is given by the [fault]; if the call
    does not come to that operation it runs as in [LabelSeq].  The error is that of the operating system, for which
    [OtherError] stands. *)
From Verif Require Import Prelude Names LabelSeq.

Inductive fault :=
  (** looking at, making, opening, reading or truncating the file, listing the directory, or removing the file fails
      and leaves it as it was *)
  | AtOpen
  (** locking the file fails; this panics, locking.rs:49-60, 71-73 *)
  | AtLock
  (** [write_all] fails when that many bytes have been written, for example because the disk is full *)
  | AtWrite (k : nat)
  (** [flush] or [sync_all] fails when all has been written *)
  | AtSync.

(** ** Directory, directory.rs:128-307 *)
Definition dir_call_f (f : fault) (fs : gmap bytes bytes) (c : lcall) : lres * gmap bytes bytes :=
  match c with
  | CCreate n =>
      match f with
      | AtOpen => (RCreate (Err OtherError), fs)
      | _ =>
          match fs !! n with
          | Some _ => dir_call fs c
          | None =>
              match f with
              | AtOpen => (RCreate (Err OtherError), fs)
              | AtLock => (RCreate Panic, <[n := []]> fs)
              | AtWrite k => (RCreate (Err OtherError), <[n := take k new_label_contents]> fs)
              | AtSync => (RCreate (Err OtherError), <[n := new_label_contents]> fs)
              end
          end
      end
  | CGet n =>
      match f with
      | AtOpen => (RGet (Err OtherError), fs)
      | AtLock => match fs !! n with Some _ => (RGet Panic, fs) | None => dir_call fs c end
      | _ => dir_call fs c
      end
  | CSet l layer =>
      match with_updated_layer l layer with
      | None => dir_call fs c
      | Some nl =>
          match f with
          | AtOpen => (RSet (Err OtherError), fs)
          | _ =>
              match fs !! lb_name l with
              | None => dir_call fs c
              | Some d =>
                  match f with
                  | AtLock => (RSet Panic, fs)
                  | _ =>
                      match get_label_from_data (lb_name l) d with
                      | Ok l' =>
                          if decide (l' = l) then
                            match f with
                            | AtWrite k => (RSet (Err OtherError), <[lb_name l := take k (label_contents nl)]> fs)
                            | _ => (RSet (Err OtherError), <[lb_name l := label_contents nl]> fs)
                            end
                          else dir_call fs c
                      | _ => dir_call fs c
                      end
                  end
              end
          end
      end
  | CDelete n =>
      match f with
      | AtOpen => (RDelete (Err OtherError), fs)
      | _ => dir_call fs c
      end
  | CLabels =>
      match f with
      | AtOpen => (RLabels (Err OtherError), fs)
      | AtLock => if decide (fs = ∅) then dir_call fs c else (RLabels Panic, fs)
      | _ => dir_call fs c
      end
  end.

(** ** Cached directory, directory.rs:317-457: the files are not locked, the answers come from the map, and a label
    is put into the map after its file has been written, and removed from it before its file is *)
Definition cd_call_f (f : fault) (s : cd_state) (c : lcall) : lres * cd_state :=
  let m := cd_map s in
  let fs := cd_files s in
  match c with
  | CCreate n =>
      match m !! n, f with
      | None, AtOpen => (RCreate (Err OtherError), s)
      | None, AtWrite k =>
          match fs !! n with Some _ => cd_call s c | None => (RCreate (Err OtherError), CD m (<[n := take k new_label_contents]> fs)) end
      | None, AtSync =>
          match fs !! n with Some _ => cd_call s c | None => (RCreate (Err OtherError), CD m (<[n := new_label_contents]> fs)) end
      | _, _ => cd_call s c
      end
  | CSet l layer =>
      match with_updated_layer l layer with
      | None => cd_call s c
      | Some nl =>
          match m !! lb_name l with
          | None => cd_call s c
          | Some l' =>
              if decide (l' = l) then
                match f, fs !! lb_name l with
                | AtOpen, _ => (RSet (Err OtherError), s)
                | AtWrite k, Some d => (RSet (Err OtherError), CD m (<[lb_name l := write_over d (take k (label_contents nl))]> fs))
                | AtSync, Some d => (RSet (Err OtherError), CD m (<[lb_name l := write_over d (label_contents nl)]> fs))
                | _, _ => cd_call s c
                end
              else cd_call s c
          end
      end
  | CDelete n =>
      match m !! n, f with
      | Some _, AtOpen => (RDelete (Err OtherError), CD (delete n m) fs)
      | _, _ => cd_call s c
      end
  | CGet _ | CLabels => cd_call s c
  end.

(** A sequence of calls, some of which meet a fault *)
Definition dir_step (fs : gmap bytes bytes) (fc : option fault * lcall) : lres * gmap bytes bytes :=
  match fc.1 with Some f => dir_call_f f fs fc.2 | None => dir_call fs fc.2 end.
Definition cd_step (s : cd_state) (fc : option fault * lcall) : lres * cd_state :=
  match fc.1 with Some f => cd_call_f f s fc.2 | None => cd_call s fc.2 end.
Fixpoint run_f {St} (step : St → option fault * lcall → lres * St) (s : St) (cs : list (option fault * lcall)) : list lres * St :=
  match cs with
  | [] => ([], s)
  | c :: cs' => let '(r, s') := step s c in let '(rs, s'') := run_f step s' cs' in (r :: rs, s'')
  end.
