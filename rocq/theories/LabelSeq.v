(** The three label stores, one call at a time: src/storage/memory.rs:80-149,
    src/storage/directory.rs:128-307 and 317-457.  Label names are taken to be file names (not
    empty, without a slash), so that directory.rs:173 [file_stem] gives the name back.  Failures of
    the disk are added in [LabelFault].  In the memory store and in the cached directory store every call
    holds the lock of the map from beginning to end, so that one call at a time is all that
    happens; the steps of the directory store are modelled in [LabelConc]. *)
From Verif Require Import Prelude Names.

Inductive lcall :=
  | CCreate (name : bytes)
  | CGet (name : bytes)
  | CSet (l : label) (layer : option lname)  (* set_label, clear_label: label.rs:48-54 *)
  | CDelete (name : bytes)
  | CLabels.
Inductive lres :=
  | RCreate (r : outcome label)
  | RGet (r : outcome (option label))
  | RSet (r : outcome (option label))
  | RDelete (r : outcome bool)
  | RLabels (r : outcome (list label)).

(** ** Memory, memory.rs:80-149 *)
Notation mem_state := (gmap (list nat) label) (only parsing).
Definition mem_call (m : mem_state) (c : lcall) : lres * mem_state :=
  match c with
  | CCreate n =>
      match m !! n with
      | Some _ => (RCreate (Err InvalidInput), m)
      | None => (RCreate (Ok (label_new_empty n)), <[n := label_new_empty n]> m)
      end
  | CGet n => (RGet (Ok (m !! n)), m)
  | CSet l layer =>
      match with_updated_layer l layer with
      | None => (RSet Panic, m)
      | Some nl =>
          match m !! lb_name nl with
          | None => (RSet (Err InvalidInput), m)
          | Some old =>
              if (u64_max <=? lb_version old)%N then (RSet Panic, m)
              else if (lb_version old + 1 =? lb_version nl)%N
              then (RSet (Ok (Some nl)), <[lb_name nl := nl]> m)
              else (RSet (Ok None), m)
          end
      end
  | CDelete n => (RDelete (Ok (bool_decide (is_Some (m !! n)))), delete n m)
  | CLabels => (RLabels (Ok (snd <$> map_to_list m)), m)
  end.

(** ** Directory, directory.rs:128-307: a label is a file with its contents *)
Notation dir_state := (gmap (list nat) (list nat)) (only parsing).
(** directory.rs:207-211, 348: all label files, in some order *)
Fixpoint all_labels (fs : list (bytes * bytes)) : outcome (list (bytes * label)) :=
  match fs with
  | [] => Ok []
  | (n, d) :: fs' => obind (get_label_from_data n d) (λ l, obind (all_labels fs') (λ r, Ok ((n, l) :: r)))
  end.
Definition dir_call (fs : dir_state) (c : lcall) : lres * dir_state :=
  match c with
  | CCreate n =>
      match fs !! n with
      | Some _ => (RCreate (Err InvalidInput), fs)
      | None => (RCreate (Ok (label_new_empty n)), <[n := new_label_contents]> fs)
      end
  | CGet n =>
      (RGet match fs !! n with
            | None => Ok None
            | Some d =>
                match get_label_from_data n d with
                | Ok l => Ok (Some l) | Err NotFound => Ok None | Err k => Err k | Panic => Panic
                end
            end, fs)
  | CSet l layer =>
      match with_updated_layer l layer with
      | None => (RSet Panic, fs)
      | Some nl =>
          match fs !! lb_name l with
          | None => (RSet (Err NotFound), fs)
          | Some d =>
              match get_label_from_data (lb_name l) d with
              | Ok l' =>
                  if decide (l' = l) then (RSet (Ok (Some nl)), <[lb_name l := label_contents nl]> fs)
                  else (RSet (Ok None), fs)
              | Err k => (RSet (Err k), fs)
              | Panic => (RSet Panic, fs)
              end
          end
      end
  | CDelete n => (RDelete (Ok (bool_decide (is_Some (fs !! n)))), delete n fs)
  | CLabels => (RLabels (obind (all_labels (map_to_list fs)) (λ ls, Ok (snd <$> ls))), fs)
  end.

(** ** Cached directory, directory.rs:317-457 *)
Record cd_state := CD { cd_map : gmap bytes label; cd_files : gmap bytes bytes }.
(** directory.rs:327-358 [open] *)
Definition cd_open (fs : gmap bytes bytes) : outcome cd_state :=
  obind (all_labels (map_to_list fs)) (λ ls, Ok (CD (list_to_map ls) fs)).
(** writing from the start of a file that is not truncated, directory.rs:421-427 *)
Definition write_over (old new : bytes) : bytes := new ++ drop (length new) old.
Definition cd_call (s : cd_state) (c : lcall) : lres * cd_state :=
  let m := cd_map s in
  let fs := cd_files s in
  match c with
  | CCreate n =>
      match m !! n with
      | Some _ => (RCreate (Err InvalidInput), s)
      | None =>
          match fs !! n with
          | Some _ => (RCreate (Err OtherError), s)
          | None => (RCreate (Ok (label_new_empty n)), CD (<[n := label_new_empty n]> m) (<[n := new_label_contents]> fs))
          end
      end
  | CGet n => (RGet (Ok (m !! n)), s)
  | CSet l layer =>
      match with_updated_layer l layer with
      | None => (RSet Panic, s)
      | Some nl =>
          match m !! lb_name l with
          | None => (RSet (Err NotFound), s)
          | Some l' =>
              if decide (l' = l) then
                match fs !! lb_name l with
                | None => (RSet (Err NotFound), s)
                | Some d => (RSet (Ok (Some nl)), CD (<[lb_name l := nl]> m) (<[lb_name l := write_over d (label_contents nl)]> fs))
                end
              else (RSet (Ok None), s)
          end
      end
  | CDelete n =>
      match m !! n with
      | None => (RDelete (Ok false), s)
      | Some _ =>
          match fs !! n with
          | None => (RDelete (Err NotFound), CD (delete n m) fs)
          | Some _ => (RDelete (Ok true), CD (delete n m) (delete n fs))
          end
      end
  | CLabels => (RLabels (Ok (snd <$> map_to_list m)), s)
  end.

(** A sequence of calls *)
Fixpoint run {St} (f : St → lcall → lres * St) (s : St) (cs : list lcall) : list lres * St :=
  match cs with
  | [] => ([], s)
  | c :: cs' => let '(r, s') := f s c in let '(rs, s'') := run f s' cs' in (r :: rs, s'')
  end.
