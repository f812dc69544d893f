(** Model of the layer archives of src/storage/archive.rs: the format of a [.larch] file, the two
    ways of reading it (whole, or seeking to a range), the files of a layer under construction and
    the readers.  A file type is its number in [LayerFileEnum]; bytes are numbers below 256. *)
From Verif Require Import Prelude Names FileNames.

(** ** Big-endian words: [put_u64], [get_u64], [read_u64] *)
Fixpoint be_bytes (k : nat) (n : N) : bytes :=
  match k with
  | 0 => []
  | S k => be_bytes k (n / 256)%N ++ [N.to_nat (n mod 256)%N]
  end.
Definition be_value (s : bytes) : N := foldl (λ a b, a * 256 + N.of_nat b)%N 0%N s.
Definition put_u64 (n : N) : bytes := be_bytes 8 n.

(** ** The log array of offsets.  Its bytes are made and read by tdb-succinct, which is not part of
    the code base; [codec_ok] is what the code relies on. *)
Record codec := Codec {
  (** [LateLogArrayBufBuilder::push] of each number, then [finalize_header_first] *)
  cd_encode : list nat → bytes;
  (** [logarray_length_from_control_word]: the number of bytes after the 8 bytes of the header *)
  cd_length : bytes → nat;
  (** [MonotonicLogArray::parse_header_first]: the numbers and the bytes that follow the array *)
  cd_parse : bytes → option (list nat * bytes) }.
(** at most as many numbers as there can be files, that never decrease and fit in 64 bits *)
Definition offsets_ok (l : list nat) : Prop :=
  length l ≤ 64 ∧ StronglySorted le l ∧ Forall (λ n, (N.of_nat n ≤ u64_max)%N) l.
Definition codec_ok (c : codec) : Prop :=
  ∀ l r, offsets_ok l →
    8 ≤ length (cd_encode c l) ∧
    cd_length c (take 8 (cd_encode c l)) = length (cd_encode c l) - 8 ∧
    cd_parse c (cd_encode c l ++ r) = Some (l, r).

(** ** [SmallBitArray] of tdb-succinct: bit 0 is the most significant one; [rank1 i] counts the
    bits that are set among those up to and including bit [i] *)
Definition sba_get (v : N) (i : nat) : bool := N.testbit v (63 - N.of_nat i).
Definition sba_rank1 (v : N) (i : nat) : nat := length (filter (λ j, sba_get v j = true) (seq 0 (S i))).

(** archive.rs:849-857 [ArchiveFilePresenceHeader::from_present] *)
Definition from_present (fts : list nat) : N :=
  foldl (λ v ft, N.lor v (N.shiftl 1 (63 - N.of_nat ft))) 0%N fts.
(** archive.rs:859-861 [is_present] *)
Definition is_present (v : N) (ft : nat) : bool := sba_get v ft.
(** archive.rs:867-873 [file_index] *)
Definition file_index (v : N) (ft : nat) : option nat :=
  if is_present v ft then Some (sba_rank1 v ft - 1) else None.

(** archive.rs:876-880 *)
Record header := Header { h_present : N; h_offsets : list nat }.

Section archive.
Context (c : codec).

(** archive.rs:883-895 [ArchiveHeader::parse]; [get_u64] panics when there are not 8 bytes *)
Definition parse_header (b : bytes) : outcome (header * bytes) :=
  if decide (length b < 8) then Panic
  else match cd_parse c (drop 8 b) with
       | None => Panic
       | Some (os, rest) => Ok (Header (be_value (take 8 b)) os, rest)
       end.

(** [read_exact] on a file, given what follows the current position *)
Definition read_exact (n : nat) (b : bytes) : outcome (bytes * bytes) :=
  if decide (length b < n) then Err UnexpectedEof else Ok (take n b, drop n b).
(** archive.rs:897-916 [ArchiveHeader::parse_from_reader]: also gives what follows the header in
    the file *)
Definition parse_from_reader (b : bytes) : outcome (header * bytes) :=
  obind (read_exact 8 b) (λ '(p, b1),
  obind (read_exact 8 b1) (λ '(w, b2),
  obind (read_exact (cd_length c w) b2) (λ '(d, b3),
    match cd_parse c (w ++ d) with
    | None => Panic
    | Some (os, _) => Ok (Header (be_value p) os, b3)
    end))).

(** [MonotonicLogArray::entry] panics beyond the end *)
Definition entry (os : list nat) (i : nat) : outcome nat :=
  match os !! i with Some n => Ok n | None => Panic end.
(** archive.rs:918-932 [range_for] *)
Definition range_for (h : header) (ft : nat) : outcome (option (nat * nat)) :=
  match file_index (h_present h) ft with
  | None => Ok None
  | Some i =>
      obind (if decide (i = 0) then Ok 0 else entry (h_offsets h) (i - 1)) (λ start,
      obind (entry (h_offsets h) i) (λ stop, Ok (Some (start, stop))))
  end.
(** archive.rs:934-936 [size_of]: the subtraction panics when it underflows *)
Definition size_of (h : header) (ft : nat) : outcome (option nat) :=
  obind (range_for h ft) (λ r,
    match r with
    | None => Ok None
    | Some (a, b) => if decide (b < a) then Panic else Ok (Some (b - a))
    end).

(** archive.rs:945-949 [Archive::parse], 965-969 [slice_for]; [Bytes::slice] panics unless the
    range is one of the data *)
Definition slice_for (b : bytes) (ft : nat) : outcome (option bytes) :=
  obind (parse_header b) (λ '(h, data),
  obind (range_for h ft) (λ r,
    match r with
    | None => Ok None
    | Some (i, j) =>
        if decide (i ≤ j ∧ j ≤ length data) then Ok (Some (take (j - i) (drop i data))) else Panic
    end)).
(** archive.rs:951-963 [Archive::parse_from_reader]: the header and the data; [entry(len - 1)]
    panics when the archive has no file *)
Definition parse_archive (b : bytes) : outcome (header * bytes) :=
  obind (parse_from_reader b) (λ '(h, rest),
    match last (h_offsets h) with
    | None => Panic
    | Some n => obind (read_exact n rest) (λ '(d, _), Ok (h, d))
    end).

(** ** [DirectoryArchiveBackend].  Each function takes the contents of the [.larch] file of the
    layer, if there is one. *)
Definition open_file (f : option bytes) : outcome bytes :=
  match f with Some b => Ok b | None => Err NotFound end.
(** archive.rs:128-144 [get_layer_bytes] *)
Definition layer_bytes (f : option bytes) : outcome bytes := open_file f.
(** archive.rs:146-165 [get_layer_structure_bytes]; [Range::len] is 0 when the end is smaller; a
    seek may go beyond the end of the file *)
Definition structure_bytes (f : option bytes) (ft : nat) : outcome (option bytes) :=
  obind (open_file f) (λ b,
  obind (parse_from_reader b) (λ '(h, rest),
  obind (range_for h ft) (λ r,
    match r with
    | None => Ok None
    | Some (i, j) => obind (read_exact (j - i) (drop i rest)) (λ '(d, _), Ok (Some d))
    end))).
(** archive.rs:199-220 [read_layer_structure_bytes_from]: what follows the position in the file and
    how many bytes remain; the subtraction panics when it underflows *)
Definition structure_from (f : option bytes) (ft from : nat) : outcome (bytes * nat) :=
  obind (open_file f) (λ b,
  obind (parse_from_reader b) (λ '(h, rest),
  obind (range_for h ft) (λ r,
    match r with
    | None => Err NotFound
    | Some (i, j) =>
        if decide (j - i < from) then Panic else Ok (drop (i + from) rest, j - i - from)
    end))).
(** archive.rs:245-257 [layer_exists] *)
Definition layer_exists (f : option bytes) : bool := bool_decide (is_Some f).
(** archive.rs:259-263 [layer_size] *)
Definition layer_size (f : option bytes) : outcome nat := obind (open_file f) (λ b, Ok (length b)).
(** archive.rs:265-282 [layer_file_exists] *)
Definition layer_file_exists (f : option bytes) (ft : nat) : outcome bool :=
  match f with
  | None => Ok false
  | Some b => obind (read_exact 8 b) (λ '(p, _), Ok (is_present (be_value p) ft))
  end.
(** archive.rs:284-299 [get_layer_structure_size] *)
Definition structure_size (f : option bytes) (ft : nat) : outcome nat :=
  obind (open_file f) (λ b,
  obind (parse_from_reader b) (λ '(h, _),
  obind (size_of h ft) (λ r, match r with None => Err NotFound | Some n => Ok n end))).
(** archive.rs:342-352 and 634-644 [get_parent], given what [get_layer_structure_bytes] gives for the
    parent file *)
Definition parse_parent (r : outcome (option bytes)) : outcome (option lname) :=
  obind r (λ r,
    match r with
    | None => Ok None
    | Some b =>
        if decide (length b < 40) then Panic
        else match string_to_name (take 40 b) with Ok n => Ok (Some n) | _ => Panic end
    end).
Definition get_parent (f : option bytes) : outcome (option lname) :=
  parse_parent (structure_bytes f parent_type).

(** ** Finalizing a layer: archive.rs:1476-1503, given the files of the layer that are finalized.
    The file types are distinct, so sorting the pairs sorts by file type. *)
Definition key_le (x y : nat * bytes) : Prop := x.1 ≤ y.1.
#[global] Instance key_le_dec : RelDecision key_le.
Proof. intros x y. unfold key_le. apply _. Defined.
Fixpoint tallies (acc : nat) (l : list (nat * bytes)) : list nat :=
  match l with
  | [] => []
  | (_, b) :: l' => let acc := acc + length b in acc :: tallies acc l'
  end.
Definition archive_bytes (l : list (nat * bytes)) : bytes :=
  let l := merge_sort key_le l in
  put_u64 (from_present (l.*1)) ++ cd_encode c (tallies 0 l) ++ mjoin (l.*2).
End archive.

(** ** Rollup files of the archive store *)
(** archive.rs:324-340 [set_rollup]: the contents of [.rollup.hex] *)
Definition archive_rollup_contents (n : lname) : bytes := [49; 10] ++ name_to_string n ++ [10].
(** archive.rs:301-322 [get_rollup]: the layer's archive has to exist; [read_to_string] fails for
    what is not UTF-8 (InvalidData), which no rollup file the store writes is: not modelled *)
Definition get_rollup (layer rollup : option bytes) : outcome (option lname) :=
  match layer, rollup with
  | Some _, Some data =>
      match text_lines data with
      | _ :: n :: _ => obind (string_to_name n) (λ n, Ok (Some n))
      | _ => Panic
      end
  | _, _ => Ok None
  end.
(** archive.rs:1092-1098 [ArchiveRollupFile::exists] *)
Definition rollup_file_exists (layer rollup : option bytes) : outcome bool :=
  obind (get_rollup layer rollup) (λ r, Ok (bool_decide (is_Some r))).
(** archive.rs:1100-1114 [size]: 20 bytes for [[u32; 5]] and 2 more *)
Definition rollup_file_size (layer rollup : option bytes) : outcome nat :=
  obind (get_rollup layer rollup) (λ r, match r with Some _ => Ok 22 | None => Err NotFound end).
(** archive.rs:1122-1135 [map] *)
Definition rollup_file_map (layer rollup : option bytes) : outcome bytes :=
  obind (get_rollup layer rollup) (λ r,
    match r with Some n => Ok ([49; 10] ++ name_to_string n) | None => Err NotFound end).
(** archive.rs:1184-1194 [ArchiveRollupFileWriter::sync_all] and 324-340 [set_rollup]: the contents
    of the rollup file, given what has been written *)
Definition rollup_file_sync (layer : option bytes) (written : bytes) : outcome bytes :=
  match text_lines written with
  | _ :: n :: _ =>
      obind (string_to_name n) (λ n,
        match layer with None => Err NotFound | Some _ => Ok (archive_rollup_contents n) end)
  | _ => Panic
  end.

(** ** Files of a layer under construction: archive.rs:647-651 *)
Inductive cfile := UnderConstruction (b : bytes) | Finalizing | Finalized (b : bytes).
(** archive.rs:697-714 [poll_write] *)
Definition cfile_write (f : cfile) (b : bytes) : outcome cfile :=
  match f with UnderConstruction x => Ok (UnderConstruction (x ++ b)) | _ => Err OtherError end.
(** archive.rs:735-752 [sync_all]: what the file becomes and the result *)
Definition cfile_sync (f : cfile) : outcome cfile :=
  match f with UnderConstruction x => Ok (Finalized x) | _ => Err OtherError end.
(** archive.rs:785-798 *)
Definition cfile_exists (f : cfile) : bool := match f with Finalized _ => true | _ => false end.
Definition cfile_size (f : cfile) : outcome nat :=
  match f with Finalized b => Ok (length b) | _ => Err NotFound end.
(** archive.rs:800-823 [open_read_from] *)
Definition cfile_read_from (f : cfile) (from : nat) : outcome bytes :=
  match f with
  | Finalized b => if decide (length b < from) then Err UnexpectedEof else Ok (drop from b)
  | _ => Err NotFound
  end.
(** archive.rs:825-834 [map] *)
Definition cfile_map (f : cfile) : outcome bytes :=
  match f with Finalized b => Ok b | _ => Err NotFound end.

(** ** Readers.  A call of [poll_read] offers room for some bytes. *)
(** archive.rs:76-95 [BytesAsyncReader] and 756-778 [ConstructionFile]: what is delivered and what
    remains *)
Definition bytes_poll (b : bytes) (room : nat) : bytes * bytes :=
  if decide (length b < room) then (b, []) else (take room b, drop room b).
(** what [poll_read] of a file of the operating system gives: nothing yet, an error, or some bytes *)
Inductive os_read := OsPending | OsError | OsBytes (k : nat).
Inductive poll := PollPending | PollOk (b : bytes) | PollErr.
(** a read of [k] bytes is possible when [rest] is left of the file: no bytes means that there is no
    room or that the end is reached *)
Definition os_read_ok (rest : bytes) (room : nat) (r : os_read) : Prop :=
  match r with
  | OsBytes k => k ≤ room ∧ k ≤ length rest ∧ (k = 0 → room = 0 ∨ rest = [])
  | _ => True
  end.
(** archive.rs:1016-1042 [ArchiveSliceReader::poll_read]: an error of the file is not looked at *)
Definition slice_poll (r : bytes * nat) (room : nat) (o : os_read) : poll * (bytes * nat) :=
  let '(rest, remaining) := r in
  if decide (remaining = 0) then (PollOk [], r)
  else match o with
       | OsPending => (PollPending, r)
       | OsError => (PollOk [], r)
       | OsBytes k =>
           if decide (remaining < k) then (PollOk (take remaining rest), (drop k rest, 0))
           else (PollOk (take k rest), (drop k rest, remaining - k))
       end.
