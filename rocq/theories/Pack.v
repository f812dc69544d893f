(** Model of packs (src/storage/pack.rs): exporting layers to a tar file, importing them into
    another store, and listing the layers of a pack with their parents. *)
From Verif Require Import Prelude Names FileNames Archive ArchiveStore.
From Coq Require String Ascii.

(** the bytes of a text *)
Definition text_bytes (s : String.string) : bytes := Ascii.nat_of_ascii <$> String.list_ascii_of_string s.
Definition file_names (l : list String.string) : list bytes := text_bytes <$> l.
(** [FILENAME_ENUM_MAP[name]] (consts.rs:259-506), for a name given by its bytes *)
Definition type_of_name (f : bytes) : option nat :=
  snd <$> head (filter (λ p, p.1 = f) (prod_map text_bytes id <$> filename_enum_map)).
Definition parent_file : bytes := text_bytes parent_name.
Definition rollup_file : bytes := text_bytes rollup_name.

(** ** Packs.  [tar] and [flate2] are not part of the code base; a pack is what reading it gives,
    entry by entry. *)
(** [std::path::Component]: a name in UTF-8, a name that is no UTF-8, [..], [/] and [.] *)
Inductive component := CName (b : bytes) | CNonUtf8 | CUp | CRoot | CDot.
(** [e_size] is the size in the header of the entry *)
Record entry := Entry { e_path : list component; e_file : bool; e_size : nat; e_data : bytes }.
Record tar_codec := Tar {
  (** [Builder::append_data] of each entry, [finish], and compressing *)
  tc_write : list entry → bytes;
  (** decompressing and [Archive::entries]; an entry that cannot be read, or whose contents end
      early, is an error, and nothing follows it *)
  tc_read : bytes → list (outcome entry) }.
(** [OsStr::to_str] of a component *)
Definition component_text (c : component) : option bytes :=
  match c with CName b => Some b | CNonUtf8 => None | CUp => Some [46; 46] | CRoot => Some [47] | CDot => Some [46] end.
(** [Path::file_name]: the last component, if it is a name; and its text, if it is UTF-8 *)
Definition file_name (p : list component) : option (option bytes) :=
  match last p with Some (CName b) => Some (Some b) | Some CNonUtf8 => Some None | _ => None end.
(** what the code relies on: what was written is read back, if each header has the right size and
    the names are plain ones: ASCII letters, digits, dots and the like *)
Definition plain_component (c : component) : Prop :=
  match c with CName (b :: bs) => 47 < b < 123 ∧ Forall (λ x, 45 < x < 123 ∧ x ≠ 47) bs | _ => False end.
Definition entry_ok (e : entry) : Prop :=
  e_size e = length (e_data e) ∧ e_path e ≠ [] ∧ Forall plain_component (e_path e).
Definition tar_ok (tc : tar_codec) : Prop := ∀ es, Forall entry_ok es → tc_read tc (tc_write tc es) = Ok <$> es.

(** ** The store that is packed, [PersistentLayerStore] (layer.rs:355-653) *)
Record pls (S : Type) := PLS {
  p_dir : S → lname → outcome bool;                   (* directory_exists *)
  p_exists : S → lname → bytes → outcome bool;         (* file_exists *)
  p_map : S → lname → bytes → outcome bytes;           (* get_file, map *)
  p_size : S → lname → bytes → outcome nat;            (* get_file, size *)
  p_create : S → lname → outcome unit * S;             (* create_named_directory *)
  p_write : S → lname → bytes → bytes → outcome unit * S; (* get_file, open_write, write_all, flush, sync_all *)
  p_finalize : S → lname → outcome unit * S }.         (* finalize_layer *)
Arguments p_dir {S}. Arguments p_exists {S}. Arguments p_map {S}. Arguments p_size {S}.
Arguments p_create {S}. Arguments p_write {S}. Arguments p_finalize {S}.

(** one call after the other, each of which may fail *)
Fixpoint each {S A} (f : S → A → outcome unit * S) (s : S) (l : list A) : outcome unit * S :=
  match l with
  | [] => (Ok tt, s)
  | x :: l' => match f s x with (Ok _, s') => each f s' l' | (Err k, s') => (Err k, s') | (Panic, s') => (Panic, s') end
  end.
Fixpoint concat_all {A B} (f : A → outcome (list B)) (l : list A) : outcome (list B) :=
  match l with
  | [] => Ok []
  | x :: l' => obind (f x) (λ a, obind (concat_all f l') (λ b, Ok (a ++ b)))
  end.

Section pack.
Context {S : Type} (st : pls S).

(** ** Exporting *)
(** pack.rs:146-156 and 176-186: the entry of a file *)
Definition file_entry (s : S) (n : lname) (f : bytes) : outcome (list entry) :=
  obind (p_map st s n f) (λ d, obind (p_size st s n f) (λ k,
    Ok [Entry [CName (name_to_string n); CName f] true k d])).
(** pack.rs:137-165 [tar_append_file] *)
Definition append_file (s : S) (n : lname) (f : bytes) : outcome (list entry) :=
  obind (p_exists st s n f) (λ b, if (b : bool) then file_entry s n f else Err NotFound).
(** pack.rs:167-190 [tar_append_file_if_exists] *)
Definition append_if_exists (s : S) (n : lname) (f : bytes) : outcome (list entry) :=
  obind (p_exists st s n f) (λ b, if (b : bool) then file_entry s n f else Ok []).
(** pack.rs:192-240 [tar_append_layer] *)
Definition append_layer (s : S) (n : lname) : outcome (list entry) :=
  let dir := Entry [CName (name_to_string n)] false 0 [] in
  obind (concat_all (append_file s n) (file_names shared_required_files)) (λ e1,
  obind (concat_all (append_if_exists s n) (filter (λ f, f ≠ rollup_file) (file_names shared_optional_files))) (λ e2,
  obind (p_exists st s n parent_file) (λ child,
  let (req, opt) := if (child : bool) then (child_layer_required_files, child_layer_optional_files)
                    else (base_layer_required_files, base_layer_optional_files) in
  obind (concat_all (append_file s n) (file_names req)) (λ e3,
  obind (concat_all (append_if_exists s n) (file_names opt)) (λ e4,
    Ok (dir :: e1 ++ e2 ++ e3 ++ e4)))))).
(** pack.rs:42-61 [export_layers]; time stamps and modes are left out *)
Definition export_entries (s : S) (ids : list lname) : outcome (list entry) := concat_all (append_layer s) ids.
Definition export_layers (tc : tar_codec) (s : S) (ids : list lname) : outcome bytes :=
  obind (export_entries s ids) (λ es, Ok (tc_write tc es)).

(** ** Importing *)
(** pack.rs:84-125: one entry; [wanted] is the set of the names *)
Definition import_entry (wanted : list bytes) (s : S) (r : outcome entry) : outcome unit * S :=
  match r with
  | Err k => (Err k, s)
  | Panic => (Panic, s)
  | Ok e =>
      match file_name (e_path e) with
      | None => (Panic, s)
      | Some None => (Err InvalidData, s)
      | Some (Some f) =>
          let id := default [] (head (e_path e) ≫= component_text) in
          if decide (id ∈ wanted) then
            match string_to_name id with
            | Ok n => if e_file e then p_write st s n f (e_data e) else (Ok tt, s)
            | _ => (Panic, s)
            end
          else (Ok tt, s)
      end
  end.
(** pack.rs:63-134 [import_layers].  [order] is the order in which the set of names is gone
    through at the end. *)
Definition import_entries (s : S) (es : list (outcome entry)) (ids order : list lname) : outcome unit * S :=
  match each (p_create st) s ids with
  | (Ok _, s1) =>
      match each (import_entry (name_to_string <$> ids)) s1 es with
      | (Ok _, s2) => each (p_finalize st) s2 order
      | r => r
      end
  | r => r
  end.
Definition import_layers (tc : tar_codec) (s : S) (pack : bytes) (ids order : list lname) : outcome unit * S :=
  import_entries s (tc_read tc pack) ids order.
(** the orders that are possible *)
Definition import_order (ids order : list lname) : Prop := NoDup order ∧ ∀ n, n ∈ order ↔ n ∈ ids.
End pack.

(** ** pack.rs:266-305 [pack_layer_parents] *)
Definition pack_parent (m : gmap lname (option lname)) (r : outcome entry) : outcome (gmap lname (option lname)) :=
  match r with
  | Err k => Err k
  | Panic => Panic
  | Ok e =>
      match head (e_path e) ≫= component_text with
      | None => Panic
      | Some id =>
          obind (string_to_name id) (λ n,
          match file_name (e_path e) with
          | None => Panic
          | Some f =>
              if decide (f = Some parent_file) then
                obind (read_exact 40 (e_data e)) (λ '(d, _),
                (* [from_utf8] *)
                if decide (from_utf8_lossy d = d) then
                  obind (string_to_name d) (λ p, Ok (<[n := Some p]> m))
                else Err InvalidData)
              else Ok (match m !! n with Some _ => m | None => <[n := None]> m end)
          end)
      end
  end.
Fixpoint pack_parents (m : gmap lname (option lname)) (es : list (outcome entry)) : outcome (gmap lname (option lname)) :=
  match es with [] => Ok m | e :: es' => obind (pack_parent m e) (λ m, pack_parents m es') end.
Definition pack_layer_parents (tc : tar_codec) (pack : bytes) : outcome (gmap lname (option lname)) :=
  pack_parents ∅ (tc_read tc pack).

(** ** Stores *)
Notation files := (gmap (list N) (gmap (list nat) (list nat))) (only parsing).
Definition f_look (s : files) (n : lname) (f : bytes) : option bytes := s !! n ≫= (λ m, m !! f).
Definition found {A} (r : option A) : outcome A := match r with Some a => Ok a | None => Err NotFound end.

(** [MemoryLayerStore], memory.rs:24-77.  A file is there once it has been synced; that writing and
    syncing replaces the contents is part of tdb-succinct. *)
Definition memory_pls : pls files := PLS _
  (λ s n, Ok (bool_decide (is_Some (s !! n))))
  (λ s n f, Ok (bool_decide (is_Some (f_look s n f))))
  (λ s n f, found (f_look s n f))
  (λ s n f, found (length <$> f_look s n f))
  (λ s n, (Ok tt, <[n := ∅]> s))
  (λ s n f b, match s !! n with Some m => (Ok tt, <[n := <[f := b]> m]> s) | None => (Err NotFound, s) end)
  (λ s n, (Ok tt, s)).

(** [DirectoryLayerStore], directory.rs:27-115.  [over old b] is what a file contains after [b] was
    written to it when it contained [old]: whether the file is truncated is up to tdb-succinct. *)
Definition directory_pls (over : bytes → bytes → bytes) : pls files := PLS _
  (λ s n, Ok (bool_decide (is_Some (s !! n))))
  (λ s n f, Ok (bool_decide (is_Some (f_look s n f))))
  (λ s n f, found (f_look s n f))
  (λ s n f, found (length <$> f_look s n f))
  (λ s n, (Ok tt, <[n := default ∅ (s !! n)]> s))
  (λ s n f b, match s !! n with
              | Some m => (Ok tt, <[n := <[f := match m !! f with Some old => over old b | None => b end]> m]> s)
              | None => (Err NotFound, s)
              end)
  (λ s n, match s !! n with Some _ => (Ok tt, s) | None => (Err NotFound, s) end).

(** [ArchiveLayerStore] over [DirectoryArchiveBackend], without other tasks.  [RwLock::read] panics
    when the lock is poisoned. *)
Definition locked {A} (s : astore) (r : outcome A) : outcome A := if as_poisoned s then Panic else r.
Section archive.
Context (c : codec).
Definition typed {A} (f : bytes) (k : nat → outcome A) : outcome A :=
  match type_of_name f with Some ft => k ft | None => Panic end.
(** archive.rs:1402-1413 *)
Definition ap_dir (s : astore) (n : lname) : outcome bool := locked s (Ok (as_directory_exists s n)).
(** archive.rs:1450-1466 *)
Definition ap_exists (s : astore) (n : lname) (f : bytes) : outcome bool :=
  typed f (λ ft, if decide (ft = rollup_type) then as_file_exists s n ft else locked s (as_file_exists s n ft)).
(** archive.rs:1415-1448, 1247-1253; reading a file of a layer under construction that was never
    opened also opens it, which is left out *)
Definition ap_map (s : astore) (n : lname) (f : bytes) : outcome bytes :=
  typed f (λ ft, if decide (ft = rollup_type) then as_map c s n ft else locked s (as_map c s n ft)).
(** archive.rs:1227-1233 *)
Definition as_size (s : astore) (n : lname) (ft : nat) : outcome nat :=
  if decide (ft = rollup_type) then rollup_file_size (as_disk s !! n) (as_rollups s !! n)
  else match as_constr s !! n with
       | Some m =>
           match m !! ft with
           | Some h => match as_cells s !! h with Some f => cfile_size f | None => Panic end
           | None => Err NotFound
           end
       | None => structure_size c (as_disk s !! n) ft
       end.
Definition ap_size (s : astore) (n : lname) (f : bytes) : outcome nat :=
  typed f (λ ft, if decide (ft = rollup_type) then as_size s n ft else locked s (as_size s n ft)).
(** archive.rs:1383-1400 *)
Definition ap_create (s : astore) (n : lname) : outcome unit * astore :=
  match as_disk s !! n, as_poisoned s, as_constr s !! n with
  | Some _, _, _ => (Panic, s)
  | None, false, None => (Ok tt, set_constr s (<[n := ∅]> (as_constr s)))
  | None, _, _ => (Panic, poison s)
  end.
(** writing to a file and syncing it, archive.rs:697-714 and 735-752 *)
Definition write_cell (s : astore) (h : nat) (b : bytes) : outcome unit * astore :=
  match as_cells s !! h with
  | None => (Panic, s)
  | Some x =>
      match obind (cfile_write x b) cfile_sync with
      | Ok x' => (Ok tt, set_cells s (<[h := x']> (as_cells s)))
      | Err k => (Err k, s)
      | Panic => (Panic, s)
      end
  end.
(** archive.rs:1415-1448 and 1202-1217: a persistent file cannot be written *)
Definition ap_write (s : astore) (n : lname) (f b : bytes) : outcome unit * astore :=
  match type_of_name f with
  | None => (Panic, s)
  | Some ft =>
      if decide (ft = rollup_type) then
        match rollup_file_sync (as_disk s !! n) b with
        | Ok d => (Ok tt, set_rollups s (<[n := d]> (as_rollups s)))
        | Err k => (Err k, s)
        | Panic => (Panic, s)
        end
      else if as_poisoned s then (Panic, s)
      else match as_constr s !! n with
           | None => (Panic, s)
           | Some m =>
               match m !! ft with
               | Some h => write_cell s h b
               | None =>
                   let h := fresh (dom (D := gset nat) (as_cells s)) in
                   write_cell (set_cells (set_constr s (<[n := <[ft := h]> m]> (as_constr s)))
                     (<[h := UnderConstruction []]> (as_cells s))) h b
               end
           end
  end.
(** archive.rs:1468-1504, and 167-197 without interruption; sizes that are no [usize] cannot occur
    and panic here *)
Definition ap_finalize (s : astore) (n : lname) : outcome unit * astore :=
  match as_poisoned s, as_constr s !! n with
  | false, Some m =>
      let fs := finalized_files (as_cells s) m in
      let s' := set_constr s (delete n (as_constr s)) in
      if decide (N.of_nat (length (mjoin fs.*2)) ≤ u64_max)%N then
        (Ok tt, set_disk s' (<[n := write_at (default [] (as_disk s !! n)) 0 (archive_bytes c fs)]> (as_disk s)))
      else (Panic, s')
  | _, _ => (Panic, poison s)
  end.
Definition archive_pls : pls astore := PLS _ ap_dir ap_exists ap_map ap_size ap_create ap_write ap_finalize.
End archive.

(** The stores there are *)
Inductive backend := BMemory | BDirectory (over : bytes → bytes → bytes) | BArchive (c : codec).
Definition backend_state (k : backend) : Type :=
  match k with BMemory | BDirectory _ => files | BArchive _ => astore end.
Definition backend_pls (k : backend) : pls (backend_state k) :=
  match k with BMemory => memory_pls | BDirectory over => directory_pls over | BArchive c => archive_pls c end.
