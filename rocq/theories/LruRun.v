(** A function that runs the archive cache, and the cases in which its users do not get what they expect *)
From Verif Require Import Prelude ListFacts Names FileNames Archive ArchiveFacts ArchiveStore ArchiveRun Lru SpecLru LruFacts LruApi.

Inductive lact :=
  | ACall (t : nat) (o : lop)
  | AStep (t b : nat)            (* the next step; [b]: the barrier that a load makes *)
  | AFail (t : nat) (k : ekind)  (* an operation of the origin fails *)
  | APiece (t k : nat)
  | ACancel (t : nat)
  | ACrash.

Section run.
Context (c : codec) (limit current : nat) (pieces : bool).

Definition task_run (s : lstate) (t : nat) (o : lop) (p : lpc) (b0 : nat) : option (option levent * lstate) :=
  match p with
  | PFits n k =>
      match fits limit s n with
      | Ok true => Some (None, run s t o (when_fits n k))
      | Ok false => Some (None, run s t o (POrigin n k))
      | Err e => Some (Some (LDone t o (Err e)), finish s t)
      | Panic => None
      end
  | POrigin n k => Some (Some (LDone t o (origin_read c (l_disk s !! n) k)), finish s t)
  | PGet n k =>
      match cpeek (l_cache s) n with
      | Some (Resolved x) => Some (Some (LDone t o (cached_read c (Ok x) k)), finish (with_cache s (ctouch (l_cache s) n)) t)
      | Some (Resolving b) => Some (None, run (with_cache s (ctouch (l_cache s) n)) t o (PWait n b k))
      | None =>
          match l_barriers s !! b0 with
          | None => Some (None, run (with_barrier (with_cache s (cinsert (l_cache s) n (Resolving b0))) b0 (Barrier n true None)) t o (PLoad n b0 k))
          | Some _ => None
          end
      end
  | PWait n b k =>
      match l_barriers s !! b with
      | Some (Barrier _ false v) => Some (Some (LDone t o (cached_read c (match v with Some r => r | None => Panic end) k)), finish s t)
      | _ => None
      end
  | PLoad n b k =>
      Some (None, run (with_barrier s b (Barrier n true (Some (layer_bytes (l_disk s !! n))))) t o (PFill n b (layer_bytes (l_disk s !! n)) k))
  | PFill n b r k =>
      match fill limit current (l_cache s) n r with
      | Some (ca, ok) => Some (Some (LDone t o (if ok : bool then cached_read c r k else Panic)), finish (with_barrier (with_cache s ca) b (Barrier n false (Some r))) t)
      | None => None
      end
  | PQuery n q => Some (Some (LDone t o (query c s n q)), finish s t)
  | PStore n x 0 => Some (None, run (with_disk s (<[n := x]> (l_disk s))) t o (PInsert n x))
  | PStore n x pos =>
      if decide (pieces = true) then if decide (0 < length x) then if decide (pos = length x) then Some (None, run s t o (PInsert n x)) else None else None else None
  | PInsert n x => Some (Some (LDone t o (Ok RStored)), finish (with_cache s (cinsert (l_cache s) n (Resolved x))) t)
  | PAgain n k =>
      match fits limit s n with
      | Ok true => Some (None, run s t o (PGet n k))
      | Ok false => Some (None, run s t o (PSlice n k))
      | Err e => Some (Some (LDone t o (Err e)), finish s t)
      | Panic => None
      end
  | PSlice n k => Some (Some (LDone t o (slice_read c (l_disk s !! n) k)), finish s t)
  | PFail n e => Some (Some (LDone t o (Err e)), finish s t)
  end.
Lemma task_run_ok s t o p b e s' : task_run s t o p b = Some (e, s') → tstep c limit current pieces s t o p e s'.
Proof.
  destruct p as [n k|n k|n b' k|n b' k|n b' r k|n k|n q|n x pos|n x|n k|n k|n e']; cbn [task_run]; intros H.
  - destruct (fits limit s n) as [[]| |] eqn:E; [| | |done]; injection H as <- <-; [by apply t_fits_yes|by apply t_fits_no|by apply t_fits_err].
  - destruct (cpeek (l_cache s) n) as [[b'|x]|] eqn:E; [injection H as <- <-; by apply t_resolving|injection H as <- <-; by apply t_hit|].
    destruct (l_barriers s !! b) eqn:E'; [done|]. injection H as <- <-. by apply t_miss.
  - destruct (l_barriers s !! b') as [[m [] v]|] eqn:E; [done| |done]. injection H as <- <-. by eapply t_wait.
  - injection H as <- <-. apply t_load.
  - destruct (fill limit current (l_cache s) n r) as [[ca ok]|] eqn:E; [|done]. injection H as <- <-. by apply t_fill.
  - injection H as <- <-. apply t_origin.
  - injection H as <- <-. apply t_query.
  - destruct pos as [|pos]; [injection H as <- <-; apply t_store|].
    destruct (decide _); [|done]. destruct (decide _); [|done]. destruct (decide _) as [->|]; [|done]. injection H as <- <-. by apply t_pieces.
  - injection H as <- <-. apply t_insert.
  - destruct (fits limit s n) as [[]| |] eqn:E; [| | |done]; injection H as <- <-; [by apply t_again_yes|by apply t_again_no|by apply t_again_err].
  - injection H as <- <-. apply t_slice.
  - injection H as <- <-. apply t_failed.
Qed.
Definition lact_step (s : lstate) (a : lact) : option (option levent * lstate) :=
  match a with
  | ACall t o => match l_tasks s !! t with None => Some (Some (LCall t o), run s t o (op_start o)) | Some _ => None end
  | AStep t b => match l_tasks s !! t with Some (o, p) => task_run s t o p b | None => None end
  | AFail t e =>
      match l_tasks s !! t with
      | Some (o, PLoad n b k) => Some (Some (LIoError n e), run (with_barrier s b (Barrier n true (Some (Err e)))) t o (PFill n b (Err e) k))
      | Some (o, p) => match asks_origin limit s p with Some n => Some (Some (LIoError n e), run s t o (PFail n e)) | None => None end
      | None => None
      end
  | APiece t k =>
      match l_tasks s !! t with
      | Some (o, PStore n x pos) =>
          if decide (pieces = true) then if decide (0 < k) then if decide (pos + k ≤ length x) then
            Some (None, run (with_disk s (<[n := write_at (default [] (l_disk s !! n)) pos (take k (drop pos x))]> (l_disk s))) t o (PStore n x (pos + k)))
          else None else None else None
      | _ => None
      end
  | ACancel t => match l_tasks s !! t with Some (o, p) => Some (Some (LCancel t), finish (release s p) t) | None => None end
  | ACrash => Some (Some LCrash, lru_new (l_disk s))
  end.
Lemma lact_step_ok s a e s' : lact_step s a = Some (e, s') → lstep c limit current pieces s e s'.
Proof.
  destruct a as [t o|t b|t e'|t k|t|]; cbn [lact_step]; intros H.
  - destruct (l_tasks s !! t) eqn:E; [done|]. injection H as <- <-. by apply l_call.
  - destruct (l_tasks s !! t) as [[o p]|] eqn:E; [|done]. eapply l_task; [done|]. by eapply task_run_ok.
  - destruct (l_tasks s !! t) as [[o p]|] eqn:E; [|done]. eapply l_task; [done|].
    assert (∀ n, asks_origin limit s p = Some n → e = Some (LIoError n e') → s' = run s t o (PFail n e') → tstep c limit current pieces s t o p e s') as Hio
      by (intros n Ha -> ->; by apply t_io_err).
    destruct p; try (destruct (asks_origin limit s _) as [m|] eqn:Ea; [|done]; injection H as <- <-; by apply (Hio m)).
    injection H as <- <-. apply t_load_err.
  - destruct (l_tasks s !! t) as [[o []]|] eqn:E; try done. destruct (decide _); [|done]. destruct (decide _); [|done]. destruct (decide _); [|done].
    injection H as <- <-. eapply l_task; [done|]. by apply t_piece.
  - destruct (l_tasks s !! t) as [[o p]|] eqn:E; [|done]. injection H as <- <-. by eapply l_cancel.
  - injection H as <- <-. apply l_crash.
Qed.
Fixpoint lacts (s : lstate) (l : list lact) : option (list levent * lstate) :=
  match l with
  | [] => Some ([], s)
  | a :: l =>
      match lact_step s a with
      | Some (e, s') => match lacts s' l with Some (tr, s2) => Some (option_list e ++ tr, s2) | None => None end
      | None => None
      end
  end.
Lemma lacts_gen s0 tr0 s l tr s' : lexec c limit current pieces s0 tr0 s → lacts s l = Some (tr, s') → lexec c limit current pieces s0 (tr0 ++ tr) s'.
Proof.
  revert tr0 s tr; induction l as [|a l IH]; intros tr0 s tr He; cbn [lacts].
  - intros [= <- <-]. by rewrite app_nil_r.
  - destruct (lact_step s a) as [[e s1]|] eqn:E; [|done]. destruct (lacts s1 l) as [[tr1 s2]|] eqn:E'; [|done]. intros [= <- <-].
    apply lact_step_ok in E. rewrite app_assoc. eapply IH; [|done].
    destruct e as [e|]; [by eapply le_event|]. unfold option_list. rewrite app_nil_r. by eapply le_tau.
Qed.
Definition lru_trace (s : lstate) (l : list lact) : list levent := match lacts s l with Some (tr, _) => tr | None => [] end.
Definition lru_state (s : lstate) (l : list lact) : lstate := match lacts s l with Some (_, s) => s | None => s end.
Lemma lacts_run s l : (if lacts s l then true else false) = true → lexec c limit current pieces s (lru_trace s l) (lru_state s l).
Proof.
  unfold lru_trace, lru_state. intros H. destruct (lacts s l) as [[tr s']|] eqn:E; [|done]. apply (lacts_gen s [] s l tr s'); [constructor|done].
Qed.
End run.

(** ** Which runs are meant *)
Definition stores_of (tr : list levent) : list (lname * bytes) :=
  omap (λ e, match e with LCall _ (LStore n x) => Some (n, x) | _ => None end) tr.
Lemma stores_elem tr t n x : LCall t (LStore n x) ∈ tr → (n, x) ∈ stores_of tr.
Proof. intros H. apply elem_of_list_omap. by exists (LCall t (LStore n x)). Qed.
Definition reads_ok (e : levent) : bool :=
  match e with
  | LCall _ (LRead _ (KSlice ft)) | LCall _ (LRead _ (KFrom ft _)) | LCall _ (LQuery _ (QFileExists ft)) | LCall _ (LQuery _ (QFileSize ft)) =>
      Nat.leb ft rollup_type
  | _ => true
  end.
Lemma calls_ok_check (c : codec) (d : gmap lname bytes) (tr : list levent) : (∀ n x, d !! n = Some x → is_archive c x) →
  forallb reads_ok tr = true → (∀ n x, (n, x) ∈ stores_of tr → is_archive c x ∧ d !! n = None) → NoDup (stores_of tr).*1 → calls_ok c d tr.
Proof.
  intros Hd Hr Hs Hn. split_and!; [done| | |].
  - intros t o Ht. apply (List.forallb_forall reads_ok tr) with (x := LCall t o) in Hr; [|by apply elem_of_list_In].
    destruct o as [? []|? []|]; try done; by apply Nat.leb_le.
  - intros t n x Ht. by eapply Hs, stores_elem.
  - intros tr1 t n x tr2 ->. split.
    + apply (Hs n x). apply (stores_elem _ t). apply elem_of_app. right. by left.
    + intros t' x' Ht'. unfold stores_of in Hn. rewrite omap_app, fmap_app in Hn. apply NoDup_app in Hn as (_ & Hn & _).
      apply (Hn n).
      * apply elem_of_list_fmap. exists (n, x'). split; [done|]. by eapply stores_elem.
      * cbn. left.
Qed.
Lemma no_cancel_check tr : forallb (λ e, match e with LCancel _ => false | _ => true end) tr = true → no_cancel tr.
Proof.
  intros H t Ht. apply (List.forallb_forall _ tr) with (x := LCancel t) in H; [done|by apply elem_of_list_In].
Qed.

(** an archive with one file *)
Definition la_n : lname := [1; 2; 3; 4; 5]%N.
Definition la_files : list (nat * bytes) := [(3, [7; 8; 9])].
Definition la_x : bytes := archive_bytes plain_codec la_files.
Lemma la_archive : is_archive plain_codec la_x.
Proof.
  exists la_files. split; [|reflexivity]. split_and!.
  - apply (bool_decide_unpack _). vm_compute. exact I.
  - apply (bool_decide_unpack _). vm_compute. exact I.
  - apply (bool_decide_unpack _). vm_compute. exact I.
Qed.
Lemma la_calls tr : forallb reads_ok tr = true → (stores_of tr = [] ∨ stores_of tr = [(la_n, la_x)]) → calls_ok plain_codec ∅ tr.
Proof.
  intros Hr Hs. apply calls_ok_check; [|done| |].
  - intros n x. by rewrite lookup_empty.
  - intros n x. destruct Hs as [-> | ->]; [intros []%elem_of_nil|]. intros [= -> ->]%elem_of_list_singleton. split; [apply la_archive|apply lookup_empty].
  - destruct Hs as [-> | ->]; [constructor|]. apply NoDup_singleton.
Qed.
Definition la_disk : gmap lname bytes := {[la_n := la_x]}.
Lemma la_calls' tr : forallb reads_ok tr = true → stores_of tr = [] → calls_ok plain_codec la_disk tr.
Proof.
  intros Hr Hs. apply calls_ok_check; [|done| |].
  - unfold la_disk. intros n x [_ <-]%lookup_singleton_Some. apply la_archive.
  - intros n x. rewrite Hs. intros []%elem_of_nil.
  - rewrite Hs. constructor.
Qed.

(** ** A read that starts before a store spoils reads that start after it *)
Definition overlap1 : list lact := [ACall 1 (LRead la_n KBytes); AStep 1 0; AStep 1 0; ACall 2 (LStore la_n la_x); AStep 2 0; AStep 2 0].
Definition overlap2 : list lact := [ACall 3 (LRead la_n KBytes); AStep 3 0; AStep 1 0; AStep 3 0].
Definition ov_s limit : lstate := lru_state plain_codec limit 0 false (lru_new ∅) overlap1.
Definition ov_tr1 limit : list levent := lru_trace plain_codec limit 0 false (lru_new ∅) overlap1.
Definition ov_tr2 limit : list levent := lru_trace plain_codec limit 0 false (ov_s limit) overlap2.
Lemma ov_tr1_eq limit : ov_tr1 limit = [LCall 1 (LRead la_n KBytes); LCall 2 (LStore la_n la_x); LDone 2 (LStore la_n la_x) (Ok RStored)].
Proof. vm_compute. reflexivity. Qed.
Lemma ov_tr2_eq limit : ov_tr2 limit = [LCall 3 (LRead la_n KBytes); LDone 1 (LRead la_n KBytes) (Err NotFound); LDone 3 (LRead la_n KBytes) (Err NotFound)].
Proof. vm_compute. reflexivity. Qed.
Lemma lru_overlap limit : ∃ tr1 s1 tr2 s2 n x, 
  lexec plain_codec limit 0 false (lru_new ∅) tr1 s1 ∧ lexec plain_codec limit 0 false s1 tr2 s2 ∧
  calls_ok plain_codec ∅ (tr1 ++ tr2) ∧ no_cancel (tr1 ++ tr2) ∧ (∀ k, LIoError n k ∉ tr1 ++ tr2) ∧
  LDone 2 (LStore n x) (Ok RStored) ∈ tr1 ∧
  LCall 3 (LRead n KBytes) ∈ tr2 ∧ LDone 3 (LRead n KBytes) (Err NotFound) ∈ tr2.
Proof.
  exists (ov_tr1 limit), (ov_s limit), (ov_tr2 limit), (lru_state plain_codec limit 0 false (ov_s limit) overlap2), la_n, la_x.
  split; [apply lacts_run; vm_compute; reflexivity|]. split; [apply lacts_run; vm_compute; reflexivity|].
  rewrite ov_tr1_eq, ov_tr2_eq. split; [apply la_calls; [reflexivity|by right]|]. split; [apply no_cancel_check; reflexivity|].
  split_and!.
  - intros k H. repeat (apply elem_of_cons in H as [H|H]; [discriminate H|]). by apply elem_of_nil in H.
  - do 2 right. by left.
  - by left.
  - do 2 right. by left.
Qed.

(** ** A read while an archive is being written spoils later reads *)
Definition piece1 : list lact :=
  [ACall 1 (LStore la_n la_x); APiece 1 8; ACall 2 (LRead la_n KBytes); AStep 2 0; AStep 2 0; AStep 2 0; APiece 1 (length la_x - 8); AStep 1 0; AStep 1 0].
Definition piece2 : list lact := [ACall 3 (LRead la_n KBytes); AStep 3 0].
Definition pi_s : lstate := lru_state plain_codec 1000 0 true (lru_new ∅) piece1.
Definition pi_tr1 : list levent := lru_trace plain_codec 1000 0 true (lru_new ∅) piece1.
Definition pi_tr2 : list levent := lru_trace plain_codec 1000 0 true pi_s piece2.
Lemma pi_tr1_eq : pi_tr1 = [LCall 1 (LStore la_n la_x); LCall 2 (LRead la_n KBytes); LDone 2 (LRead la_n KBytes) (Ok (RBytes (take 8 la_x))); LDone 1 (LStore la_n la_x) (Ok RStored)].
Proof. vm_compute. reflexivity. Qed.
Lemma pi_tr2_eq : pi_tr2 = [LCall 3 (LRead la_n KBytes); LDone 3 (LRead la_n KBytes) (Ok (RBytes (take 8 la_x)))].
Proof. vm_compute. reflexivity. Qed.
Lemma lru_pieces : ∃ tr1 s1 tr2 s2 n x y, 
  lexec plain_codec 1000 0 true (lru_new ∅) tr1 s1 ∧ lexec plain_codec 1000 0 true s1 tr2 s2 ∧
  calls_ok plain_codec ∅ (tr1 ++ tr2) ∧ no_cancel (tr1 ++ tr2) ∧ open_calls tr1 = ∅ ∧
  LDone 1 (LStore n x) (Ok RStored) ∈ tr1 ∧ LDone 3 (LRead n KBytes) (Ok (RBytes y)) ∈ tr2 ∧ y ≠ x.
Proof.
  exists pi_tr1, pi_s, pi_tr2, (lru_state plain_codec 1000 0 true pi_s piece2), la_n, la_x, (take 8 la_x).
  split; [apply lacts_run; vm_compute; reflexivity|]. split; [apply lacts_run; vm_compute; reflexivity|].
  rewrite pi_tr1_eq, pi_tr2_eq. split; [apply la_calls; [reflexivity|by right]|]. split; [apply no_cancel_check; reflexivity|].
  split_and!.
  - unfold open_calls. cbn [foldl open_step]. rewrite delete_insert by (by rewrite lookup_insert_ne, lookup_empty). by rewrite delete_insert by apply lookup_empty.
  - do 3 right. by left.
  - right. by left.
  - intros E. apply (f_equal length) in E. revert E. vm_compute. discriminate.
Qed.

(** ** A store that fails half-way leaves a part of the archive *)
Definition failed1 : list lact := [ACall 1 (LStore la_n la_x); APiece 1 8; AFail 1 OtherError; AStep 1 0].
Definition failed2 : list lact := [ACall 2 (LQuery la_n QExists); AStep 2 0; ACall 3 (LRead la_n KBytes); AStep 3 0; AStep 3 0; AStep 3 0].
Definition fa_s : lstate := lru_state plain_codec 1000 0 true (lru_new ∅) failed1.
Definition fa_tr1 : list levent := lru_trace plain_codec 1000 0 true (lru_new ∅) failed1.
Definition fa_tr2 : list levent := lru_trace plain_codec 1000 0 true fa_s failed2.
Lemma fa_tr1_eq : fa_tr1 = [LCall 1 (LStore la_n la_x); LIoError la_n OtherError; LDone 1 (LStore la_n la_x) (Err OtherError)].
Proof. vm_compute. reflexivity. Qed.
Lemma fa_tr2_eq : fa_tr2 = [LCall 2 (LQuery la_n QExists); LDone 2 (LQuery la_n QExists) (Ok (RTruth true));
  LCall 3 (LRead la_n KBytes); LDone 3 (LRead la_n KBytes) (Ok (RBytes (take 8 la_x)))].
Proof. vm_compute. reflexivity. Qed.
Lemma lru_failed : ∃ tr1 s1 tr2 s2 n x e y,
  lexec plain_codec 1000 0 true (lru_new ∅) tr1 s1 ∧ lexec plain_codec 1000 0 true s1 tr2 s2 ∧
  calls_ok plain_codec ∅ (tr1 ++ tr2) ∧ no_cancel (tr1 ++ tr2) ∧ open_calls tr1 = ∅ ∧
  LDone 1 (LStore n x) (Err e) ∈ tr1 ∧ LDone 2 (LQuery n QExists) (Ok (RTruth true)) ∈ tr2 ∧
  LDone 3 (LRead n KBytes) (Ok (RBytes y)) ∈ tr2 ∧ y ≠ x.
Proof.
  exists fa_tr1, fa_s, fa_tr2, (lru_state plain_codec 1000 0 true fa_s failed2), la_n, la_x, OtherError, (take 8 la_x).
  split; [apply lacts_run; vm_compute; reflexivity|]. split; [apply lacts_run; vm_compute; reflexivity|].
  rewrite fa_tr1_eq, fa_tr2_eq. split; [apply la_calls; [reflexivity|by right]|]. split; [apply no_cancel_check; reflexivity|].
  split_and!.
  - unfold open_calls. cbn [foldl open_step]. by rewrite delete_insert by apply lookup_empty.
  - do 2 right. by left.
  - right. by left.
  - do 3 right. by left.
  - intros E. apply (f_equal length) in E. revert E. vm_compute. discriminate.
Qed.

(** ** Cancelled loads *)
Section jam.
Context (c : codec) (limit : nat) (d : gmap lname bytes) (n : lname).
Definition jam_s1 : lstate := run (lru_new d) 0 (LRead n KBytes) (PGet n KBytes).
Definition jam_s2 : lstate :=
  run (with_barrier (with_cache jam_s1 (cinsert (l_cache jam_s1) n (Resolving 0))) 0 (Barrier n true None)) 0 (LRead n KBytes) (PLoad n 0 KBytes).
Definition jam_s3 : lstate :=
  run (with_barrier jam_s2 0 (Barrier n true (Some (layer_bytes (l_disk jam_s2 !! n))))) 0 (LRead n KBytes) (PFill n 0 (layer_bytes (l_disk jam_s2 !! n)) KBytes).
Lemma jam_exec2 : lexec c limit 0 false (lru_new d) [LCall 0 (LRead n KBytes)] jam_s2.
Proof.
  apply (le_tau _ _ _ _ _ _ jam_s1).
  - apply (le_event _ _ _ _ _ [] (lru_new d)); [constructor|]. by apply (l_call _ _ _ _ _ 0 (LRead n KBytes)).
  - apply (l_task _ _ _ _ _ 0 (LRead n KBytes) (PGet n KBytes)); [apply lookup_insert|]. by apply t_miss.
Qed.
Lemma jam_exec3 : lexec c limit 0 false (lru_new d) [LCall 0 (LRead n KBytes)] jam_s3.
Proof.
  apply (le_tau _ _ _ _ _ _ jam_s2); [apply jam_exec2|].
  apply (l_task _ _ _ _ _ 0 (LRead n KBytes) (PLoad n 0 KBytes)); [apply lookup_insert|]. by apply t_load.
Qed.
Lemma jam_open t o : open_calls [LCall 0 (LRead n KBytes); LCancel 0] !! t = Some o → op_layer o ≠ n.
Proof.
  unfold open_calls. cbn [foldl open_step]. rewrite delete_insert by apply lookup_empty. by rewrite lookup_empty.
Qed.
Lemma cancelled_panics : codec_ok c → ∃ s1, lexec c limit 0 false (lru_new d) [LCall 0 (LRead n KBytes); LCancel 0] s1 ∧
  ∀ tr2 s2, lexec c limit 0 false s1 tr2 s2 → calls_ok c d ([LCall 0 (LRead n KBytes); LCancel 0] ++ tr2) → LCrash ∉ tr2 →
    ∀ t r, LDone t (LRead n KBytes) r ∈ tr2 → r = Panic.
Proof.
  intros Hc. assert (lexec c limit 0 false (lru_new d) [LCall 0 (LRead n KBytes); LCancel 0] (finish (release jam_s2 (PLoad n 0 KBytes)) 0)) as He.
  { apply (le_event _ _ _ _ _ [LCall 0 (LRead n KBytes)] jam_s2); [apply jam_exec2|].
    apply (l_cancel _ _ _ _ _ 0 (LRead n KBytes)). apply lookup_insert. }
  eexists. split; [exact He|]. intros tr2 s2 He2 Hok Hnc.
  apply (jammed_reads c limit 0 d _ _ tr2 s2 n 0 None Hc ltac:(lia) He He2 Hok Hnc); [|apply jam_open].
  split; [cbn; by rewrite decide_True|]. cbn [finish release with_barrier l_barriers]. apply lookup_insert.
Qed.
Lemma cancelled_missing : codec_ok c → d !! n = None → ∃ s1, lexec c limit 0 false (lru_new d) [LCall 0 (LRead n KBytes); LCancel 0] s1 ∧
  ∀ tr2 s2, lexec c limit 0 false s1 tr2 s2 → calls_ok c d ([LCall 0 (LRead n KBytes); LCancel 0] ++ tr2) → LCrash ∉ tr2 →
    ∀ t r, LDone t (LRead n KBytes) r ∈ tr2 → r = Err NotFound.
Proof.
  intros Hc Hd. assert (lexec c limit 0 false (lru_new d) [LCall 0 (LRead n KBytes); LCancel 0] (finish (release jam_s3 (PFill n 0 (Err NotFound) KBytes)) 0)) as He.
  { apply (le_event _ _ _ _ _ [LCall 0 (LRead n KBytes)] jam_s3); [apply jam_exec3|].
    apply (l_cancel _ _ _ _ _ 0 (LRead n KBytes)). unfold jam_s3. cbn [run with_barrier l_tasks]. rewrite lookup_insert. cbn. by rewrite Hd. }
  eexists. split; [exact He|]. intros tr2 s2 He2 Hok Hnc.
  apply (jammed_reads c limit 0 d _ _ tr2 s2 n 0 (Some (Err NotFound)) Hc ltac:(lia) He He2 Hok Hnc); [|apply jam_open].
  split; [cbn; by rewrite decide_True|]. cbn [finish release with_barrier l_barriers]. apply lookup_insert.
Qed.
(** ** Storing does not look at the limit *)
Lemma store_one x : ∃ s, lexec c limit 0 false (lru_new d) [LCall 0 (LStore n x); LDone 0 (LStore n x) (Ok RStored)] s ∧
  cached_bytes (l_cache s) = length x.
Proof.
  set (s1 := run (lru_new d) 0 (LStore n x) (PStore n x 0)).
  set (s2 := run (with_disk s1 (<[n := x]> (l_disk s1))) 0 (LStore n x) (PInsert n x)).
  eexists. split.
  - apply (le_event _ _ _ _ _ [LCall 0 (LStore n x)] s2).
    + apply (le_tau _ _ _ _ _ _ s1).
      * apply (le_event _ _ _ _ _ [] (lru_new d)); [constructor|]. by apply (l_call _ _ _ _ _ 0 (LStore n x)).
      * apply (l_task _ _ _ _ _ 0 (LStore n x) (PStore n x 0)); [apply lookup_insert|]. by apply t_store.
    + apply (l_task _ _ _ _ _ 0 (LStore n x) (PInsert n x)); [apply lookup_insert|]. by apply t_insert.
  - cbn [finish with_cache l_cache]. subst s2 s1. cbn [run with_disk lru_new l_cache]. unfold cinsert. cbn [cpeek].
    rewrite cached_bytes_cons. unfold cached_bytes. cbn. lia.
Qed.
End jam.
