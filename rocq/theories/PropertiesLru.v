(** C31, C32, C43: the cache in front of the archive store.  A run is a list of calls, answers,
    failures of the origin, cancellations and crashes ([levent]); [d] is what the origin holds at the start, [limit] the
    size of the cache, and the [0] is the counter of used bytes, which the code never changes. *)
From Verif Require Import Prelude ListFacts Names FileNames Archive ArchiveFacts ArchiveStore ArchiveRun Lru SpecLru LruFacts LruApi LruRun.

(** ** C31.  Reading through the cache gives what the origin gives. *)
(** While no call is cancelled, every read gives the answer for the archive that was stored, or says
    that there is none, or fails because the origin failed. *)
Theorem C31_reads (c : codec) limit d tr s t n k r : codec_ok c →
  lexec c limit 0 false (lru_new d) tr s → calls_ok c d tr → no_cancel tr → LDone t (LRead n k) r ∈ tr →
  (∃ x, l_disk s !! n = Some x ∧ r = origin_read c (Some x) k) ∨ r = origin_read c None k ∨ load_error tr n r.
Proof. exact (λ Hc, lru_reads c limit 0 d tr s t n k r Hc (Nat.le_0_l _)). Qed.
Print Assumptions C31_reads.
Theorem C31_queries (c : codec) limit d tr s t n q r : codec_ok c →
  lexec c limit 0 false (lru_new d) tr s → calls_ok c d tr → LDone t (LQuery n q) r ∈ tr →
  (∃ x, l_disk s !! n = Some x ∧ r = origin_query c (Some x) q) ∨ r = origin_query c None q ∨ load_error tr n r.
Proof. exact (λ Hc, lru_queries c limit 0 d tr s t n q r Hc (Nat.le_0_l _)). Qed.
Print Assumptions C31_queries.
(** Storing succeeds, unless the origin fails, and what was stored is what the origin holds from then on. *)
Theorem C31_stores (c : codec) limit d tr s t n x r : codec_ok c →
  lexec c limit 0 false (lru_new d) tr s → calls_ok c d tr → LDone t (LStore n x) r ∈ tr →
  (r = Ok RStored ∧ l_disk s !! n = Some x) ∨ load_error tr n r.
Proof. exact (λ Hc, lru_stores c limit 0 d tr s t n x r Hc (Nat.le_0_l _)). Qed.
Print Assumptions C31_stores.
(** A layer that the origin holds while no call about it is running: from then on, whatever is stored,
    loaded and thrown out, every read of it gives the answer for its archive and every question about
    it gets the origin's answer, or the error of an operation of the origin that failed since. *)
Theorem C31_after_store (c : codec) limit d tr1 s1 tr2 s2 n x : codec_ok c →
  lexec c limit 0 false (lru_new d) tr1 s1 → lexec c limit 0 false s1 tr2 s2 →
  calls_ok c d (tr1 ++ tr2) → no_cancel (tr1 ++ tr2) → l_disk s1 !! n = Some x →
  (∀ t o, open_calls tr1 !! t = Some o → op_layer o ≠ n) →
  (∀ t k r, LDone t (LRead n k) r ∈ tr2 → r = origin_read c (Some x) k ∨ load_error tr2 n r) ∧
  (∀ t q r, LDone t (LQuery n q) r ∈ tr2 → r = origin_query c (Some x) q ∨ load_error tr2 n r).
Proof. exact (λ Hc, lru_after_store c limit 0 d tr1 s1 tr2 s2 n x Hc (Nat.le_0_l _)). Qed.
Print Assumptions C31_after_store.
(** With cancelled calls a read may also panic (C43), but it never gives other bytes. *)
Theorem C31_cancelled_partial (c : codec) limit d tr s t n k r : codec_ok c →
  lexec c limit 0 false (lru_new d) tr s → calls_ok c d tr → LDone t (LRead n k) r ∈ tr →
  (∃ x, l_disk s !! n = Some x ∧ r = origin_read c (Some x) k) ∨ r = origin_read c None k ∨ load_error tr n r ∨ r = Panic.
Proof. exact (λ Hc, lru_cancelled c limit 0 d tr s t n k r Hc (Nat.le_0_l _)). Qed.
Print Assumptions C31_cancelled_partial.
(** two readers and a writer of one layer, a failed read, a failed question, a restart, and reads of the cached archive *)
Definition lex_acts : list lact :=
  [ACall 1 (LRead la_n KBytes); ACall 2 (LRead la_n (KSlice 3)); AStep 1 0; AStep 1 0; AStep 1 0; AStep 2 0;
   ACall 3 (LStore la_n la_x); AStep 3 0; AStep 3 0;
   ACall 4 (LRead la_n (KSlice 3)); AStep 4 1; AStep 4 1; ACall 5 (LQuery la_n QSize); AStep 5 0; ACrash;
   ACall 6 (LQuery la_n QSize); AFail 6 InvalidData; AStep 6 0].
Definition lex_acts2 : list lact :=
  [ACall 1 (LRead la_n (KFrom 3 1)); AStep 1 0; AStep 1 0; AStep 1 0; ACall 2 (LRead la_n (KSlice 3)); AStep 2 1; AStep 2 1;
   AStep 1 0; AStep 1 0; AStep 2 0;
   ACall 3 (LRead la_n (KSlice 4)); AStep 3 0; AStep 3 0].
Definition lex_s1 : lstate := lru_state plain_codec 1000 0 false (lru_new ∅) lex_acts.
Definition lex_tr1 : list levent := lru_trace plain_codec 1000 0 false (lru_new ∅) lex_acts.
Definition lex_tr2 : list levent := lru_trace plain_codec 1000 0 false lex_s1 lex_acts2.
Lemma lex_tr1_eq : lex_tr1 =
  [LCall 1 (LRead la_n KBytes); LCall 2 (LRead la_n (KSlice 3)); LDone 1 (LRead la_n KBytes) (Err NotFound);
   LDone 2 (LRead la_n (KSlice 3)) (Err NotFound);
   LCall 3 (LStore la_n la_x); LDone 3 (LStore la_n la_x) (Ok RStored);
   LCall 4 (LRead la_n (KSlice 3)); LDone 4 (LRead la_n (KSlice 3)) (Ok (RFile (Some [7; 8; 9])));
   LCall 5 (LQuery la_n QSize); LDone 5 (LQuery la_n QSize) (Ok (RNumber 27)); LCrash;
   LCall 6 (LQuery la_n QSize); LIoError la_n InvalidData; LDone 6 (LQuery la_n QSize) (Err InvalidData)].
Proof. vm_compute. reflexivity. Qed.
Lemma lex_tr2_eq : lex_tr2 =
  [LCall 1 (LRead la_n (KFrom 3 1)); LCall 2 (LRead la_n (KSlice 3));
   LDone 1 (LRead la_n (KFrom 3 1)) (Ok (RBytes [8; 9])); LDone 2 (LRead la_n (KSlice 3)) (Ok (RFile (Some [7; 8; 9])));
   LCall 3 (LRead la_n (KSlice 4)); LDone 3 (LRead la_n (KSlice 4)) (Ok (RFile None))].
Proof. vm_compute. reflexivity. Qed.
Example C31_example : ∃ s2, lexec plain_codec 1000 0 false (lru_new ∅) lex_tr1 lex_s1 ∧ lexec plain_codec 1000 0 false lex_s1 lex_tr2 s2 ∧
  calls_ok plain_codec ∅ (lex_tr1 ++ lex_tr2) ∧ no_cancel (lex_tr1 ++ lex_tr2) ∧ l_disk lex_s1 !! la_n = Some la_x ∧
  open_calls lex_tr1 = ∅.
Proof.
  exists (lru_state plain_codec 1000 0 false lex_s1 lex_acts2).
  split; [apply lacts_run; vm_compute; reflexivity|]. split; [apply lacts_run; vm_compute; reflexivity|].
  split; [rewrite lex_tr1_eq, lex_tr2_eq; apply la_calls; [reflexivity|by right]|].
  split; [rewrite lex_tr1_eq, lex_tr2_eq; apply no_cancel_check; reflexivity|].
  split; [vm_compute; reflexivity|]. rewrite lex_tr1_eq. unfold open_calls. cbn [foldl open_step]. by rewrite delete_insert by apply lookup_empty.
Qed.
(** What is missing.  Without the assumption that no call about the layer is running: a read that starts
    before the store can make a read that starts after it miss the layer. *)
Theorem C31_overlap_refuted limit : ∃ tr1 s1 tr2 s2 n x, 
  lexec plain_codec limit 0 false (lru_new ∅) tr1 s1 ∧ lexec plain_codec limit 0 false s1 tr2 s2 ∧
  calls_ok plain_codec ∅ (tr1 ++ tr2) ∧ no_cancel (tr1 ++ tr2) ∧ (∀ k, LIoError n k ∉ tr1 ++ tr2) ∧
  LDone 2 (LStore n x) (Ok RStored) ∈ tr1 ∧
  LCall 3 (LRead n KBytes) ∈ tr2 ∧ LDone 3 (LRead n KBytes) (Err NotFound) ∈ tr2.
Proof. exact (lru_overlap limit). Qed.
Print Assumptions C31_overlap_refuted.
(** When the origin writes an archive in pieces, as the directory does, a read during the store puts a
    part of the archive in the cache, and reads after the store get that part. *)
Theorem C31_pieces_refuted : ∃ tr1 s1 tr2 s2 n x y, 
  lexec plain_codec 1000 0 true (lru_new ∅) tr1 s1 ∧ lexec plain_codec 1000 0 true s1 tr2 s2 ∧
  calls_ok plain_codec ∅ (tr1 ++ tr2) ∧ no_cancel (tr1 ++ tr2) ∧ open_calls tr1 = ∅ ∧
  LDone 1 (LStore n x) (Ok RStored) ∈ tr1 ∧ LDone 3 (LRead n KBytes) (Ok (RBytes y)) ∈ tr2 ∧ y ≠ x.
Proof. exact lru_pieces. Qed.
Print Assumptions C31_pieces_refuted.
(** A store that failed half-way leaves a part of the archive; the layer exists from then on, and reads
    get that part. *)
Theorem C31_failed_store_refuted : ∃ tr1 s1 tr2 s2 n x e y,
  lexec plain_codec 1000 0 true (lru_new ∅) tr1 s1 ∧ lexec plain_codec 1000 0 true s1 tr2 s2 ∧
  calls_ok plain_codec ∅ (tr1 ++ tr2) ∧ no_cancel (tr1 ++ tr2) ∧ open_calls tr1 = ∅ ∧
  LDone 1 (LStore n x) (Err e) ∈ tr1 ∧ LDone 2 (LQuery n QExists) (Ok (RTruth true)) ∈ tr2 ∧
  LDone 3 (LRead n KBytes) (Ok (RBytes y)) ∈ tr2 ∧ y ≠ x.
Proof. exact lru_failed. Qed.
Print Assumptions C31_failed_store_refuted.

(** ** C32.  The cache holds at most [limit] bytes. *)
(** It does not.  Whatever layers that fit are read one after another, the cache holds all of them: *)
Theorem C32_refuted (c : codec) limit d (l : list lname) : NoDup l → (∀ n, n ∈ l → ∃ x, d !! n = Some x ∧ length x ≤ limit) →
  ∃ tr s, lexec c limit 0 false (lru_new d) tr s ∧ l_disk s = d ∧ l_tasks s = ∅ ∧
    (∀ t o, LCall t o ∈ tr → ∃ n, n ∈ l ∧ o = LRead n KBytes) ∧ (l_cache s).*1 = l ∧
    cached_bytes (l_cache s) = sum_list ((λ n, length (default [] (d !! n))) <$> l).
Proof. exact (cache_grows c limit d l). Qed.
Print Assumptions C32_refuted.
(** and an archive that is stored is put in the cache however large it is. *)
Theorem C32_store_refuted (c : codec) limit d n x :
  ∃ s, lexec c limit 0 false (lru_new d) [LCall 0 (LStore n x); LDone 0 (LStore n x) (Ok RStored)] s ∧
    cached_bytes (l_cache s) = length x.
Proof. exact (store_one c limit d n x). Qed.
Print Assumptions C32_store_refuted.
(** What does hold: every single archive that was put in the cache by reading fits in it; *)
Theorem C32_single_partial (c : codec) limit d tr s n x : codec_ok c →
  lexec c limit 0 false (lru_new d) tr s → calls_ok c d tr → cpeek (l_cache s) n = Some (Resolved x) →
  length x ≤ limit ∨ ∃ t, LCall t (LStore n x) ∈ tr.
Proof. exact (λ Hc, cached_fits c limit 0 d tr s n x Hc (Nat.le_0_l _)). Qed.
Print Assumptions C32_single_partial.
(** and with a counter that is right, making space would make room for the archive. *)
Theorem C32_space_partial ca limit required : cached_bytes ca ≤ limit → required ≤ limit →
  ∃ ca', enough_space ca limit (cached_bytes ca) required = Space ca' ∧ cached_bytes ca' + required ≤ limit.
Proof. exact (enough_space_limit ca limit required). Qed.
Print Assumptions C32_space_partial.
Example C32_example :
  let ca := [([1]%N, Resolved [1; 2; 3]); ([2]%N, Resolving 0); ([3]%N, Resolved [4; 5])] in
  cached_bytes ca = 5 ∧ enough_space ca 6 5 2 = Space [([1]%N, Resolved [1; 2; 3]); ([2]%N, Resolving 0)] ∧
  enough_space ca 6 5 4 = Space [([2]%N, Resolving 0)] ∧ enough_space ca 6 0 6 = Space ca ∧ enough_space ca 6 5 7 = NoSpace.
Proof. by vm_compute. Qed.

(** ** C43.  Tasks that ask for the same layer at the same time. *)
(** each gets the bytes, or that the layer does not exist, or the error of the origin for this layer: none panics *)
Theorem C43_answers (c : codec) limit d tr s t n r : codec_ok c →
  lexec c limit 0 false (lru_new d) tr s → calls_ok c d tr → no_cancel tr → LDone t (LRead n KBytes) r ∈ tr →
  (∃ x, l_disk s !! n = Some x ∧ r = Ok (RBytes x)) ∨ r = Err NotFound ∨ load_error tr n r.
Proof. exact (λ Hc, lru_reads c limit 0 d tr s t n KBytes r Hc (Nat.le_0_l _)). Qed.
Print Assumptions C43_answers.
(** while a call is running, some call can make a step, also after cancellations, *)
Theorem C43_no_deadlock (c : codec) limit d tr s : codec_ok c →
  lexec c limit 0 false (lru_new d) tr s → calls_ok c d tr → l_tasks s ≠ ∅ → ∃ s', call_step c limit 0 s s'.
Proof. exact (calls_go_on c limit d tr s). Qed.
Print Assumptions C43_no_deadlock.
(** and without new calls all are done after a number of steps that is known before. *)
Theorem C43_terminates (c : codec) limit current s k s' : nsteps (call_step c limit current) k s s' → k ≤ 5 * size (l_tasks s).
Proof. exact (calls_end c limit current s k s'). Qed.
Print Assumptions C43_terminates.
(** one task loads, two wait; the load fails for the first time *)
Definition cex_acts : list lact :=
  [ACall 1 (LRead la_n KBytes); ACall 2 (LRead la_n KBytes); ACall 3 (LRead la_n KBytes);
   AStep 2 0; AStep 1 1; AFail 2 OtherError; AStep 3 1; AStep 2 0; AStep 1 0; AStep 3 0;
   ACall 1 (LRead la_n KBytes); ACall 2 (LRead la_n KBytes); AStep 1 1; AStep 2 2; AStep 1 0; AStep 1 0; AStep 2 0].
Example C43_example :
  lexec plain_codec 1000 0 false (lru_new la_disk) (lru_trace plain_codec 1000 0 false (lru_new la_disk) cex_acts)
    (lru_state plain_codec 1000 0 false (lru_new la_disk) cex_acts) ∧
  lru_trace plain_codec 1000 0 false (lru_new la_disk) cex_acts =
    [LCall 1 (LRead la_n KBytes); LCall 2 (LRead la_n KBytes); LCall 3 (LRead la_n KBytes); LIoError la_n OtherError;
     LDone 2 (LRead la_n KBytes) (Err OtherError); LDone 1 (LRead la_n KBytes) (Err OtherError); LDone 3 (LRead la_n KBytes) (Err OtherError);
     LCall 1 (LRead la_n KBytes); LCall 2 (LRead la_n KBytes);
     LDone 1 (LRead la_n KBytes) (Ok (RBytes la_x)); LDone 2 (LRead la_n KBytes) (Ok (RBytes la_x))] ∧
  calls_ok plain_codec la_disk (lru_trace plain_codec 1000 0 false (lru_new la_disk) cex_acts).
Proof.
  assert (lru_trace plain_codec 1000 0 false (lru_new la_disk) cex_acts =
    [LCall 1 (LRead la_n KBytes); LCall 2 (LRead la_n KBytes); LCall 3 (LRead la_n KBytes); LIoError la_n OtherError;
     LDone 2 (LRead la_n KBytes) (Err OtherError); LDone 1 (LRead la_n KBytes) (Err OtherError); LDone 3 (LRead la_n KBytes) (Err OtherError);
     LCall 1 (LRead la_n KBytes); LCall 2 (LRead la_n KBytes);
     LDone 1 (LRead la_n KBytes) (Ok (RBytes la_x)); LDone 2 (LRead la_n KBytes) (Ok (RBytes la_x))]) as E by (vm_compute; reflexivity).
  split; [apply lacts_run; vm_compute; reflexivity|]. split; [exact E|]. rewrite E. apply la_calls'; reflexivity.
Qed.
(** What is missing: cancellation.  When the task that loads a layer is cancelled, every read of that
    layer panics until the process is restarted, *)
Theorem C43_cancel_refuted (c : codec) limit d n : codec_ok c →
  ∃ s1, lexec c limit 0 false (lru_new d) [LCall 0 (LRead n KBytes); LCancel 0] s1 ∧
    ∀ tr2 s2, lexec c limit 0 false s1 tr2 s2 → calls_ok c d ([LCall 0 (LRead n KBytes); LCancel 0] ++ tr2) → LCrash ∉ tr2 →
      ∀ t r, LDone t (LRead n KBytes) r ∈ tr2 → r = Panic.
Proof. exact (cancelled_panics c limit d n). Qed.
Print Assumptions C43_cancel_refuted.
(** and when it is cancelled after it found no layer, every read says that there is none, even after the
    layer is stored. *)
Theorem C43_cancel_missing_refuted (c : codec) limit d n : codec_ok c → d !! n = None →
  ∃ s1, lexec c limit 0 false (lru_new d) [LCall 0 (LRead n KBytes); LCancel 0] s1 ∧
    ∀ tr2 s2, lexec c limit 0 false s1 tr2 s2 → calls_ok c d ([LCall 0 (LRead n KBytes); LCancel 0] ++ tr2) → LCrash ∉ tr2 →
      ∀ t r, LDone t (LRead n KBytes) r ∈ tr2 → r = Err NotFound.
Proof. exact (cancelled_missing c limit d n). Qed.
Print Assumptions C43_cancel_missing_refuted.
(** runs in which this happens *)
Example C43_cancel_example :
  lru_trace plain_codec 1000 0 false (lru_new la_disk)
    [ACall 0 (LRead la_n KBytes); AStep 0 0; ACancel 0; ACall 1 (LRead la_n KBytes); AStep 1 0; AStep 1 0] =
    [LCall 0 (LRead la_n KBytes); LCancel 0; LCall 1 (LRead la_n KBytes); LDone 1 (LRead la_n KBytes) Panic] ∧
  lru_trace plain_codec 1000 0 false (lru_new ∅)
    [ACall 0 (LRead la_n KBytes); AStep 0 0; AStep 0 0; ACancel 0; ACall 1 (LStore la_n la_x); AStep 1 0; AStep 1 0;
     ACall 2 (LRead la_n KBytes); AStep 2 0; AStep 2 0] =
    [LCall 0 (LRead la_n KBytes); LCancel 0; LCall 1 (LStore la_n la_x); LDone 1 (LStore la_n la_x) (Ok RStored);
     LCall 2 (LRead la_n KBytes); LDone 2 (LRead la_n KBytes) (Err NotFound)].
Proof. split; vm_compute; reflexivity. Qed.
