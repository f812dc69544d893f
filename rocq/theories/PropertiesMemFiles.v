(** Property C51: the files of layers in memory.  [mfexec mf_init tr s] ranges over every interleaving of calls that create
    layers, ask for files, write them and read them. *)
From Verif Require Import Prelude Names MemFiles MemFilesFacts.

(** ** C51.  What was written to a file in memory is read by everyone. *)
(** a file that was given to a caller while no other call was about to make the same file is given to every later caller *)
Theorem C51_one_file_partial tr s t n f h s1 tr' s2 t' r : mfexec mf_init tr s → mfstep s (MFGot t n f (Ok h)) s1 →
  (∀ u, u ≠ t → mf_waiting s !! u ≠ Some (n, f)) → mfexec s1 tr' s2 → MFCreate n ∉ tr' →
  MFGot t' n f r ∈ tr' → r = Ok h.
Proof. exact (mf_one_file tr s t n f h s1 tr' s2 t' r). Qed.
Print Assumptions C51_one_file_partial.
(** and what was written to it is what all of them read; it exists for everyone *)
Theorem C51_reads_back_partial tr s t n f h b s1 tr1 s2 s3 tr3 s4 : mfexec mf_init tr s → mfstep s (MFGot t n f (Ok h)) s1 →
  (∀ u, u ≠ t → mf_waiting s !! u ≠ Some (n, f)) → mfexec s1 tr1 s2 → MFCreate n ∉ tr1 → mfstep s2 (MFWrite h b) s3 →
  mfexec s3 tr3 s4 → MFCreate n ∉ tr3 → (∀ b', MFWrite h b' ∉ tr3) →
  (∀ t' r, MFGot t' n f r ∈ tr3 → r = Ok h) ∧ (∀ o, MFRead h o ∈ tr3 → o = Some b) ∧ (∀ e, MFExists n f e ∈ tr3 → e = true).
Proof. exact (mf_all_read tr s t n f h b s1 tr1 s2 s3 tr3 s4). Qed.
Print Assumptions C51_reads_back_partial.
(** different files are not mixed up: nobody is given the same cell for two files *)
Theorem C51_not_shared tr s t n f t' n' f' h : mfexec mf_init tr s → MFGot t n f (Ok h) ∈ tr → MFGot t' n' f' (Ok h) ∈ tr → n = n' ∧ f = f'.
Proof. exact (mf_not_shared tr s t n f t' n' f' h). Qed.
Print Assumptions C51_not_shared.

(** two calls that ask for a file before it is there: the first writes it and it exists, then the second makes it anew;
    from then on the file does not exist, for everyone (F27) *)
Definition mf_lost (n : lname) (f : bytes) (b : bytes) : list mfev :=
  [MFCreate n; MFStart 1 n f; MFStart 2 n f; MFGot 1 n f (Ok 0); MFWrite 0 b; MFExists n f true;
   MFGot 2 n f (Ok 1); MFExists n f false; MFGot 3 n f (Ok 1); MFRead 1 None].
Theorem C51_refuted n f b : ∃ s, mfexec mf_init (mf_lost n f b) s.
Proof. exact (mf_loses n f b). Qed.
Print Assumptions C51_refuted.
(** the same calls one after the other *)
Example C51_example n f b : ∃ s s1 s2 s3 s4, mfexec mf_init [MFCreate n; MFStart 1 n f] s ∧ mfstep s (MFGot 1 n f (Ok 0)) s1 ∧
  (∀ u, u ≠ 1 → mf_waiting s !! u ≠ Some (n, f)) ∧ mfexec s1 [] s2 ∧ mfstep s2 (MFWrite 0 b) s3 ∧
  mfexec s3 [MFExists n f true; MFGot 2 n f (Ok 0); MFRead 0 (Some b)] s4.
Proof. exact (mf_keeps n f b). Qed.
