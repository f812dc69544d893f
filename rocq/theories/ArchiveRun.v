(** A codec that meets the contract, and a function that runs the archive store for concrete cases *)
From Verif Require Import Prelude ListFacts Names FileNames Archive ArchiveFacts ArchiveStore SpecArchive ArchiveApi.

(** ** The numbers as 64-bit words, after their number *)
Fixpoint read_words (k : nat) (b : bytes) : option (list nat * bytes) :=
  match k with
  | 0 => Some ([], b)
  | S k =>
      if decide (length b < 8) then None
      else match read_words k (drop 8 b) with
           | Some (l, r) => Some (N.to_nat (be_value (take 8 b)) :: l, r)
           | None => None
           end
  end.
Definition words (l : list nat) : bytes := mjoin ((λ n, put_u64 (N.of_nat n)) <$> l).
Definition plain_codec : codec := Codec
  (λ l, put_u64 (N.of_nat (length l)) ++ words l)
  (λ w, 8 * N.to_nat (be_value w))
  (λ b, if decide (length b < 8) then None else read_words (N.to_nat (be_value (take 8 b))) (drop 8 b)).

Lemma words_cons n l : words (n :: l) = put_u64 (N.of_nat n) ++ words l.
Proof. done. Qed.
Lemma words_length l : length (words l) = 8 * length l.
Proof.
  induction l as [|n l IH]; [done|]. rewrite words_cons, app_length, put_u64_length, IH. cbn [length]. lia.
Qed.
Lemma read_words_ok l r : Forall (λ n, (N.of_nat n ≤ u64_max)%N) l → read_words (length l) (words l ++ r) = Some (l, r).
Proof.
  induction 1 as [|n l Hn _ IH]; [done|]. cbn [length read_words]. rewrite words_cons, <- app_assoc. rewrite decide_False by (rewrite app_length, put_u64_length; lia).
  rewrite drop_app_alt, take_app_alt by (by rewrite put_u64_length). rewrite IH, put_u64_value by done. by rewrite Nat2N.id.
Qed.
Lemma plain_codec_ok : codec_ok plain_codec.
Proof.
  intros l r (Hl & _ & Hf). cbn [plain_codec cd_encode cd_length cd_parse].
  assert (N.of_nat (length l) ≤ u64_max)%N as Hm by (unfold u64_max; lia).
  rewrite take_app_alt by (by rewrite put_u64_length).
  rewrite app_length, put_u64_length, words_length, put_u64_value, Nat2N.id by done. split_and!; [lia|lia|].
  rewrite <- app_assoc. rewrite decide_False by (rewrite app_length, put_u64_length; lia).
  rewrite drop_app_alt, take_app_alt by (by rewrite put_u64_length).
  rewrite put_u64_value, Nat2N.id by done. by apply read_words_ok.
Qed.

(** ** Running the store *)
Inductive aop :=
  | OCreate (n : lname) | OOpen (n : lname) (ft h : nat) | OWrite (h : nat) (b : bytes) | OSync (h : nat)
  | OFinalize (n : lname) (t : nat) | OChunk (t k : nat) | OStored (t : nat)
  | ORollup (n : lname) (b : bytes) | OCrash.
Definition aop_step (c : codec) (s : astore) (o : aop) : option (option aitem * astore) :=
  match o with
  | OCreate n =>
      match as_disk s !! n with
      | Some _ => Some (Some (ICreate n Panic), s)
      | None =>
          match as_constr s !! n, as_poisoned s with
          | None, false => Some (Some (ICreate n (Ok tt)), set_constr s (<[n := ∅]> (as_constr s)))
          | _, _ => Some (Some (ICreate n Panic), poison s)
          end
      end
  | OOpen n ft h =>
      match as_poisoned s, as_constr s !! n with
      | false, Some m =>
          match m !! ft with
          | Some h => Some (Some (IOpen n ft h), s)
          | None =>
              match as_cells s !! h with
              | None =>
                  if decide (ft < rollup_type) then
                    Some (Some (IOpen n ft h),
                      set_cells (set_constr s (<[n := <[ft := h]> m]> (as_constr s))) (<[h := UnderConstruction []]> (as_cells s)))
                  else None
              | Some _ => None
              end
          end
      | _, _ => None
      end
  | OWrite h b =>
      match as_cells s !! h with
      | Some f =>
          match cfile_write f b with
          | Ok f' => Some (Some (IWrite h b (Ok tt)), set_cells s (<[h := f']> (as_cells s)))
          | Err k => Some (Some (IWrite h b (Err k)), s)
          | Panic => None
          end
      | None => None
      end
  | OSync h =>
      match as_cells s !! h with
      | Some f =>
          match cfile_sync f with
          | Ok f' => Some (Some (ISync h (Ok tt)), set_cells s (<[h := f']> (as_cells s)))
          | Err k => Some (Some (ISync h (Err k)), s)
          | Panic => None
          end
      | None => None
      end
  | OFinalize n t =>
      match as_poisoned s, as_constr s !! n, as_writes s !! t with
      | false, Some m, None =>
          if decide ((N.of_nat (length (mjoin ((finalized_files (as_cells s) m).*2))) ≤ u64_max)%N) then
            Some (Some (IFinalize n),
              set_writes (set_constr s (delete n (as_constr s)))
                (<[t := (n, 0, archive_bytes c (finalized_files (as_cells s) m))]> (as_writes s)))
          else None
      | true, _, _ => Some (Some (IFinalizePanic n), poison s)
      | false, None, _ => Some (Some (IFinalizePanic n), poison s)
      | _, _, _ => None
      end
  | OChunk t k =>
      match as_writes s !! t with
      | Some (n, pos, rest) =>
          if decide (k ≤ length rest) then
            Some (None,
              set_writes (set_disk s (<[n := write_at (default [] (as_disk s !! n)) pos (take k rest)]> (as_disk s)))
                (<[t := (n, pos + k, drop k rest)]> (as_writes s)))
          else None
      | None => None
      end
  | OStored t =>
      match as_writes s !! t with
      | Some (n, _, []) => Some (Some (IStored n), set_writes s (delete t (as_writes s)))
      | _ => None
      end
  | ORollup n b =>
      match rollup_file_sync (as_disk s !! n) b with
      | Ok d => Some (Some (IRollup n (Ok tt)), set_rollups s (<[n := d]> (as_rollups s)))
      | Err k => Some (Some (IRollup n (Err k)), s)
      | Panic => None
      end
  | OCrash => Some (Some ICrash, restart s)
  end.
Lemma aop_step_ok c s o i s' : aop_step c s o = Some (i, s') → astep c s i s'.
Proof.
  destruct o; cbn [aop_step]; intros H.
  - destruct (as_disk s !! n) eqn:E; [injection H as <- <-; by apply a_create_exists|].
    destruct (as_constr s !! n) eqn:E'; [injection H as <- <-; apply a_create_under; eauto|].
    destruct (as_poisoned s) eqn:P; injection H as <- <-; [apply a_create_under; eauto|by apply a_create].
  - destruct (as_poisoned s) eqn:P; [done|]. destruct (as_constr s !! n) as [m|] eqn:E; [|done].
    destruct (m !! ft) eqn:E'; [injection H as <- <-; by eapply a_open_old|].
    destruct (as_cells s !! h) eqn:E2; [done|]. destruct (decide _); [|done].
    injection H as <- <-. by eapply a_open_new.
  - destruct (as_cells s !! h) as [f|] eqn:E; [|done].
    destruct (cfile_write f b) eqn:E'; [| |done]; injection H as <- <-; [by eapply a_write|by eapply a_write_err].
  - destruct (as_cells s !! h) as [f|] eqn:E; [|done].
    destruct (cfile_sync f) eqn:E'; [| |done]; injection H as <- <-; [by eapply a_sync|by eapply a_sync_err].
  - destruct (as_poisoned s) eqn:P; [injection H as <- <-; apply a_finalize_panic; eauto|].
    destruct (as_constr s !! n) as [m|] eqn:E; [|injection H as <- <-; apply a_finalize_panic; eauto].
    destruct (as_writes s !! t) eqn:E'; [done|]. destruct (decide _); [|done]. injection H as <- <-. by apply a_finalize.
  - destruct (as_writes s !! t) as [[[n pos] rest]|] eqn:E; [|done]. destruct (decide _); [|done].
    injection H as <- <-. by apply a_chunk.
  - destruct (as_writes s !! t) as [[[n pos] [|]]|] eqn:E; [|done|done]. injection H as <- <-. by eapply a_stored.
  - destruct (rollup_file_sync (as_disk s !! n) b) eqn:E; [| |done]; injection H as <- <-; [by eapply a_rollup|by eapply a_rollup_err].
  - injection H as <- <-. apply a_crash.
Qed.
Fixpoint aops (c : codec) (s : astore) (os : list aop) : option (list aitem * astore) :=
  match os with
  | [] => Some ([], s)
  | o :: os =>
      match aop_step c s o with
      | Some (i, s') => match aops c s' os with Some (tr, s'') => Some (option_list i ++ tr, s'') | None => None end
      | None => None
      end
  end.
Lemma aops_gen c s0 tr0 s os tr s' : aexec c s0 tr0 s → aops c s os = Some (tr, s') → aexec c s0 (tr0 ++ tr) s'.
Proof.
  revert tr0 s tr; induction os as [|o os IH]; intros tr0 s tr He H; cbn [aops] in H.
  - injection H as <- <-. by rewrite app_nil_r.
  - destruct (aop_step c s o) as [[i s1]|] eqn:E; [|done]. destruct (aops c s1 os) as [[tr1 s2]|] eqn:E'; [|done].
    injection H as <- <-. apply aop_step_ok in E. rewrite app_assoc. apply (IH (tr0 ++ option_list i) s1); [|done].
    destruct i as [i|]; cbn [option_list].
    + by eapply ae_item.
    + rewrite app_nil_r. by eapply ae_tau.
Qed.
Lemma aops_ok c os tr s : aops c astore_new os = Some (tr, s) → aexec c astore_new tr s.
Proof. apply (aops_gen c astore_new [] astore_new); constructor. Qed.
Definition aop_trace (c : codec) (os : list aop) : list aitem := match aops c astore_new os with Some (tr, _) => tr | None => [] end.
Definition aop_state (c : codec) (os : list aop) : astore := match aops c astore_new os with Some (_, s) => s | None => astore_new end.
Lemma aops_run c os : (if aops c astore_new os then true else false) = true → aexec c astore_new (aop_trace c os) (aop_state c os).
Proof.
  unfold aop_trace, aop_state. destruct (aops c astore_new os) as [[tr s]|] eqn:E; [|done]. intros _. by apply aops_ok in E.
Qed.
(** deciding that a name is created once *)
Fixpoint count_creates (n : lname) (tr : list aitem) : nat :=
  match tr with
  | [] => 0
  | ICreate m (Ok _) :: tr => (if decide (m = n) then 1 else 0) + count_creates n tr
  | _ :: tr => count_creates n tr
  end.
Lemma count_creates_app n tr tr' : count_creates n (tr ++ tr') = count_creates n tr + count_creates n tr'.
Proof. induction tr as [|i tr IH]; [done|]. destruct i as [? []| | | | | | | |]; cbn; rewrite ?IH; lia. Qed.
Lemma count_creates_in n tr : ICreate n (Ok tt) ∈ tr → 0 < count_creates n tr.
Proof.
  intros (a & b & ->)%elem_of_list_split. rewrite count_creates_app. cbn. rewrite decide_True by done. lia.
Qed.
Lemma count_created_once n tr : count_creates n tr ≤ 1 → created_once n tr.
Proof.
  intros H a b -> Ha%count_creates_in. rewrite count_creates_app in H. cbn in H. rewrite decide_True in H by done. lia.
Qed.

(** ** Three bad runs *)
Definition bad_name : lname := [1; 2; 3; 4; 5]%N.
(** two layers of the same name, finalized at the same time *)
Definition mix_aops : list aop :=
  [OCreate bad_name; OOpen bad_name 7 0; OWrite 0 [1; 2]; OSync 0; OFinalize bad_name 0;
   OCreate bad_name; OOpen bad_name 7 1; OWrite 1 [3; 4]; OSync 1; OFinalize bad_name 1;
   OChunk 1 25; OChunk 0 26; OStored 0; OChunk 1 1; OStored 1].
Definition is_crash (i : aitem) : bool := match i with ICrash => true | _ => false end.
Lemma no_crash tr : forallb (λ i, negb (is_crash i)) tr = true → ICrash ∉ tr.
Proof. intros H Hi. rewrite forallb_forall in H. by specialize (H _ (proj1 (elem_of_list_In _ _) Hi)). Qed.
Definition is_stored (i : aitem) : bool := match i with IStored _ => true | _ => false end.
Lemma no_stored n tr : forallb (λ i, negb (is_stored i)) tr = true → IStored n ∉ tr.
Proof. intros H Hi. rewrite forallb_forall in H. by specialize (H _ (proj1 (elem_of_list_In _ _) Hi)). Qed.
Lemma writes_to_other h tr : forallb (λ i, match i with IWrite h' _ _ => negb (Nat.eqb h' h) | _ => true end) tr = true → writes_to h tr = [].
Proof.
  induction tr as [|i tr IH]; [done|]. cbn [forallb]. intros [Hi Hr]%andb_prop. unfold writes_to. cbn [omap list_omap].
  destruct i as [| |h' b []| | | | | |]; cbn [write_of]; try by apply IH.
  destruct (decide (h' = h)) as [->|]; [by rewrite Nat.eqb_refl in Hi|by apply IH].
Qed.
Lemma mix_writes h : writes_to h (aop_trace plain_codec mix_aops) ≠ [1; 4].
Proof.
  destruct h as [|[|h]].
  - intros E. vm_compute in E. discriminate E.
  - intros E. vm_compute in E. discriminate E.
  - rewrite writes_to_other; [discriminate|]. vm_compute. reflexivity.
Qed.
Lemma name_reused : ∃ (c : codec) tr s n ft,
  codec_ok c ∧ aexec c astore_new tr s ∧ last tr = Some (IStored n) ∧ ICrash ∉ tr ∧
  ∃ b, as_map c s n ft = Ok b ∧ b = [1; 4] ∧ ∀ h, writes_to h tr ≠ b.
Proof.
  exists plain_codec, (aop_trace plain_codec mix_aops), (aop_state plain_codec mix_aops), bad_name, 7.
  split; [exact plain_codec_ok|]. split; [apply aops_run; vm_compute; reflexivity|]. split; [vm_compute; reflexivity|].
  split; [apply no_crash; vm_compute; reflexivity|]. exists [1; 4]. split; [vm_compute; reflexivity|]. split; [reflexivity|].
  exact mix_writes.
Qed.
(** a crash while the archive is written *)
Definition torn_aops : list aop :=
  [OCreate bad_name; OOpen bad_name 7 0; OWrite 0 [1; 2]; OSync 0; OFinalize bad_name 0; OChunk 0 9; OCrash].
Lemma torn_archive : ∃ (c : codec) tr s n,
  codec_ok c ∧ aexec c astore_new tr s ∧ created_once n tr ∧ IStored n ∉ tr ∧ last tr = Some ICrash ∧
  as_directory_exists s n = true ∧ as_file_exists s n 7 = Ok true ∧ as_map c s n 7 = Err UnexpectedEof.
Proof.
  exists plain_codec, (aop_trace plain_codec torn_aops), (aop_state plain_codec torn_aops), bad_name.
  split; [exact plain_codec_ok|]. split; [apply aops_run; vm_compute; reflexivity|].
  split; [apply count_created_once; vm_compute; apply le_n|]. split; [apply no_stored; vm_compute; reflexivity|].
  split; [vm_compute; reflexivity|]. split; [vm_compute; reflexivity|]. split; vm_compute; reflexivity.
Qed.
(** a layer is created twice *)
Lemma create_twice : ∃ (c : codec) tr s n, codec_ok c ∧ aexec c astore_new tr s ∧
  tr = [ICreate n (Ok tt); ICreate n Panic] ∧
  ∀ tr' s', aexec c s tr' s' → ICrash ∉ tr' → ∀ m r, ICreate m r ∈ tr' → r = Panic.
Proof.
  exists plain_codec, (aop_trace plain_codec [OCreate bad_name; OCreate bad_name]),
    (aop_state plain_codec [OCreate bad_name; OCreate bad_name]), bad_name.
  split; [exact plain_codec_ok|]. split; [apply aops_run; vm_compute; reflexivity|]. split; [vm_compute; reflexivity|].
  intros tr' s' He Hc m r. eapply archive_poison; [exact He|vm_compute; reflexivity|exact Hc].
Qed.
