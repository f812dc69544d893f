(** C67: listing labels while others create, update and delete them. *)
From Verif Require Import Prelude Names SpecText NamesFacts LabelConc LabelSpec LabelConcFacts LabelList SpecList ListingFacts.

(** Listings do not disturb others: a run with listings is a run of single calls in which each entry of a listing is a
    call of [get_label].  So updates, creations and crashes are as in C21, C22 and C44. *)
Theorem C67_calls : ∀ tr s, xexec tr s → lexec (calls tr) s.1.
Proof. exact xexec_lexec. Qed.
Print Assumptions C67_calls.
(** [listing tr t pre dir mid r]: in the run [tr] the caller [t] lists the labels; [dir] is in the directory when it begins.
    What a listing returns are the labels that it was given by these calls; each is the current label of its file at that
    time (the register of C21). *)
Theorem C67_entries : ∀ tr s t pre dir mid ls, xexec tr s → listing tr t pre dir mid (Ok ls) →
  ls = entries t mid ∧ ∀ i, ∃ c, history reg None (on_file i (calls tr)) c.
Proof. exact (λ tr s t pre dir mid ls Hx HL, conj (listed tr s t pre dir mid (Ok ls) Hx HL) (λ i, file_register _ _ i (xexec_lexec tr s Hx))). Qed.
Print Assumptions C67_entries.
(** A label that is there when the listing begins and is not deleted before it ends is listed exactly once. *)
Theorem C67_complete : ∀ tr s t pre dir mid ls n i, xexec tr s → listing tr t pre dir mid (Ok ls) →
  dir !! n = Some i → ¬ xdeleted n mid → length (filter (λ l, lb_name l = n) ls) = 1.
Proof. exact listed_once. Qed.
Print Assumptions C67_complete.
(** If it is not updated either, it is listed as it is. *)
Theorem C67_unchanged : ∀ tr s t pre dir mid ls n i c, xexec tr s → listing tr t pre dir mid (Ok ls) →
  dir !! n = Some i → history reg None (on_file i (calls pre)) (Some c) → ¬ xdeleted n mid → ¬ xupdated i mid →
  filter (λ l, lb_name l = n) ls = [c].
Proof. exact listed_unchanged. Qed.
Print Assumptions C67_unchanged.
(** A listing fails only if meanwhile a label is deleted, or it meets one whose creation has not returned.  Missing for the
    full property, that a listing does not fail because of other callers and gives labels that were there at one time:
    these cases, and updates meanwhile (refuted below). *)
Theorem C67_fails_partial : ∀ tr s t pre dir mid r, xexec tr s → listing tr t pre dir mid r → (∀ ls, r ≠ Ok ls) →
  (r = Err NotFound ∧ ∃ n, xdeleted n mid) ∨
  (r = Err InvalidData ∧ ∃ n i, XEntry (EvGet t n (Some i) (Err InvalidData)) ∈ mid ∧ ¬ xcreated i (pre ++ mid)).
Proof. exact listing_fails. Qed.
Print Assumptions C67_fails_partial.
(** [dir] is what is in the directory *)
Theorem C67_begins : ∀ tr s t pre dir post, xexec tr s → tr = pre ++ XBegin t dir :: post →
  ∃ s0, xexec pre s0 ∧ dir = s_dir s0.1.
Proof. exact listing_begins. Qed.
Print Assumptions C67_begins.

(** ** Runs with one listing *)
Lemma free_step tr s e s' : xexec tr (s, ∅) → lstep s e s' → xexec (tr ++ (XCall <$> option_list e)) (s', ∅).
Proof. intros H Hs. rewrite <-(fmap_empty (watch s')). eapply xexec_step; [exact H|]. apply x_other; [done|]. intros t [L HL]. by rewrite lookup_empty in HL. Qed.
Lemma busy_step tr s e s' L : xexec tr (s, {[9 := L]}) → lstep s e s' → s_threads s' !! 9 = s_threads s !! 9 →
  xexec (tr ++ (XCall <$> option_list e)) (s', {[9 := watch s' L]}).
Proof.
  intros H Hs Ht. rewrite <-(map_fmap_singleton (watch s')). eapply xexec_step; [exact H|]. apply x_other; [done|].
  intros t [M HM]. apply lookup_singleton_Some in HM as [<- _]. done.
Qed.
Lemma begin_step tr s : xexec tr (s, ∅) → s_threads s !! 9 = None →
  xexec (tr ++ [XBegin 9 (s_dir s)]) (s, {[9 := Lister (names_of s) (names_of s) [] None []]}).
Proof. intros H Ht. eapply xexec_step; [exact H|]. by apply x_begin. Qed.
Lemma next_step tr s L n : xexec tr (s, {[9 := L]}) → l_at L = None → bool_decide (n ∈ l_ever L) = true → bool_decide (n ∈ l_seen L) = false →
  xexec (tr ++ []) (goto s 9 (PGetOpen n), {[9 := next_entry L n]}).
Proof.
  intros H Ha Hn%bool_decide_eq_true Hs%bool_decide_eq_false. eapply xexec_step; [exact H|].
  rewrite <-(insert_singleton 9 L (next_entry L n)). apply (x_next s _ 9 L); [apply lookup_singleton|done|done|done].
Qed.
Lemma read_step tr s L s' p p' : xexec tr (s, {[9 := L]}) → lstep s None s' → l_at L ≠ None → s_threads s !! 9 = Some p → s_threads s' !! 9 = Some p' →
  p' ≠ p → xexec (tr ++ []) (s', {[9 := watch s' L]}).
Proof.
  intros H Hs Ha Hp Hp' Hne. rewrite <-(map_fmap_singleton (watch s')). eapply xexec_step; [exact H|].
  apply (x_read s s' _ 9 L); [apply lookup_singleton|done|done|]. rewrite Hp, Hp'. congruence.
Qed.
Lemma got_step tr s L s' n i l : xexec tr (s, {[9 := L]}) → l_at L = Some n → lstep s (Some (EvGet 9 n i (Ok (Some l)))) s' →
  xexec (tr ++ [XEntry (EvGet 9 n i (Ok (Some l)))]) (s', {[9 := push_label L l]}).
Proof. intros H Ha Hs. eapply xexec_step; [exact H|]. rewrite <-(insert_singleton 9 L (push_label L l)). eapply x_got; [apply lookup_singleton|done|done]. Qed.
Lemma fails_step tr s L s' n i r e : xexec tr (s, {[9 := L]}) → l_at L = Some n → lstep s (Some (EvGet 9 n i r)) s' → entry_error r = Some e →
  xexec (tr ++ [XEntry (EvGet 9 n i r); XList 9 e]) (s', ∅).
Proof. intros H Ha Hs He. rewrite <-(delete_singleton 9 L). eapply xexec_step; [exact H|]. eapply x_fails; [apply lookup_singleton|done|done|done]. Qed.
Lemma end_step tr s L : xexec tr (s, {[9 := L]}) → l_at L = None → bool_decide (set_Forall (λ n, n ∈ l_seen L) (l_stay L)) = true →
  xexec (tr ++ [XList 9 (Ok (l_got L))]) (s, ∅).
Proof. intros H Ha Hs%bool_decide_eq_true. rewrite <-(delete_singleton 9 L). eapply xexec_step; [exact H|]. apply x_end; [apply lookup_singleton|done|exact Hs]. Qed.
Lemma get_done_as s t n i d nd r : s_threads s !! t = Some (PGetDone n i d) → s_inodes s !! i = Some nd → get_result (get_label_from_data n d) = r →
  lstep s (Some (EvGet t n (Some i) r)) (leave (put s i (unlock_shared nd t)) t).
Proof. intros H1 H2 <-. by apply get_done. Qed.

Ltac side := first [reflexivity|by repeat constructor|done].
Ltac free H tac := eapply free_step in H; [|tac; side].
Ltac busy H tac := eapply busy_step in H; [|tac; side|vm_compute; reflexivity].
Ltac create H n i := free H ltac:(eapply (start_create _ 0 n)); free H ltac:(eapply (create_stat _ 0 n)); free H ltac:(eapply (create_open _ 0 n i));
  free H ltac:(eapply (create_lock _ 0 n i)); free H ltac:(eapply (create_write _ 0 n i 0 new_label_contents [])); free H ltac:(eapply (create_done _ 0 n i)).
Ltac update H l x nl i := busy H ltac:(eapply (start_set _ 0 l x nl)); busy H ltac:(eapply (set_open _ 0 l nl i)); busy H ltac:(eapply (set_lock _ 0 l nl i));
  busy H ltac:(eapply (set_read _ 0 l nl i)); busy H ltac:(eapply (set_truncate _ 0 l nl i)); busy H ltac:(eapply (set_write _ 0 l nl i 0 (label_contents nl) []));
  busy H ltac:(eapply (set_done _ 0 l nl i)).
Ltac own H tac := eapply read_step in H; [|tac; side|discriminate|reflexivity|reflexivity|discriminate].
Ltac open H n i := eapply (next_step _ _ _ n) in H; [|reflexivity|vm_compute; reflexivity|vm_compute; reflexivity];
  own H ltac:(eapply (get_open _ 9 n i)); own H ltac:(eapply (get_lock _ 9 n i)); own H ltac:(eapply (get_read _ 9 n i)).
Ltac read H n i l := open H n i; eapply (got_step _ _ _ _ n (Some i) l) in H; [|reflexivity|eapply get_done_as; [reflexivity|reflexivity|vm_compute; reflexivity]].

Definition li_a : bytes := [97].
Definition li_b : bytes := [98].
Definition li_x : lname := repeat 7%N 5.
Definition li_new (n : bytes) : label := Label n None 0.
Definition li_set (n : bytes) : label := Label n (Some li_x) 1.
Definition li_dir : gmap bytes ino := <[li_b := 1]> (<[li_a := 0]> ∅).
Definition li_pre : list xev := [XCall (EvCreate 0 li_a (Some 0) (Ok (li_new li_a))); XCall (EvCreate 0 li_b (Some 1) (Ok (li_new li_b)))].
Ltac finish H := match type of H with xexec ?tr _ => match goal with |- xexec ?t0 _ => replace t0 with tr by (vm_compute; reflexivity) end end; exact H.

(** Two labels are created; one is updated while they are listed. *)
Definition li_mid : list xev := [XEntry (EvGet 9 li_a (Some 0) (Ok (Some (li_new li_a)))); XCall (EvSet 0 (li_new li_b) (li_set li_b) (Some 1) (Ok (Some (li_set li_b))));
  XEntry (EvGet 9 li_b (Some 1) (Ok (Some (li_set li_b))))].
Definition li_run : list xev := li_pre ++ XBegin 9 li_dir :: li_mid ++ [XList 9 (Ok [li_new li_a; li_set li_b])].
Example C67_example : (∃ s, xexec li_run s) ∧ listing li_run 9 li_pre li_dir li_mid (Ok [li_new li_a; li_set li_b]) ∧
  li_dir !! li_a = Some 0 ∧ history reg None (on_file 0 (calls li_pre)) (Some (li_new li_a)) ∧ ¬ xdeleted li_a li_mid ∧ ¬ xupdated 0 li_mid.
Proof.
  split; [|split; [|split; [|split; [|split]]]].
  - pose proof xexec_nil as H. create H li_a 0. create H li_b 1. eapply begin_step in H; [|reflexivity].
    read H li_a 0 (li_new li_a). update H (li_new li_b) (Some li_x) (li_set li_b) 1. read H li_b 1 (li_set li_b).
    eapply end_step in H; [|reflexivity|vm_compute; reflexivity]. eexists. finish H.
  - split; [by exists []|]. intros D. unfold li_mid. rewrite !elem_of_cons, elem_of_nil. intros [?|[?|[?|[]]]]; discriminate.
  - reflexivity.
  - apply (history_cons reg None _ (Some (li_new li_a))); constructor.
  - intros [u Hu]. unfold li_mid in Hu. rewrite !elem_of_cons, elem_of_nil in Hu. destruct Hu as [?|[?|[?|[]]]]; discriminate.
  - intros (u & l & nl & Hu). unfold li_mid in Hu. rewrite !elem_of_cons, elem_of_nil in Hu. destruct Hu as [?|[?|[?|[]]]]; discriminate.
Qed.

(** A listing need not be a state that the store was in: the first label is listed as it was before its update and the
    second as it was after its own, which came later. *)
Theorem C67_snapshot_refuted : ∃ tr s t pre dir mid l l' m m' i j u v a b, xexec tr s ∧ listing tr t pre dir mid (Ok [l; m']) ∧
  a < b ∧ mid !! a = Some (XCall (EvSet u l l' (Some i) (Ok (Some l')))) ∧ mid !! b = Some (XCall (EvSet v m m' (Some j) (Ok (Some m')))) ∧ i ≠ j.
Proof.
  assert (H : ∃ s, xexec (li_pre ++ XBegin 9 li_dir :: [XEntry (EvGet 9 li_a (Some 0) (Ok (Some (li_new li_a))));
    XCall (EvSet 0 (li_new li_a) (li_set li_a) (Some 0) (Ok (Some (li_set li_a)))); XCall (EvSet 0 (li_new li_b) (li_set li_b) (Some 1) (Ok (Some (li_set li_b))));
    XEntry (EvGet 9 li_b (Some 1) (Ok (Some (li_set li_b))))] ++ [XList 9 (Ok [li_new li_a; li_set li_b])]) s).
  { pose proof xexec_nil as H. create H li_a 0. create H li_b 1. eapply begin_step in H; [|reflexivity].
    read H li_a 0 (li_new li_a). update H (li_new li_a) (Some li_x) (li_set li_a) 0. update H (li_new li_b) (Some li_x) (li_set li_b) 1. read H li_b 1 (li_set li_b).
    eapply end_step in H; [|reflexivity|vm_compute; reflexivity]. eexists. finish H. }
  destruct H as [s H]. eexists _, s, 9, li_pre, li_dir, _, (li_new li_a), (li_set li_a), (li_new li_b), (li_set li_b), 0, 1, 0, 0, 1, 2.
  split; [exact H|]. split; [split; [by exists []|]|].
  - intros D. rewrite !elem_of_cons, elem_of_nil. intros [?|[?|[?|[?|[]]]]]; discriminate.
  - split; [lia|]. split; [reflexivity|]. split; [reflexivity|lia].
Qed.
Print Assumptions C67_snapshot_refuted.
(** A listing fails, and gives none of the labels, because one of them is deleted meanwhile. *)
Theorem C67_deleted_refuted : ∃ tr s t pre dir mid n m i, xexec tr s ∧ listing tr t pre dir mid (Err NotFound) ∧
  dir !! n = Some i ∧ ¬ xdeleted n mid ∧ ¬ xupdated i mid ∧ xdeleted m mid.
Proof.
  assert (H : ∃ s, xexec (li_pre ++ XBegin 9 li_dir :: [XCall (EvDelete 0 li_b true); XEntry (EvGet 9 li_b None (Ok None))] ++ [XList 9 (Err NotFound)]) s).
  { pose proof xexec_nil as H. create H li_a 0. create H li_b 1. eapply begin_step in H; [|reflexivity].
    busy H ltac:(eapply (start_delete _ 0 li_b)). busy H ltac:(eapply (delete_file _ 0 li_b 1)).
    eapply (next_step _ _ _ li_b) in H; [|reflexivity|vm_compute; reflexivity|vm_compute; reflexivity].
    eapply (fails_step _ _ _ _ li_b None) in H; [|reflexivity|eapply get_absent; reflexivity|reflexivity]. eexists. finish H. }
  destruct H as [s H]. eexists _, s, 9, li_pre, li_dir, _, li_a, li_b, 0. split; [exact H|]. split; [split; [by exists []|]|].
  - intros D. rewrite !elem_of_cons, elem_of_nil. intros [?|[?|[]]]; discriminate.
  - split; [reflexivity|]. split; [|split].
    + intros [u Hu]. rewrite !elem_of_cons, elem_of_nil in Hu. destruct Hu as [?|[?|[]]]; discriminate.
    + intros (u & l & nl & Hu). rewrite !elem_of_cons, elem_of_nil in Hu. destruct Hu as [?|[?|[]]]; discriminate.
    + exists 0. left.
Qed.
Print Assumptions C67_deleted_refuted.
(** Or because another one is being created. *)
Theorem C67_created_refuted : ∃ tr s t pre dir mid n i, xexec tr s ∧ listing tr t pre dir mid (Err InvalidData) ∧
  dir !! n = Some i ∧ (∀ m, ¬ xdeleted m mid) ∧ (∀ j, ¬ xupdated j mid).
Proof.
  assert (H : ∃ s, xexec ([XCall (EvCreate 0 li_a (Some 0) (Ok (li_new li_a)))] ++ XBegin 9 (<[li_a := 0]> ∅) ::
    [XEntry (EvGet 9 li_b (Some 1) (Err InvalidData))] ++ [XList 9 (Err InvalidData)]) s).
  { pose proof xexec_nil as H. create H li_a 0. eapply begin_step in H; [|reflexivity].
    busy H ltac:(eapply (start_create _ 0 li_b)). busy H ltac:(eapply (create_stat _ 0 li_b)). busy H ltac:(eapply (create_open _ 0 li_b 1)).
    open H li_b 1.
    eapply (fails_step _ _ _ _ li_b (Some 1) (Err InvalidData)) in H; [|reflexivity|eapply get_done_as; [reflexivity|reflexivity|vm_compute; reflexivity]|reflexivity].
    eexists. finish H. }
  destruct H as [s H]. eexists _, s, 9, _, _, _, li_a, 0. split; [exact H|]. split; [split; [by exists []|]|].
  - intros D. rewrite !elem_of_cons, elem_of_nil. intros [?|[]]; discriminate.
  - split; [reflexivity|]. split.
    + intros m [u Hu]. rewrite !elem_of_cons, elem_of_nil in Hu. destruct Hu as [?|[]]; discriminate.
    + intros j (u & l & nl & Hu). rewrite !elem_of_cons, elem_of_nil in Hu. destruct Hu as [?|[]]; discriminate.
Qed.
Print Assumptions C67_created_refuted.
