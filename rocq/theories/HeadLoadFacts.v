(** The layer a head names is there. *)
From Verif Require Import Prelude Names LabelConc LabelSpec LabelConcFacts Head HeadLoad SpecHead.

Lemma history_source c es d : history reg c es d → ∀ l, d = Some l → c = Some l ∨ lb_layer l = None ∨ ∃ u l0 j, EvSet u l0 l j (Ok (Some l)) ∈ es.
Proof.
  induction 1 as [c|c e c1 es d Hr _ IH]; intros l E; [by left|].
  destruct (IH l E) as [->|[?|(u & l0 & j & ?)]]; [|auto|right; right; exists u, l0, j; by right].
  inversion Hr; subst; auto. right. right. eexists _, _, _. left.
Qed.
Lemma register_faithful evs : (∀ i, ∃ c, history reg None (on_file i evs) c) → (∀ t n l, EvGet t n None (Ok (Some l)) ∉ evs) → faithful evs.
Proof.
  intros H Hn pre t n i l post E. destruct i as [i|]; [|exfalso; apply (Hn t n l); rewrite E; apply elem_of_app; right; left].
  destruct (H i) as [c Hc]. assert (Es : on_file i evs = on_file i pre ++ EvGet t n (Some i) (Ok (Some l)) :: on_file i post).
  { rewrite E. unfold on_file. rewrite filter_app, filter_cons, decide_True; done. }
  rewrite Es in Hc. apply history_split in Hc as (d & H1 & H2). inversion H2 as [|? ? ? ? ? Hr]; subst. inversion Hr; subst.
  destruct (history_source _ _ _ H1 l eq_refl) as [?|[?|(u & l0 & j & Hin)]]; [done|by left|]. right. exists u, l0, j.
  by apply elem_of_list_filter in Hin as [_ ?].
Qed.
Lemma directory_faithful evs s : lexec evs s → faithful evs.
Proof.
  intros H. apply register_faithful; [intros i; by apply (file_register evs s)|].
  induction H as [|tr s e s' _ IH Hs]; intros t n l Hin; [by apply elem_of_nil in Hin|].
  apply elem_of_app in Hin as [Hin|Hin]; [by apply (IH t n l)|]. destruct e as [e|]; [|by apply elem_of_nil in Hin].
  apply elem_of_list_singleton in Hin. subst e. inversion Hs.
Qed.

Definition pc_op (p : hpc) : hop := match p with HGet op | HWalk op _ _ _ | HSet op _ => op end.
Definition in_store (h : hstate) (op : hop) : Prop := match op_layer op with Some x => x ∈ h_layers h | None => True end.
Record finv (tr : list fev) (s : fstate) : Prop := {
  fi_thread t p : h_threads s.1 !! t = Some p → in_store s.1 (pc_op p);
  fi_set u l0 l j r x : EvSet u l0 l j r ∈ answers tr → lb_layer l = Some x → x ∈ h_layers s.1;
  fi_load t n x v : s.2 !! t = Some (n, x, v) → x ∈ h_layers s.1;
  fi_missing t n x : FMissing t n x ∉ tr }.
Lemma answers_app a b : answers (a ++ b) = answers a ++ answers b.
Proof. apply omap_app. Qed.
Lemma hstep_layers h it h' x : hstep h it h' → x ∈ h_layers h → x ∈ h_layers h'.
Proof. intros H Hx. destruct H; cbn; try done; try (set_solver); match goal with |- context [continue _ _ ?y] => by destruct y end. Qed.
Lemma in_store_more h h' op : (∀ x, x ∈ h_layers h → x ∈ h_layers h') → in_store h op → in_store h' op.
Proof. unfold in_store. destruct (op_layer op); auto. Qed.
Lemma after_get_op op l p : after_get op l = inl p → pc_op p = op.
Proof. destruct op; cbn; repeat case_match; intros E; by simplify_eq. Qed.
Lemma after_set_op op b p : after_set op b = inl p → pc_op p = op.
Proof. destruct op; cbn; repeat case_match; intros E; by simplify_eq. Qed.
Lemma hstep_thread h it h' t p : hstep h it h' → (∀ t p, h_threads h !! t = Some p → in_store h (pc_op p)) → h_threads h' !! t = Some p → in_store h' (pc_op p).
Proof.
  intros Hs Hall Hp. pose proof (λ x, hstep_layers h it h' x Hs) as Hm.
  assert (Hold : ∀ q, h_threads h !! t = Some q → in_store h' (pc_op q)) by (intros q Hq; apply (in_store_more h); [done|by apply (Hall t)]).
  assert (Hgo : ∀ u op q, h_threads h !! u = Some q → pc_op q = op → in_store h' op).
  { intros u op q Hq <-. apply (in_store_more h); [done|by apply (Hall u)]. }
  destruct Hs; cbn [hgoto hleave continue h_threads] in *; try (by apply Hold).
  - destruct (decide (t0 = t)) as [->|Hne]; [|rewrite lookup_insert_ne in Hp by done; by apply Hold].
    rewrite lookup_insert in Hp. injection Hp as <-. done.
  - destruct (after_get op l) as [q|r] eqn:E; cbn [continue hgoto hleave h_threads] in *; [|by apply lookup_delete_Some in Hp as [_ ?]; apply Hold].
    destruct (decide (t0 = t)) as [->|Hne]; [|rewrite lookup_insert_ne in Hp by done; by apply Hold].
    rewrite lookup_insert in Hp. injection Hp as <-. apply after_get_op in E. rewrite E. by apply (Hgo t op (HGet op)).
  - by apply lookup_delete_Some in Hp as [_ ?]; apply Hold.
  - by apply lookup_delete_Some in Hp as [_ ?]; apply Hold.
  - destruct (decide (t0 = t)) as [->|Hne]; [|rewrite lookup_insert_ne in Hp by done; by apply Hold].
    rewrite lookup_insert in Hp. injection Hp as <-. by eapply (Hgo t op).
  - destruct (decide (t0 = t)) as [->|Hne]; [|rewrite lookup_insert_ne in Hp by done; by apply Hold].
    rewrite lookup_insert in Hp. injection Hp as <-. by eapply (Hgo t op).
  - by apply lookup_delete_Some in Hp as [_ ?]; apply Hold.
  - destruct (after_set op (bool_decide (is_Some r))) as [q|r'] eqn:E; cbn [continue hgoto hleave h_threads] in *; [|by apply lookup_delete_Some in Hp as [_ ?]; apply Hold].
    destruct (decide (t0 = t)) as [->|Hne]; [|rewrite lookup_insert_ne in Hp by done; by apply Hold].
    rewrite lookup_insert in Hp. injection Hp as <-. apply after_set_op in E. rewrite E. by eapply (Hgo t op).
  - by apply lookup_delete_Some in Hp as [_ ?]; apply Hold.
  - by apply lookup_delete_Some in Hp as [_ ?]; apply Hold.
Qed.
Lemma updated_layer l x nl : with_updated_layer l x = Some nl → lb_layer nl = x.
Proof. unfold with_updated_layer. case_match; intros E; by simplify_eq. Qed.
Lemma hstep_set h it h' u l0 l j r x : hstep h it h' → it_lev it = Some (EvSet u l0 l j r) → lb_layer l = Some x →
  (∀ t p, h_threads h !! t = Some p → in_store h (pc_op p)) → x ∈ h_layers h.
Proof.
  intros Hs E Hx Hall. inversion Hs as [|s e Hne| | | | | | | |s t op l1 layer nl i r1 Ht Ho Hw|s t op l1 layer nl i k Ht Ho Hw| |]; subst; cbn [it_lev] in E; try discriminate E.
  - injection E as ->. by destruct (Hne u l0 l j r).
  - injection E as E1 E2 E3 E4 E5. subst l. apply updated_layer in Hw. rewrite Hw in Hx. injection Hx as ->. apply Hall in Ht.
    unfold in_store in Ht. cbn [pc_op] in Ht. by rewrite Ho in Ht.
  - injection E as E1 E2 E3 E4 E5. subst l. apply updated_layer in Hw. rewrite Hw in Hx. injection Hx as ->. apply Hall in Ht.
    unfold in_store in Ht. cbn [pc_op] in Ht. by rewrite Ho in Ht.
Qed.
Lemma head_read_get h it h' t n x v : hstep h it h' → head_read it = Some (t, (n, x, v)) →
  ∃ i l, it_lev it = Some (EvGet t n i (Ok (Some l))) ∧ lb_layer l = Some x ∧ lb_version l = v.
Proof.
  unfold head_read. intros Hs E. destruct Hs; cbn [it_ret it_lev] in *; try discriminate E.
  - destruct op as [| | |m]; cbn in E; repeat case_match; simplify_eq; eauto.
  - destruct op; discriminate E.
  - destruct op; discriminate E.
  - destruct op; cbn in E; repeat case_match; simplify_eq.
  - destruct op; cbn in E; repeat case_match; simplify_eq.
  - destruct op; discriminate E.
  - destruct op; discriminate E.
Qed.
Lemma faithful_prefix a b : faithful (a ++ b) → faithful a.
Proof. intros H pre t n i l post ->. apply (H pre t n i l (post ++ b)). by rewrite <-app_assoc. Qed.
Lemma finv_exec tr s : fexec tr s → (∀ t op, FForeign t op ∉ tr) → faithful (answers tr) → finv tr s.
Proof.
  induction 1 as [|tr s e s' _ IH Hs]; intros Hf Ha.
  { split; cbn; [intros t p; by rewrite lookup_empty|by intros ?????? ?%elem_of_nil|intros t n x v; by rewrite lookup_empty|by intros ??? ?%elem_of_nil]. }
  destruct IH as [I1 I2 I3 I4]; [intros t op Hin; apply (Hf t op), elem_of_app; by left|rewrite answers_app in Ha; by apply faithful_prefix in Ha|].
  destruct Hs as [h ld it h' Hst Hld|h ld t op x Ht Hl Hx|h ld t op l a cur Ht Hne Hc|h ld t n x v Hl Hx|h ld t n x v Hl Hx]; cbn [fst snd] in *.
  - pose proof (λ x, hstep_layers h it h' x Hst) as Hm. split; cbn [fst snd].
    + intros t p. by apply (hstep_thread h it).
    + intros u l0 l j r x Hin Hx. rewrite answers_app in Hin. apply elem_of_app in Hin as [Hin|Hin]; [apply Hm; by apply (I2 u l0 l j r)|].
      unfold answers in Hin. apply elem_of_list_omap in Hin as (y & Hy%elem_of_list_singleton & E). subst y.
      apply Hm. by apply (hstep_set h it h' u l0 l j r).
    + intros t n x v Hl. destruct (head_read it) as [[u y]|] eqn:E; [|apply Hm; by apply (I3 t n x v)].
      destruct (decide (u = t)) as [->|Hne]; [|rewrite lookup_insert_ne in Hl by done; apply Hm; by apply (I3 t n x v)].
      rewrite lookup_insert in Hl. injection Hl as ->. destruct (head_read_get h it h' t n x v Hst E) as (i & l & El & Elx & _).
      destruct (Ha (answers tr) t n i l []) as [E0|(u & l0 & j & Hin)].
      * rewrite answers_app. f_equal. unfold answers. cbn. by rewrite El.
      * rewrite Elx in E0. discriminate E0.
      * apply Hm. by apply (I2 u l0 l j _ x Hin).
    + intros t n x [?|?%elem_of_list_singleton]%elem_of_app; [by apply (I4 t n x)|done].
  - exfalso. apply (Hf t op), elem_of_app. right. left.
  - split; cbn [fst snd hleave h_threads h_layers].
    + intros u p [_ Hp]%lookup_delete_Some. by apply (I1 u).
    + intros u l0 l1 j r x Hin Hx. rewrite answers_app, app_nil_r in Hin. by apply (I2 u l0 l1 j r).
    + exact I3.
    + intros u n x [?|?%elem_of_list_singleton]%elem_of_app; [by apply (I4 u n x)|done].
  - split; cbn [fst snd]; [exact I1| | |].
    + intros u l0 l1 j r y Hin. rewrite answers_app, app_nil_r in Hin. by apply (I2 u l0 l1 j r).
    + intros u m y w [_ Hu]%lookup_delete_Some. by apply (I3 u m y w).
    + intros u m y [?|?%elem_of_list_singleton]%elem_of_app; [by apply (I4 u m y)|done].
  - exfalso. by apply Hx, (I3 t n x v).
Qed.
Lemma head_found tr s : fexec tr s → (∀ t op, FForeign t op ∉ tr) → faithful (answers tr) → ∀ t n x, FMissing t n x ∉ tr.
Proof. intros H1 H2 H3. apply (finv_exec tr s H1 H2 H3). Qed.
Lemma label_found tr s : fexec tr s → (∀ t op, FForeign t op ∉ tr) → faithful (answers tr) → ∀ u l0 l j r x,
  EvSet u l0 l j r ∈ answers tr → lb_layer l = Some x → x ∈ h_layers s.1.
Proof. intros H1 H2 H3. apply (finv_exec tr s H1 H2 H3). Qed.
(** what is returned was read *)
Lemma head_was_read tr s : fexec tr s → (∀ t n x v, s.2 !! t = Some (n, x, v) → ∃ i l, EvGet t n i (Ok (Some l)) ∈ answers tr ∧ lb_layer l = Some x ∧ lb_version l = v) ∧
  (∀ t n x v, FHead t n x v ∈ tr → x ∈ h_layers s.1 ∧ ∃ i l, EvGet t n i (Ok (Some l)) ∈ answers tr ∧ lb_layer l = Some x ∧ lb_version l = v).
Proof.
  induction 1 as [|tr s e s' _ [IH1 IH2] Hs]; [split; [intros t n x v; cbn; by rewrite lookup_empty|by intros ???? ?%elem_of_nil]|].
  assert (Hmore : ∀ t n x v, (∃ i l, EvGet t n i (Ok (Some l)) ∈ answers tr ∧ lb_layer l = Some x ∧ lb_version l = v) →
    ∃ i l, EvGet t n i (Ok (Some l)) ∈ answers (tr ++ [e]) ∧ lb_layer l = Some x ∧ lb_version l = v).
  { intros t n x v (i & l & H & ?). exists i, l. split; [|done]. rewrite answers_app. apply elem_of_app. by left. }
  destruct Hs as [h ld it h' Hst Hld|h ld t op x Ht Hl Hx|h ld t op l a cur Ht Hne Hc|h ld t n x v Hl Hx|h ld t n x v Hl Hx]; cbn [fst snd] in *; split.
  - intros t n x v Hl. destruct (head_read it) as [[u y]|] eqn:E; [|by apply Hmore, IH1].
    destruct (decide (u = t)) as [->|Hne]; [|rewrite lookup_insert_ne in Hl by done; by apply Hmore, IH1].
    rewrite lookup_insert in Hl. injection Hl as ->. destruct (head_read_get h it h' t n x v Hst E) as (i & l & El & ?). exists i, l. split; [|done].
    rewrite answers_app. apply elem_of_app. right. unfold answers. cbn. rewrite El. left.
  - intros t n x v [Hin|?%elem_of_list_singleton]%elem_of_app; [|done]. destruct (IH2 t n x v Hin). split; [by apply (hstep_layers h it h')|by apply Hmore].
  - intros u n y v Hu. by apply Hmore, IH1.
  - intros u n y v [Hin|?%elem_of_list_singleton]%elem_of_app; [|done]. destruct (IH2 u n y v Hin). split; [done|by apply Hmore].
  - intros u n y v Hu. by apply Hmore, IH1.
  - intros u n y v [Hin|?%elem_of_list_singleton]%elem_of_app; [|done]. destruct (IH2 u n y v Hin). split; [done|by apply Hmore].
  - intros u m y w [_ Hu]%lookup_delete_Some. by apply Hmore, IH1.
  - intros u m y w [Hin|Hin%elem_of_list_singleton]%elem_of_app; [destruct (IH2 u m y w Hin); split; [done|by apply Hmore]|].
    injection Hin as -> -> -> ->. split; [done|by apply Hmore, IH1].
  - intros u m y w [_ Hu]%lookup_delete_Some. by apply Hmore, IH1.
  - intros u m y w [Hin|?%elem_of_list_singleton]%elem_of_app; [|done]. destruct (IH2 u m y w Hin). split; [done|by apply Hmore].
Qed.
Lemma name_faithful evs : (∀ n, ∃ c, history name_reg None (on_name n evs) c) → faithful evs.
Proof.
  intros H pre t n i l post E. destruct (H n) as [c Hc].
  assert (Es : on_name n evs = on_name n pre ++ EvGet t n i (Ok (Some l)) :: on_name n post).
  { rewrite E. unfold on_name. rewrite filter_app, filter_cons, decide_True; done. }
  rewrite Es in Hc. apply history_split in Hc as (d & H1 & H2). inversion H2 as [|? ? ? ? ? Hr]; subst. inversion Hr as [? ? ? Hg| | | |]; subst.
  inversion Hg; subst. clear - H1.
  assert (Hsrc : ∀ c es d, history name_reg c es d → ∀ l, d = Some l → c = Some l ∨ lb_layer l = None ∨ ∃ u l0 j, EvSet u l0 l j (Ok (Some l)) ∈ es).
  { clear. induction 1 as [c|c e c1 es d Hr _ IH]; intros l E; [by left|].
    destruct (IH l E) as [->|[?|(u & l0 & j & ?)]]; [|auto|right; right; exists u, l0, j; by right].
    inversion Hr as [? ? ? Hg| | | |]; subst; auto. inversion Hg; subst; auto. right. right. eexists _, _, _. left. }
  destruct (Hsrc _ _ _ H1 l eq_refl) as [?|[?|(u & l0 & j & Hin)]]; [done|by left|]. right. exists u, l0, j.
  by apply elem_of_list_filter in Hin as [_ ?].
Qed.

(** [set_head] with a layer of this store does not replace a head that is not there *)
Definition pc_inv (tr : list fev) (h : hstate) (t : tid) (p : hpc) : Prop :=
  FForeign t (pc_op p) ∈ tr ∨ in_store h (pc_op p) ∧
  match p with
  | HGet _ => True
  | HWalk _ l a cur => lb_layer l = Some a ∧ cur ∈ h_layers h
  | HSet (SetHead _ _) l => ∀ a, lb_layer l = Some a → a ∈ h_layers h
  | HSet _ _ => True
  end.
Record sinv (tr : list fev) (s : fstate) : Prop := {
  si_parent x p : h_parents s.1 !! x = Some p → p ∈ h_layers s.1;
  si_thread t p : h_threads s.1 !! t = Some p → pc_inv tr s.1 t p;
  si_done t n x l nl i r q a : FItem (HItem (Some (EvSet t l nl i r)) (Some (t, SetHead n x, q))) ∈ tr → lb_layer l = Some a →
    FForeign t (SetHead n x) ∈ tr ∨ a ∈ h_layers s.1 }.
Lemma pc_inv_more tr e h h' t p : (∀ x, x ∈ h_layers h → x ∈ h_layers h') → pc_inv tr h t p → pc_inv (tr ++ [e]) h' t p.
Proof.
  intros Hm [H|[H1 H2]]; [left; apply elem_of_app; by left|]. right. split; [by apply (in_store_more h)|].
  destruct p as [| |[]]; try done; [destruct H2; split; auto|]. intros a Ha. by apply Hm, H2.
Qed.
Lemma sinv_exec tr s : fexec tr s → sinv tr s.
Proof.
  induction 1 as [|tr s e s' _ [I1 I2 I3] Hs].
  { split; cbn; [intros x p; by rewrite lookup_empty|intros t p; by rewrite lookup_empty|by intros ????????? ?%elem_of_nil]. }
  assert (Hold : ∀ t n x a (h' : hstate), (∀ y, y ∈ h_layers s.1 → y ∈ h_layers h') →
    FForeign t (SetHead n x) ∈ tr ∨ a ∈ h_layers s.1 → FForeign t (SetHead n x) ∈ tr ++ [e] ∨ a ∈ h_layers h').
  { intros t n x a h' Hm [?|?]; [left; apply elem_of_app; by left|right; by apply Hm]. }
  destruct Hs as [h ld it h' Hst Hld|h ld t op x Ht Hl Hx|h ld t op l a cur Ht Hne Hc|h ld t n x v Hl Hx|h ld t n x v Hl Hx]; cbn [fst snd] in *.
  - pose proof (λ x, hstep_layers h it h' x Hst) as Hm. split; cbn [fst snd].
    + intros x p Hp. destruct Hst; cbn [hgoto hleave continue h_parents h_layers] in *; try (by apply (I1 x));
        try (match goal with H : context [continue _ _ ?y] |- _ => destruct y; by apply (I1 x) end).
      destruct p0 as [q|]; [|apply elem_of_union; right; by apply (I1 x)].
      destruct (decide (x0 = x)) as [->|Hd]; [rewrite lookup_insert in Hp; injection Hp as <-; set_solver|].
      rewrite lookup_insert_ne in Hp by done. apply elem_of_union. right. by apply (I1 x).
    + intros u p Hp.
      assert (Hsame : ∀ q, h_threads h !! u = Some q → pc_inv (tr ++ [FItem it]) h' u q) by (intros q Hq; by apply (pc_inv_more tr _ h), I2).
      assert (Hmv : ∀ t q (m : gmap tid hpc), <[t := q]> m !! u = Some p → m = h_threads h → pc_inv (tr ++ [FItem it]) h' t q → pc_inv (tr ++ [FItem it]) h' u p).
      { intros t q m E -> Hq. destruct (decide (t = u)) as [->|Hd]; [rewrite lookup_insert in E; by injection E as <-|].
        rewrite lookup_insert_ne in E by done. by apply Hsame. }
      assert (Hdl : ∀ t (m : gmap tid hpc), delete t m !! u = Some p → m = h_threads h → pc_inv (tr ++ [FItem it]) h' u p).
      { intros t m [_ E]%lookup_delete_Some ->. by apply Hsame. }
      assert (Hfrom : ∀ t q, h_threads h !! t = Some q → FForeign t (pc_op q) ∈ tr ++ [FItem it] ∨ in_store h' (pc_op q)).
      { intros t q Hq. apply I2 in Hq as [?|[? _]]; [left; apply elem_of_app; by left|right; by apply (in_store_more h)]. }
      inversion Hst as [s1 x q Hx Hq|s1 e1 Hne|s1 t op Ht Ho|s1 t op i l Ht|s1 t op i Ht|s1 t op i k Ht|s1 t op l a Ht|s1 t op l a cur q Ht Hne Hq|s1 t op l a cur Ht Hne Hq|s1 t op l layer nl i r Ht Ho Hw|s1 t op l layer nl i k Ht Ho Hw|s1 t op l layer Ht Ho Hw|s1]; subst; cbn [hgoto hleave h_threads] in Hp; try (by apply Hsame); try (by apply (Hdl _ _ Hp)).
      * apply (Hmv _ _ _ Hp eq_refl). right. by split.
      * destruct (after_get op l) as [q|r] eqn:E; cbn [continue hgoto hleave h_threads] in Hp; [|by apply (Hdl _ _ Hp)].
        apply (Hmv _ _ _ Hp eq_refl). pose proof (after_get_op op l q E) as Eo. destruct (Hfrom t (HGet op) Ht) as [F|F]; cbn [pc_op] in F; [left; by rewrite Eo|].
        right. split; [by rewrite Eo|]. destruct op as [m y|m y|m y w|m]; cbn in E.
        -- destruct (lb_layer l) as [b|] eqn:El; injection E as <-; [split; [done|exact F]|]. intros b Hb. congruence.
        -- by injection E as <-.
        -- case_match; by simplify_eq.
        -- done.
      * apply (Hmv _ _ _ Hp eq_refl). pose proof (I2 _ _ Ht) as [F|[F1 [F2 F3]]]; [left; apply elem_of_app; by left|].
        right. split; [exact F1|]. destruct op; try done. intros b Hb. rewrite F2 in Hb. by injection Hb as <-.
      * apply (Hmv _ _ _ Hp eq_refl). pose proof (I2 _ _ Ht) as [F|[F1 [F2 F3]]]; [left; apply elem_of_app; by left|].
        right. split; [exact F1|]. split; [exact F2|]. by apply (I1 cur).
      * destruct (after_set op (bool_decide (is_Some r))) as [q|r'] eqn:E; cbn [continue hgoto hleave h_threads] in Hp; [|by apply (Hdl _ _ Hp)].
        apply (Hmv _ _ _ Hp eq_refl). pose proof (after_set_op _ _ q E) as Eo. destruct (Hfrom t (HSet op l) Ht) as [F|F]; cbn [pc_op] in F; [left; by rewrite Eo|].
        right. split; [by rewrite Eo|]. destruct op; cbn in E; repeat case_match; by simplify_eq.
    + intros t n x l nl i r q a [Hin|Hin%elem_of_list_singleton]%elem_of_app Ha; [apply Hold; [exact Hm|by apply (I3 t n x l nl i r q a)]|].
      injection Hin as <-. inversion Hst as [| | | | | | | | |s1 t1 op l1 layer nl1 i1 r1 Ht Ho Hw Eq|s1 t1 op l1 layer nl1 i1 k Ht Ho Hw Eq| |]; subst.
      * destruct op as [m y|m y|m y w|m]; match goal with H : returns _ _ _ = _ |- _ => cbn in H | H : _ = returns _ _ _ |- _ => cbn in H end; repeat case_match; simplify_eq. apply Hold; [done|]. destruct (I2 _ _ Ht) as [F|[_ F]]; [by left|right; by apply F].
      * apply Hold; [done|]. destruct (I2 _ _ Ht) as [F|[_ F]]; [by left|right; by apply F].
  - split; cbn [fst snd hgoto h_parents h_layers h_threads].
    + exact I1.
    + intros u p Hp. destruct (decide (t = u)) as [->|Hd].
      * rewrite lookup_insert in Hp. injection Hp as <-. left. apply elem_of_app. right. left.
      * rewrite lookup_insert_ne in Hp by done. by apply (pc_inv_more tr _ h), I2.
    + intros u n y l nl i r q a [Hin|?%elem_of_list_singleton]%elem_of_app Ha; [|done]. apply (Hold _ _ _ _ h); [done|by apply (I3 u n y l nl i r q a)].
  - split; cbn [fst snd hleave h_parents h_layers h_threads].
    + exact I1.
    + intros u p [_ Hp]%lookup_delete_Some. by apply (pc_inv_more tr _ h), I2.
    + intros u n y l1 nl i r q b [Hin|?%elem_of_list_singleton]%elem_of_app Ha; [|done]. apply (Hold _ _ _ _ h); [done|by apply (I3 u n y l1 nl i r q b)].
  - split; cbn [fst snd].
    + exact I1.
    + intros u p Hp. by apply (pc_inv_more tr _ h), I2.
    + intros u m y l nl i r q b [Hin|?%elem_of_list_singleton]%elem_of_app Ha; [|done]. apply (Hold _ _ _ _ h); [done|by apply (I3 u m y l nl i r q b)].
  - split; cbn [fst snd].
    + exact I1.
    + intros u p Hp. by apply (pc_inv_more tr _ h), I2.
    + intros u m y l nl i r q b [Hin|?%elem_of_list_singleton]%elem_of_app Ha; [|done]. apply (Hold _ _ _ _ h); [done|by apply (I3 u m y l nl i r q b)].
Qed.
