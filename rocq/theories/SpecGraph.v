(** What it means that calls on named graphs happen one at a time.  Definitions only. *)
From Verif Require Import Prelude Names LabelConc SpecLinear Head HeadSpec GraphTimed.

(** the update of the head may be made, when the label is [l] and [anc a x] says that [a] is [x] or an ancestor of [x] *)
Definition allowed (anc : lname → lname → Prop) (l : label) (op : hop) : Prop :=
  match op with
  | SetHead _ x => match lb_layer l with None => True | Some a => anc a x end
  | ForceHead _ _ => True
  | ForceVersion _ _ v => lb_version l = v
  | HeadVersion _ => False
  end.
Definition success (op : hop) : hres := match op with ForceHead _ _ => RDone | _ => RBool true end.
(** one call on a named graph, all at once, and what it returns; [contended]: the graph was changed during the call *)
Inductive graph_on (anc : lname → lname → Prop) (contended : Prop) : nstate → gop → gres → nstate → Prop :=
  | graph_create n : graph_on anc contended Making (Create n) GDone (Holding (Label n None 0))
  | graph_create_taken c n : c ≠ Absent → graph_on anc contended c (Create n) GErr c
  | graph_open l n : graph_on anc contended (Holding l) (Open n) (GFound true) (Holding l)
  | graph_open_absent n : graph_on anc contended Absent (Open n) (GFound false) Absent
  | graph_open_making n : graph_on anc contended Making (Open n) GErr Making
  | graph_delete c n : c ≠ Absent → graph_on anc contended c (Delete n) (GFound true) Absent
  | graph_delete_absent n : graph_on anc contended Absent (Delete n) (GFound false) Absent
  | graph_head l n : graph_on anc contended (Holding l) (Graph (HeadVersion n)) (GHead (RHead (lb_layer l) (lb_version l))) (Holding l)
  | graph_update l op x : op_layer op = Some x → allowed anc l op → (lb_version l < u64_max)%N →
      graph_on anc contended (Holding l) (Graph op) (GHead (success op)) (Holding (Label (lb_name l) (Some x) (lb_version l + 1)))
  | graph_full l op x : op_layer op = Some x → allowed anc l op → (u64_max ≤ lb_version l)%N →
      graph_on anc contended (Holding l) (Graph op) (GHead RPanic) (Holding l)
  | graph_refuse l op x : op_layer op = Some x → ¬ allowed anc l op →
      graph_on anc contended (Holding l) (Graph op) (GHead (RBool false)) (Holding l)
  | graph_lost l op x : op_layer op = Some x → success op = RBool true → contended →
      graph_on anc contended (Holding l) (Graph op) (GHead (RBool false)) (Holding l)
  | graph_gone c op : (∀ l, c ≠ Holding l) → graph_on anc contended c (Graph op) (GHead RErr) c.

(** A call: when it began, when it returned, who made it, and what it returned.  Between the two its caller began no other call. *)
Notation gtimed := (nat * nat * (tid * gop * gres))%type (only parsing).
Definition graph_call_in (tr : list nitem) (y : gtimed) : Prop :=
  let '(b, j, (t, o, r)) := y in
  b < j ∧ tr !! b = Some (Starts t o) ∧ tr !! j = Some (Returns t o r) ∧ ∀ k, b < k < j → ∀ o', tr !! k ≠ Some (Starts t o').
Definition gname (y : gtimed) : bytes := gop_name y.2.1.2.
Definition graph_earlier (x y : gtimed) : Prop := x.1.2 < y.1.1.
(** calls that create, change or delete a graph *)
Definition alters (y : gtimed) : Prop :=
  match y.2 with
  | (_, Create _, GDone) | (_, Delete _, GFound true) | (_, Graph _, GHead (RBool true)) | (_, Graph _, GHead RDone) => True
  | _ => False
  end.
(** another call altered the graph during the call [y] *)
Definition contended (ys : list gtimed) (y : gtimed) : Prop :=
  ∃ z, z ∈ ys ∧ gname z = gname y ∧ alters z ∧ ¬ graph_earlier z y ∧ ¬ graph_earlier y z.
(** calls on a named graph, one after the other; in between its creation may begin *)
Inductive graph_calls (anc : lname → lname → Prop) (ys : list gtimed) : nstate → list gtimed → nstate → Prop :=
  | graph_nil c : graph_calls anc ys c [] c
  | graph_begin zs c : graph_calls anc ys Making zs c → graph_calls anc ys Absent zs c
  | graph_cons c b j t o r c' zs c'' : graph_on anc (contended ys (b, j, (t, o, r))) c o r c' →
      graph_calls anc ys c' zs c'' → graph_calls anc ys c ((b, j, (t, o, r)) :: zs) c''.
(** All calls that returned can be put in an order in which they might have been made one after the other: it keeps the order of calls
    of which one returned before the other began, and on every graph they answer as if each had happened all at once. *)
Definition graph_linearizable (h : hstate) (tr : list nitem) : Prop := ∃ ys : list gtimed,
  NoDup ys ∧ (∀ y, y ∈ ys ↔ graph_call_in tr y) ∧
  (∀ i j x y, i < j → ys !! i = Some x → ys !! j = Some y → ¬ graph_earlier y x) ∧
  ∀ n, ∃ c, graph_calls (ancestor h) ys Absent (filter (λ y, gname y = n) ys) c.
