(** What the completion properties say, in terms of the events of a history: calls that start,
    calls that return, operations that are complete at their target. *)
From Verif Require Import Base AmCfgModel OrderModel.

(** Only thread 0 calls the library. *)
Definition one_thread (ls : list olab) : Prop :=
  forall lb, In lb ls -> match lb with OCall i _ | OGo i _ => i = 0 | ONet _ => True end.
Definition one_thread_each (ls : list glab) : Prop :=
  forall lb, In lb ls -> match lb with GCall _ i _ | GGo _ i => i = 0 | GNet _ _ => True end.

(** In [log], whenever a call in [sync] returns, every operation [id] such that a call [op] for it
    had returned before the call in [sync] was made is complete. *)
Definition completes (sync : ocall -> Prop) (op : ocall -> Z -> Prop) (log : list oev) : Prop :=
  forall l1 l2 l3 i c,
    log = l1 ++ EStart i c :: l2 ++ ERet i c :: l3 -> sync c ->
    (forall c', ~ In (ERet i c') l2) ->
    forall j cl id, In (ERet j cl) l1 -> op cl id -> In (EDone id) (l1 ++ l2).

Definition quiet_or_fence (x : octx) (c : ocall) : Prop := c = CQuiet x \/ c = CFence x.

(** Operation [id] on any context and object, to a PE of the program. *)
Definition any_op (c : oconf) (cl : ocall) (id : Z) : Prop :=
  exists x o k t dev, cl = CRma x o k id t dev /\ 0 <= t < oc_n c.
(** The same on a given context. *)
Definition op_on (c : oconf) (x : octx) (cl : ocall) (id : Z) : Prop :=
  exists o k t dev, cl = CRma x o k id t dev /\ 0 <= t < oc_n c.

(** Operations of kind [k] never use active messages. *)
Definition by_window (c : oconf) (k : rkind) : Prop :=
  if is_amo k then oc_amo_direct c = true else oc_rma c = CDirect.
Definition any_window_op (c : oconf) (cl : ocall) (id : Z) : Prop :=
  exists x o k t dev, cl = CRma x o k id t dev /\ by_window c k.
Definition window_op_on (c : oconf) (x : octx) (cl : ocall) (id : Z) : Prop :=
  exists o k t dev, cl = CRma x o k id t dev /\ by_window c k.

(** Number of calls of the barrier over [b] that PE [p] has started. *)
Fixpoint starts (p : Z) (b : bset) (log : list (Z * oev)) : Z :=
  match log with
  | [] => 0
  | (q, EStart _ (CBarrier b')) :: r => (if (q =? p) && bset_eqb b' b then 1 else 0) + starts p b r
  | _ :: r => starts p b r
  end.

(** In [log], when the k-th barrier over [b] returns on a PE, each member has started its k-th,
    and what it had issued by then, among [op], is complete. *)
Definition barrier_completes (b : bset) (op : ocall -> Z -> Prop) (log : list (Z * oev)) : Prop :=
  forall l1 p i l2, log = l1 ++ (p, ERet i (CBarrier b)) :: l2 ->
  forall q, In q (members b) ->
    starts p b l1 <= starts q b l1 /\
    forall a j r, l1 = a ++ (q, EStart j (CBarrier b)) :: r -> starts q b a = starts p b l1 - 1 ->
    forall j' cl id, In (q, ERet j' cl) a -> op cl id -> In (q, EDone id) l1.

(** Operations on the default context. *)
Definition default_op (c : oconf) (cl : ocall) (id : Z) : Prop := op_on c XDefault cl id.

(** Those on the heap and on static data (on any object with the dynamic window), to a member of
    the set or never by active message. *)
Definition barrier_op (c : oconf) (b : bset) (cl : ocall) (id : Z) : Prop :=
  exists o k t dev, cl = CRma XDefault o k id t dev /\
    (oc_dyn c = true \/ o = OHeap \/ o = OData) /\ (In t (members b) \/ by_window c k).

(** The library has gone wrong: undefined behaviour or abort. *)
Definition fails {A : Type} (x : outcome A) : Prop := match x with Ok _ => False | _ => True end.

(** In [log], an operation that is started after a fence has returned is complete only after every
    operation of the kind [P] that had been issued before the fence. *)
Definition fence_orders_for (P : ocall -> Z -> Prop) (log : list oev) : Prop :=
  forall l1 l2 l3 i cf,
    log = l1 ++ EStart i cf :: l2 ++ ERet i cf :: l3 -> cf = CFence XDefault ->
    (forall c', ~ In (ERet i c') l2) ->
    forall j cl a, In (ERet j cl) l1 -> P cl a ->
    forall u v b, log = u ++ EDone b :: v ->
      (forall j' x o k t dev, ~ In (EStart j' (CRma x o k b t dev)) (l1 ++ l2)) ->
      In (EDone a) u.
Definition fence_orders (c : oconf) (log : list oev) : Prop := fence_orders_for (any_op c) log.

(** A space whose windows quiet can look at: attached, or without contexts and in a build where
    the default window is not looked at because there is none of its own (dynamic window) or
    because nothing was ever issued on it (tracking, never attached). *)
Definition quiet_safe (c : oconf) (log : list oev) (sp : ospace) : Prop :=
  os_att sp = true \/
  (os_nctx sp <= 0 /\
   (oc_dyn c = true \/ (oc_track c = true /\ forall i, ~ In (EStart i (CAttach (os_id sp))) log))).
