(** What a program may rely on when data go with a flag or with a barrier. *)
From Verif Require Import Base OrderModel OrderSpec OrderProofs3 DataModel.

(** The events of PE [p] are [plog p log] (OrderProofs3). *)

(** One thread for each PE. *)
Definition single (ls : list mlab) : Prop :=
  forall lb, In lb ls -> match lb with ML (GCall _ i _) | ML (GGo _ i) => i = 0 | _ => True end.

(** Operation [id] of PE [p] has been started. *)
Definition issued (log : list (Z * oev)) (p id : Z) : Prop :=
  exists i x o k t dev, In (p, EStart i (CRma x o k id t dev)) log.
(** It has been started, and the call has returned. *)
Definition returned (log : list oev) (n id : Z) : Prop :=
  exists i x o k t dev, In (ERet i (CRma x o k id t dev)) log /\ 0 <= t < n.

(** An operation writes [v] to the byte [a] of PE [t]. *)
Definition writes (d : opd) (t a v : Z) : Prop :=
  exists b bs j, d = Wr t b bs /\ a = b + Z.of_nat j /\ nth_error bs j = Some v.
(** Only operation [id] of PE [p] writes that byte. *)
Definition only_writer (W : Z -> Z -> opd) (log : list (Z * oev)) (t a p id : Z) : Prop :=
  forall q i v, issued log q i -> writes (W q i) t a v -> q = p /\ i = id.

(** In the events of a PE with one thread: before operation [f] is started, operation [a] has been issued, and
    after that shmem_quiet or shmem_fence has been called and has returned. [n]: number of PEs. *)
Definition fenced (n : Z) (log : list oev) (a f : Z) : Prop :=
  forall u v i x o k t dev, log = u ++ EStart i (CRma x o k f t dev) :: v ->
  exists l1 l2 l3 cf, u = l1 ++ EStart 0 cf :: l2 ++ ERet 0 cf :: l3 /\ quiet_or_fence XDefault cf /\
    (forall c', ~ In (ERet 0 c') l2) /\ returned l1 n a.

(** Calls that return what they have read. *)
Definition blocking (k : rkind) : Prop := k = KGet \/ k = KFetch.

(** When PE [p] returns from a barrier over [b] after the events [l1]: operation [x] of [q] was issued on the default context
    before [q] called the same barrier; its object is in the heap or in static data (any object with the dynamic window),
    and its target is a member of [b] or it does not use active messages. *)
Definition before_barrier (c : oconf) (b : bset) (p : Z) (l1 : list (Z * oev)) (q x : Z) : Prop :=
  In q (members b) /\
  exists a r, l1 = a ++ (q, EStart 0 (CBarrier b)) :: r /\ starts q b a = starts p b l1 - 1 /\
    exists o k t dev, In (q, ERet 0 (CRma XDefault o k x t dev)) a /\ (oc_dyn c = true \/ o = OHeap \/ o = OData) /\
      (In t (members b) \/ by_window c k).
