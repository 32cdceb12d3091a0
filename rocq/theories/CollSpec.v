(** What collectives do to the memories of all PEs, as the OpenSHMEM specification describes it.
    [M]: memories before, [M']: after, [src p], [dst p]: the arrays on PE [p]. *)
From Verif Require Import Base TeamModel AsetModel AsetSpec RmaModel RmaSpec CollModel.

(** The PE with ordinal [i] of an active set. *)
Definition nth_pe (k : key) (i : Z) : Z := k_start k + i * 2 ^ k_log k.

Definition outside_unchanged (g : list Z) (M M' : mems) : Prop := forall q, ~ In q g -> forall a, M' q a = M q a.

(** Broadcast from PE [r]; [root_too]: also to the destination of the root. *)
Definition bcast_post (root_too : bool) (bytes : Z) (g : list Z) (r : Z) (src dst : Z -> Z) (M M' : mems) : Prop :=
  (forall p, In p g -> p <> r -> copy_bytes bytes (M r) (src r) (M p) (dst p) (M' p)) /\
  (if root_too then copy_bytes bytes (M r) (src r) (M r) (dst r) (M' r) else forall a, M' r a = M r a) /\
  outside_unchanged g M M'.

(** Number of elements of the members before the one of rank [j]. *)
Definition elems_before (nel : Z -> Z) (g : list Z) (j : nat) : Z := fold_right Z.add 0 (map nel (firstn j g)).
(** Concatenation in the order of the members, [nel p] elements of [sz] bytes from PE [p]. *)
Definition collect_post (sz : Z) (nel : Z -> Z) (g : list Z) (src dst : Z -> Z) (M M' : mems) : Prop :=
  (forall p, In p g ->
    (forall j q, nth_error g j = Some q -> forall x, 0 <= x < nel q * sz ->
       M' p (dst p + elems_before nel g j * sz + x) = M q (src q + x)) /\
    (forall a, ~ (dst p <= a < dst p + elems_before nel g (length g) * sz) -> M' p a = M p a)) /\
  outside_unchanged g M M'.

(** Element number [j * n + i] of the destination of the member of rank [k] is element number
    [k * n + i] of the source of the member of rank [j]; [ss], [ds]: strides in elements. *)
Definition alltoalls_post (sz n ss ds : Z) (g : list Z) (src dst : Z -> Z) (M M' : mems) : Prop :=
  (forall k p, nth_error g k = Some p ->
    (forall j q, nth_error g j = Some q -> forall i b, 0 <= i < n -> 0 <= b < sz ->
       M' p (dst p + (Z.of_nat j * n + i) * ds * sz + b) = M q (src q + (Z.of_nat k * n + i) * ss * sz + b)) /\
    (forall a, (forall i b, 0 <= i < Z.of_nat (length g) * n -> 0 <= b < sz -> a <> dst p + i * ds * sz + b) ->
       M' p a = M p a)) /\
  outside_unchanged g M M'.

(** The bytes of element [i] of an array. *)
Definition bytes_at (m : mem) (a sz i : Z) : list Z := map (fun x => m (a + i * sz + Z.of_nat x)) (seq 0 (Z.to_nat sz)).
Definition reduce_list (op : list Z -> list Z -> list Z) (l : list (list Z)) : list Z :=
  match l with [] => [] | x :: r => fold_left op r x end.
Definition allreduce_post (op : list Z -> list Z -> list Z) (sz n : Z) (g : list Z) (src dst : Z -> Z) (M M' : mems) : Prop :=
  (forall p, In p g ->
    (forall i, 0 <= i < n ->
       bytes_at (M' p) (dst p) sz i = reduce_list op (map (fun q => bytes_at (M q) (src q) sz i) g)) /\
    (forall a, ~ (dst p <= a < dst p + n * sz) -> M' p a = M p a)) /\
  outside_unchanged g M M'.
