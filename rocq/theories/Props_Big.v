(** C100: a call moves everything it was asked to move, or fails. *)
From Verif Require Import Base ListLib TeamModel AsetModel RmaModel RmaSpec RmaProofs CollModel CollSpec CollProofs BigProofs.

(** A put that ends without an error has moved every element, on both paths, whatever the room that the
    receiver computed. Missing: 2^32 elements and more, see below. *)
Theorem C100_put_partial : forall am b typesz dest source n om tm tm', 0 <= bt_size b -> 0 <= n < 2 ^ 32 ->
  shmem_put am b typesz dest source n om tm = Ok tm' -> copy_bytes (n * bt_size b) om source tm dest tm'.
Proof. exact put_all. Qed.

(** So has a get, by active messages only if there are less than 2^32 bytes. *)
Theorem C100_get_partial : forall am b dest source n om tm om', 0 <= bt_size b -> 0 <= n < 2 ^ 32 ->
  (am = true -> bt_size b * n < 2 ^ 32) ->
  shmem_get am b (bt_size b) dest source n om tm = Ok om' -> copy_bytes (n * bt_size b) tm source om dest om'.
Proof. exact get_all. Qed.

(** Counts that fit in an int are accepted. *)
Theorem C100_accepted : forall am b dest source n om tm, 0 <= bt_size b -> 0 <= n < 2 ^ 31 -> bt_size b * n < 2 ^ 31 ->
  (exists tm', shmem_put am b (bt_size b) dest source n om tm = Ok tm') /\
  (exists om', shmem_get am b (bt_size b) dest source n om tm = Ok om').
Proof.
  intros am b dest source n om tm Hb Hn Hs. split.
  - destruct (shmem_put_ok am b (bt_size b) dest source n om tm) as (x & E & _); try lia. eauto.
  - destruct (shmem_get_typed_ok am b dest source n om tm) as (x & E & _); try lia. eauto.
Qed.

(** The same for collectives on a team. *)
Theorem C100_fcollect_partial : forall g b n dst src M M', NoDup g -> g <> [] -> 0 <= bt_size b -> 0 <= n < 2 ^ 32 ->
  fcollect_group g b n dst src M = Ok M' -> collect_post (bt_size b) (fun _ => n) g src dst M M'.
Proof. exact fcollect_all. Qed.
Theorem C100_alltoall_partial : forall g b n dst src M M', NoDup g -> g <> [] -> 0 <= bt_size b -> 0 <= n < 2 ^ 32 ->
  alltoall_group g b n dst src M = Ok M' -> alltoalls_post (bt_size b) n 1 1 g src dst M M'.
Proof. exact alltoall_all. Qed.
Theorem C100_allreduce_partial : forall op b,
  (forall x y, length x = Z.to_nat (bt_size b) -> length y = Z.to_nat (bt_size b) -> length (op x y) = Z.to_nat (bt_size b)) ->
  forall g n dst src M M', NoDup g -> g <> [] -> 0 <= bt_size b -> 0 <= n < 2 ^ 32 ->
  (forall p, In p g -> src p = dst p) \/ (forall p, In p g -> src p <> dst p) ->
  allreduce_group op g b n dst src M = Ok M' -> allreduce_post op (bt_size b) n g src dst M M'.
Proof. exact allreduce_all. Qed.
Theorem C100_broadcast_partial : forall g b root r n dst src M M', NoDup g -> aget g root = Some r -> 0 <= n < 2 ^ 32 ->
  0 <= bt_size b -> n * bt_size b < 2 ^ 64 ->
  team_broadcast g b root n dst src M = Ok M' -> bcast_post true (n * bt_size b) g r src dst M M'.
Proof. exact team_broadcast_all. Qed.

(** shmem_putmem of 2^32 + 1 bytes moves one byte and reports nothing. *)
Definition byte_t : bt := mkBt 0 1.
Definition here : mem := fun a => a.
Definition there : mem := fun a => - a.
Theorem C100_put_refuted : exists am dest source n om tm tm', 0 <= n < 2 ^ 63 /\
  shmem_put am byte_t 1 dest source n om tm = Ok tm' /\ ~ copy_bytes n om source tm dest tm'.
Proof.
  exists false, 1000, 2000, (2 ^ 32 + 1), here, there. eexists. split; [lia|]. split; [vm_compute; reflexivity|].
  intros [A _]. specialize (A 1 ltac:(lia)). vm_compute in A. discriminate A.
Qed.

(** shmem_int_get of 2^30 + 1 elements by an active message: the count fits in an int, its number of
    bytes does not. The reply has 4 bytes; one element arrives and nothing is reported. *)
Theorem C100_get_refuted : exists dest source n om tm om', 0 <= n < 2 ^ 31 /\
  shmem_get true (mkBt 1 4) 4 dest source n om tm = Ok om' /\ ~ copy_bytes (n * 4) tm source om dest om'.
Proof.
  destruct (get_am_short (mkBt 1 4) (2 ^ 30 + 1) 1000 2000 here there 4) as (om' & H1 & _ & H2); try (cbn [bt_size]; lia).
  { reflexivity. }
  exists 1000, 2000, (2 ^ 30 + 1), here, there, om'. split; [lia|]. split; [exact H1|].
  intros [A _]. specialize (A 4 ltac:(lia)). rewrite H2 in A by lia. unfold here, there in A. lia.
Qed.

(** shmem_fcollectmem of 2^32 + 1 bytes on two PEs moves one byte of each. *)
Theorem C100_fcollect_refuted : exists g n dst src M M', NoDup g /\ 0 <= n < 2 ^ 63 /\
  fcollect_group g byte_t n dst src M = Ok M' /\ ~ collect_post 1 (fun _ => n) g src dst M M'.
Proof.
  exists [0; 1], (2 ^ 32 + 1), (fun _ => 1000), (fun _ => 2000), (fun p a => 10000 * p + a). eexists.
  split; [repeat constructor; cbn; intuition lia|]. split; [lia|]. split; [vm_compute; reflexivity|].
  intros [A _]. destruct (A 0 ltac:(cbn; auto)) as [B _]. specialize (B 0%nat 0 eq_refl 1 ltac:(lia)). vm_compute in B. discriminate B.
Qed.

Definition moved (x : outcome mem) (l : list Z) : list Z := match x with Ok m => map m l | _ => [] end.
Example C100_ex :
  moved (shmem_put true (mkBt 1 4) 4 1000 2000 2 here there) [999; 1000; 1007; 1008] = [-999; 2000; 2007; -1008] /\
  moved (shmem_get false (mkBt 1 4) 4 1000 2000 2 here there) [999; 1000; 1007; 1008] = [999; -2000; -2007; 1008] /\
  shmem_put false byte_t 1 1000 2000 (2 ^ 31) here there = Abort.
Proof. split; [vmr|]. split; vmr. Qed.

Print Assumptions C100_put_partial.
Print Assumptions C100_get_partial.
Print Assumptions C100_accepted.
Print Assumptions C100_fcollect_partial.
Print Assumptions C100_alltoall_partial.
Print Assumptions C100_allreduce_partial.
Print Assumptions C100_broadcast_partial.
Print Assumptions C100_put_refuted.
Print Assumptions C100_get_refuted.
Print Assumptions C100_fcollect_refuted.
