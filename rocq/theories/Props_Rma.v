(** Property theorems C28-C30 and C67 (data movement of puts and gets, strided datatypes). *)
From Verif Require Import Base RmaModel RmaSpec RmaProofs.

Definition bt_int : bt := mkBt 1 4.
(** Memories where byte [a] holds [a], [-a]. *)
Definition mem_a : mem := fun a => a.
Definition mem_b : mem := fun a => - a.

(** ** C28 Strided puts and gets *)

(** On both paths, with and without the cache, whatever transfers both processes did before. The
    numbers must fit an int; a destination stride of 0 would store all elements in one place. *)
Theorem C28_iput_partial : forall am cached us1 us2 t1 t2 l1 l2 b dest source dst sst n om tm,
  uses cached t_init us1 = Ok (t1, l1) -> uses cached t_init us2 = Ok (t2, l2) ->
  0 <= n < 2 ^ 31 -> int_ok dst -> int_ok sst -> 0 <= bt_size b -> dst <> 0 \/ n <= 1 ->
  exists t1' t2' tm', shmem_iput am cached t1 t2 b dest source dst sst n om tm = Ok (t1', t2', tm') /\
    strided_copy (bt_size b) n om source sst tm dest dst tm'.
Proof. exact shmem_iput_ok. Qed.
Print Assumptions C28_iput_partial.

Theorem C28_iget_partial : forall am cached us1 us2 t1 t2 l1 l2 b dest source dst sst n om tm,
  uses cached t_init us1 = Ok (t1, l1) -> uses cached t_init us2 = Ok (t2, l2) ->
  0 <= n < 2 ^ 31 -> int_ok dst -> int_ok sst -> 0 <= bt_size b -> dst <> 0 \/ n <= 1 ->
  exists t1' t2' om', shmem_iget am cached t1 t2 b dest source dst sst n om tm = Ok (t1', t2', om') /\
    strided_copy (bt_size b) n tm source sst om dest dst om'.
Proof. exact shmem_iget_ok. Qed.
Print Assumptions C28_iget_partial.

(** Three ints, stride -2 at the destination and 3 at the source, after other transfers. *)
Definition ex_hist : list tuse := [UPair 3 3 1 bt_int 0 0; UOne 3 (-2) bt_int; UPair 5 2 4 bt_int 0 10].
Definition ints (m : mem) (l : list Z) : list Z := map m l.
Definition res {A B} (d : B) (x : outcome (A * B)) : B := match x with Ok (_, v) => v | _ => d end.
Example C28_nonvacuous :
  (exists t l, uses true t_init ex_hist = Ok (t, l)) /\
  (let t := match uses true t_init ex_hist with Ok (t, _) => t | _ => t_init end in
   map (res mem_a (shmem_iput true true t t bt_int 100 200 (-2) 3 3 mem_a mem_b))
     [84; 87; 88; 91; 92; 95; 96; 100; 103; 104] = [224; 227; -88; -91; 212; 215; -96; 200; 203; -104]).
Proof. split; [eexists _, _; vm_compute; reflexivity|vm_compute; reflexivity]. Qed.

(** 2^32 + 1 elements: the element count of the vector type is converted to int, one element is
    transferred and the second keeps its old contents, without any diagnostic. *)
Theorem C28_large_refuted : exists am cached b dest source dst sst n om tm t1' t2' tm',
  0 <= n < 2 ^ 63 /\ int_ok dst /\ int_ok sst /\ dst <> 0 /\ 0 < bt_size b /\
  shmem_iput am cached t_init t_init b dest source dst sst n om tm = Ok (t1', t2', tm') /\
  ~ strided_copy (bt_size b) n om source sst tm dest dst tm'.
Proof.
  exists false, false, bt_int, 0, 0, 2, 2, (2 ^ 32 + 1), mem_a, mem_b.
  eexists _, _, _. split; [lia|]. do 2 (split; [unfold int_ok; lia|]). split; [lia|]. split; [reflexivity|].
  split; [vm_compute; reflexivity|].
  intros [A _]. specialize (A 1 1 ltac:(lia) ltac:(cbn; lia)). vm_compute in A. discriminate.
Qed.
Print Assumptions C28_large_refuted.

(** ** C29 The datatype cache *)

(** Every history of strided transfers and collectives gets the same counts and the same types
    with the cache as without; if one is rejected by MPI so is the other. *)
Theorem C29_cache_invisible : forall us,
  match uses true t_init us, uses false t_init us with
  | Ok (_, a), Ok (_, b) => a = b
  | Abort, Abort => True
  | _, _ => False
  end.
Proof. exact cache_invisible. Qed.
Print Assumptions C29_cache_invisible.

(** Types differing in one component only, and a hit. *)
Definition ex_keys : list tuse :=
  [UOne 2 3 bt_int; UOne 3 2 bt_int; UOne 2 3 (mkBt 2 8); UPair 2 3 3 bt_int 6 6; UOne 2 3 bt_int].
Example C29_nonvacuous :
  map (fun r => map (fun p => (fst p, d_esz (snd p), d_disps (snd p), d_ext (snd p))) r) (res [] (uses true t_init ex_keys)) =
    [[(1, 4, [0; 12], 16)]; [(1, 4, [0; 8; 16], 20)]; [(1, 8, [0; 24], 32)];
     [(1, 4, [0; 12], 24); (1, 4, [0; 12], 24)]; [(1, 4, [0; 12], 16)]] /\
  match uses true t_init ex_keys with Ok (t, _) => length (t_cache t) = 4%nat | _ => False end.
Proof. split; vm_compute; reflexivity. Qed.

(** ** C30 Size-suffixed gets *)

Theorem C30_get_direct_partial : forall bits sz id dest source n om tm,
  In (bits, sz) sized_table -> 0 <= n < 2 ^ 31 ->
  exists om', shmem_get false (mkBt id sz) bits dest source n om tm = Ok om' /\
    copy_bytes (n * bits / 8) tm source om dest om'.
Proof. exact sized_get_direct. Qed.
Print Assumptions C30_get_direct_partial.

(** On the active-message path the reply carries eight times the data: every non-empty get of
    every size-suffixed function ends in a truncation error. *)
Theorem C30_get_am_all_fail : forall bits sz id dest source n om tm,
  In (bits, sz) sized_table -> 0 < n -> bits * n < 2 ^ 31 ->
  shmem_get true (mkBt id sz) bits dest source n om tm = Abort.
Proof. exact sized_get_am. Qed.
Print Assumptions C30_get_am_all_fail.

Theorem C30_get_am_refuted : exists bits sz id dest source n om tm,
  In (bits, sz) sized_table /\ 0 <= n < 2 ^ 31 /\
  ~ exists om', shmem_get true (mkBt id sz) bits dest source n om tm = Ok om'.
Proof.
  exists 32, 4, 1, 100, 200, 1, mem_a, mem_b. split; [cbn; auto|]. split; [lia|].
  intros [om' H]. assert (E : shmem_get true (mkBt 1 4) 32 100 200 1 mem_a mem_b = Abort) by (vm_compute; reflexivity).
  rewrite E in H. discriminate.
Qed.
Print Assumptions C30_get_am_refuted.

(** The puts of the same family are right on both paths, ... *)
Theorem C30_put : forall am bits sz id dest source n om tm,
  In (bits, sz) sized_table -> 0 <= n -> bits * n < 2 ^ 31 ->
  exists tm', shmem_put am (mkBt id sz) bits dest source n om tm = Ok tm' /\
    copy_bytes (n * bits / 8) om source tm dest tm'.
Proof. exact sized_put. Qed.
Print Assumptions C30_put.

(** ... and so are the gets that pass the size of their type. *)
Theorem C30_typed_get : forall am b dest source n om tm,
  0 <= bt_size b -> 0 <= n -> bt_size b * n < 2 ^ 31 -> n < 2 ^ 31 ->
  exists om', shmem_get am b (bt_size b) dest source n om tm = Ok om' /\
    copy_bytes (n * bt_size b) tm source om dest om'.
Proof. exact shmem_get_typed_ok. Qed.
Print Assumptions C30_typed_get.

Definition get_res (x : outcome mem) (l : list Z) : list Z := match x with Ok m => map m l | _ => [] end.
Example C30_nonvacuous :
  In (16, 2) sized_table /\
  get_res (shmem_get false (mkBt 3 2) 16 100 200 3 mem_a mem_b) [99; 100; 101; 105; 106] = [99; -200; -201; -205; 106] /\
  get_res (shmem_put true (mkBt 3 2) 16 100 200 3 mem_a mem_b) [99; 100; 101; 105; 106] = [-99; 200; 201; 205; -106] /\
  get_res (shmem_get true (mkBt 3 2) 2 100 200 3 mem_a mem_b) [99; 100; 101; 105; 106] = [99; -200; -201; -205; 106].
Proof. split; [cbn; auto|]. vm_compute. split; [|split]; reflexivity. Qed.

(** ** C67 No datatype is leaked *)

(** Without the cache no derived type outlives the call it was made for, with it finalize frees
    them all, each once. *)
Theorem C67_no_leak : forall cached us t l,
  uses cached t_init us = Ok (t, l) ->
  exists t', strided_finalize cached t = Ok t' /\ live_types t' = [] /\ (cached = false -> live_types t = []).
Proof. exact no_leak. Qed.
Print Assumptions C67_no_leak.

Example C67_nonvacuous :
  match uses true t_init ex_keys with Ok (t, _) => live_types t = [0; 1; 2; 4]%nat | _ => False end /\
  match uses false t_init ex_keys with Ok (t, _) => length (t_objs t) = 6%nat /\ live_types t = [] | _ => False end.
Proof. vm_compute. split; [|split]; reflexivity. Qed.
