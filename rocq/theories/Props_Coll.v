(** Properties of the data movement of collectives. *)
From Verif Require Import Base ListLib TeamModel AsetModel AsetSpec RmaModel RmaSpec CollModel CollSpec CollProofs.

(** Bytes of the result of a collective on PE [p] at [l]. *)
Definition coll_res (x : outcome mems) (p : Z) (l : list Z) : list Z := match x with Ok M => map (M p) l | _ => [] end.
(** PE [p] holds 1000 * p + a at address [a]. *)
Definition ex_mems : mems := fun p a => 1000 * p + a.
Definition i32 : bt := mkBt 1 4.

(** ** C23 Active-set broadcast copies the root's source *)

(** It does when PE number and ordinal of the root are equal. Missing: all other roots, for which
    it is false (C23_wrong). *)
Theorem C23_broadcast_partial : forall n k b root nelems dst src M,
  n <= INT_MAX -> valid_set n k -> 0 <= root < k_size k -> nth_pe k root = root ->
  0 <= nelems < 2 ^ 31 -> 0 <= bt_size b ->
  exists M', aset_broadcast n k b root nelems dst src M = Ok M' /\
    bcast_post false (nelems * bt_size b) (set_pes k) (nth_pe k root) src dst M M'.
Proof. exact aset_broadcast_ok. Qed.
Print Assumptions C23_broadcast_partial.

(** In every other case there are contents of the memories for which the result is wrong: the root
    is taken as a PE number to find the source and as an ordinal to find the sender. *)
Theorem C23_wrong : forall n k b root nelems dst src,
  n <= INT_MAX -> valid_set n k -> 2 <= k_size k -> 0 <= root < k_size k -> nth_pe k root <> root ->
  0 < nelems < 2 ^ 31 -> 0 < bt_size b ->
  (forall p, In p (set_pes k) -> src p + nelems * bt_size b <= dst p \/ dst p + nelems * bt_size b <= src p) ->
  exists M, forall M', aset_broadcast n k b root nelems dst src M = Ok M' ->
    ~ bcast_post false (nelems * bt_size b) (set_pes k) (nth_pe k root) src dst M M'.
Proof.
  intros n k b root nelems dst src Hn V H2 Hr Nr He Hb D. exists (tag_mems (nelems * bt_size b) src).
  intros M' H. exact (aset_broadcast_wrong n k b root nelems dst src M' Hn V H2 Hr Nr He Hb D H).
Qed.
Print Assumptions C23_wrong.

(** PEs 1, 2, 3 of 4; the root has ordinal 1, that is PE 2. PE 1 is asked for its source but PE 2
    sends its destination: PE 3 gets it, and the source of PE 1 is overwritten. *)
Theorem C23_broadcast_refuted : exists n k b root nelems dst src M M',
  n <= INT_MAX /\ valid_set n k /\ 0 <= root < k_size k /\
  aset_broadcast n k b root nelems dst src M = Ok M' /\
  M' 3 (dst 3) = M 2 (dst 2) /\ M' 3 (dst 3) <> M 2 (src 2) /\ M' 1 (dst 1) = M 1 (dst 1) /\ M' 1 (src 1) = M 2 (dst 2).
Proof.
  exists 4, (mkKey 1 0 3), i32, 1, 2, (fun _ => 100), (fun _ => 200), ex_mems.
  destruct (aset_broadcast 4 (mkKey 1 0 3) i32 1 2 (fun _ => 100) (fun _ => 200) ex_mems) as [M'| | |] eqn:E; try (vm_compute in E; discriminate).
  exists M'. split; [vm_compute; discriminate|]. split; [unfold valid_set; cbn; lia|]. split; [cbn; lia|]. split; auto.
  assert (X : coll_res (aset_broadcast 4 (mkKey 1 0 3) i32 1 2 (fun _ => 100) (fun _ => 200) ex_mems) 3 [100] = [2100]) by vmr.
  assert (Y : coll_res (aset_broadcast 4 (mkKey 1 0 3) i32 1 2 (fun _ => 100) (fun _ => 200) ex_mems) 1 [100; 200] = [1100; 2100]) by vmr.
  rewrite E in X, Y. cbn [coll_res map] in X, Y. inversion X as [X1]. inversion Y as [[Y1 Y2]]. rewrite X1, Y1, Y2. unfold ex_mems. lia.
Qed.
Print Assumptions C23_broadcast_refuted.

Example C23_nonvacuous :
  valid_set 4 (mkKey 0 0 3) /\ nth_pe (mkKey 0 0 3) 1 = 1 /\
  valid_set 4 (mkKey 1 0 3) /\ nth_pe (mkKey 1 0 3) 1 <> 1 /\
  valid_set 4 (mkKey 0 1 2) /\ nth_pe (mkKey 0 1 2) 1 <> 1 /\
  map (fun p => coll_res (aset_broadcast 4 (mkKey 0 0 3) i32 1 2 (fun p => 100 + p) (fun p => 200 + p) ex_mems) p [100; 107; 108]) [0; 1; 2; 3] =
    [[1201; 1208; 108]; [1100; 1107; 1108]; [2100; 1206; 1207]; [3100; 3107; 3108]].
Proof.
  split; [unfold valid_set; cbn; lia|]. split; [vmr|]. split; [unfold valid_set; cbn; lia|]. split; [vm_compute; discriminate|].
  split; [unfold valid_set; cbn; lia|]. split; [vm_compute; discriminate|]. vmr.
Qed.

(** ** C24 collect concatenates in PE order with per-PE lengths *)

Theorem C24_collect : forall n k b nel dst src M,
  n <= INT_MAX -> valid_set n k -> 0 <= bt_size b -> (forall p, In p (set_pes k) -> 0 <= nel p) ->
  elems_before nel (set_pes k) (length (set_pes k)) <= INT_MAX ->
  exists M', aset_collect n k b nel dst src M = Ok M' /\ collect_post (bt_size b) nel (set_pes k) src dst M M'.
Proof.
  intros n k b nel dst src M Hn V Hs Pos T. unfold aset_collect. rewrite aset_group_ok by auto. cbn [bind].
  apply collect_ok; auto. eapply set_pes_nodup; eauto.
Qed.
Print Assumptions C24_collect.

Theorem C24_collect_team : forall g b nel dst src M, NoDup g -> 0 <= bt_size b -> (forall p, In p g -> 0 <= nel p) ->
  elems_before nel g (length g) <= INT_MAX ->
  exists M', collect_group g b nel dst src M = Ok M' /\ collect_post (bt_size b) nel g src dst M M'.
Proof. exact collect_ok. Qed.
Print Assumptions C24_collect_team.

(** The bound is needed: with 2^32 + 1 elements on PE 0 and 1 on PE 1 the members call different MPI
    operations. *)
Example C24_beyond_int : aset_collect 2 (mkKey 0 0 2) i32 (fun p => if p =? 0 then 2 ^ 32 + 1 else 1) (fun _ => 0) (fun _ => 0) ex_mems = UB.
Proof. vmr. Qed.
(** PEs 1 and 3 with 2 and 1 elements, and with 1 element each. *)
Example C24_nonvacuous :
  valid_set 4 (mkKey 1 1 2) /\
  map (fun p => coll_res (aset_collect 4 (mkKey 1 1 2) i32 (fun p => if p =? 1 then 2 else 1) (fun _ => 100) (fun _ => 200) ex_mems) p [100; 107; 108; 111; 112]) [1; 2; 3] =
    [[1200; 1207; 3200; 3203; 1112]; [2100; 2107; 2108; 2111; 2112]; [1200; 1207; 3200; 3203; 3112]] /\
  coll_res (aset_collect 4 (mkKey 1 1 2) i32 (fun _ => 1) (fun _ => 100) (fun _ => 200) ex_mems) 1 [103; 104; 108] = [1203; 3200; 1108].
Proof. split; [unfold valid_set; cbn; lia|]. vm_compute. split; reflexivity. Qed.

(** ** C25 fcollect, alltoall and alltoalls permute exactly the right blocks *)

Theorem C25_fcollect : forall n k b nelems dst src M,
  n <= INT_MAX -> valid_set n k -> 0 <= bt_size b -> 0 <= nelems < 2 ^ 31 ->
  exists M', aset_fcollect n k b nelems dst src M = Ok M' /\ collect_post (bt_size b) (fun _ => nelems) (set_pes k) src dst M M'.
Proof.
  intros n k b ne dst src M Hn V Hs He. unfold aset_fcollect. rewrite aset_group_ok by auto. cbn [bind].
  apply fcollect_ok; auto. eapply set_pes_nodup; eauto.
Qed.
Print Assumptions C25_fcollect.
Theorem C25_fcollect_team : forall g b nelems dst src M, NoDup g -> 0 <= bt_size b -> 0 <= nelems < 2 ^ 31 ->
  exists M', fcollect_group g b nelems dst src M = Ok M' /\ collect_post (bt_size b) (fun _ => nelems) g src dst M M'.
Proof. exact fcollect_ok. Qed.
Print Assumptions C25_fcollect_team.

Theorem C25_alltoall : forall n k b nelems dst src M,
  n <= INT_MAX -> valid_set n k -> 0 <= bt_size b -> 0 <= nelems < 2 ^ 31 ->
  exists M', aset_alltoall n k b nelems dst src M = Ok M' /\ alltoalls_post (bt_size b) nelems 1 1 (set_pes k) src dst M M'.
Proof.
  intros n k b ne dst src M Hn V Hs He. unfold aset_alltoall. rewrite aset_group_ok by auto. cbn [bind].
  apply alltoall_group_ok; auto. eapply set_pes_nodup; eauto.
Qed.
Print Assumptions C25_alltoall.
Theorem C25_alltoall_team : forall g b nelems dst src M, NoDup g -> 0 <= bt_size b -> 0 <= nelems < 2 ^ 31 ->
  exists M', alltoall_group g b nelems dst src M = Ok M' /\ alltoalls_post (bt_size b) nelems 1 1 g src dst M M'.
Proof. exact alltoall_group_ok. Qed.
Print Assumptions C25_alltoall_team.

(** With strides, after any use of the datatype layer, with and without the datatype cache. *)
Theorem C25_alltoalls : forall cached us t l n k b nelems ss ds dst src M,
  uses cached t_init us = Ok (t, l) -> n <= INT_MAX -> valid_set n k -> 1 <= bt_size b ->
  0 <= nelems < 2 ^ 31 -> 1 <= ss < 2 ^ 31 -> 1 <= ds < 2 ^ 31 ->
  nelems * ss * bt_size b < 2 ^ 63 -> nelems * ds * bt_size b < 2 ^ 63 ->
  exists t' M', aset_alltoalls cached t n k b ds ss nelems dst src M = Ok (t', M') /\
    alltoalls_post (bt_size b) nelems ss ds (set_pes k) src dst M M'.
Proof.
  intros cached us t l n k b ne ss ds dst src M U Hn V Hs He H1 H2 M1 M2. unfold aset_alltoalls. rewrite aset_group_ok by auto. cbn [bind].
  eapply alltoalls_ok; eauto. eapply set_pes_nodup; eauto.
Qed.
Print Assumptions C25_alltoalls.
Theorem C25_alltoalls_team : forall cached us t l g b nelems ss ds dst src M,
  uses cached t_init us = Ok (t, l) -> NoDup g -> 1 <= bt_size b ->
  0 <= nelems < 2 ^ 31 -> 1 <= ss < 2 ^ 31 -> 1 <= ds < 2 ^ 31 ->
  nelems * ss * bt_size b < 2 ^ 63 -> nelems * ds * bt_size b < 2 ^ 63 ->
  exists t' M', alltoalls_group cached t g b ds ss nelems dst src M = Ok (t', M') /\
    alltoalls_post (bt_size b) nelems ss ds g src dst M M'.
Proof. exact alltoalls_ok. Qed.
Print Assumptions C25_alltoalls_team.

(** PEs 0 and 2: two elements for each, strides 2 (source) and 3 (destination). *)
Example C25_nonvacuous :
  let a := match aset_alltoalls true t_init 4 (mkKey 0 1 2) (mkBt 5 1) 3 2 2 (fun _ => 100) (fun _ => 200) ex_mems with Ok (_, M) => Ok M | _ => UB end in
  map (fun p => coll_res a p [100; 101; 103; 106; 109; 110; 112]) [0; 1; 2] =
    [[200; 101; 202; 2200; 2202; 110; 112]; [1100; 1101; 1103; 1106; 1109; 1110; 1112]; [204; 2101; 206; 2204; 2206; 2110; 2112]] /\
  coll_res (aset_fcollect 4 (mkKey 1 1 2) i32 1 (fun _ => 100) (fun _ => 200) ex_mems) 3 [99; 100; 104; 108] = [3099; 1200; 3200; 3108] /\
  coll_res (aset_alltoall 4 (mkKey 1 1 2) i32 1 (fun _ => 100) (fun _ => 200) ex_mems) 3 [99; 100; 104; 108] = [3099; 1204; 3204; 3108].
Proof. vm_compute. split; [|split]; reflexivity. Qed.

(** ** C26 Reductions combine all members' elements *)

Theorem C26_allreduce : forall op n k b nreduce dst src M,
  (forall x y, length x = Z.to_nat (bt_size b) -> length y = Z.to_nat (bt_size b) -> length (op x y) = Z.to_nat (bt_size b)) ->
  n <= INT_MAX -> valid_set n k -> 0 <= bt_size b -> 0 <= nreduce < 2 ^ 31 ->
  (forall p, In p (set_pes k) -> src p = dst p) \/ (forall p, In p (set_pes k) -> src p <> dst p) ->
  exists M', aset_allreduce op n k b nreduce dst src M = Ok M' /\ allreduce_post op (bt_size b) nreduce (set_pes k) src dst M M'.
Proof.
  intros op n k b ne dst src M Hop Hn V Hs He Hio. unfold aset_allreduce. rewrite aset_group_ok by auto. cbn [bind].
  apply allreduce_ok; auto. eapply set_pes_nodup; eauto.
Qed.
Print Assumptions C26_allreduce.
Theorem C26_allreduce_team : forall op b,
  (forall x y, length x = Z.to_nat (bt_size b) -> length y = Z.to_nat (bt_size b) -> length (op x y) = Z.to_nat (bt_size b)) ->
  forall g nreduce dst src M, NoDup g -> 0 <= bt_size b -> 0 <= nreduce < 2 ^ 31 ->
  (forall p, In p g -> src p = dst p) \/ (forall p, In p g -> src p <> dst p) ->
  exists M', allreduce_group op g b nreduce dst src M = Ok M' /\ allreduce_post op (bt_size b) nreduce g src dst M M'.
Proof. exact allreduce_ok. Qed.
Print Assumptions C26_allreduce_team.

(** Sum of bytes of three PEs, in place and not; two elements of two bytes. *)
Definition add_bytes (x y : list Z) : list Z := map (fun p => fst p + snd p) (combine x y).
Example C26_nonvacuous :
  coll_res (aset_allreduce add_bytes 4 (mkKey 1 0 3) (mkBt 2 2) 2 (fun _ => 100) (fun _ => 200) ex_mems) 2 [99; 100; 101; 103; 104; 200] = [2099; 6600; 6603; 6609; 2104; 2200] /\
  coll_res (aset_allreduce add_bytes 4 (mkKey 1 0 3) (mkBt 2 2) 2 (fun _ => 100) (fun _ => 100) ex_mems) 3 [99; 100; 101; 103; 104] = [3099; 6300; 6303; 6309; 3104] /\
  coll_res (aset_allreduce add_bytes 4 (mkKey 1 0 3) (mkBt 2 2) 2 (fun _ => 100) (fun _ => 100) ex_mems) 0 [100] = [100] /\
  (forall x y, length x = 2%nat -> length y = 2%nat -> length (add_bytes x y) = 2%nat).
Proof.
  split; [vmr|]. split; [vmr|]. split; [vmr|]. intros x y Hx Hy. unfold add_bytes. rewrite map_length, combine_length, Hx, Hy. auto.
Qed.

(** ** C69 Team broadcast copies the root's source to every member *)

(** The root is given by its rank in the team; unlike the active-set broadcast it also fills the
    destination of the root. *)
Theorem C69_team_broadcast : forall g b root r nelems dst src M,
  NoDup g -> aget g root = Some r -> 0 <= nelems < 2 ^ 31 -> 0 <= bt_size b -> nelems * bt_size b < 2 ^ 64 ->
  exists M', team_broadcast g b root nelems dst src M = Ok M' /\ bcast_post true (nelems * bt_size b) g r src dst M M'.
Proof. exact team_broadcast_ok. Qed.
Print Assumptions C69_team_broadcast.

Example C69_nonvacuous :
  aget [1; 3; 2] 1 = Some 3 /\
  map (fun p => coll_res (team_broadcast [1; 3; 2] i32 1 2 (fun _ => 100) (fun _ => 200) ex_mems) p [99; 100; 107; 108; 200]) [0; 1; 2; 3] =
    [[99; 100; 107; 108; 200]; [1099; 3200; 3207; 1108; 1200]; [2099; 3200; 3207; 2108; 2200]; [3099; 3200; 3207; 3108; 3200]].
Proof. vm_compute. split; reflexivity. Qed.
