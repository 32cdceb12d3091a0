(** Property theorems C103 (Level Zero). *)
From Verif Require Import Base ZeModel ZeSpec ZeProofs.

(** With a GPU in the machine the library starts, uses the first driver that has one, and spaces on devices of that
    driver can be made and destroyed in any order; what the program still holds is what it did not release.
    What is missing: a driver without devices in front of it when malloc(0) returns NULL and assertions are on. *)
Theorem C103_start_partial : forall checks mc k os,
  mc_ok mc = true -> first_gpu (mc_drivers mc) k ->
  mc_malloc0 mc = true \/ checks = false \/ none_empty (mc_drivers mc) k ->
  exists s, gpu_init checks mc ze0 = Ok s /\ uses mc s k /\ ze_query s = Ok tt /\
    (good_ops mc k (z_next s) [] os ->
     exists s1, zrun checks mc s os = Ok s1 /\ uses mc s1 k /\
       count is_mem s1 = length (holds (z_next s) [] os)).
Proof.
  intros checks mc k os O F A. destruct (whole_run checks mc k os O F A) as (s & R & G).
  destruct (init_ok checks mc k O F A) as (s' & R' & _ & U & _). rewrite R in R'. inversion R'; subst s'.
  exists s. split; [exact R|]. split; [exact U|].
  split; [unfold ze_query; now rewrite (ctx_of_uses mc s k U)|].
  intros X. destruct (G X) as (s1 & s2 & R1 & U1 & C & _). exists s1. auto.
Qed.
Print Assumptions C103_start_partial.

(** Without a GPU a library with assertions does not start. *)
Theorem C103_absent : forall mc,
  mc_ok mc = false \/ no_gpu (mc_drivers mc) -> gpu_init true mc ze0 = Abort.
Proof. exact no_start. Qed.
Print Assumptions C103_absent.

(** A device that is not one of the driver in use is rejected. *)
Theorem C103_other_device : forall mc k os dev,
  mc_ok mc = true -> first_gpu (mc_drivers mc) k ->
  mc_malloc0 mc = true \/ none_empty (mc_drivers mc) k ->
  exists s, gpu_init true mc ze0 = Ok s /\
    (good_ops mc k (z_next s) [] os ->
     exists s1, zrun true mc s os = Ok s1 /\
       (device_of mc k dev -> ze_malloc true mc dev s1 = Ok (z_new (ZMem dev) s1)) /\
       (~ device_of mc k dev -> ze_malloc true mc dev s1 = Abort)).
Proof.
  intros mc k os dev O F A.
  destruct (whole_run true mc k os O F ltac:(unfold allowed; tauto)) as (s & R & G).
  exists s. split; [exact R|]. intros X. destruct (G X) as (s1 & s2 & R1 & U1 & _).
  exists s1. split; [exact R1|].
  split; [exact (malloc_ok true mc k dev s1 U1)|exact (malloc_bad mc k dev s1 U1)].
Qed.
Print Assumptions C103_other_device.

(** What is left when the library is finalised: device memory the program did not release, the context, and one
    table for each driver in front of the one in use. *)
Theorem C103_left_partial : forall checks mc k os,
  mc_ok mc = true -> first_gpu (mc_drivers mc) k ->
  mc_malloc0 mc = true \/ none_empty (mc_drivers mc) k ->
  exists s, gpu_init checks mc ze0 = Ok s /\
    (good_ops mc k (z_next s) [] os ->
     exists s1 s2, zrun checks mc s os = Ok s1 /\ gpu_finalize s1 = Ok s2 /\
       count is_mem s2 = length (holds (z_next s) [] os) /\ count is_ctx s2 = 1%nat /\ count is_table s2 = k /\
       length (z_live s2) = (length (holds (z_next s) [] os) + 1 + k)%nat).
Proof.
  intros checks mc k os O F A.
  destruct (whole_run checks mc k os O F ltac:(unfold allowed; tauto)) as (s & R & G).
  exists s. split; [exact R|]. intros X. destruct (G X) as (s1 & s2 & R1 & U1 & C & E & M & CC & CL & CT).
  exists s1, s2. split; [exact R1|]. split; [exact E|]. split; [congruence|]. split; [exact CC|].
  split; [exact (CT A)|]. rewrite (counts s2), M, C, CC, CL, (CT A). lia.
Qed.
Print Assumptions C103_left_partial.

(** So the library does not release all it took, even when every space is destroyed. *)
Theorem C103_left_refuted : exists mc k s s2,
  mc_ok mc = true /\ first_gpu (mc_drivers mc) k /\ mc_malloc0 mc = true /\
  gpu_init true mc ze0 = Ok s /\ gpu_finalize s = Ok s2 /\ count is_ctx s2 = 1%nat /\ count is_table s2 = 1%nat.
Proof.
  exists (mkMach true [[(7, false)]; [(8, true)]] true), 1%nat.
  eexists. eexists. split; [reflexivity|]. split.
  { split; [exists [(8, true)]; split; [reflexivity|exists 8; now left]|].
    intros j d L H [h I]. destruct j as [|j]; [|lia]. cbn in H. inversion H; subst.
    destruct I as [I|[]]. discriminate. }
  split; [reflexivity|]. split; [vm_compute; reflexivity|]. split; [vm_compute; reflexivity|].
  split; vm_compute; reflexivity.
Qed.
Print Assumptions C103_left_refuted.

(** Without assertions the library starts on a machine that has drivers but no GPU; the first look at a pointer
    then aborts. *)
Theorem C103_fast_refuted :
  (exists mc, mc_ok mc = true /\ mc_drivers mc <> [] /\ no_gpu (mc_drivers mc)) /\
  forall mc, mc_ok mc = true -> mc_drivers mc <> [] -> no_gpu (mc_drivers mc) ->
  exists s, gpu_init false mc ze0 = Ok s /\ ze_query s = Abort.
Proof.
  split; [|exact no_start_fast].
  exists (mkMach true [[(4, false)]] true). split; [reflexivity|]. split; [discriminate|].
  intros d [<-|[]] [h [H|[]]]. discriminate.
Qed.
Print Assumptions C103_fast_refuted.

(** A driver without devices ends the start when malloc(0) is NULL, though the next driver has a GPU. *)
Theorem C103_empty_refuted : exists mc k,
  mc_ok mc = true /\ first_gpu (mc_drivers mc) k /\ gpu_init true mc ze0 = Abort.
Proof.
  exists (mkMach true [[]; [(8, true)]] false), 1%nat. split; [reflexivity|]. split; [|vm_compute; reflexivity].
  split; [exists [(8, true)]; split; [reflexivity|exists 8; now left]|].
  intros j d L H [h I]. destruct j as [|j]; [|lia]. cbn in H. inversion H; subst. destruct I.
Qed.
Print Assumptions C103_empty_refuted.

(** A GPU of a second driver cannot be used. *)
Theorem C103_second_driver_refuted : exists mc k s dev,
  mc_ok mc = true /\ first_gpu (mc_drivers mc) k /\ gpu_init true mc ze0 = Ok s /\
  (exists d, In d (mc_drivers mc) /\ In (dev, true) d) /\ ze_malloc true mc dev s = Abort.
Proof.
  exists (mkMach true [[(7, true)]; [(8, true)]] true), 0%nat. eexists. exists 8.
  split; [reflexivity|]. split.
  { split; [exists [(7, true)]; split; [reflexivity|exists 7; now left]|]. intros j d L. lia. }
  split; [vm_compute; reflexivity|]. split; [|vm_compute; reflexivity].
  exists [(8, true)]. split; [right|]; now left.
Qed.
Print Assumptions C103_second_driver_refuted.

(** Three drivers, the second one without devices, the third with a CPU and two GPUs; memory on both, one released. *)
Example C103_nonvacuous :
  let mc := mkMach true [[(4, false)]; []; [(5, false); (6, true); (7, true)]] true in
  first_gpu (mc_drivers mc) 2 /\
  exists s, gpu_init true mc ze0 = Ok s /\
    good_ops mc 2 (z_next s) [] [ZAlloc 6; ZAlloc 7; ZRelease (z_next s); ZAlloc 6] /\
    holds (z_next s) [] [ZAlloc 6; ZAlloc 7; ZRelease (z_next s); ZAlloc 6] = [8; 7].
Proof.
  cbn zeta. split.
  - split; [exists [(5, false); (6, true); (7, true)]; split; [reflexivity|exists 6; right; now left]|].
    intros j d L H [h I]. destruct j as [|[|j]]; [| |lia]; cbn in H; inversion H; subst; cbn in I.
    + destruct I as [I|[]]. discriminate.
    + destruct I.
  - eexists. split; [vm_compute; reflexivity|]. split; [|vm_compute; reflexivity].
    cbn. unfold device_of. cbn.
    split; [exists [(5, false); (6, true); (7, true)], true; split; [reflexivity|right; now left]|].
    split; [exists [(5, false); (6, true); (7, true)], true; split; [reflexivity|right; right; now left]|].
    split; [right; now left|].
    split; [exists [(5, false); (6, true); (7, true)], true; split; [reflexivity|right; now left]|exact I].
Qed.
