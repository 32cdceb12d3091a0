(** Property theorems C96 (memory on devices). *)
From Verif Require Import Base AmCfgModel OrderModel GpuModel GpuSpec GpuProofs.

(** The four parts of OSHMPI_MPI_GPU_FEATURES in a configuration that decides for each call. *)
Definition gcfg (put get p2p amo : bool) : oconf := mkOconf 2 false true amo CRuntime DbgAuto put get p2p.
(** A space on a device, attached, with one context. *)
Definition gspace : list olab :=
  [OCall 0 (CCreate 7 1 true); OGo 0 true; OGo 0 true; OCall 0 (CAttach 7); OGo 0 true; OGo 0 true].
Definition gst (c : oconf) : ost := match orun c o_init gspace with Ok (s, _) => s | _ => o_init end.
Lemma gst_reach c : oc_dyn c = false -> exists ls log, orun c o_init ls = Ok (gst c, log).
Proof. intros D. exists gspace. unfold gst. destruct c. cbn in *. eexists. reflexivity. Qed.
Lemma gst_dev c : on_device (gst c) XDefault (OSpace 7).
Proof. exists (mkOsp 7 1 true true). destruct c. split; [left; reflexivity|]. split; reflexivity. Qed.

(** ** C96: device memory *)

(** Builds that decide for each call, with support for a device: whatever the spaces and the state,
    a put or get touches device memory only by MPI operations that are listed; it stops the program
    exactly when a device is involved and neither its own feature nor point to point is listed.
    Missing: builds that do not decide, atomics, waits, locks and zeroed allocation (below). *)
Theorem C96_rma_partial : forall c b acc ls s log x o k m,
  decides c -> is_rma k -> b <> BNone -> orun c o_init ls = Ok (s, log) ->
  match rma_touches b c s x o k m with
  | Ok l => device_safe c acc l /\ (m = Device \/ on_device s x o -> feature c k = true \/ oc_gpt2pt c = true)
  | Abort => (m = Device \/ on_device s x o) /\ feature c k = false /\ oc_gpt2pt c = false
  | _ => False
  end.
Proof. exact rma_safe. Qed.
Print Assumptions C96_rma_partial.
Example C96_rma_ex :
  let s := gst (gcfg false true true false) in
  decides (gcfg false true true false) /\
  rma_touches BCuda (gcfg false true true false) s XDefault (OSpace 7) KPut Pageable =
    Ok [(TPt2pt, Pageable); (TPt2pt, Device)] /\
  rma_touches BCuda (gcfg false true true false) s XDefault (OSpace 7) KGet Pinned =
    Ok [(TGet, Pinned); (TGet, Device)] /\
  rma_touches BZe (gcfg false true false false) s XDefault OHeap KPut Device = Abort.
Proof. cbn zeta. split; [split; reflexivity|]. split; [reflexivity|]. split; reflexivity. Qed.

(** Transfers between host buffers are mapped on MPI RMA, whatever the features. *)
Theorem C96_host : forall c b ls s log x o k m,
  decides c -> is_rma k -> orun c o_init ls = Ok (s, log) -> m <> Device -> ~ on_device s x o ->
  rma_touches b c s x o k m =
    Ok (match k with KPut | KPutNbi => [(TPut, m); (TPut, Pageable)] | _ => [(TGet, m); (TGet, Pageable)] end).
Proof. exact rma_host. Qed.
Print Assumptions C96_host.
Example C96_host_ex : let c := gcfg false false false false in
  decides c /\ is_rma KPutNbi /\ ~ on_device (gst c) XDefault OHeap /\
  rma_touches BCuda c (gst c) XDefault OHeap KPutNbi Managed = Ok [(TPut, Managed); (TPut, Pageable)].
Proof.
  cbn zeta. split; [split; reflexivity|]. split; [right; left; reflexivity|]. split; [|reflexivity].
  intros (sp & _ & _ & E). discriminate.
Qed.

(** Builds and debug modes that always use active messages: safe exactly if point to point is
    listed; those that always use MPI RMA: exactly if the operation is listed. Neither checks. *)
Theorem C96_am_partial : forall c b acc ls s log x o k m,
  by_am c -> is_rma k -> orun c o_init ls = Ok (s, log) ->
  exists l, rma_touches b c s x o k m = Ok l /\
    (device_safe c acc l <-> (m = Device \/ on_device s x o -> oc_gpt2pt c = true)).
Proof. exact am_safe. Qed.
Theorem C96_direct_partial : forall c b acc ls s log x o k m,
  by_rma c -> is_rma k -> orun c o_init ls = Ok (s, log) ->
  exists l, rma_touches b c s x o k m = Ok l /\
    (device_safe c acc l <-> (m = Device \/ on_device s x o -> feature c k = true)).
Proof. exact direct_safe. Qed.
Print Assumptions C96_am_partial.
Print Assumptions C96_direct_partial.
Theorem C96_rma_refuted : exists c b ls s log k l, is_rma k /\ b <> BNone /\ orun c o_init ls = Ok (s, log) /\
  rma_touches b c s XDefault (OSpace 7) k Pageable = Ok l /\ ~ device_safe c true l.
Proof.
  pose (c := mkOconf 2 false true true CDirect DbgAuto false false true).
  destruct (gst_reach c eq_refl) as (ls & log & R).
  exists c, BCuda, ls, (gst c), log, KPut, [(TPut, Pageable); (TPut, Device)].
  split; [left; reflexivity|]. split; [discriminate|]. split; [exact R|]. split; [reflexivity|].
  intros H. specialize (H TPut (or_intror (or_introl eq_refl))). discriminate.
Qed.
Print Assumptions C96_rma_refuted.

(** Atomics, in every build: safe on a device exactly if they are mapped on MPI and acc is listed.
    Neither is looked at. *)
Theorem C96_amo_partial : forall c b acc ls s log x o k m,
  fetching k \/ k = KPost -> orun c o_init ls = Ok (s, log) ->
  exists l, rma_touches b c s x o k m = Ok l /\
    (device_safe c acc l <->
     (on_device s x o -> oc_amo_direct c = true /\ acc = true) /\
     (fetching k -> m = Device -> if oc_amo_direct c then acc = true else oc_gpt2pt c = true)).
Proof. exact amo_safe. Qed.
Print Assumptions C96_amo_partial.
Example C96_amo_ex : let c := gcfg true true true true in
  rma_touches BCuda c (gst c) XDefault (OSpace 7) KPost Pageable = Ok [(TAcc, Device)] /\
  device_safe c true [(TAcc, Device)].
Proof. split; [reflexivity|]. intros t [E|[]]. now inversion E. Qed.
(** All features but acc are listed and MPI atomics are used all the same; or all features are
    listed, atomics go by active messages, and the process of the target itself reads and writes
    device memory. *)
Theorem C96_amo_refuted : exists c b ls s log l, b <> BNone /\ decides c /\ orun c o_init ls = Ok (s, log) /\
  rma_touches b c s XDefault (OSpace 7) KFetchOp Pageable = Ok l /\ In (TAcc, Device) l /\
  ~ device_safe c false l.
Proof.
  pose (c := gcfg true true true true). destruct (gst_reach c eq_refl) as (ls & log & R).
  exists c, BCuda, ls, (gst c), log, [(TAcc, Pageable); (TAcc, Device)].
  split; [discriminate|]. split; [split; reflexivity|]. split; [exact R|]. split; [reflexivity|].
  split; [right; left; reflexivity|].
  intros H. specialize (H TAcc (or_intror (or_introl eq_refl))). discriminate.
Qed.
Theorem C96_amo_am_refuted : exists c b ls s log l, b <> BNone /\ decides c /\ orun c o_init ls = Ok (s, log) /\
  (forall t, t <> TCpu -> supported c true t = true) /\
  rma_touches b c s XDefault (OSpace 7) KPost Pageable = Ok l /\ In (TCpu, Device) l /\ ~ device_safe c true l.
Proof.
  pose (c := gcfg true true true false). destruct (gst_reach c eq_refl) as (ls & log & R).
  exists c, BCuda, ls, (gst c), log, [(TCpu, Device)].
  split; [discriminate|]. split; [split; reflexivity|]. split; [exact R|].
  split; [intros [| | | |]; cbn; congruence|]. split; [reflexivity|].
  split; [left; reflexivity|]. intros H. specialize (H TCpu (or_introl eq_refl)). discriminate.
Qed.
Print Assumptions C96_amo_refuted.
Print Assumptions C96_amo_am_refuted.

(** The other calls, exactly. *)
Theorem C96_other_partial : forall c acc x t, device_safe c acc (other_touches x t) <->
  match x with
  | XWait => t = Device -> acc = true
  | XLock | XCalloc => t <> Device
  | XBcast d => t = Device \/ d = Device -> oc_gget c = true
  end.
Proof. exact other_safe. Qed.
Print Assumptions C96_other_partial.
(** shmemx_space_calloc on a device and a lock there: loads and stores of the process, although MPI
    supports everything. *)
Theorem C96_calloc_refuted : exists b k k' m c, space_mem b k = Ok (k', m) /\
  (forall t, t <> TCpu -> supported c true t = true) /\
  ~ device_safe c true (other_touches XCalloc m) /\ ~ device_safe c true (other_touches XLock m).
Proof.
  exists BCuda, MkCuda, MkCuda, Device, (gcfg true true true true). split; [reflexivity|].
  split; [intros [| | | |]; cbn; congruence|].
  split; intros H; specialize (H TCpu (or_introl eq_refl)); discriminate.
Qed.
Print Assumptions C96_calloc_refuted.

(** A space is on a device exactly if it was asked for, and the attributes the decision reads say so;
    without support in the build the program is stopped. *)
Theorem C96_space : forall b k k' m, space_mem b k = Ok (k', m) ->
  (m = Device <-> k = MkCuda \/ k = MkZe) /\ (use_gpu k' PUnreg = true <-> m = Device).
Proof. exact space_recorded. Qed.
Print Assumptions C96_space.
Example C96_space_ex : space_mem BZe MkZe = Ok (MkZe, Device) /\ space_mem BCuda (MkOther 9) = Ok (MkHost, Pageable) /\
  space_mem BNone MkCuda = Abort.
Proof. split; [reflexivity|]. split; reflexivity. Qed.
