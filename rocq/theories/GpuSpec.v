(** What MPI is declared to support on device memory. *)
From Verif Require Import Base AmCfgModel OrderModel GpuModel.

(** OSHMPI_MPI_GPU_FEATURES (README): put, get, pt2pt and acc. The process itself cannot access
    device memory. *)
Definition supported (c : oconf) (acc : bool) (t : touch) : bool :=
  match t with TPut => oc_gput c | TGet => oc_gget c | TPt2pt => oc_gpt2pt c | TAcc => acc | TCpu => false end.
Definition device_safe (c : oconf) (acc : bool) (l : list (touch * mem)) : Prop :=
  forall t, In (t, Device) l -> supported c acc t = true.

(** The object is in a space whose memory is on a device. *)
Definition on_device (s : ost) (x : octx) (o : oobj) : Prop :=
  exists sp, In sp (o_spaces s) /\ os_dev sp = true /\
    match x with XSpace k _ => os_id sp = k | XDefault => o = OSpace (os_id sp) end.

Definition is_rma (k : rkind) : Prop := k = KPut \/ k = KPutNbi \/ k = KGet \/ k = KGetNbi.
(** The feature a transfer needs to be mapped on MPI RMA. *)
Definition feature (c : oconf) (k : rkind) : bool :=
  match k with KPut | KPutNbi => oc_gput c | _ => oc_gget c end.
(** The way of transfers is decided for each call. *)
Definition decides (c : oconf) : Prop := oc_rma c = CRuntime /\ oc_rma_dbg c = DbgAuto.
(** Transfers go by active messages in any case. *)
Definition by_am (c : oconf) : Prop := oc_rma c = CAm \/ oc_rma c = CRuntime /\ oc_rma_dbg c = DbgAm.
(** Transfers go by MPI RMA in any case. *)
Definition by_rma (c : oconf) : Prop := oc_rma c = CDirect \/ oc_rma c = CRuntime /\ oc_rma_dbg c = DbgDirect.
Definition fetching (k : rkind) : Prop := k = KFetch \/ k = KFetchOp \/ k = KCswap.
