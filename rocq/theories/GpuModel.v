(** Which operations touch which memory when buffers or symmetric objects are on a device: the
    kind of a space (src/internal/space_impl.c:166-197), the type of a pointer
    (src/internal/util/gpu/cuda.h, ze.h, include/oshmpi_util.h:288-293), the choice between MPI RMA
    and active messages (include/oshmpi_impl.h:85-103, 753-787, in OrderModel) and the calls that
    follow it (rma_impl.h, rma_am_impl.h/.c, amo_impl.h, amo_am_impl.h/.c, p2p_impl.h, lock_impl.h,
    coll_activeset_impl.h:176-208, src/shmemx/space.c:49-56).
    Not modelled: data, MPI collectives on device buffers (no option speaks of them), and the
    initialisation of Level Zero. *)
From Verif Require Import Base AmCfgModel OrderModel.

(** Where memory is. *)
Inductive mem : Type := Pageable | Pinned | Device | Managed.

(** --enable-cuda or --enable-ze; neither is the default. *)
Inductive gbuild : Type := BNone | BCuda | BZe.

(** shmemx_memkind_t. *)
Inductive memkind : Type := MkHost | MkCuda | MkZe | MkOther (v : Z).

(** OSHMPI_space_create (space_impl.c:166-197) with space_cuda_malloc (89-110) and space_ze_malloc
    (114-150): the kind recorded in the attributes, and where the memory is. *)
Definition space_mem (b : gbuild) (k : memkind) : outcome (memkind * mem) :=
  match k with
  | MkCuda => match b with BCuda => Ok (MkCuda, Device) | _ => Abort end
  | MkZe => match b with BZe => Ok (MkZe, Device) | _ => Abort end
  | _ => Ok (MkHost, Pageable)
  end.

(** OSHMPIU_gpu_query_pointer_type: cuda.h:13-43, ze.h:13-46, and the fallback
    (oshmpi_util.h:288-293). *)
Inductive ptype : Type := PUnreg | PReg | PDev | PMan.
Definition query_pointer (b : gbuild) (m : mem) : ptype :=
  match b with
  | BNone => PUnreg
  | _ => match m with Pageable => PUnreg | Pinned => PReg | Device => PDev | Managed => PMan end
  end.

(** The test of OSHMPI_check_gpu_direct_rma (759-761). *)
Definition use_gpu (k : memkind) (p : ptype) : bool :=
  match k with MkCuda | MkZe => true | _ => match p with PDev => true | _ => false end end.

(** Ways to touch memory: MPI_Put, MPI_Get, MPI accumulates, MPI point to point, loads and stores
    of the process. *)
Inductive touch : Type := TPut | TGet | TAcc | TPt2pt | TCpu.

(** The memory of an object addressed by a call: spaces may be on a device, the symmetric heap and
    the data segment are not (setup_impl.c:103-135, 170-257). *)
Definition obj_mem (s : ost) (x : octx) (o : oobj) : mem :=
  if obj_dev s x o then Device else Pageable.

(** A put, get or atomic with the user's local buffer in [m]: the source, the destination, the
    place for the old value of a fetching atomic (on the stack for blocking ones). Operands of
    atomics are on the stack. rma_impl.h:107-243 with 13-53 (direct) or rma_am_impl.h:13-174 and
    rma_am_impl.c:11-83; amo_impl.h:13-137 or amo_am_impl.h:13-125 and amo_am_impl.c:84-185. *)
Definition rma_touches (b : gbuild) (c : oconf) (s : ost) (x : octx) (o : oobj) (k : rkind) (m : mem)
  : outcome (list (touch * mem)) :=
  do d <- is_direct c s x o k (use_gpu MkHost (query_pointer b m));
  Ok (match k with
      | KPut | KPutNbi => if d then [(TPut, m); (TPut, obj_mem s x o)] else [(TPt2pt, m); (TPt2pt, obj_mem s x o)]
      | KGet | KGetNbi => if d then [(TGet, m); (TGet, obj_mem s x o)] else [(TPt2pt, m); (TPt2pt, obj_mem s x o)]
      | KFetch | KFetchOp | KCswap =>
          if d then [(TAcc, m); (TAcc, obj_mem s x o)] else [(TPt2pt, m); (TCpu, obj_mem s x o)]
      | KPost => if d then [(TAcc, obj_mem s x o)] else [(TCpu, obj_mem s x o)]
      end).

(** Calls that do not look at the kind of memory: wait_until and test (p2p_impl.h:48, 73), locks
    (lock_impl.h:51-52, 56-71, 105-131, 158: stores by the process and MPI atomics), broadcast from
    a root outside the active set (coll_activeset_impl.h:190-206), and zeroed allocation from a
    space (src/shmemx/space.c:49-56). [t] is the memory of the symmetric object. *)
Inductive ocalls : Type := XWait | XLock | XBcast (dest : mem) | XCalloc.
Definition other_touches (x : ocalls) (t : mem) : list (touch * mem) :=
  match x with
  | XWait => [(TAcc, t)]
  | XLock => [(TCpu, t); (TAcc, t)]
  | XBcast d => [(TGet, d); (TGet, t)]
  | XCalloc => [(TCpu, t)]
  end.
