(** Which MPI window each call uses for an object, and which memory each window exposes:
    OSHMPI_sobj_query_attr_ictx (src/include/oshmpi_impl.h:669-717, [loc_of] in OrderModel), window
    creation (src/internal/setup_impl.c:119-200, 212-290, space_impl.c:17-24, 297-325), and the
    callers: rma_impl.h:107-243, amo_impl.h:74-137, p2p_impl.h:35-83, lock_impl.h:27-170,
    coll_activeset_impl.h:176-208.
    Not modelled: addresses inside an object (SobjModel), data. *)
From Verif Require Import Base AmCfgModel OrderModel.

(** The memory exposed: the heap window and the data window one segment each, the dynamic window
    both and the attached spaces, a window of a space that space. *)
Definition exposes (s : ost) (l : loc) (o : oobj) : bool :=
  match l, o with
  | LHeap, OHeap | LData, OData | LSymm, OHeap | LSymm, OData => true
  | LSymm, OSpace k => match find_sp s k with Some sp => os_att sp | None => false end
  | LDef k, OSpace k' | LCtx k _, OSpace k' =>
      (k =? k') && match find_sp s k with Some sp => os_att sp | None => false end
  | _, _ => false
  end.

(** Calls that access an object at a PE: puts, gets and atomics in a context; wait_until and test;
    locks; the get of a broadcast from a root outside the active set. The latter three pass
    SHMEM_CTX_DEFAULT (p2p_impl.h:41, 67, lock_impl.h:42, 97, 150,
    coll_activeset_impl.h:198). *)
Inductive wcall : Type := WRma (x : octx) (k : rkind) (dev : bool) | WWait | WLock | WBcast.
Definition call_ctx (a : wcall) : octx := match a with WRma x _ _ => x | _ => XDefault end.

(** The windows a call uses for object [o]; none if it goes by active messages. *)
Definition windows_of (c : oconf) (s : ost) (o : oobj) (a : wcall) : outcome (list loc) :=
  do l <- loc_of c s (call_ctx a) o;
  match a with
  | WRma x k dev => do d <- is_direct c s x o k dev; Ok (if d then [l] else [])
  | _ => Ok [l]
  end.
