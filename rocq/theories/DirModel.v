(** Atomics mapped on MPI one-sided communication (src/internal/amo_impl.h:12-72, the branch
    OSHMPI_ENABLE_DIRECT_AMO_RUNTIME of 74-137), for any number of PEs and threads.
    MPI applies accumulate operations one by one to a variable of the target, at any time between
    the call that issues the operation and its completion, in any order (the windows have
    accumulate_ordering=none: src/internal/setup_impl.c:111-114). A fetching operation is locally complete when the result is
    there; MPI_Accumulate is locally complete when the buffer may be reused.
    Not modelled: the translation of dest to a displacement (SobjModel, C12), the outstanding flags
    (OrderModel, C43: here the flush waits for everything the PE has issued). That MPI
    operations of different kinds are atomic to each other is the subject of C47. *)
From Verif Require Import Base AmModel AmoModel.
From Verif Require EnvModel.

(** ** MPI calls *)

Inductive mpi_call : Type :=
| MFetchOp (o : EnvModel.mpi_op) (v : option (list Z))    (* MPI_Fetch_and_op; origin may be NULL *)
| MAcc (o : EnvModel.mpi_op) (v : list Z)                 (* MPI_Accumulate, one element *)
| MCas (origin compare : list Z).                         (* MPI_Compare_and_swap *)

(** The target buffer after an accumulate operation: target := target op origin (MPI 3.1, 11.3.4).
    An overflow of a signed type is left undefined; MPI_SUM and bitwise operations are for integers
    here (the templates use no others). *)
Definition acc_op (o : EnvModel.mpi_op) (c : ctype) (tgt : list Z) (org : option (list Z)) : outcome (list Z) :=
  match o, org with
  | EnvModel.ONoOp, _ => Ok tgt
  | EnvModel.OReplace, Some v => Ok v
  | EnvModel.OSum, Some v =>
      if ct_fp c then UB else
      let x := val c tgt + val c v in
      if ct_signed c && negb ((- 2 ^ (ct_bits c - 1) <=? x) && (x <? 2 ^ (ct_bits c - 1))) then UB
      else Ok (repr c x)
  | EnvModel.OBand, Some v => if ct_fp c then Abort else Ok (repr c (Z.land (val c tgt) (val c v)))
  | EnvModel.OBor, Some v => if ct_fp c then Abort else Ok (repr c (Z.lor (val c tgt) (val c v)))
  | EnvModel.OBxor, Some v => if ct_fp c then Abort else Ok (repr c (Z.lxor (val c tgt) (val c v)))
  | EnvModel.OCas, _ => Abort
  | _, None => UB
  end.

(** Effect at the target and result at the origin. *)
Definition mpi_exec (c : ctype) (a : Z) (k : mpi_call) (m : bytes) : outcome (bytes * list Z) :=
  let old := ld m a (ct_width c) in
  match k with
  | MFetchOp o v =>
      do b <- acc_op o c old v;
      Ok (match o with EnvModel.ONoOp => m | _ => st m a b end, old)
  | MAcc o v =>
      do b <- acc_op o c old (Some v);
      Ok (st m a b, [])
  | MCas origin compare =>
      if ct_fp c then Abort else
      Ok (if val c old =? val c compare then st m a origin else m, old)
  end.

(** ** The library *)

(** Bits of the option OSHMPI_AMO_OPS (src/include/oshmpi_impl.h:226-242). *)
Definition api_bit (x : api) : Z :=
  match x with
  | ACswap _ _ => 0 | AFinc => 1 | AInc => 2 | AFadd _ => 3 | AAdd _ => 4 | AFetch => 5 | ASet _ => 6 | ASwap _ => 7
  | AFand _ => 8 | AAnd _ => 9 | AFor _ => 10 | AOr _ => 11 | AFxor _ => 12 | AXor _ => 13
  end.
(** ctx_fetch_op_impl (amo_impl.h:12-32), ctx_set_op_impl (34-51), ctx_cswap_impl (53-72), called by the templates
    (amo_std_typed.c.tpl, amo_ext_typed.c.tpl, amo_bitws_typed.c.tpl). *)
Definition dir_call (c : ctype) (x : api) : mpi_call :=
  let o := EnvModel.direct_op (api_bit x) in
  match x with
  | ACswap cond v => MCas (repr c v) (repr c cond)
  | AFinc => MFetchOp o (Some (repr c 1))
  | AInc => MAcc o (repr c 1)
  | AFetch => MFetchOp o None
  | AFadd v | ASwap v | AFand v | AFor v | AFxor v => MFetchOp o (Some (repr c v))
  | AAdd v | ASet v | AAnd v | AOr v | AXor v => MAcc o (repr c v)
  end.
(** ctx_local_complete_impl (rma_impl.h) waits for the result. *)
Definition waits_result (k : mpi_call) : bool :=
  match k with MFetchOp _ _ | MCas _ _ => true | MAcc _ _ => false end.

(** ** PEs, threads and the network *)

Record dop : Type := mkDop { d_org : Z; d_thr : Z; d_tgt : Z; d_ty : ctype; d_adr : Z; d_api : api }.
Inductive dth : Type := DIdle | DIn (id : Z) (x : dop) | DFlush.
Record dst : Type := mkDst {
  d_mem : Z -> bytes;
  d_pend : list (Z * dop);             (* issued and not applied, in order of issue *)
  d_next : Z;                          (* number of calls so far *)
  d_res : Z -> option (list Z);        (* results that have arrived, by number of the call *)
  d_th : Z -> Z -> dth;
  d_log : Z -> list (Z * dop * list Z) (* what has been applied at each PE: number, operation, result *)
}.
Definition d_init (m0 : Z -> bytes) : dst := mkDst m0 [] 0 (fun _ => None) (fun _ _ => DIdle) (fun _ => []).

(** DCall: a thread calls an atomic routine; DApply: MPI applies the operation of a call; DGo: the
    thread returns from what it waits for; DQuiet: it calls shmem_quiet. Steps that are not possible
    change nothing. *)
Inductive dlab : Type := DCall (x : dop) | DApply (id : Z) | DGo (p i : Z) | DQuiet (p i : Z).
Inductive dev : Type := DStart (id : Z) (x : dop) | DRet (id : Z) (x : dop) (v : option (list Z)) | DQuietStart (p i : Z) | DQuietRet (p i : Z).

Fixpoint take_id (id : Z) (l : list (Z * dop)) : option (list (Z * dop) * dop * list (Z * dop)) :=
  match l with
  | [] => None
  | (j, x) :: r =>
      if j =? id then Some ([], x, r)
      else match take_id id r with Some (u, y, v) => Some ((j, x) :: u, y, v) | None => None end
  end.
Definition dset (f : Z -> Z -> dth) (p i : Z) (x : dth) : Z -> Z -> dth :=
  fun q j => if (q =? p) && (j =? i) then x else f q j.
Definition fupd {X : Type} (f : Z -> X) (k : Z) (x : X) : Z -> X := fun j => if j =? k then x else f j.

Definition dstep (s : dst) (l : dlab) : outcome (dst * list dev) :=
  match l with
  | DCall x =>
      match d_th s (d_org x) (d_thr x) with
      | DIdle =>
          Ok (mkDst (d_mem s) (d_pend s ++ [(d_next s, x)]) (d_next s + 1) (d_res s)
                    (dset (d_th s) (d_org x) (d_thr x) (DIn (d_next s) x)) (d_log s), [DStart (d_next s) x])
      | _ => Ok (s, [])
      end
  | DApply id =>
      match take_id id (d_pend s) with
      | Some (u, x, v) =>
          do r <- mpi_exec (d_ty x) (d_adr x) (dir_call (d_ty x) (d_api x)) (d_mem s (d_tgt x));
          Ok (mkDst (fupd (d_mem s) (d_tgt x) (fst r)) (u ++ v) (d_next s) (fupd (d_res s) id (Some (snd r))) (d_th s)
                    (fupd (d_log s) (d_tgt x) (d_log s (d_tgt x) ++ [(id, x, snd r)])), [])
      | None => Ok (s, [])
      end
  | DGo p i =>
      match d_th s p i with
      | DIn id x =>
          if waits_result (dir_call (d_ty x) (d_api x)) then
            match d_res s id with
            | Some v => Ok (mkDst (d_mem s) (d_pend s) (d_next s) (d_res s) (dset (d_th s) p i DIdle) (d_log s), [DRet id x (Some v)])
            | None => Ok (s, [])
            end
          else Ok (mkDst (d_mem s) (d_pend s) (d_next s) (d_res s) (dset (d_th s) p i DIdle) (d_log s), [DRet id x None])
      | DFlush =>
          if existsb (fun y => d_org (snd y) =? p) (d_pend s) then Ok (s, [])
          else Ok (mkDst (d_mem s) (d_pend s) (d_next s) (d_res s) (dset (d_th s) p i DIdle) (d_log s), [DQuietRet p i])
      | DIdle => Ok (s, [])
      end
  | DQuiet p i =>
      match d_th s p i with
      | DIdle => Ok (mkDst (d_mem s) (d_pend s) (d_next s) (d_res s) (dset (d_th s) p i DFlush) (d_log s), [DQuietStart p i])
      | _ => Ok (s, [])
      end
  end.
Fixpoint drun (s : dst) (ls : list dlab) : outcome (dst * list dev) :=
  match ls with
  | [] => Ok (s, [])
  | l :: r => do x <- dstep s l; do y <- drun (fst x) r; Ok (fst y, snd x ++ snd y)
  end.
