(** Outstanding operations of a PE and the calls that complete them: shmem_quiet, shmem_fence,
    their context versions and the barriers (src/internal/order_impl.h, coll_impl.h:12-32,
    coll_activeset_impl.h:118-143, rma_impl.h, amo_impl.h, space_impl.c).

    An operation is pending from the MPI call that starts it until it is complete at its target.
    What is kept of the code is which window or which active-message channel an operation uses,
    the flags that say whether something is outstanding, and the order of these steps inside each
    call, so that the threads of a PE interleave between any two of them. Data are not modelled
    here (SobjModel, AmModel do that). *)
From Verif Require Import Base AmCfgModel.

(** ** Configuration *)

Record oconf : Type := mkOconf {
  oc_n : Z;               (* number of PEs *)
  oc_dyn : bool;          (* OSHMPI_ENABLE_DYNAMIC_WIN *)
  oc_track : bool;        (* OSHMPI_ENABLE_OP_TRACKING *)
  oc_amo_direct : bool;   (* OSHMPI_ENABLE_DIRECT_AMO_RUNTIME (include/oshmpi_impl.h:61-74) *)
  oc_rma : choice;        (* --enable-rma (85-103) *)
  oc_rma_dbg : dbg;       (* OSHMPI_env.rma_dbg_mode; DbgAuto when debugging is disabled *)
  oc_gput : bool; oc_gget : bool; oc_gpt2pt : bool   (* OSHMPI_MPI_GPU_PUT, _GET, _PT2PT *)
}.

(** OSHMPI_check_gpu_direct_rma (oshmpi_impl.h:753-787): [dev] when the symmetric object or the
    local buffer is in device memory. *)
Definition check_gpu_direct (c : oconf) (dev put : bool) : outcome bool :=
  if negb dev then Ok true
  else let direct := if put then oc_gput c else oc_gget c in
       if negb direct && negb (oc_gpt2pt c) then Abort else Ok direct.

(** OSHMPI_ENABLE_DIRECT_RMA_RUNTIME (85-103). *)
Definition direct_rma (c : oconf) (dev put : bool) : outcome bool :=
  match oc_rma c with
  | CAm => Ok false
  | CDirect => Ok true
  | CRuntime =>
      match oc_rma_dbg c with
      | DbgDirect => Ok true
      | DbgAuto => check_gpu_direct c dev put
      | DbgAm => Ok false
      end
  end.

(** The test that lets OSHMPI_am_flush return at once (am_impl.h:32-33). *)
Definition no_am (c : oconf) : bool :=
  oc_amo_direct c && match oc_rma c with CDirect => true | _ => false end.

(** ** State *)

(** The internal contexts (OSHMPI_ictx_t): a window and its outstanding_op flag. [LDef k] is
    default_ictx of space [k], [LCtx k i] the one of ctx_list[i]. *)
Inductive loc : Type := LHeap | LData | LSymm | LDef (k : Z) | LCtx (k i : Z).

Definition loc_eqb (a b : loc) : bool :=
  match a, b with
  | LHeap, LHeap | LData, LData | LSymm, LSymm => true
  | LDef k, LDef k' => k =? k'
  | LCtx k i, LCtx k' i' => (k =? k') && (i =? i')
  | _, _ => false
  end.

(** OSHMPI_space_t: number of contexts, device memory, attached (the windows exist; ctx_list is
    not NULL exactly when it is attached and has contexts). *)
Record ospace : Type := mkOsp { os_id : Z; os_nctx : Z; os_dev : bool; os_att : bool }.

(** Way of an operation: window of an internal context, or active message to a PE. *)
Inductive route : Type := RWin (l : loc) | RAm (t : Z).
Record pend : Type := mkPend { pd_id : Z; pd_route : route }.

Inductive octx : Type := XDefault | XSpace (k i : Z).
Inductive oobj : Type := OHeap | OData | OSpace (k : Z).
(** put/p/iput; put_nbi; get/g/iget; get_nbi; atomic_fetch; fetching atomics; non-fetching
    atomics; compare_swap. *)
Inductive rkind : Type := KPut | KPutNbi | KGet | KGetNbi | KFetch | KFetchOp | KPost | KCswap.

(** An active set; shmem_barrier_all is the set of all PEs. *)
Record bset : Type := mkBset { b_start : Z; b_log : Z; b_size : Z }.
Definition members (b : bset) : list Z :=
  map (fun i => b_start b + Z.of_nat i * 2 ^ b_log b) (seq 0 (Z.to_nat (b_size b))).
Definition world_set (c : oconf) : bset := mkBset 0 0 (oc_n c).
Definition bset_eqb (a b : bset) : bool :=
  (b_start a =? b_start b) && (b_log a =? b_log b) && (b_size a =? b_size b).

Inductive ocall : Type :=
| CRma (x : octx) (o : oobj) (k : rkind) (id t : Z) (dev : bool)
| CQuiet (x : octx)
| CFence (x : octx)
| CBarrier (b : bset)
| CCreate (k n : Z) (dev : bool)
| CAttach (k : Z)
| CDetach (k : Z)
| CDestroy (k : Z).

(** Steps inside a call. *)
Inductive mi : Type :=
| MIssue (id : Z) (l : loc)     (* MPI_Put, MPI_Get, MPI_Fetch_and_op, ... *)
| MSetFlag (l : loc)            (* OSHMPI_SET_OUTSTANDING_OP(.., OSHMPI_OP_OUTSTANDING) *)
| MLocal (id : Z)               (* MPI_Win_flush_local after an operation that only reads *)
| MAmPost (id t : Z)            (* MPI_Isend of the packet *)
| MAmAck (id t : Z)             (* the reply has arrived *)
| MAmFlag (t : Z) (v : bool)    (* OSHMPI_am.outstanding_op_flags[pe] *)
| MCheck (l : loc)              (* CHECK_FLAG *)
| MFlushAll (l : loc)           (* MPI_Win_flush_all *)
| MReset (l : loc)              (* RESET_FLAG *)
| MAmFlush (t : Z)              (* OSHMPI_am_flush, target t *)
| MEnter (b : bset) | MLeave (b : bset)   (* MPI_Barrier *)
| MSpace (c : ocall).           (* shmemx_space_create/attach/detach/destroy *)

Inductive oev : Type :=
| EStart (i : Z) (c : ocall)
| ERet (i : Z) (c : ocall)
| EDone (id : Z).

Record ost : Type := mkOst {
  o_pend : list pend;                 (* in order of issue *)
  o_flag : loc -> bool;               (* outstanding_op *)
  o_am : Z -> bool;                   (* outstanding_op_flags *)
  o_spaces : list ospace;             (* space_list *)
  o_thr : Z -> option (ocall * list mi);
  o_ent : bset -> Z                   (* barriers entered *)
}.

Definition set_pend s x := mkOst x (o_flag s) (o_am s) (o_spaces s) (o_thr s) (o_ent s).
Definition set_flag s l v :=
  mkOst (o_pend s) (fun l' => if loc_eqb l l' then v else o_flag s l') (o_am s) (o_spaces s) (o_thr s) (o_ent s).
Definition set_am s t v :=
  mkOst (o_pend s) (o_flag s) (fun t' => if t =? t' then v else o_am s t') (o_spaces s) (o_thr s) (o_ent s).
Definition set_sp s x := mkOst (o_pend s) (o_flag s) (o_am s) x (o_thr s) (o_ent s).
Definition set_thr s i x :=
  mkOst (o_pend s) (o_flag s) (o_am s) (o_spaces s) (fun j => if i =? j then x else o_thr s j) (o_ent s).
Definition set_ent s b v :=
  mkOst (o_pend s) (o_flag s) (o_am s) (o_spaces s) (o_thr s) (fun b' => if bset_eqb b b' then v else o_ent s b').

(** After shmem_init (flags cleared: setup_impl.c:123, 211, 250, am_impl.c:203). *)
Definition o_init : ost := mkOst [] (fun _ => false) (fun _ => false) [] (fun _ => None) (fun _ => 0).

Definition find_sp (s : ost) (k : Z) : option ospace := find (fun x => os_id x =? k) (o_spaces s).

(** ** What each call does *)

(** OSHMPI_sobj_query_attr_ictx (oshmpi_impl.h:669-717). A context exists once its space is
    attached; using another one is undefined behaviour. An object of a space that is not attached
    has no window (MPI_WIN_NULL, or memory not attached to the dynamic window): MPI error. *)
Definition loc_of (c : oconf) (s : ost) (x : octx) (o : oobj) : outcome loc :=
  match x with
  | XSpace k i =>
      match find_sp s k with
      | Some sp => if os_att sp && (0 <=? i) && (i <? os_nctx sp) then Ok (LCtx k i) else UB
      | None => UB
      end
  | XDefault =>
      match o with
      | OHeap => Ok (if oc_dyn c then LSymm else LHeap)
      | OData => Ok (if oc_dyn c then LSymm else LData)
      | OSpace k =>
          match find_sp s k with
          | Some sp => if os_att sp then Ok (if oc_dyn c then LSymm else LDef k) else Abort
          | None => Abort
          end
      end
  end.

Definition obj_dev (s : ost) (x : octx) (o : oobj) : bool :=
  match x, o with
  | XSpace k _, _ | XDefault, OSpace k =>
      match find_sp s k with Some sp => os_dev sp | None => false end
  | _, _ => false
  end.

Definition is_amo (k : rkind) : bool :=
  match k with KFetch | KFetchOp | KPost | KCswap => true | _ => false end.
Definition is_put (k : rkind) : bool := match k with KPut | KPutNbi => true | _ => false end.

(** OSHMPI_ctx_put/get... (rma_impl.h:107-243), OSHMPI_amo_* (amo_impl.h:74-137). *)
Definition is_direct (c : oconf) (s : ost) (x : octx) (o : oobj) (k : rkind) (dev : bool) : outcome bool :=
  if is_amo k then Ok (oc_amo_direct c) else direct_rma c (dev || obj_dev s x o) (is_put k).

(** The direct path: rma_impl.h:13-53, 107-243 and amo_impl.h:13-77. *)
Definition direct_steps (k : rkind) (id : Z) (l : loc) : list mi :=
  match k with
  | KPut | KPutNbi | KGetNbi | KFetchOp | KPost | KCswap => [MIssue id l; MSetFlag l]
  | KGet | KFetch => [MIssue id l; MLocal id]
  end.

(** The active-message path: rma_am_impl.h:13-174, amo_am_impl.h:13-125. *)
Definition am_steps (k : rkind) (id t : Z) : list mi :=
  match k with
  | KPut | KPutNbi | KPost => [MAmPost id t; MAmFlag t true]
  | _ => [MAmPost id t; MAmAck id t; MAmFlag t false]
  end.

Definition ctx_locs (sp : ospace) : list loc :=
  map (fun i => LCtx (os_id sp) (Z.of_nat i)) (seq 0 (Z.to_nat (os_nctx sp))).

(** The loop over the spaces (order_impl.h:49-61, 84-94): the contexts are read through ctx_list,
    which is NULL before attach. *)
Fixpoint space_locs (c : oconf) (l : list ospace) : outcome (list loc) :=
  match l with
  | [] => Ok []
  | sp :: rest =>
      if (0 <? os_nctx sp) && negb (os_att sp) then UB
      else do r <- space_locs c rest;
           Ok (ctx_locs sp ++ (if oc_dyn c then [] else [LDef (os_id sp)]) ++ r)
  end.

Definition symm_locs (c : oconf) : list loc := if oc_dyn c then [LSymm] else [LHeap; LData].
Definition pes (c : oconf) : list Z := map Z.of_nat (seq 0 (Z.to_nat (oc_n c))).

(** OSHMPI_am_flush / OSHMPI_am_flush_all (am_impl.h:22-92), one step for each target: AmModel and
    C37 deal with what is inside. *)
Definition am_flush_steps (c : oconf) (l : list Z) : list mi :=
  if no_am c then [] else map MAmFlush l.

(** OSHMPI_ctx_quiet (order_impl.h:68-96); OSHMPI_ctx_fence (36-66) has the same body. *)
Definition quiet_steps (c : oconf) (s : ost) (x : octx) : outcome (list mi) :=
  match x with
  | XSpace k i => do l <- loc_of c s x OHeap; Ok [MCheck l]
  | XDefault =>
      do sl <- space_locs c (o_spaces s);
      Ok (map MCheck (symm_locs c) ++ map MCheck sl ++ am_flush_steps c (pes c))
  end.

(** OSHMPI_barrier_all (coll_impl.h:12-32), OSHMPI_barrier (coll_activeset_impl.h:118-143): the
    flushes look at no flag and reset none. *)
Definition barrier_steps (c : oconf) (b : bset) : list mi :=
  map MFlushAll (symm_locs c) ++ am_flush_steps c (members b) ++ [MEnter b; MLeave b].

Definition call_steps (c : oconf) (s : ost) (cl : ocall) : outcome (list mi) :=
  match cl with
  | CRma x o k id t dev =>
      do l <- loc_of c s x o;
      do d <- is_direct c s x o k dev;
      Ok (if d then direct_steps k id l else am_steps k id t)
  | CQuiet x | CFence x => quiet_steps c s x
  | CBarrier b => Ok (barrier_steps c b)
  | _ => Ok [MSpace cl]
  end.

(** ** Steps *)

Definition done_ids (f : pend -> bool) (s : ost) : ost * list oev :=
  (set_pend s (filter (fun p => negb (f p)) (o_pend s)),
   map (fun p => EDone (pd_id p)) (filter f (o_pend s))).

Definition on_win (l : loc) (p : pend) : bool :=
  match pd_route p with RWin l' => loc_eqb l l' | RAm _ => false end.
Definition on_am (t : Z) (p : pend) : bool :=
  match pd_route p with RWin _ => false | RAm t' => t =? t' end.
Definition is_id (id : Z) (p : pend) : bool := pd_id p =? id.

(** The window of an internal context exists: heap and data windows or the dynamic window always,
    the others while their space is attached (space_impl.c:205-210, 295-331, 334-359). *)
Definition win_ok (c : oconf) (s : ost) (l : loc) : bool :=
  match l with
  | LHeap | LData => negb (oc_dyn c)
  | LSymm => oc_dyn c
  | LDef k => negb (oc_dyn c) && match find_sp s k with Some sp => os_att sp | None => false end
  | LCtx k i =>
      match find_sp s k with
      | Some sp => os_att sp && (0 <=? i) && (i <? os_nctx sp)
      | None => false
      end
  end.

Definition upd_sp (k : Z) (att : bool) (l : list ospace) : list ospace :=
  map (fun sp => if os_id sp =? k then mkOsp k (os_nctx sp) (os_dev sp) att else sp) l.

Definition of_space (k : Z) (p : pend) : bool :=
  match pd_route p with
  | RWin (LDef k') | RWin (LCtx k' _) => k =? k'
  | _ => false
  end.
Definition clear_flags (k : Z) (s : ost) : ost :=
  mkOst (o_pend s)
    (fun l => match l with LDef k' | LCtx k' _ => if k =? k' then false else o_flag s l | _ => o_flag s l end)
    (o_am s) (o_spaces s) (o_thr s) (o_ent s).

(** Space calls, each as one step. OSHMPI_space_create (space_impl.c:166-222) stores 0 in the
    flag of default_ictx. OSHMPI_space_attach (276-331) makes the windows and clears the flags
    (17-24). OSHMPI_space_detach (334-359) unlocks the windows, which completes their operations,
    and frees them; it leaves the flag of default_ictx as it is. OSHMPI_space_destroy (225-249).
    Attaching an attached space, detaching one that is not, or destroying an attached one is
    undefined behaviour. *)
Definition space_step (c : oconf) (s : ost) (cl : ocall) : outcome (ost * list oev) :=
  match cl with
  | CCreate k n dev =>
      match find_sp s k with
      | Some _ => UB
      | None => Ok (set_sp (clear_flags k s) (o_spaces s ++ [mkOsp k n dev false]), [])
      end
  | CAttach k =>
      match find_sp s k with
      | Some sp => if os_att sp then UB else Ok (set_sp (clear_flags k s) (upd_sp k true (o_spaces s)), [])
      | None => UB
      end
  | CDetach k =>
      match find_sp s k with
      | Some sp => if os_att sp then
                     let '(s1, ev) := done_ids (of_space k) s in
                     Ok (set_sp s1 (upd_sp k false (o_spaces s)), ev)
                   else UB
      | None => UB
      end
  | CDestroy k =>
      match find_sp s k with
      | Some sp => if os_att sp then UB
                   else Ok (set_sp s (filter (fun x => negb (os_id x =? k)) (o_spaces s)), [])
      | None => UB
      end
  | _ => Ok (s, [])
  end.

(** One step of a thread; [r] tells whether all members of the barrier have entered it. The step
    list that remains comes last. *)
Definition mi_step (c : oconf) (r : bool) (s : ost) (m : mi) (rest : list mi)
  : outcome (ost * list oev * list mi) :=
  match m with
  | MIssue id l =>
      if win_ok c s l then Ok (set_pend s (o_pend s ++ [mkPend id (RWin l)]), [], rest) else Abort
  | MSetFlag l => Ok (if oc_track c then set_flag s l true else s, [], rest)
  | MLocal id => Ok (done_ids (is_id id) s, rest)
  | MAmPost id t => Ok (set_pend s (o_pend s ++ [mkPend id (RAm t)]), [], rest)
  | MAmAck id t => Ok (done_ids (on_am t) s, rest)
  | MAmFlag t v => Ok (set_am s t v, [], rest)
  | MCheck l =>
      if oc_track c && negb (o_flag s l) then Ok (s, [], rest)
      else Ok (s, [], MFlushAll l :: MReset l :: rest)
  | MFlushAll l => if win_ok c s l then Ok (done_ids (on_win l) s, rest) else Abort
  | MReset l => Ok (if oc_track c then set_flag s l false else s, [], rest)
  | MAmFlush t =>
      if o_am s t then
        let '(s1, ev) := done_ids (on_am t) s in Ok (set_am s1 t false, ev, rest)
      else Ok (s, [], rest)
  | MEnter b => Ok (set_ent s b (o_ent s b + 1), [], rest)
  | MLeave b => if r then Ok (s, [], rest) else Ok (s, [], m :: rest)
  | MSpace cl => do x <- space_step c s cl; Ok (x, rest)
  end.

(** [OCall]: thread [i] calls; [OGo]: it makes a step, or returns; [ONet]: a pending operation
    completes. What is not possible leaves the state as it is. *)
Inductive olab : Type := OCall (i : Z) (c : ocall) | OGo (i : Z) (r : bool) | ONet (id : Z).

Definition ostep (c : oconf) (s : ost) (lb : olab) : outcome (ost * list oev) :=
  match lb with
  | OCall i cl =>
      match o_thr s i with
      | Some _ => Ok (s, [])
      | None => do m <- call_steps c s cl; Ok (set_thr s i (Some (cl, m)), [EStart i cl])
      end
  | OGo i r =>
      match o_thr s i with
      | None => Ok (s, [])
      | Some (cl, []) => Ok (set_thr s i None, [ERet i cl])
      | Some (cl, m :: rest) =>
          do x <- mi_step c r s m rest;
          let '(s1, ev, rest') := x in
          Ok (set_thr s1 i (Some (cl, rest')), ev)
      end
  | ONet id => Ok (done_ids (is_id id) s)
  end.

Fixpoint orun (c : oconf) (s : ost) (ls : list olab) : outcome (ost * list oev) :=
  match ls with
  | [] => Ok (s, [])
  | lb :: rest =>
      do x <- ostep c s lb;
      do y <- orun c (fst x) rest;
      Ok (fst y, snd x ++ snd y)
  end.

(** ** All PEs *)

Inductive glab : Type := GCall (p i : Z) (c : ocall) | GGo (p i : Z) | GNet (p id : Z).

(** MPI_Barrier: a PE leaves when every member has entered as many barriers of the set as it. *)
Definition bar_ready (g : Z -> ost) (p i : Z) : bool :=
  match o_thr (g p) i with
  | Some (_, MLeave b :: _) => forallb (fun q => o_ent (g p) b <=? o_ent (g q) b) (members b)
  | _ => true
  end.

Definition gstep (c : oconf) (g : Z -> ost) (lb : glab) : outcome ((Z -> ost) * list (Z * oev)) :=
  let '(p, l) := match lb with
                 | GCall p i cl => (p, OCall i cl)
                 | GGo p i => (p, OGo i (bar_ready g p i))
                 | GNet p id => (p, ONet id)
                 end in
  do x <- ostep c (g p) l;
  Ok (fun q => if q =? p then fst x else g q, map (pair p) (snd x)).

Fixpoint grun (c : oconf) (g : Z -> ost) (ls : list glab) : outcome ((Z -> ost) * list (Z * oev)) :=
  match ls with
  | [] => Ok (g, [])
  | lb :: rest =>
      do x <- gstep c g lb;
      do y <- grun c (fst x) rest;
      Ok (fst y, snd x ++ snd y)
  end.

Definition g_init : Z -> ost := fun _ => o_init.
