(** Model of symmetric objects: handles, address translation, the MPI windows behind them,
    set-up of heap/data, creation/attachment of spaces, and contiguous put/get on the direct
    (MPI RMA) and active-message paths. *)
From Verif Require Import Base.

(** ** Handles *)

(** OSHMPI_sobj_kind_t (src/include/oshmpi_impl.h:40-45). *)
Definition SYMM_DATA : Z := 0.
Definition SYMM_HEAP : Z := 1.
Definition SPACE_HEAP : Z := 2.
Definition SPACE_ATTACHED_HEAP : Z := 3.

(** Masks and shifts (oshmpi_impl.h:47-53). *)
Definition KIND_MASK : Z := 0xc0000000.
Definition KIND_SHIFT : Z := 30.
Definition SYMMBIT_MASK : Z := 0x20000000.
Definition SYMMBIT_SHIFT : Z := 29.
Definition IDX_MASK : Z := 0x1FFFFFFF.

(** OSHMPI_SOBJ_HANDLE_GET_KIND / GET_SYMMBIT / CHECK_SYMMBIT / GET_IDX (oshmpi_impl.h:54-57). *)
Definition handle_kind (h : Z) : Z := Z.shiftr (Z.land h KIND_MASK) KIND_SHIFT.
Definition handle_symm (h : Z) : Z := Z.shiftr (Z.land h SYMMBIT_MASK) SYMMBIT_SHIFT.
Definition handle_check_symm (h : Z) : bool := negb (Z.land h SYMMBIT_MASK =? 0).
Definition handle_idx (h : Z) : Z := Z.land h IDX_MASK.

(** OSHMPI_SOBJ_SET_HANDLE (oshmpi_impl.h:58-59) assigned to the uint32_t field by
    OSHMPI_sobj_set_handle (oshmpi_impl.h:622-627). *)
Definition set_handle (kind symm idx : Z) : Z :=
  wrap32 (Z.lor (Z.lor (Z.shiftl kind KIND_SHIFT) (Z.shiftl symm SYMMBIT_SHIFT)) idx).

(** ** Objects, internal contexts, spaces, PEs *)

(** OSHMPI_disp_mode_t (oshmpi_impl.h:118-121). *)
Inductive dmode : Type := RelDisp | AbsDisp.

(** An MPI window handle: MPI_WIN_NULL or the [k]-th window created in the run. Windows are
    created collectively, so all PEs' handles of one window carry the same number. *)
Inductive winid : Type := WinNull | Win (k : Z).

(** OSHMPI_ictx_t (oshmpi_impl.h:135-141); the outstanding_op flag is modelled in OrderModel. *)
Record ictx : Type := mkIctx { ic_win : winid; ic_mode : dmode }.

(** OSHMPI_sobj_attr_t (oshmpi_impl.h:143-152). [a_offs = None] is a NULL base_offsets.
    memkind only selects between direct and AM path and is a parameter there. *)
Record attr : Type := mkAttr { a_handle : Z; a_base : Z; a_size : Z; a_offs : option (list Z) }.

(** OSHMPI_ctx_t (oshmpi_impl.h:154-158). The used_flag is modelled in SpaceCtxModel. *)
Record ctx : Type := mkCtx { cx_ictx : ictx; cx_attr : attr }.

(** OSHMPI_space_t (oshmpi_impl.h:160-171). [sp_name] stands for the user's handle of the
    space: the same program variable on every PE. The memory pool is MemPoolModel's. *)
Record space : Type := mkSpace {
  sp_name : Z; sp_attr : attr; sp_default : ictx; sp_nctx : Z; sp_ctxs : option (list ctx) }.

(** The part of OSHMPI_global_t (oshmpi_impl.h:185-225) that translation uses, plus the file
    static space_attach_idx (src/internal/space_impl.c:273) and the PE's byte memory. *)
Record pe : Type := mkPe {
  pe_heap : attr; pe_heap_ictx : ictx;
  pe_data : attr; pe_data_ictx : ictx;
  pe_spaces : list space; pe_attach_idx : Z;
  pe_mem : Z -> Z }.

(** State of MPI: for each window created by MPI_Win_create/MPI_Win_allocate the base and size
    exposed by each PE; and for the dynamic window the regions attached by each PE. *)
Record mpi : Type := mkMpi {
  m_next : Z; m_wins : list (Z * list (Z * Z)); m_dyn : list (list (Z * Z)) }.

(** [w_dyn]: built with OSHMPI_ENABLE_DYNAMIC_WIN. *)
Record world : Type := mkWorld { w_dyn : bool; w_pes : list pe; w_mpi : mpi }.

(** The single dynamic window (symm_ictx.win, src/internal/setup_impl.c:118-138) is window 0. *)
Definition DYN_WIN : Z := 0.

(** OSHMPI_ICTX_DISP_MODE (oshmpi_impl.h:123-127): constant RELATIVE without dynamic windows. *)
Definition ictx_mode (dyn : bool) (c : ictx) : dmode := if dyn then ic_mode c else RelDisp.

(** ** Address translation *)

(** OSHMPI_sobj_check_range (oshmpi_impl.h:629-634). Addresses are below 2^63, so the
    conversion to MPI_Aint is the identity. *)
Definition check_range (ptr : Z) (a : attr) : bool :=
  (a_base a <=? ptr) && (ptr <? a_base a + a_size a).

(** OSHMPI_sobj_trans_vaddr_to_disp (oshmpi_impl.h:636-667). A NULL or too short base_offsets
    array is undefined behaviour. *)
Definition vaddr_to_disp (dyn : bool) (a : attr) (addr target : Z) (mode : dmode) : outcome Z :=
  match dyn, mode with
  | true, AbsDisp =>
      if handle_check_symm (a_handle a) then Ok addr
      else match a_offs a with
           | None => UB
           | Some l => do o <- of_opt (aget l target); Ok (addr + o)
           end
  | _, _ => Ok (addr - a_base a)
  end.

(** The user's context argument: SHMEM_CTX_DEFAULT or the [j]-th context of space [name]. *)
Inductive ctxarg : Type := CtxDefault | CtxSpace (name j : Z).

Definition find_space (p : pe) (name : Z) : option space :=
  find (fun s => sp_name s =? name) (pe_spaces p).

(** OSHMPI_sobj_query_attr_ictx (oshmpi_impl.h:669-717). [None]: both pointers stay NULL.
    Using a context that does not exist is undefined behaviour. *)
Definition query_attr_ictx (p : pe) (c : ctxarg) (addr : Z) : outcome (option (attr * ictx)) :=
  match c with
  | CtxSpace name j =>
      do s <- of_opt (find_space p name);
      do l <- of_opt (sp_ctxs s);
      do x <- of_opt (aget l j);
      Ok (Some (cx_attr x, cx_ictx x))
  | CtxDefault =>
      if check_range addr (pe_heap p) then Ok (Some (pe_heap p, pe_heap_ictx p))
      else if check_range addr (pe_data p) then Ok (Some (pe_data p, pe_data_ictx p))
      else match find (fun s => check_range addr (sp_attr s)) (pe_spaces p) with
           | Some s => Ok (Some (sp_attr s, sp_default s))
           | None => Ok None
           end
  end.

(** OSHMPI_sobj_trans_disp_to_vaddr (oshmpi_impl.h:719-750). An unknown attached handle leaves
    the caller's NULL ([Ok 0]); other kinds abort. *)
Definition disp_to_vaddr (p : pe) (handle disp : Z) : outcome Z :=
  let k := handle_kind handle in
  if k =? SYMM_HEAP then Ok (a_base (pe_heap p) + disp)
  else if k =? SYMM_DATA then Ok (a_base (pe_data p) + disp)
  else if k =? SPACE_ATTACHED_HEAP then
    match find (fun s => a_handle (sp_attr s) =? handle) (pe_spaces p) with
    | Some s => Ok (a_base (sp_attr s) + disp)
    | None => Ok 0
    end
  else Abort.

(** ** MPI windows (external: the part of the MPI standard the code relies on) *)

(** MPI_Win_create / MPI_Win_allocate: a fresh window with the given (base,size) per PE. *)
Definition win_create (m : mpi) (regs : list (Z * Z)) : mpi * winid :=
  (mkMpi (m_next m + 1) ((m_next m, regs) :: m_wins m) (m_dyn m), Win (m_next m)).

(** MPI_Win_free. *)
Definition win_free (m : mpi) (w : winid) : mpi :=
  match w with
  | WinNull => m
  | Win k => mkMpi (m_next m) (filter (fun e => negb (fst e =? k)) (m_wins m)) (m_dyn m)
  end.

(** MPI_Win_attach / MPI_Win_detach on the dynamic window, on all PEs at once. *)
Definition dyn_attach (m : mpi) (regs : list (Z * Z)) : mpi :=
  mkMpi (m_next m) (m_wins m) (map (fun rl => fst rl :: snd rl) (combine regs (m_dyn m))).
Definition dyn_detach (m : mpi) (bases : list Z) : mpi :=
  mkMpi (m_next m) (m_wins m)
    (map (fun bl => filter (fun r => negb (fst r =? fst bl)) (snd bl)) (combine bases (m_dyn m))).

(** Where an RMA access of [len] bytes at displacement [disp] of window [w] on PE [t] lands:
    window base + disp for created windows, disp itself for the dynamic window; [None] when the
    access is not inside memory exposed by [t] (erroneous in MPI). *)
Definition win_target (dyn : bool) (m : mpi) (w : winid) (t disp len : Z) : option Z :=
  match w with
  | WinNull => None
  | Win k =>
      if dyn && (k =? DYN_WIN) then
        match aget (m_dyn m) t with
        | None => None
        | Some regs =>
            if existsb (fun r => (fst r <=? disp) && (disp + len <=? fst r + snd r)) regs
            then Some disp else None
        end
      else
        match find (fun e => fst e =? k) (m_wins m) with
        | None => None
        | Some (_, l) =>
            match aget l t with
            | None => None
            | Some (b, s) => if (0 <=? disp) && (disp + len <=? s) then Some (b + disp) else None
            end
        end
  end.

(** ** Resolving an access to an absolute address on the target PE *)

Definition get_pe (w : world) (p : Z) : outcome pe := of_opt (aget (w_pes w) p).

(** Queries the object (rma_impl.h:118-119 and its copies): OSHMPI_ASSERT(sobj_attr && ictx);
    without error checking a NULL is dereferenced. *)
Definition query_checked (checks : bool) (p : pe) (c : ctxarg) (addr : Z)
  : outcome (attr * ictx) :=
  do r <- query_attr_ictx p c addr;
  match r with
  | Some x => Ok x
  | None => if checks then Abort else UB
  end.

(** Direct path: ctx_put_nbi_impl / ctx_get_nbi_impl (src/internal/rma_impl.h:13-53) up to the
    MPI call; the result is the absolute target address of byte [off] of the transfer. An access
    outside exposed memory is an MPI error (abort by MPI's default error handler). *)
Definition direct_disp (checks : bool) (w : world) (x : attr * ictx) (addr t : Z) : outcome Z :=
  do d <- vaddr_to_disp (w_dyn w) (fst x) addr t (ictx_mode (w_dyn w) (snd x));
  do _ <- c_assert checks (0 <=? d);
  Ok d.
Definition mpi_target (w : world) (x : attr * ictx) (t disp len : Z) : outcome Z :=
  match win_target (w_dyn w) (w_mpi w) (ic_win (snd x)) t disp len with
  | Some a => Ok a
  | None => Abort
  end.

(** AM path: OSHMPI_rma_am_put/get compute the packet's relative displacement
    (src/internal/rma_am_impl.h:28-30, 63-65), the handler translates it back and asserts that it
    is not NULL (src/internal/rma_am_impl.c:16-17, 30-31). *)
Definition am_disp (checks : bool) (w : world) (x : attr * ictx) (addr t : Z) : outcome Z :=
  do d <- vaddr_to_disp (w_dyn w) (fst x) addr t RelDisp;
  do _ <- c_assert checks (0 <=? d);
  Ok d.
Definition am_target (checks : bool) (pt : pe) (handle disp : Z) : outcome Z :=
  do v <- disp_to_vaddr pt handle disp;
  if v =? 0 then (if checks then Abort else UB) else Ok v.

(** ** Memory *)

(** [len] bytes at [addr] become [src 0], [src 1], ... *)
Definition mem_write (m : Z -> Z) (addr len : Z) (src : Z -> Z) : Z -> Z :=
  fun x => if (addr <=? x) && (x <? addr + len) then src (x - addr) else m x.

Definition set_mem (p : pe) (m : Z -> Z) : pe :=
  mkPe (pe_heap p) (pe_heap_ictx p) (pe_data p) (pe_data_ictx p) (pe_spaces p)
       (pe_attach_idx p) m.
Definition set_spaces (p : pe) (l : list space) : pe :=
  mkPe (pe_heap p) (pe_heap_ictx p) (pe_data p) (pe_data_ictx p) l (pe_attach_idx p) (pe_mem p).
Definition set_pe (w : world) (t : Z) (p : pe) : world :=
  mkWorld (w_dyn w) (upd (w_pes w) (Z.to_nat t) p) (w_mpi w).

(** Storing [len] bytes into PE [t]'s memory. *)
Definition store (w : world) (t addr len : Z) (src : Z -> Z) : outcome world :=
  do q <- get_pe w t;
  Ok (set_pe w t (set_mem q (mem_write (pe_mem q) addr len src))).

(** ** Contiguous put and get *)

(** Count arguments of MPI are int: a size_t argument is converted (rma_impl.h:22, 29-30: "TODO:
    check non-int inputs exceeds int limit"); a negative count is an MPI error. *)
Definition mpi_count (n : Z) : outcome Z :=
  let c := to_int n in if c <? 0 then Abort else Ok c.

(** OSHMPI_ctx_put (rma_impl.h:128-148) and OSHMPI_ctx_put_nbi (107-126). [esz] is the size of
    the MPI datatype, [typesz] the size argument the API passes along; [direct] is the value of
    OSHMPI_ENABLE_DIRECT_RMA_RUNTIME. The effect at the target is modelled at the call; when it
    becomes visible is OrderModel's / AmModel's subject. *)
Definition ctx_put (checks : bool) (w : world) (p : Z) (c : ctxarg) (direct : bool)
    (esz typesz : Z) (origin addr nelems t : Z) : outcome world :=
  if nelems =? 0 then Ok w else
  do pp <- get_pe w p;
  do x <- query_checked checks pp c addr;
  if direct then
    do d <- direct_disp checks w x addr t;
    do n <- mpi_count nelems;
    do a <- mpi_target w x t d (esz * n);
    store w t a (esz * n) (fun k => pe_mem pp (origin + k))
  else
    (* OSHMPI_rma_am_put (rma_am_impl.h:13-45) and OSHMPI_rma_am_put_pkt_cb
       (rma_am_impl.c:11-22): message of esz*n bytes, receive buffer of (int) bytes bytes. *)
    do d <- am_disp checks w x addr t;
    do n <- mpi_count nelems;
    do pt <- get_pe w t;
    do a <- am_target checks pt (a_handle (fst x)) d;
    do r <- mpi_count (wrap64 (typesz * nelems));
    if r <? esz * n then Abort   (* MPI_ERR_TRUNCATE *)
    else store w t a (esz * n) (fun k => pe_mem pp (origin + k)).

(** OSHMPI_ctx_get (rma_impl.h:197-218) and OSHMPI_ctx_get_nbi (175-195); AM path
    OSHMPI_rma_am_get (rma_am_impl.h:48-81) and OSHMPI_rma_am_get_pkt_cb (rma_am_impl.c:25-36).
    The local buffer [origin] is any address of the caller. *)
Definition ctx_get (checks : bool) (w : world) (p : Z) (c : ctxarg) (direct : bool)
    (esz typesz : Z) (origin addr nelems t : Z) : outcome world :=
  if nelems =? 0 then Ok w else
  do pp <- get_pe w p;
  do x <- query_checked checks pp c addr;
  if direct then
    do d <- direct_disp checks w x addr t;
    do n <- mpi_count nelems;
    do a <- mpi_target w x t d (esz * n);
    do pt <- get_pe w t;
    store w p origin (esz * n) (fun k => pe_mem pt (a + k))
  else
    do d <- am_disp checks w x addr t;
    do n <- mpi_count nelems;
    do pt <- get_pe w t;
    do a <- am_target checks pt (a_handle (fst x)) d;
    do s <- mpi_count (wrap64 (typesz * nelems));
    if esz * n <? s then Abort   (* MPI_ERR_TRUNCATE at the origin *)
    else store w p origin s (fun k => pe_mem pt (a + k)).

(** ** Set-up *)

(** OSHMPIU_check_symm_mem (src/internal/util/symm_mem.c:177-206) as run by PE [me] when
    MPI_Allgather delivers [addrs]: the loop ANDs the comparisons and turns addresses into
    offsets; the offsets array is kept only if not symmetric. *)
Fixpoint check_symm_loop (addrs : list Z) (mine : Z) (flag : bool) : bool * list Z :=
  match addrs with
  | [] => (flag, [])
  | a :: r =>
      let '(f, offs) := check_symm_loop r mine (flag && (a =? mine)) in
      (f, (a - mine) :: offs)
  end.
Definition check_symm_mem (addrs : list Z) (me : Z) : outcome (bool * option (list Z)) :=
  do mine <- of_opt (aget addrs me);
  let '(f, offs) := check_symm_loop addrs mine true in
  Ok (f, if f then None else Some offs).

(** OSHMPI_sobj_symm_info_allgather (src/internal/common.c:24-29): only with dynamic windows;
    otherwise the flag keeps the caller's 0 and base_offsets stays NULL. *)
Definition symm_info_allgather (dyn : bool) (addrs : list Z) (me : Z)
  : outcome (bool * option (list Z)) :=
  if dyn then check_symm_mem addrs me else Ok (false, None).

(** OSHMPI_sobj_init_attr (common.c:11-22), symm_info_allgather, then set_handle: the common
    sequence of attach_symm_text (setup_impl.c:150-152), attach_symm_heap (184-186),
    initialize_symm_text (221-223), initialize_symm_heap (270-272) and, for an existing attr,
    OSHMPI_space_attach (space_impl.c:291-294). *)
Definition make_attr (dyn : bool) (bases : list Z) (me size kind idx : Z) : outcome attr :=
  do b <- of_opt (aget bases me);
  do fo <- symm_info_allgather dyn bases me;
  Ok (mkAttr (set_handle kind (if fst fo then 1 else 0) idx) b size (snd fo)).

(** DLMALLOC_MIN_MSPACE_SIZE (oshmpi_impl.h:30): 128 * sizeof(size_t). *)
Definition DLMALLOC_MIN_MSPACE_SIZE : Z := 1024.
(** Heap sizes (setup_impl.c:171-174 = 253-256): recorded size and allocated (true) size. *)
Definition heap_size (env_size page : Z) : Z := c_align env_size page.
Definition heap_true_size (env_size page : Z) : Z :=
  c_align (wrap64 (heap_size env_size page + DLMALLOC_MIN_MSPACE_SIZE)) page.

(** Initial state of all PEs: heap and data objects and windows. [lay] gives each PE's heap
    base and data-segment base (chosen by the OS / MPI); the data segment has size [dsize] on
    all PEs. Dynamic: initialize_symm_win, attach_symm_text, attach_symm_heap
    (setup_impl.c:118-204); otherwise initialize_symm_text, initialize_symm_heap (207-290). *)
Definition w_init (dyn : bool) (env_size page dsize : Z) (lay : list (Z * Z))
    (mem : Z -> Z -> Z) : outcome world :=
  let hb := map fst lay in
  let db := map snd lay in
  let hs := heap_size env_size page in
  let ts := heap_true_size env_size page in
  let m0 := mkMpi (if dyn then 1 else 0) [] (map (fun _ => []) lay) in
  let '(m2, hi, di) :=
    if dyn then
      let m1 := dyn_attach m0 (map (fun b => (b, dsize)) db) in
      (dyn_attach m1 (map (fun b => (b, ts)) hb),
       mkIctx (Win DYN_WIN) AbsDisp, mkIctx (Win DYN_WIN) AbsDisp)
    else
      let '(m1, dw) := win_create m0 (map (fun b => (b, dsize)) db) in
      let '(m2, hw) := win_create m1 (map (fun b => (b, ts)) hb) in
      (m2, mkIctx hw RelDisp, mkIctx dw RelDisp) in
  do pes <- outs (fun i =>
      do ha <- make_attr dyn hb i hs SYMM_HEAP 0;
      do da <- make_attr dyn db i dsize SYMM_DATA 0;
      Ok (mkPe ha hi da di [] 0 (mem i))) 0 (length lay);
  Ok (mkWorld dyn pes m2).

(** ** Spaces *)

(** OSHMPI_space_create (space_impl.c:166-222) on PE [p]; [base] is what the allocator returned
    for the aligned size [size]. Local operation. [sp_default] is the internal context the query
    uses for the default context (oshmpi_impl.h:704-708): the space's own default_ictx, whose
    window is still MPI_WIN_NULL (space_impl.c:208), or symm_ictx with dynamic windows. *)
Definition space_create (checks : bool) (w : world) (p name base size nctx : Z) : outcome world :=
  do q <- get_pe w p;
  do _ <- c_assert checks (0 <=? nctx);
  do _ <- c_assert checks (negb (base =? 0));
  let s := mkSpace name (mkAttr (set_handle SPACE_HEAP 0 0) base size None)
                   (if w_dyn w then mkIctx (Win DYN_WIN) AbsDisp else mkIctx WinNull RelDisp)
                   nctx None in
  Ok (set_pe w p (set_spaces q (pe_spaces q ++ [s]))).

(** OSHMPI_space_destroy (space_impl.c:225-249) on PE [p]: LL_DELETE. *)
Definition space_destroy (w : world) (p name : Z) : outcome world :=
  do q <- get_pe w p;
  Ok (set_pe w p (set_spaces q (filter (fun s => negb (sp_name s =? name)) (pe_spaces q)))).

(** Windows of the explicit contexts (space_impl.c:313-328): [n] collective MPI_Win_create. *)
Fixpoint ctx_wins (m : mpi) (regs : list (Z * Z)) (n : nat) : mpi * list winid :=
  match n with
  | O => (m, [])
  | S n' => let '(m1, k) := win_create m regs in
            let '(m2, l) := ctx_wins m1 regs n' in (m2, k :: l)
  end.

Definition replace_space (l : list space) (name : Z) (s' : space) : list space :=
  map (fun s => if sp_name s =? name then s' else s) l.

(** What OSHMPI_space_attach leaves on one PE (space_impl.c:291-328). *)
Definition attach_pe (dyn : bool) (q : pe) (s : space) (a : attr) (dflt : winid)
    (cws : list winid) : pe :=
  let s' := mkSpace (sp_name s) a
              (if dyn then sp_default s else mkIctx dflt RelDisp) (sp_nctx s)
              (if 0 <? sp_nctx s
               then Some (map (fun k => mkCtx (mkIctx k RelDisp) a) cws) else None) in
  mkPe (pe_heap q) (pe_heap_ictx q) (pe_data q) (pe_data_ictx q)
       (replace_space (pe_spaces q) (sp_name s) s') (pe_attach_idx q + 1) (pe_mem q).

(** OSHMPI_space_attach (space_impl.c:276-331), called collectively by all PEs on their space
    [name]. The default window in dynamic mode is symm_ictx, see query (oshmpi_impl.h:704-708):
    [space_default]. All PEs use the same number of contexts (space_impl.c:311 "assume all
    processes have the same config"): PE 0's. *)
Definition space_attach (checks : bool) (w : world) (name : Z) : outcome world :=
  do ss <- outs (fun i => do q <- get_pe w i; of_opt (find_space q name)) 0 (length (w_pes w));
  do _ <- outs (fun i => do s <- of_opt (aget ss i);
                         c_assert checks (match sp_ctxs s with None => true | _ => false end))
               0 (length (w_pes w));
  let bases := map (fun s => a_base (sp_attr s)) ss in
  let regs := map (fun s => (a_base (sp_attr s), a_size (sp_attr s))) ss in
  let n := match ss with [] => 0 | s :: _ => sp_nctx s end in
  let '(m1, dflt) := if w_dyn w then (dyn_attach (w_mpi w) regs, Win DYN_WIN)
                     else win_create (w_mpi w) regs in
  let '(m2, cws) := ctx_wins m1 regs (Z.to_nat n) in
  do pes <- outs (fun i =>
      do q <- get_pe w i;
      do s <- of_opt (aget ss i);
      do a <- make_attr (w_dyn w) bases i (a_size (sp_attr s)) SPACE_ATTACHED_HEAP (pe_attach_idx q);
      Ok (attach_pe (w_dyn w) q s a dflt cws)) 0 (length (w_pes w));
  Ok (mkWorld (w_dyn w) pes m2).

(** What OSHMPI_space_detach leaves on one PE (space_impl.c:354-358): no contexts, unattached
    handle, and a base_offsets array that is freed (represented as NULL: reading it is undefined
    in both cases). *)
Definition detach_pe (dyn : bool) (q : pe) (s : space) : pe :=
  let s' := mkSpace (sp_name s)
              (mkAttr (set_handle SPACE_HEAP 0 0) (a_base (sp_attr s)) (a_size (sp_attr s)) None)
              (if dyn then sp_default s else mkIctx WinNull RelDisp) (sp_nctx s) None in
  set_spaces q (replace_space (pe_spaces q) (sp_name s) s').

Definition ctx_list_wins (s : space) : list winid :=
  match sp_ctxs s with None => [] | Some l => map (fun x => ic_win (cx_ictx x)) l end.

(** OSHMPI_space_detach (space_impl.c:334-359), called collectively. Freeing MPI_WIN_NULL fails
    the assertion in space_ictx_destroy (space_impl.c:28). Windows are collective objects: the
    handles of PE 0 name them. *)
Definition space_detach (checks : bool) (w : world) (name : Z) : outcome world :=
  do ss <- outs (fun i => do q <- get_pe w i; of_opt (find_space q name)) 0 (length (w_pes w));
  do _ <- outs (fun i => do s <- of_opt (aget ss i);
                         do _ <- c_assert checks
                                   (w_dyn w || match ic_win (sp_default s) with WinNull => false | _ => true end);
                         c_assert checks ((sp_nctx s =? 0) ||
                                          match sp_ctxs s with None => false | _ => true end))
               0 (length (w_pes w));
  let bases := map (fun s => a_base (sp_attr s)) ss in
  let '(dw, cws) := match ss with
                    | [] => (WinNull, [])
                    | s :: _ => (ic_win (sp_default s), ctx_list_wins s)
                    end in
  let m1 := if w_dyn w then dyn_detach (w_mpi w) bases else win_free (w_mpi w) dw in
  let m2 := fold_left win_free cws m1 in
  do pes <- outs (fun i =>
      do q <- get_pe w i;
      do s <- of_opt (aget ss i);
      Ok (detach_pe (w_dyn w) q s)) 0 (length (w_pes w));
  Ok (mkWorld (w_dyn w) pes m2).

(** ** Histories *)

Inductive wop : Type :=
| WCreate (p name base size nctx : Z)
| WDestroy (p name : Z)
| WAttach (name : Z)
| WDetach (name : Z)
| WPut (p : Z) (c : ctxarg) (direct : bool) (esz origin addr nelems t : Z)
| WGet (p : Z) (c : ctxarg) (direct : bool) (esz origin addr nelems t : Z).

(** One user call. Typed put/get pass sizeof(type) as the size argument
    (src/shmem/rma_typed.c.tpl), so [typesz = esz]. *)
Definition wstep (checks : bool) (w : world) (o : wop) : outcome world :=
  match o with
  | WCreate p name base size nctx => space_create checks w p name base size nctx
  | WDestroy p name => space_destroy w p name
  | WAttach name => space_attach checks w name
  | WDetach name => space_detach checks w name
  | WPut p c direct esz origin addr n t => ctx_put checks w p c direct esz esz origin addr n t
  | WGet p c direct esz origin addr n t => ctx_get checks w p c direct esz esz origin addr n t
  end.

Fixpoint wrun (checks : bool) (w : world) (ops : list wop) : outcome world :=
  match ops with
  | [] => Ok w
  | o :: r => do w' <- wstep checks w o; wrun checks w' r
  end.

(** ** Address queries of the API *)

(** shmem_pe_accessible (src/shmem/setup.c:67-70). *)
Definition pe_accessible (w : world) (pe : Z) : Z :=
  if (0 <=? pe) && (pe <? Z.of_nat (length (w_pes w))) then 1 else 0.

(** shmem_addr_accessible (src/shmem/setup.c:72-77) called on PE [p]. *)
Definition addr_accessible (w : world) (p addr pe : Z) : outcome Z :=
  do q <- get_pe w p;
  Ok (if (check_range addr (pe_heap q) || check_range addr (pe_data q)) &&
         ((0 <=? pe) && (pe <? Z.of_nat (length (w_pes w)))) then 1 else 0).

(** shmem_ptr (src/shmem/setup.c:79-83) called on PE [p]; NULL is [None]. *)
Definition shmem_ptr (p dest pe : Z) : option Z := if pe =? p then Some dest else None.
