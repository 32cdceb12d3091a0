(** The local buffers of communication calls: what MPI may still read or write at the calling PE,
    and when. Sources: src/internal/rma_impl.h, rma_am_impl.h, amo_impl.h, amo_am_impl.h,
    p2p_impl.h:35-60, lock_impl.h, coll_activeset_impl.h:176-208, order_impl.h:68-96, am_impl.h:22-92,
    am_progress_impl.h:16-74.

    Kept of each call: the MPI operations it starts with the buffers it gives them, and the calls
    that complete them at the origin. A buffer is a set of cells; a cell of the program or a local
    variable of the library's frame, which the program's own frames use again after the return.
    MPI may access a buffer from the call that starts the operation until that operation is
    completed locally, at any time. Not modelled: the target side, and the flags that let quiet
    skip a window with nothing outstanding (OrderModel, C43): here quiet flushes every window. *)
From Verif Require Import Base.

(** A cell: of the program, or local variable [j] of a frame of thread [i]. *)
Inductive buf : Type := BUser (a : Z) | BStack (i j : Z).

Definition buf_eqb (x y : buf) : bool :=
  match x, y with
  | BUser a, BUser b => a =? b
  | BStack i j, BStack k l => (i =? k) && (j =? l)
  | _, _ => false
  end.

(** Steps of a call. [SOp]: MPI_Put, MPI_Get, MPI_Accumulate, MPI_Fetch_and_op or
    MPI_Compare_and_swap on a window to a target. [SFlush]: MPI_Win_flush_local or MPI_Win_flush.
    [SFlushAll]: MPI_Win_flush_all. [SSend], [SRecv]: MPI_Isend, MPI_Irecv. [SWait]:
    OSHMPI_am_progress_mpi_waitall or the loop of OSHMPI_AM_PROGRESS_MPI, which end when the
    requests are complete (am_progress_impl.h:16-74). *)
Inductive bstep : Type :=
| SOp (w t : Z) (src dst : list buf)
| SFlush (w t : Z)
| SFlushAll (w : Z)
| SSend (r : Z) (src : list buf)
| SRecv (r : Z) (dst : list buf)
| SWait (rs : list Z).

(** The calls. [am]: the active-message path was chosen. Atomics: [None] keeps the old value in a
    local variable, [Some] is the buffer of a nonblocking one. Waits and locks poll [rounds] times. *)
Inductive akind : Type := AFetch | AFetchOp | APost | ACswap.
Inductive bcall : Type :=
| CPut (am nbi : bool) (w t : Z) (src : list Z)
| CP (am : bool) (w t : Z)
| CGet (am nbi : bool) (w t : Z) (dst : list Z)
| CG (am : bool) (w t : Z)
| CAmo (am : bool) (k : akind) (w t : Z) (res : option (list Z))
| CWait (w me : Z) (rounds : nat)
| CSetLock (w root me prev : Z) (queued : bool) (rounds : nat)
| CClearLock (w root me next : Z) (waited : bool) (rounds : nat)
| CTestLock (w root : Z)
| CBcast (w root : Z) (dst : list Z)
| CQuiet (ts : list Z).

(** Local variables: 0 the operand or myid, 1 the comparand, 2 the old value, curid or tmp_var,
    3 the packet, 4 the word or-ed to the next or previous PE, 5 the word polled. *)
Definition lv (i j : Z) : list buf := [BStack i j].
Definition user (l : list Z) : list buf := map BUser l.

(** ctx_put_nbi_impl, ctx_iput_nbi_impl (rma_impl.h:13-32, 55-79) in OSHMPI_ctx_put_nbi, OSHMPI_ctx_put
    and OSHMPI_ctx_iput (107-173); the latter two call ctx_local_complete_impl (oshmpi_impl.h:789-793). *)
Definition direct_put (nbi : bool) (w t : Z) (src : list buf) : list bstep :=
  SOp w t src [] :: (if nbi then [] else [SFlush w t]).
(** ctx_get_nbi_impl, ctx_iget_nbi_impl (rma_impl.h:34-53, 81-105) in OSHMPI_ctx_get_nbi, OSHMPI_ctx_get
    and OSHMPI_ctx_iget (175-243). *)
Definition direct_get (nbi : bool) (w t : Z) (dst : list buf) : list bstep :=
  SOp w t [] dst :: (if nbi then [] else [SFlush w t]).
(** OSHMPI_rma_am_put, OSHMPI_rma_am_iput (rma_am_impl.h:13-45, 84-127): packet and data. *)
Definition am_put (i : Z) (src : list buf) : list bstep :=
  [SSend 0 (lv i 3); SSend 1 src; SWait [0; 1]].
(** OSHMPI_rma_am_get, OSHMPI_rma_am_iget (48-81, 130-174), OSHMPI_amo_am_cswap and
    OSHMPI_amo_am_fetch (amo_am_impl.h:12-92): packet and reply. The operands are copied into the
    packet. *)
Definition am_get (i : Z) (dst : list buf) : list bstep :=
  [SSend 0 (lv i 3); SRecv 1 dst; SWait [0; 1]].
(** OSHMPI_amo_am_post (95-125): OSHMPI_am_progress_mpi_send. *)
Definition am_post (i : Z) : list bstep := [SSend 0 (lv i 3); SWait [0]].
(** ctx_fetch_op_impl, ctx_set_op_impl, ctx_cswap_impl (amo_impl.h:13-72). *)
Definition direct_amo (k : akind) (i w t : Z) (res : list buf) : list bstep :=
  match k with
  | AFetch => [SOp w t [] res; SFlush w t]
  | AFetchOp => [SOp w t (lv i 0) res; SFlush w t]
  | APost => [SOp w t (lv i 0) []; SFlush w t]
  | ACswap => [SOp w t (lv i 0 ++ lv i 1) res; SFlush w t]
  end.
(** Polling a word of the own PE: p2p_impl.h:47-56, 70-78 and 115-124 of lock_impl.h. *)
Fixpoint poll (n : nat) (i j w me : Z) : list bstep :=
  match n with O => [] | S k => SOp w me [] (lv i j) :: SFlush w me :: poll k i j w me end.
(** OSHMPI_am_flush (am_impl.h:22-80): one packet sent to several PEs, empty replies. *)
Definition am_flush (i : Z) (ts : list Z) : list bstep :=
  map (fun t => SSend t (lv i 3)) ts ++ [SWait ts].

Definition steps (W : list Z) (i : Z) (c : bcall) : list bstep :=
  match c with
  | CPut am nbi w t src => if am then am_put i (user src) else direct_put nbi w t (user src)
  | CP am w t => if am then am_put i (lv i 0) else direct_put false w t (lv i 0)
  | CGet am nbi w t dst => if am then am_get i (user dst) else direct_get nbi w t (user dst)
  | CG am w t => if am then am_get i (lv i 2) else direct_get false w t (lv i 2)
  | CAmo am k w t res =>
      let r := match res with Some d => user d | None => lv i 2 end in
      if am then match k with APost => am_post i | _ => am_get i r end else direct_amo k i w t r
  | CWait w me n => poll n i 2 w me
  | CSetLock w root me prev queued n =>
      [SOp w root (lv i 0) (lv i 2); SFlush w root] ++
      (if queued then [SOp w prev (lv i 4) []; SFlush w prev] ++ poll n i 5 w me else [])
  | CClearLock w root me next waited n =>
      [SOp w root (lv i 0 ++ lv i 1) (lv i 2); SFlush w root] ++
      (if waited then poll n i 5 w me ++ [SOp w next (lv i 4) []; SFlush w next] else [])
  | CTestLock w root => [SOp w root (lv i 0 ++ lv i 1) (lv i 2); SFlush w root]
  | CBcast w root dst => [SOp w root [] (user dst); SFlush w root]
  | CQuiet ts => map SFlushAll W ++ am_flush i ts
  end.

(** An operation MPI has not completed at the origin: by window and target, or a request of the
    call. *)
Inductive key : Type := KWin (w t : Z) | KReq (n r : Z).
Record op : Type := mkOp { op_call : Z; op_key : key; op_src : list buf; op_dst : list buf }.

Record bst : Type := mkB {
  b_mem : buf -> Z;
  b_ops : list op;
  b_thr : Z -> option (Z * bcall * list bstep);  (* number, call, what remains *)
  b_next : Z
}.
Definition b_init (m : buf -> Z) : bst := mkB m [] (fun _ => None) 0.

(** [ECall]: with the memory at that time, the local variables set. [EGot], [EWrote]: MPI read or
    wrote a cell for a call. *)
Inductive bev : Type :=
| ECall (n i : Z) (c : bcall) (m : buf -> Z)
| ERet (n : Z)
| EGot (n : Z) (b : buf) (v : Z)
| EWrote (n : Z) (b : buf) (v : Z).

(** [LCall]: thread [i] calls, its local variables get the values [f]; [LGo]: its next step, or the
    return; [LRead], [LWrite]: MPI accesses cell [b] of operation [k]; [LNet]: MPI completes
    operation [k]; [LSet]: the program writes. *)
Inductive blab : Type :=
| LCall (i : Z) (c : bcall) (f : Z -> Z)
| LGo (i : Z)
| LRead (k : nat) (b : buf)
| LWrite (k : nat) (b : buf) (v : Z)
| LNet (k : nat)
| LSet (b : buf) (v : Z).

Definition closes (n : Z) (s : bstep) (k : key) : bool :=
  match s, k with
  | SFlush w t, KWin w' t' => (w =? w') && (t =? t')
  | SFlushAll w, KWin w' _ => w =? w'
  | SWait rs, KReq n' r => (n =? n') && existsb (Z.eqb r) rs
  | _, _ => false
  end.
(** The operation a step starts. *)
Definition starts (n : Z) (s : bstep) : list op :=
  match s with
  | SOp w t a d => [mkOp n (KWin w t) a d]
  | SSend r a => [mkOp n (KReq n r) a []]
  | SRecv r d => [mkOp n (KReq n r) [] d]
  | _ => []
  end.
Definition set_mem (m : buf -> Z) (b : buf) (v : Z) : buf -> Z := fun x => if buf_eqb b x then v else m x.
Definition set_locals (m : buf -> Z) (i : Z) (f : Z -> Z) : buf -> Z :=
  fun x => match x with BStack k j => if k =? i then f j else m x | _ => m x end.
Definition set_thr (s : bst) (i : Z) (x : option (Z * bcall * list bstep)) : Z -> option (Z * bcall * list bstep) :=
  fun j => if j =? i then x else b_thr s j.
Fixpoint drop_nth {A : Type} (k : nat) (l : list A) : list A :=
  match l, k with [], _ => [] | _ :: r, O => r | x :: r, S k => x :: drop_nth k r end.

(** One step; what is not possible leaves the state as it is. *)
Definition bgo (W : list Z) (s : bst) (lb : blab) : bst * list bev :=
  match lb with
  | LCall i c f =>
      match b_thr s i with
      | Some _ => (s, [])
      | None =>
          let m := set_locals (b_mem s) i f in
          (mkB m (b_ops s) (set_thr s i (Some (b_next s, c, steps W i c))) (b_next s + 1),
           [ECall (b_next s) i c m])
      end
  | LGo i =>
      match b_thr s i with
      | None => (s, [])
      | Some (n, c, []) => (mkB (b_mem s) (b_ops s) (set_thr s i None) (b_next s), [ERet n])
      | Some (n, c, st :: r) =>
          (mkB (b_mem s) (filter (fun o => negb (closes n st (op_key o))) (b_ops s) ++ starts n st)
               (set_thr s i (Some (n, c, r))) (b_next s), [])
      end
  | LRead k b =>
      match nth_error (b_ops s) k with
      | Some o => if existsb (buf_eqb b) (op_src o) then (s, [EGot (op_call o) b (b_mem s b)]) else (s, [])
      | None => (s, [])
      end
  | LWrite k b v =>
      match nth_error (b_ops s) k with
      | Some o =>
          if existsb (buf_eqb b) (op_dst o)
          then (mkB (set_mem (b_mem s) b v) (b_ops s) (b_thr s) (b_next s), [EWrote (op_call o) b v])
          else (s, [])
      | None => (s, [])
      end
  | LNet k => (mkB (b_mem s) (drop_nth k (b_ops s)) (b_thr s) (b_next s), [])
  | LSet b v => (mkB (set_mem (b_mem s) b v) (b_ops s) (b_thr s) (b_next s), [])
  end.
