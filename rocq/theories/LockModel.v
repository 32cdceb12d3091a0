(** The distributed lock (src/internal/lock_impl.h) as a transition system over atomic steps. *)
From Verif Require Import Base SobjModel.

(** Fields of the 32-bit word lock->next (lock_impl.h:16-19). *)
Definition SIGNAL_MASK : Z := 2 ^ 31.
Definition NEXT (a : Z) : Z := Z.land a INT_MAX.
Definition SIGNAL (a : Z) : Z := Z.land a SIGNAL_MASK.

(** Where a PE is inside set_lock/clear_lock; [Held] is between a successful acquisition and
    the call of clear_lock.
    - [SFetch]: set_lock has reset its own next word (52-53), fetch-and-replace of last is next;
    - [SNotify prev]: curid = prev was not 0, the BOR into prev's next word (66) is next;
    - [SWait]: the loop 72-80;  [CWait]: the loop 111-120 of clear_lock;
    - [CReset n]: nextid = n was read, reset of the own next word (123) is next;
    - [CSignal n]: the BOR of the signal bit into PE n-1's next word (127) is next. *)
Inductive lpc : Type :=
| Idle | SFetch | SNotify (prev : Z) | SWait | Held | CWait | CReset (n : Z) | CSignal (n : Z).

(** [lk_last] is lock->last on PE 0; [lk_next p] is lock->next on PE p. *)
Record lstate : Type := mkL { lk_last : Z; lk_next : Z -> Z; lk_pc : Z -> lpc }.
Definition l_init : lstate := mkL 0 (fun _ => 0) (fun _ => Idle).

Definition fset {A : Type} (f : Z -> A) (p : Z) (a : A) : Z -> A :=
  fun q => if q =? p then a else f q.
Definition set_pc (s : lstate) (p : Z) (c : lpc) : lstate :=
  mkL (lk_last s) (lk_next s) (fset (lk_pc s) p c).
Definition set_next (s : lstate) (p v : Z) : lstate :=
  mkL (lk_last s) (fset (lk_next s) p v) (lk_pc s).
Definition set_last (s : lstate) (v : Z) : lstate := mkL v (lk_next s) (lk_pc s).

(** What a PE does next: call one of the three routines, or continue the one it is in. *)
Inductive lop : Type := OpSet | OpTest | OpClear | OpGo.

(** Observable events: reaching the queue tail on the root, acquiring, starting the release
    (the call of clear_lock), and test_lock returning 1. *)
Inductive lev : Type := EEnq (p : Z) | EAcq (p : Z) | ERel (p : Z) | ETestFail (p : Z).

(** One atomic step of PE [p]. MPI accumulate-class operations and the local stores followed by
    MPI_Win_sync are atomic on the 32-bit words. Operations that are not possible in the current
    control state leave the state unchanged. *)
Definition lstep (s : lstate) (p : Z) (o : lop) : lstate * list lev :=
  let myid := p + 1 in
  match lk_pc s p, o with
  | Idle, OpSet =>                                   (* 52-53 *)
      (set_pc (set_next s p 0) p SFetch, [])
  | SFetch, OpGo =>                                  (* 56-63 *)
      let curid := lk_last s in
      if curid =? 0 then (set_pc (set_last s myid) p Held, [EEnq p; EAcq p])
      else (set_pc (set_last s myid) p (SNotify curid), [EEnq p])
  | SNotify c, OpGo =>                               (* 64-67 *)
      (set_pc (set_next s (c - 1) (Z.lor (lk_next s (c - 1)) myid)) p SWait, [])
  | SWait, OpGo =>                                   (* 71-80 *)
      if SIGNAL (lk_next s p) =? 0 then (s, []) else (set_pc s p Held, [EAcq p])
  | Held, OpClear =>                                 (* 104-110 *)
      if lk_last s =? myid then (set_pc (set_last s 0) p Idle, [ERel p])
      else (set_pc s p CWait, [ERel p])
  | CWait, OpGo =>                                   (* 111-120 *)
      if NEXT (lk_next s p) =? 0 then (s, []) else (set_pc s p (CReset (NEXT (lk_next s p))), [])
  | CReset n, OpGo =>                                (* 123-124 *)
      (set_pc (set_next s p 0) p (CSignal n), [])
  | CSignal n, OpGo =>                               (* 127-129 *)
      (set_pc (set_next s (n - 1) (Z.lor (lk_next s (n - 1)) SIGNAL_MASK)) p Idle, [])
  | Idle, OpTest =>                                  (* test_lock, 155-165 *)
      if lk_last s =? 0 then (set_pc (set_last s myid) p Held, [EEnq p; EAcq p])
      else (s, [ETestFail p])
  | Held, OpTest =>                                  (* test_lock by the holder: CAS fails if last <> 0 *)
      if lk_last s =? 0 then (set_last s myid, [EEnq p; EAcq p]) else (s, [ETestFail p])
  | _, _ => (s, [])
  end.

(** A schedule interleaves steps of PEs 0..n-1; steps of other numbers are ignored. *)
Definition label : Type := Z * lop.
Definition lstep_n (n : Z) (s : lstate) (l : label) : lstate * list lev :=
  if (0 <=? fst l) && (fst l <? n) then lstep s (fst l) (snd l) else (s, []).
Fixpoint lrun (n : Z) (s : lstate) (ls : list label) : lstate * list lev :=
  match ls with
  | [] => (s, [])
  | l :: r =>
      let '(s1, e1) := lstep_n n s l in
      let '(s2, e2) := lrun n s1 r in (s2, e1 ++ e2)
  end.

(** ** Addresses of the two words (lock_impl.h:42-49) *)

(** Displacement of lock->next as computed by PE [p] (last's displacement for the root, plus
    sizeof(int)), then the address MPI uses for an access to it on PE [t]. *)
Definition lock_next_addr (checks : bool) (w : world) (p lockp t : Z) : outcome Z :=
  do q <- get_pe w p;
  do x <- query_checked checks q CtxDefault lockp;
  do d <- direct_disp checks w x lockp 0;
  mpi_target w x t (d + 4) 4.
Definition lock_last_addr (checks : bool) (w : world) (p lockp : Z) : outcome Z :=
  do q <- get_pe w p;
  do x <- query_checked checks q CtxDefault lockp;
  do d <- direct_disp checks w x lockp 0;
  mpi_target w x 0 d 4.

(** ** Puts inside a critical section *)

(** The lock together with one symmetric location: [lm_pend] are puts to it that are issued but
    not yet performed at the target. shmem_put only waits for local completion
    (rma_impl.h:128-148, MPI_Win_flush_local); MPI may perform it at any later time and has
    performed it when a remote flush returns (shmem_quiet). OSHMPI_clear_lock (lock_impl.h:84-131)
    does not flush the user's operations: its flushes target the window and PE of the lock word,
    here a different one. *)
Inductive mop : Type := MLock (l : label) | MPut (v : Z) | MDeliver | MQuiet.
Record lmem : Type := mkLM { lm_lock : lstate; lm_mem : Z; lm_pend : list Z }.
Definition lm_init (v : Z) : lmem := mkLM l_init v [].
Definition lmstep (n : Z) (s : lmem) (o : mop) : lmem * list lev :=
  match o with
  | MLock l => let '(k, e) := lstep_n n (lm_lock s) l in (mkLM k (lm_mem s) (lm_pend s), e)
  | MPut v => (mkLM (lm_lock s) (lm_mem s) (lm_pend s ++ [v]), [])
  | MDeliver =>
      match lm_pend s with
      | [] => (s, [])
      | v :: r => (mkLM (lm_lock s) v r, [])
      end
  | MQuiet => (mkLM (lm_lock s) (last (lm_pend s) (lm_mem s)) [], [])
  end.
Fixpoint lmrun (n : Z) (s : lmem) (os : list mop) : lmem * list lev :=
  match os with
  | [] => (s, [])
  | o :: r =>
      let '(s1, e1) := lmstep n s o in
      let '(s2, e2) := lmrun n s1 r in (s2, e1 ++ e2)
  end.
