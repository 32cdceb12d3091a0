(** Threads, critical sections and matched messages.

    Thread level MULTIPLE: the OSHMPI_THREAD_ENTER_CS / EXIT_CS pairs are real mutexes that are not recursive
    (oshmpi_impl.h:306-339). Each library call is reduced to what can make one thread wait for another:
    entering and leaving critical sections, and messages that go in two parts - a header followed by a
    payload to send, or by the receive of a reply to post - where a handler at the target waits for the second part.
    Everything else (MPI calls that wait for no thread of the program, computing) is the step [AMpi].
    Loops that poll are a number of polls, any number. *)
From Verif Require Import Base.

(** The critical sections of one process: OSHMPI_am.cb_progress_cs, OSHMPI_strided_dtype_cache.cs, OSHMPI_coll_comm_cache.cs,
    OSHMPI_global.space_list.cs, space->mem_pool_cs (one per space), OSHMPI_global.symm_heap_mspace_cs. *)
Inductive lk : Type := LCb | LStrided | LComm | LSpaces | LPool (k : Z) | LHeap.
Definition lk_eqb (a b : lk) : bool :=
  match a, b with
  | LCb, LCb | LStrided, LStrided | LComm, LComm | LSpaces, LSpaces | LHeap, LHeap => true
  | LPool j, LPool k => j =? k
  | _, _ => false
  end.

(** Messages by how they are handled: put, get, strided put and get, atomics with a reply, post, flush. *)
Inductive mk : Type := KPut | KGet | KIput | KIget | KFetch | KCswap | KPost | KFlush.

Inductive act : Type :=
| AEnter (l : lk) | AExit (l : lk)
| AOpen (m : Z) (t : Z) (k : mk)   (* MPI_Isend of the header of message m to PE t *)
| AClose (m : Z)                   (* second part: MPI_Isend of the payload, or MPI_Irecv of the reply *)
| AMatch (m : Z)                   (* handler: MPI_Recv of the payload, or MPI_Send of the reply *)
| ATest                            (* MPI_Test for a header; a header found is handled at once *)
| AMpi.

(** A lookup of the strided datatype: contiguous, found, or not found and inserted. *)
Inductive slook : Type := SContig | SHit | SMiss.

Definition section (l : lk) : list act := [AEnter l; AExit l].
(** OSHMPI_create_strided_dtype (strided_impl.h:112-180) with strided_find_dtype_cache (strided_impl.h:55-76) and
    strided_set_dtype_cache (strided_impl.h:31-52). *)
Definition stride (v : slook) : list act :=
  match v with
  | SContig => []
  | SHit => section LStrided
  | SMiss => section LStrided ++ [AMpi] ++ section LStrided
  end.
(** OSHMPI_sobj_trans_disp_to_vaddr (oshmpi_impl.h:721-749): [sp] for objects in an attached space. *)
Definition trans (sp : bool) : list act := if sp then section LSpaces else [].
(** OSHMPI_sobj_query_attr_ictx (oshmpi_impl.h:669-717): [sp] when it comes to search the spaces. *)
Definition query (sp : bool) : list act := if sp then section LSpaces else [].

(** The handlers: OSHMPI_rma_am_put_pkt_cb, OSHMPI_rma_am_get_pkt_cb, OSHMPI_rma_am_iput_pkt_cb, OSHMPI_rma_am_iget_pkt_cb
    (rma_am_impl.c:10-83), OSHMPI_amo_am_cswap_pkt_cb, OSHMPI_amo_am_fetch_pkt_cb, OSHMPI_amo_am_post_pkt_cb
    (amo_am_impl.c:84-167), OSHMPI_am_flush_pkt_cb (am_impl.c:18-23). *)
Definition handler (k : mk) (m : Z) (sp : bool) (v : slook) : list act :=
  match k with
  | KPut | KGet => trans sp ++ [AMatch m]
  | KIput | KIget => trans sp ++ stride v ++ [AMatch m]
  | KFetch | KCswap => trans sp ++ [AMpi; AMatch m]
  | KPost => trans sp ++ [AMpi]
  | KFlush => [AMatch m]
  end.

(** am_cb_manual_progress (am_impl.c:90-121), called by OSHMPI_am_cb_progress (am_impl.c:287-294) when there is no
    progress thread; [n] polls. *)
Definition poll : list act := [AEnter LCb; ATest; AExit LCb].
Fixpoint polls (async : bool) (n : nat) : list act :=
  match n with
  | O => []
  | S n' => (if async then [AMpi] else AMpi :: poll) ++ polls async n'
  end.

(** OSHMPI_am_flush (am_impl.h:22-79): headers to [ts] with a receive posted after each, then wait. *)
Fixpoint flushes (m : Z) (ts : list Z) : list act :=
  match ts with [] => [] | t :: r => [AOpen m t KFlush; AClose m] ++ flushes (m + 1) r end.
Definition am_flush (async : bool) (m : Z) (ts : list Z) (n : nat) : list act := flushes m ts ++ polls async n.
(** OSHMPI_barrier_all (coll_impl.h:12-32). *)
Definition barrier_all (async : bool) (m : Z) (ts : list Z) (n n' : nat) : list act :=
  [AMpi; AMpi] ++ am_flush async m ts n ++ [AMpi; AMpi] ++ polls async n'.

(** Calls. [sp]: the address is searched in the spaces; [n]: polls; [t]: target; [v]: strided lookups;
    [ts]: PEs with outstanding active messages. *)
Inductive call : Type :=
| CPut (sp : bool) (t : Z) (n : nat)                  (* OSHMPI_rma_am_put *)
| CGet (sp : bool) (t : Z) (n : nat)                  (* OSHMPI_rma_am_get *)
| CIput (sp : bool) (v : slook) (t : Z) (n : nat)     (* OSHMPI_rma_am_iput *)
| CIget (sp : bool) (v : slook) (t : Z) (n : nat)     (* OSHMPI_rma_am_iget *)
| CFetch (sp : bool) (t : Z) (n : nat)                (* OSHMPI_amo_am_fetch *)
| CCswap (sp : bool) (t : Z) (n : nat)                (* OSHMPI_amo_am_cswap *)
| CPost (sp : bool) (t : Z) (n : nat)                 (* OSHMPI_amo_am_post *)
| CDirect (sp : bool)                                 (* put, get and atomics by MPI RMA *)
| CDirectStrided (sp : bool) (v w : slook)            (* iput, iget by MPI RMA *)
| CQuiet (nflush : nat) (ts : list Z) (n : nat)       (* OSHMPI_ctx_quiet, OSHMPI_ctx_fence on the default context *)
| CCtxQuiet                                           (* the same on another context *)
| CBarrierAll (ts : list Z) (n n' : nat)
| CAlloc (ts : list Z) (n n' : nat)                   (* OSHMPI_malloc, OSHMPI_realloc, OSHMPI_align, OSHMPI_calloc *)
| CFree (ts : list Z) (n n' : nat) (where_ : option (option Z)) (* OSHMPI_free: heap, or in the spaces: nowhere or space k *)
| CSpaceCreate | CSpaceDestroy
| CSpaceMalloc (k : Z) (ts : list Z) (n n' : nat)     (* OSHMPI_space_malloc, OSHMPI_space_align *)
| CSpaceFree (k : Z)
| CActiveSet (v w : slook) (hit : bool) (n : nat)     (* collectives on an active set; v, w for OSHMPI_alltoalls *)
| CBarrierSet (hit : bool) (ts : list Z) (n n' : nat) (* OSHMPI_barrier on an active set *)
| CTeam (v w : slook) (n : nat)                       (* collectives on a team *)
| CWait (sp : bool) (n : nat)                         (* shmem_wait_until and shmem_test *)
| CLock (sp : bool) (n : nat)                         (* shmem_set_lock, shmem_clear_lock, shmem_test_lock *)
| CEngine.                                            (* one round of am_cb_async_progress, in the progress thread *)

(** How many messages a call sends. *)
Definition nmsgs (c : call) : Z :=
  match c with
  | CPut _ _ _ | CGet _ _ _ | CIput _ _ _ _ | CIget _ _ _ _ | CFetch _ _ _ | CCswap _ _ _ | CPost _ _ _ => 1
  | CQuiet _ ts _ | CBarrierAll ts _ _ | CAlloc ts _ _ | CFree ts _ _ _ | CSpaceMalloc _ ts _ _ | CBarrierSet _ ts _ _ =>
      Z.of_nat (length ts)
  | _ => 0
  end.

(** coll_acquire_comm (coll_activeset_impl.h:73-116) with coll_find_comm_cache (52-71), coll_set_comm_cache (29-49). *)
Definition acquire_comm (hit : bool) : list act :=
  section LComm ++ (if hit then [] else [AMpi] ++ section LComm).

(** The calls; messages are numbered from [m]. *)
Definition call_acts (async : bool) (m : Z) (c : call) : list act :=
  match c with
  | CPut sp t n => query sp ++ [AOpen m t KPut; AClose m] ++ polls async n            (* rma_am_impl.h:13-45 *)
  | CGet sp t n => query sp ++ [AOpen m t KGet; AClose m] ++ polls async n            (* rma_am_impl.h:48-80 *)
  | CIput sp v t n => query sp ++ [AOpen m t KIput] ++ stride v ++ [AClose m] ++ polls async n   (* rma_am_impl.h:83-127 *)
  | CIget sp v t n => query sp ++ [AOpen m t KIget] ++ stride v ++ [AClose m] ++ polls async n   (* rma_am_impl.h:130-174 *)
  | CFetch sp t n => query sp ++ [AOpen m t KFetch; AClose m] ++ polls async n        (* amo_am_impl.h:52-93 *)
  | CCswap sp t n => query sp ++ [AOpen m t KCswap; AClose m] ++ polls async n        (* amo_am_impl.h:12-50 *)
  | CPost sp t n => query sp ++ [AOpen m t KPost] ++ polls async n                      (* amo_am_impl.h:95-127; no second part *)
  | CDirect sp => query sp ++ [AMpi]                                                  (* rma_impl.h:13-50, amo_impl.h:12-75 *)
  | CDirectStrided sp v w => query sp ++ stride v ++ stride w ++ [AMpi]               (* rma_impl.h:52-106 *)
  | CQuiet nf ts n =>                                                                 (* order_impl.h:36-65, 67-96 *)
      [AMpi; AMpi] ++ [AEnter LSpaces] ++ repeat AMpi nf ++ [AExit LSpaces] ++ am_flush async m ts n
  | CCtxQuiet => [AMpi]                                                               (* order_impl.h:38-42, 69-73 *)
  | CBarrierAll ts n n' => barrier_all async m ts n n'
  | CAlloc ts n n' => [AEnter LHeap; AMpi; AExit LHeap] ++ barrier_all async m ts n n' (* mem_impl.c:10-25, 50-95 *)
  | CFree ts n n' None => barrier_all async m ts n n' ++ [AEnter LHeap; AMpi; AExit LHeap]   (* mem_impl.c:27-36 *)
  | CFree ts n n' (Some None) => barrier_all async m ts n n' ++ [AEnter LSpaces; AMpi; AExit LSpaces] (* mem_impl.c:37-48 *)
  | CFree ts n n' (Some (Some k)) =>                                                  (* with space_impl.c:383-391 *)
      barrier_all async m ts n n' ++ [AEnter LSpaces; AEnter (LPool k); AMpi; AExit (LPool k); AExit LSpaces]
  | CSpaceCreate => [AMpi; AEnter LSpaces; AMpi; AExit LSpaces; AMpi]                 (* space_impl.c:166-221 *)
  | CSpaceDestroy => [AEnter LSpaces; AMpi; AExit LSpaces; AMpi]                      (* space_impl.c:224-250 *)
  | CSpaceMalloc k ts n n' => [AEnter (LPool k); AMpi; AExit (LPool k)] ++ barrier_all async m ts n n' (* space_impl.c:362-374 *)
  | CSpaceFree k => [AEnter (LPool k); AMpi; AExit (LPool k)]                         (* space_impl.c:383-391 *)
  | CActiveSet v w hit n => stride v ++ stride w ++ acquire_comm hit ++ [AMpi] ++ polls async n  (* coll_activeset_impl.h:145-313 *)
  | CBarrierSet hit ts n n' =>                                                        (* coll_activeset_impl.h:118-143 *)
      [AMpi; AMpi] ++ am_flush async m ts n ++ acquire_comm hit ++ [AMpi] ++ polls async n'
  | CTeam v w n => stride v ++ stride w ++ [AMpi] ++ polls async n                    (* coll_impl.h:46-160 *)
  | CWait sp n => query sp ++ [AMpi] ++ polls async n                                 (* p2p_impl.h:12-80 *)
  | CLock sp n => query sp ++ [AMpi] ++ polls async n                                 (* lock_impl.h:27-168 *)
  | CEngine => if async then [ATest] else []                                          (* am_impl.c:49-76 *)
  end.

(** The state: who is in which section, headers that arrived at each PE, messages whose second part is there, the next
    message number, and what each thread has left to do in its call. *)
Record lst : Type := mkL {
  l_own : Z -> lk -> option Z;
  l_box : Z -> list (Z * mk);
  l_done : Z -> bool;
  l_next : Z;
  l_th : Z -> Z -> list act
}.
Definition lst0 : lst := mkL (fun _ _ => None) (fun _ => []) (fun _ => false) 0 (fun _ _ => []).
Definition set_own (f : Z -> lk -> option Z) (p : Z) (l : lk) (o : option Z) : Z -> lk -> option Z :=
  fun q k => if (q =? p) && lk_eqb k l then o else f q k.
Definition set_th (f : Z -> Z -> list act) (p i : Z) (a : list act) : Z -> Z -> list act :=
  fun q j => if (q =? p) && (j =? i) then a else f q j.
Definition set1 {A : Type} (f : Z -> A) (p : Z) (a : A) : Z -> A := fun q => if q =? p then a else f q.
Fixpoint del {A : Type} (n : nat) (l : list A) : list A :=
  match n, l with O, _ :: r => r | S n', x :: r => x :: del n' r | _, [] => [] end.

(** Steps: a thread enters a call; does its next action; or finds a header when it tests. *)
Inductive lab : Type := LCall (p i : Z) (c : call) | LGo (p i : Z) | LHdr (p i : Z) (n : nat) (sp : bool) (v : slook).
Definition lstep (async : bool) (s : lst) (x : lab) : option lst :=
  match x with
  | LCall p i c =>
      match l_th s p i with
      | [] => Some (mkL (l_own s) (l_box s) (l_done s) (l_next s + nmsgs c)
                        (set_th (l_th s) p i (call_acts async (l_next s) c)))
      | _ => None
      end
  | LGo p i =>
      match l_th s p i with
      | [] => None
      | a :: r =>
          let th := set_th (l_th s) p i r in
          match a with
          | AEnter l =>
              match l_own s p l with
              | None => Some (mkL (set_own (l_own s) p l (Some i)) (l_box s) (l_done s) (l_next s) th)
              | Some _ => None
              end
          | AExit l =>
              match l_own s p l with
              | Some j => if j =? i then Some (mkL (set_own (l_own s) p l None) (l_box s) (l_done s) (l_next s) th) else None
              | None => None
              end
          | AOpen m t k => Some (mkL (l_own s) (set1 (l_box s) t (l_box s t ++ [(m, k)])) (l_done s) (l_next s) th)
          | AClose m => Some (mkL (l_own s) (l_box s) (set1 (l_done s) m true) (l_next s) th)
          | AMatch m => if l_done s m then Some (mkL (l_own s) (l_box s) (l_done s) (l_next s) th) else None
          | ATest | AMpi => Some (mkL (l_own s) (l_box s) (l_done s) (l_next s) th)
          end
      end
  | LHdr p i n sp v =>
      match l_th s p i, nth_error (l_box s p) n with
      | ATest :: r, Some (m, k) =>
          Some (mkL (l_own s) (set1 (l_box s) p (del n (l_box s p))) (l_done s) (l_next s)
                    (set_th (l_th s) p i (handler k m sp v ++ r)))
      | _, _ => None
      end
  end.
Fixpoint lrun (async : bool) (s : lst) (xs : list lab) : option lst :=
  match xs with
  | [] => Some s
  | x :: r => match lstep async s x with Some s' => lrun async s' r | None => None end
  end.
