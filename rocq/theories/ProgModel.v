(** Whole programs that mix active-message operations with collective calls: who waits for whom.
    One thread per PE. Simplified from AmModel: a request is handled and its reply delivered in one
    step, payloads and memory are left out; what is kept is when a PE answers requests. *)
From Verif Require Import Base LockModel.

(** A collective MPI operation inside a library call: [Poll], through a wrapper of
    am_progress_impl.h that polls for active messages while it waits (when there is no
    asynchronous thread); [Blk], a direct blocking MPI call. *)
Inductive ckind : Type := Poll | Blk.

(** What a PE does, in program order:
    - [AOp ts]: requests to the PEs [ts], then wait for all replies, polling: a fetching AM
      operation (one target; amo_am_impl.h:29-39, rma_am_impl.h:67-71) or OSHMPI_am_flush
      (am_impl.h:55-68);
    - [APost t]: a request without reply (amo_am_impl.h:103-124);
    - [AColl k]: the k-th collective of the program. *)
Inductive action : Type := AOp (ts : list Z) | APost (t : Z) | AColl (k : nat).

(** A PE is about to do the next action, waits for replies, or is inside a collective. *)
Inductive pst : Type :=
| PRun (r : list action)
| PWait (ts : list Z) (r : list action)
| PIn (k : nat) (r : list action).

Record gst : Type := mkGst {
  q_pe : Z -> pst;
  q_box : Z -> list (Z * bool);      (* requests not yet handled: origin, reply awaited *)
  q_ent : nat -> Z -> bool           (* who has entered a collective *)
}.

Section Prog.
(** Is there an asynchronous progress thread (OSHMPI_ENABLE_AM_ASYNC_THREAD_RUNTIME)? *)
Variable async : bool.
(** Members and kind of the collectives. *)
Variable mem : nat -> list Z.
Variable kd : nat -> ckind.

Definition q_init (prog : Z -> list action) : gst :=
  mkGst (fun p => PRun (prog p)) (fun _ => []) (fun _ _ => false).

Definition set_pe (s : gst) (p : Z) (x : pst) : gst := mkGst (fset (q_pe s) p x) (q_box s) (q_ent s).
Definition put_box (s : gst) (t : Z) (m : Z * bool) : gst :=
  mkGst (q_pe s) (fset (q_box s) t (q_box s t ++ [m])) (q_ent s).
Fixpoint put_all (s : gst) (ts : list Z) (p : Z) : gst :=
  match ts with [] => s | t :: r => put_all (put_box s t (p, true)) r p end.
Definition enter (s : gst) (k : nat) (p : Z) : gst :=
  mkGst (q_pe s) (q_box s) (fun j q => if (j =? k)%nat && (q =? p) then true else q_ent s j q).

(** Does PE [t] answer requests: always with an asynchronous thread; otherwise only inside the
    polling loops (am_progress_impl.h:16-23, 54-70). *)
Definition answers (x : pst) : bool :=
  async || match x with PWait _ _ => true | PIn k _ => match kd k with Poll => true | Blk => false end | PRun _ => false end.

Definition all_in (s : gst) (k : nat) : bool := forallb (q_ent s k) (mem k).

(** Remove the [j]-th element. *)
Fixpoint del {X : Type} (j : nat) (l : list X) : list X :=
  match j, l with _, [] => [] | O, _ :: r => r | S j, x :: r => x :: del j r end.
Definition rm (t : Z) (ts : list Z) : list Z := filter (fun u => negb (u =? t)) ts.

(** A reply from [t] arrives at [p]. *)
Definition reply (s : gst) (p t : Z) : gst :=
  match q_pe s p with PWait ts r => set_pe s p (PWait (rm t ts) r) | _ => s end.

(** [GGo p]: the thread of PE p goes on; [GCb t j]: PE t handles the j-th of its requests (any:
    the receive is posted with MPI_ANY_SOURCE). *)
Inductive glabel : Type := GGo (p : Z) | GCb (t : Z) (j : nat).

Definition gstep (s : gst) (l : glabel) : gst :=
  match l with
  | GGo p =>
      match q_pe s p with
      | PRun [] => s
      | PRun (AOp ts :: r) => set_pe (put_all s ts p) p (PWait ts r)
      | PRun (APost t :: r) => set_pe (put_box s t (p, false)) p (PRun r)
      | PRun (AColl k :: r) => set_pe (enter s k p) p (PIn k r)
      | PWait [] r => set_pe s p (PRun r)
      | PWait _ _ => s
      | PIn k r => if all_in s k then set_pe s p (PRun r) else s
      end
  | GCb t j =>
      if answers (q_pe s t) then
        match nth_error (q_box s t) j with
        | Some (p, w) =>
            let s1 := mkGst (q_pe s) (fset (q_box s) t (del j (q_box s t))) (q_ent s) in
            if w then reply s1 p t else s1
        | None => s
        end
      else s
  end.
Definition grun (s : gst) (ls : list glabel) : gst := fold_left gstep ls s.
End Prog.

(** ** Library calls (without optional windows of contexts)

    [CFetch], [CPost]: atomics through active messages. Collective calls, all over the same PEs:
    - [CBarrierAll]: flush, then a polling barrier (coll_impl.h:12-32); also the barrier inside
      shmem_malloc, shmem_free, shmemx_space_malloc (mem_impl.c, space_impl.c:372);
    - [CSyncAll], [CTeamColl]: polling operations on the communicator of a team (coll_impl.h:34-160);
    - [CBarrierSet first]: barrier over an active set: flush, MPI_Comm_create_group if no
      communicator is cached, polling barrier (coll_activeset_impl.h:76-143);
    - [CCollSet first]: sync, broadcast, collect, reduce over an active set (145-315);
    - [CSplit]: MPI_Comm_split (team_impl.c:43-62);
    - [CAttach]: MPI_Allgather, MPI_Win_create (symm_mem.c:188, space_impl.c:12-22, 276-328);
    - [CDetach]: MPI_Win_free (space_impl.c:25-31, 331-356). *)
Inductive call : Type :=
| CFetch (t : Z) | CPost (t : Z)
| CBarrierAll | CSyncAll | CTeamColl | CBarrierSet (first : bool) | CCollSet (first : bool)
| CSplit | CAttach | CDetach.

Definition flushes (c : call) : bool := match c with CBarrierAll | CBarrierSet _ => true | _ => false end.
Definition phases (c : call) : list ckind :=
  match c with
  | CFetch _ | CPost _ => []
  | CBarrierAll | CSyncAll | CTeamColl => [Poll]
  | CBarrierSet f | CCollSet f => if f then [Blk; Poll] else [Poll]
  | CSplit => [Blk]
  | CAttach => [Blk; Blk]
  | CDetach => [Blk]
  end.

(** The actions of a program: [out], the PEs with outstanding operations (outstanding_op_flags);
    [k], the collectives so far. *)
Fixpoint expand (out : list Z) (k : nat) (cs : list call) : list action :=
  match cs with
  | [] => []
  | CFetch t :: r => AOp [t] :: expand (rm t out) k r
  | CPost t :: r => APost t :: expand (t :: rm t out) k r
  | c :: r =>
      (if flushes c then match out with [] => [] | _ => [AOp out] end else []) ++
      map AColl (seq k (length (phases c))) ++
      expand (if flushes c then [] else out) (k + length (phases c)) r
  end.
(** The kinds of the collectives of a program. *)
Definition kinds (cs : list call) : list ckind := flat_map phases cs.
