(** The wrappers of blocking MPI calls (am_progress_impl.h): with the progress thread they make the blocking call; without it they make the
    nonblocking one, or test the requests they are given, and handle active messages until it is complete. *)
From Coq Require Export String List ZArith Lia Bool.
Export ListNotations.
Open Scope Z_scope.
Open Scope string_scope.

(** An argument of an MPI call in a wrapper: a parameter of the wrapper, the address of the request or of the flag declared in the
    wrapper, or MPI_STATUS_IGNORE. *)
Inductive arg : Type := P (name : string) | Req | Flag | Ignore.
(** [wr_issue] is the nonblocking call, if there is one; [wr_test] is the test of the loop. *)
Record wrapper : Type := mkWr {
  wr_name : string; wr_params : list string;
  wr_block : string * list arg; wr_issue : option (string * list arg); wr_test : string * list arg }.

(** OSHMPI_AM_PROGRESS_MPI(req, stat) (am_progress_impl.h:16-23): the test *)
Definition test1 (stat : arg) : string * list arg := ("MPI_Test", [Req; Flag; stat]).

(** OSHMPI_am_progress_mpi_send (am_progress_impl.h:25-37) *)
Definition w_send := mkWr "send" ["buf"; "count"; "datatype"; "dest"; "tag"; "comm"]
  ("MPI_Send", [P "buf"; P "count"; P "datatype"; P "dest"; P "tag"; P "comm"])
  (Some ("MPI_Isend", [P "buf"; P "count"; P "datatype"; P "dest"; P "tag"; P "comm"; Req])) (test1 Ignore).
(** OSHMPI_am_progress_mpi_recv (am_progress_impl.h:39-52) *)
Definition w_recv := mkWr "recv" ["buf"; "count"; "datatype"; "src"; "tag"; "comm"; "status"]
  ("MPI_Recv", [P "buf"; P "count"; P "datatype"; P "src"; P "tag"; P "comm"; P "status"])
  (Some ("MPI_Irecv", [P "buf"; P "count"; P "datatype"; P "src"; P "tag"; P "comm"; Req])) (test1 (P "status")).
(** OSHMPI_am_progress_mpi_waitall (am_progress_impl.h:54-70) *)
Definition w_waitall := mkWr "waitall" ["count"; "array_of_requests"; "array_of_statuses"]
  ("MPI_Waitall", [P "count"; P "array_of_requests"; P "array_of_statuses"])
  None ("MPI_Testall", [P "count"; P "array_of_requests"; Flag; P "array_of_statuses"]).
(** OSHMPI_am_progress_mpi_barrier (am_progress_impl.h:72-82) *)
Definition w_barrier := mkWr "barrier" ["comm"] ("MPI_Barrier", [P "comm"]) (Some ("MPI_Ibarrier", [P "comm"; Req])) (test1 Ignore).
(** OSHMPI_am_progress_mpi_bcast (am_progress_impl.h:84-96) *)
Definition w_bcast := mkWr "bcast" ["buffer"; "count"; "datatype"; "root"; "comm"]
  ("MPI_Bcast", [P "buffer"; P "count"; P "datatype"; P "root"; P "comm"])
  (Some ("MPI_Ibcast", [P "buffer"; P "count"; P "datatype"; P "root"; P "comm"; Req])) (test1 Ignore).
(** OSHMPI_am_progress_mpi_allgather (am_progress_impl.h:98-116) *)
Definition w_allgather := mkWr "allgather" ["sendbuf"; "sendcount"; "sendtype"; "recvbuf"; "recvcount"; "recvtype"; "comm"]
  ("MPI_Allgather", [P "sendbuf"; P "sendcount"; P "sendtype"; P "recvbuf"; P "recvcount"; P "recvtype"; P "comm"])
  (Some ("MPI_Iallgather", [P "sendbuf"; P "sendcount"; P "sendtype"; P "recvbuf"; P "recvcount"; P "recvtype"; P "comm"; Req])) (test1 Ignore).
(** OSHMPI_am_progress_mpi_allgatherv (am_progress_impl.h:118-138) *)
Definition w_allgatherv := mkWr "allgatherv" ["sendbuf"; "sendcount"; "sendtype"; "recvbuf"; "recvcounts"; "displs"; "recvtype"; "comm"]
  ("MPI_Allgatherv", [P "sendbuf"; P "sendcount"; P "sendtype"; P "recvbuf"; P "recvcounts"; P "displs"; P "recvtype"; P "comm"])
  (Some ("MPI_Iallgatherv", [P "sendbuf"; P "sendcount"; P "sendtype"; P "recvbuf"; P "recvcounts"; P "displs"; P "recvtype"; P "comm"; Req]))
  (test1 Ignore).
(** OSHMPI_am_progress_mpi_alltoall (am_progress_impl.h:140-158) *)
Definition w_alltoall := mkWr "alltoall" ["sendbuf"; "sendcount"; "sendtype"; "recvbuf"; "recvcount"; "recvtype"; "comm"]
  ("MPI_Alltoall", [P "sendbuf"; P "sendcount"; P "sendtype"; P "recvbuf"; P "recvcount"; P "recvtype"; P "comm"])
  (Some ("MPI_Ialltoall", [P "sendbuf"; P "sendcount"; P "sendtype"; P "recvbuf"; P "recvcount"; P "recvtype"; P "comm"; Req])) (test1 Ignore).
(** OSHMPI_am_progress_mpi_allreduce (am_progress_impl.h:160-173) *)
Definition w_allreduce := mkWr "allreduce" ["sendbuf"; "recvbuf"; "count"; "datatype"; "op"; "comm"]
  ("MPI_Allreduce", [P "sendbuf"; P "recvbuf"; P "count"; P "datatype"; P "op"; P "comm"])
  (Some ("MPI_Iallreduce", [P "sendbuf"; P "recvbuf"; P "count"; P "datatype"; P "op"; P "comm"; Req])) (test1 Ignore).
Definition wrappers : list wrapper :=
  [w_send; w_recv; w_waitall; w_barrier; w_bcast; w_allgather; w_allgatherv; w_alltoall; w_allreduce].

(** Values of arguments: what the caller passed, or an object of the wrapper. *)
Inductive value : Type := V (z : Z) | VReq | VFlag | VIgnore | VUndef.
Fixpoint bound (ps : list string) (vs : list value) (x : string) : value :=
  match ps, vs with
  | p :: ps', v :: vs' => if String.eqb p x then v else bound ps' vs' x
  | _, _ => VUndef
  end.
Definition eval (w : wrapper) (vs : list value) (a : arg) : value :=
  match a with P x => bound (wr_params w) vs x | Req => VReq | Flag => VFlag | Ignore => VIgnore end.

(** What a wrapper does: MPI calls, tests with the value the flag got, and rounds of active message progress. *)
Inductive event : Type := Call (f : string) (args : list value) | Test (f : string) (args : list value) (flag : bool) | Progress.
(** The loop (am_progress_impl.h:17-22, 61-67): [flag i] is what the [i]-th test says; None when the fuel is used up. *)
Fixpoint loop (fuel : nat) (flag : nat -> bool) (i : nat) (f : string) (args : list value) : option (list event) :=
  match fuel with
  | O => None
  | S n =>
      if flag i then Some [Test f args true]
      else option_map (fun l => Test f args false :: Progress :: l) (loop n flag (S i) f args)
  end.
(** A call of a wrapper; [async] is OSHMPI_ENABLE_AM_ASYNC_THREAD_RUNTIME. *)
Definition run (async : bool) (fuel : nat) (flag : nat -> bool) (w : wrapper) (vs : list value) : option (list event) :=
  let ev := map (eval w vs) in
  if async then Some [Call (fst (wr_block w)) (ev (snd (wr_block w)))]
  else
    let issue := match wr_issue w with Some (f, a) => [Call f (ev a)] | None => [] end in
    option_map (app issue) (loop fuel flag 0 (fst (wr_test w)) (ev (snd (wr_test w)))).
