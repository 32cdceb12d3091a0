(** What MPI calls mean (MPI 3.1, C bindings): the operation and what each argument stands for. *)
From Verif Require Import PrwModel.

Inductive role : Type := Buf | Count | Type_ | Peer | Tag | Comm | SBuf | SCount | SType | RBuf | RCount | Displs | RType | Op | Status
  | Requests | Statuses.
(** Of the blocking call of each operation, in order. *)
Definition roles (op : string) : list role :=
  match op with
  | "send" => [Buf; Count; Type_; Peer; Tag; Comm]
  | "recv" => [Buf; Count; Type_; Peer; Tag; Comm; Status]
  | "waitall" => [Count; Requests; Statuses]
  | "barrier" => [Comm]
  | "bcast" => [Buf; Count; Type_; Peer; Comm]
  | "allgather" | "alltoall" => [SBuf; SCount; SType; RBuf; RCount; RType; Comm]
  | "allgatherv" => [SBuf; SCount; SType; RBuf; RCount; Displs; RType; Comm]
  | "allreduce" => [SBuf; RBuf; Count; Type_; Op; Comm]
  | _ => []
  end.
Definition blocking (f : string) : option string :=
  match f with
  | "MPI_Send" => Some "send" | "MPI_Recv" => Some "recv" | "MPI_Waitall" => Some "waitall" | "MPI_Barrier" => Some "barrier"
  | "MPI_Bcast" => Some "bcast" | "MPI_Allgather" => Some "allgather" | "MPI_Allgatherv" => Some "allgatherv"
  | "MPI_Alltoall" => Some "alltoall" | "MPI_Allreduce" => Some "allreduce"
  | _ => None
  end.
(** Nonblocking calls have the same arguments, less a status, and a request at the end. *)
Definition nonblocking (f : string) : option string :=
  match f with
  | "MPI_Isend" => Some "send" | "MPI_Irecv" => Some "recv" | "MPI_Ibarrier" => Some "barrier" | "MPI_Ibcast" => Some "bcast"
  | "MPI_Iallgather" => Some "allgather" | "MPI_Iallgatherv" => Some "allgatherv" | "MPI_Ialltoall" => Some "alltoall"
  | "MPI_Iallreduce" => Some "allreduce"
  | _ => None
  end.
Definition is_status (r : role) : bool := match r with Status => true | _ => false end.
Definition roles_nb (op : string) : list role := filter (fun r => negb (is_status r)) (roles op).

(** A complete operation: what was done, and with what. A status that is ignored is as none. *)
Definition done : Type := (string * list (role * value))%type.
Definition stat (v : value) : list (role * value) := match v with VIgnore => [] | _ => [(Status, v)] end.
Definition norm (l : list (role * value)) : list (role * value) :=
  flat_map (fun e => if is_status (fst e) then stat (snd e) else [e]) l.

(** The tests of a request: always the same one, until the last says it is complete; between two, and only then, progress is made once.
    The result is what is tested and the number of rounds of progress. *)
Fixpoint tests (l : list event) : option (string * list value * nat) :=
  match l with
  | [Test f a true] => Some (f, a, O)
  | Test f a false :: Progress :: l' =>
      match tests l' with Some (g, b, n) => if String.eqb f g then Some (g, b, S n) else None | None => None end
  | _ => None
  end.
Fixpoint same_args (l : list event) (a : list value) : Prop :=
  match l with [] => True | Test _ b _ :: l' => a = b /\ same_args l' a | _ :: l' => same_args l' a end.

(** The operation a sequence of events completes, and the number of rounds of progress meanwhile. *)
Inductive completes : list event -> done -> nat -> Prop :=
  | ByCall f op args : blocking f = Some op -> length args = length (roles op) ->
      completes [Call f args] (op, norm (combine (roles op) args)) 0
  | ByTest f op args l st n : nonblocking f = Some op -> length args = length (roles_nb op) ->
      tests l = Some ("MPI_Test", [VReq; VFlag; st], n) -> same_args l [VReq; VFlag; st] ->
      completes (Call f (args ++ [VReq]) :: l) (op, norm (combine (roles_nb op) args ++ [(Status, st)])) n
  | ByTestall l c rs ss n : tests l = Some ("MPI_Testall", [c; rs; VFlag; ss], n) -> same_args l [c; rs; VFlag; ss] ->
      completes l ("waitall", [(Count, c); (Requests, rs); (Statuses, ss)]) n.
(** The first test that says complete is number [k]. *)
Definition first_true (flag : nat -> bool) (k : nat) : Prop := flag k = true /\ forall i, (i < k)%nat -> flag i = false.
