(** Data movement of the collectives over active sets (src/internal/coll_activeset_impl.h:162-313)
    and teams (src/internal/coll_impl.h:51-160). All members call together with the same element
    type; the memory of every PE is given before and after. *)
From Verif Require Import Base ListLib TeamModel AsetModel RmaModel.

(** Memory of every PE of the world. *)
Definition mems : Type := Z -> mem.

(** ** MPI *)

(** New memory of every member: [f i p] for the member of rank [i], PE [p]. *)
Fixpoint on_members (f : Z -> Z -> outcome mem) (i : Z) (g : group) (M : mems) : outcome mems :=
  match g with
  | [] => Ok M
  | p :: r =>
      do m <- f i p;
      do M' <- on_members f (i + 1) r M;
      Ok (fun q => if q =? p then m else M' q)
  end.

(** Sent and received amounts of a collective must be the same; anything else is erroneous. *)
Definition recv_exact (m : mem) (base cnt : Z) (d : dt) (msg : list Z) : outcome mem :=
  if (cnt <? 0) || negb (Nat.eqb (length (addrs base cnt d)) (length msg)) then Abort
  else Ok (write m (combine (addrs base cnt d) msg)).
(** Receive block [j] for j = 0, 1, ...: address, count and message. *)
Fixpoint deliver (m : mem) (d : dt) (bl : list (Z * Z * list Z)) : outcome mem :=
  match bl with
  | [] => Ok m
  | (a, c, msg) :: r => do m1 <- recv_exact m a c d msg; deliver m1 d r
  end.

(** MPI_Bcast: [buf p] is the buffer passed by PE [p]. *)
Definition mpi_bcast (g : group) (root cnt : Z) (d : dt) (buf : Z -> Z) (M : mems) : outcome mems :=
  match aget g root with
  | None => Abort
  | Some r =>
      do msg <- send (M r) (buf r) cnt d;
      on_members (fun i p => if i =? root then Ok (M p) else recv_exact (M p) (buf p) cnt d msg) 0 g M
  end.

Fixpoint sends (M : mems) (buf cnt : Z -> Z) (d : dt) (g : group) : outcome (list (list Z)) :=
  match g with
  | [] => Ok []
  | p :: r => do a <- send (M p) (buf p) (cnt p) d; do l <- sends M buf cnt d r; Ok (a :: l)
  end.
(** The blocks of [msgs] at addresses [base + disp * extent]. *)
Fixpoint place (base ext : Z) (disps cnts : list Z) (msgs : list (list Z)) : list (Z * Z * list Z) :=
  match disps, cnts, msgs with
  | s :: ss, c :: cs, m :: ms => (base + s * ext, c, m) :: place base ext ss cs ms
  | _, _, _ => []
  end.

(** MPI_Allgatherv: PE [p] passes the arrays [rcnts p] and [rdispls p]. *)
Definition mpi_allgatherv (g : group) (d : dt) (sbuf scnt rbuf : Z -> Z) (rcnts rdispls : Z -> list Z) (M : mems)
  : outcome mems :=
  do msgs <- sends M sbuf scnt d g;
  on_members (fun _ p => deliver (M p) d (place (rbuf p) (d_ext d) (rdispls p) (rcnts p) msgs)) 0 g M.
(** MPI_Allgather: block [j] at [j * rcnt]. *)
Definition mpi_allgather (g : group) (d : dt) (sbuf scnt rbuf rcnt : Z -> Z) (M : mems) : outcome mems :=
  mpi_allgatherv g d sbuf scnt rbuf (fun p => map (fun _ => rcnt p) g)
    (fun p => map (fun j => j * rcnt p) (zseq 0 (length g))) M.
(** MPI_Alltoall: the member of rank [k] gets from each member its block [k]. *)
Definition mpi_alltoall (g : group) (sd rd : dt) (scnt rcnt : Z) (sbuf rbuf : Z -> Z) (M : mems) : outcome mems :=
  on_members (fun k p =>
    do msgs <- sends M (fun q => sbuf q + k * scnt * d_ext sd) (fun _ => scnt) sd g;
    deliver (M p) rd (place (rbuf p) (d_ext rd) (map (fun j => j * rcnt) (zseq 0 (length g))) (map (fun _ => rcnt) g) msgs))
    0 g M.

(** MPI_Allreduce: element-wise; [op] combines two elements given by their bytes, applied in the
    order of ranks. [inplace p]: PE [p] passed MPI_IN_PLACE; all must agree. *)
Section Reduce.
  Variable op : list Z -> list Z -> list Z.
  Definition elem (m : mem) (b : bt) (buf i : Z) : list Z := pack m (buf + i * bt_size b) 1 (base_dt b).
  Definition reduce1 (g : group) (b : bt) (buf : Z -> Z) (M : mems) (i : Z) : list Z :=
    match g with
    | [] => []
    | p :: r => fold_left (fun acc q => op acc (elem (M q) b (buf q) i)) r (elem (M p) b (buf p) i)
    end.
  Definition mpi_allreduce (g : group) (cnt : Z) (b : bt) (sbuf rbuf : Z -> Z) (inplace : Z -> bool) (M : mems)
    : outcome mems :=
    if cnt <? 0 then Abort
    else if forallb inplace g || forallb (fun p => negb (inplace p)) g then
      let buf := fun p => if inplace p then rbuf p else sbuf p in
      let res := flat_map (reduce1 g b buf M) (zseq 0 (Z.to_nat cnt)) in
      on_members (fun _ p => recv_exact (M p) (rbuf p) cnt (base_dt b) res) 0 g M
    else UB.
End Reduce.

(** ** Collectives over active sets *)

(** The communicator of an active set (see AsetModel). *)
Definition aset_group (n : Z) (k : key) : outcome group := do l <- pe_list k; group_incl n l.

(** coll_check_root_in_active_set (coll_activeset_impl.h:162-175). *)
Definition check_root (root : Z) (g : group) : bool := existsb (fun p => root =? p) g.

(** MPI_Get by every member from PE [root] (coll_activeset_impl.h:188-207); the remote address of
    [source] is the root's (SobjModel). A rank outside the world is an MPI error. *)
Definition get_from (n root cnt : Z) (d : dt) (dest source : Z -> Z) (g : group) (M : mems) : outcome mems :=
  if (0 <=? root) && (root <? n) then
    on_members (fun _ p => mpi_move (M root) (source root) cnt d (M p) (dest p) cnt d) 0 g M
  else Abort.

(** OSHMPI_broadcast (177-208): PE_root is used both as a PE number and as a rank of the
    communicator. *)
Definition aset_broadcast (n : Z) (k : key) (b : bt) (root nelems : Z) (dest source : Z -> Z) (M : mems) : outcome mems :=
  do g <- aset_group n k;
  if check_root root g then
    mpi_bcast g root (to_int nelems) (base_dt b) (fun p => if root =? p then source p else dest p) M
  else get_from n root (to_int nelems) (base_dt b) dest source g M.

(** rdispls (coll_activeset_impl.h:228-233, coll_impl.h:88-93): int prefix sums. *)
Fixpoint prefix_sums (acc : Z) (l : list Z) : outcome (list Z) :=
  match l with
  | [] => Ok []
  | c :: r =>
      match r with
      | [] => Ok [acc]
      | _ => do acc' <- int_op (acc + c); do x <- prefix_sums acc' r; Ok (acc :: x)
      end
  end.
(** OSHMPI_collect (210-244), OSHMPI_collect_team (coll_impl.h:70-104). The counts are gathered as
    MPI_INT from the address of a size_t: on a little-endian machine its low 32 bits. Each member
    compares its own count with all of them to choose the operation; to choose different ones is
    erroneous. *)
Definition collect_group (g : group) (b : bt) (nelems : Z -> Z) (dest source : Z -> Z) (M : mems) : outcome mems :=
  let rcounts := map (fun p => to_int (nelems p)) g in
  do rdispls <- prefix_sums 0 rcounts;
  let same := fun p => forallb (fun c => nelems p =? wrap64 c) rcounts in
  if forallb same g then
    mpi_allgather g (base_dt b) source (fun p => to_int (nelems p)) dest (fun p => to_int (nelems p)) M
  else if forallb (fun p => negb (same p)) g then
    mpi_allgatherv g (base_dt b) source (fun p => to_int (nelems p)) dest (fun _ => rcounts) (fun _ => rdispls) M
  else UB.
Definition aset_collect (n : Z) (k : key) (b : bt) (nelems : Z -> Z) (dest source : Z -> Z) (M : mems) : outcome mems :=
  do g <- aset_group n k; collect_group g b nelems dest source M.

(** OSHMPI_fcollect (246-255), OSHMPI_fcollect_team (coll_impl.h:106-111). *)
Definition fcollect_group (g : group) (b : bt) (nelems : Z) (dest source : Z -> Z) (M : mems) : outcome mems :=
  mpi_allgather g (base_dt b) source (fun _ => to_int nelems) dest (fun _ => to_int nelems) M.
Definition aset_fcollect (n : Z) (k : key) (b : bt) (nelems : Z) (dest source : Z -> Z) (M : mems) : outcome mems :=
  do g <- aset_group n k; fcollect_group g b nelems dest source M.

(** OSHMPI_alltoall (257-266), OSHMPI_alltoall_team (coll_impl.h:113-118). *)
Definition alltoall_group (g : group) (b : bt) (nelems : Z) (dest source : Z -> Z) (M : mems) : outcome mems :=
  mpi_alltoall g (base_dt b) (base_dt b) (to_int nelems) (to_int nelems) source dest M.
Definition aset_alltoall (n : Z) (k : key) (b : bt) (nelems : Z) (dest source : Z -> Z) (M : mems) : outcome mems :=
  do g <- aset_group n k; alltoall_group g b nelems dest source M.

(** OSHMPI_alltoalls (268-300), OSHMPI_alltoalls_team (coll_impl.h:120-151): [t]: the datatypes of
    the calling PE; the same types result on every PE (C29), so one of them is followed. The
    products nelems * stride are size_t. *)
Definition alltoalls_group (cached : bool) (t : dts) (g : group) (b : bt) (dst sst nelems : Z) (dest source : Z -> Z) (M : mems)
  : outcome (dts * mems) :=
  do r <- strided_pair cached t nelems sst dst b (wrap64 (nelems * sst)) (wrap64 (nelems * dst));
  let '(t1, (sc, sd), (rc, rd)) := r in
  do M' <- mpi_alltoall g sd rd (to_int sc) (to_int rc) source dest M;
  Ok (t1, M').
Definition aset_alltoalls (cached : bool) (t : dts) (n : Z) (k : key) (b : bt) (dst sst nelems : Z) (dest source : Z -> Z) (M : mems)
  : outcome (dts * mems) :=
  do g <- aset_group n k; alltoalls_group cached t g b dst sst nelems dest source M.

(** OSHMPI_allreduce (302-313), OSHMPI_allreduce_team (coll_impl.h:153-160). *)
Definition allreduce_group (op : list Z -> list Z -> list Z) (g : group) (b : bt) (nreduce : Z) (dest source : Z -> Z) (M : mems)
  : outcome mems :=
  mpi_allreduce op g (to_int nreduce) b source dest (fun p => source p =? dest p) M.
Definition aset_allreduce (op : list Z -> list Z -> list Z) (n : Z) (k : key) (b : bt) (nreduce : Z) (dest source : Z -> Z) (M : mems)
  : outcome mems :=
  do g <- aset_group n k; allreduce_group op g b nreduce dest source M.

(** ** Team broadcast *)

(** memcpy. *)
Definition memcpy (m : mem) (dest source bytes : Z) : mem :=
  write m (combine (zseq dest (Z.to_nat bytes)) (map m (zseq source (Z.to_nat bytes)))).
(** OSHMPI_broadcast_team (coll_impl.h:51-68): the root passes its source and copies it to its
    destination afterwards. *)
Definition team_broadcast (g : group) (b : bt) (root nelems : Z) (dest source : Z -> Z) (M : mems) : outcome mems :=
  let is_root := fun p => match index_of g p with Some i => root =? i | None => false end in
  do M1 <- mpi_bcast g root (to_int nelems) (base_dt b) (fun p => if is_root p then source p else dest p) M;
  on_members (fun _ p => Ok (if is_root p then memcpy (M1 p) (dest p) (source p) (wrap64 (nelems * bt_size b)) else M1 p)) 0 g M1.
