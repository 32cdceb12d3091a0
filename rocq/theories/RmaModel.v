(** Data movement of puts, gets and strided puts and gets: MPI datatypes, the datatype cache
    (src/internal/strided_impl.h, strided_impl.c), the direct path (rma_impl.h) and the active
    message path (rma_am_impl.h, rma_am_impl.c).

    Memories are byte-addressed. Which window or symmetric object an address belongs to is dealt
    with in SobjModel, how active messages reach their callback in AmModel: here a message is the
    list of bytes that MPI packs. *)
From Verif Require Import Base ListLib.

(** ** MPI *)

Definition mem : Type := Z -> Z.

(** Store bytes one after the other. *)
Fixpoint write (m : mem) (l : list (Z * Z)) : mem :=
  match l with
  | [] => m
  | (a, v) :: r => write (fun x => if x =? a then v else m x) r
  end.

(** A predefined datatype; its extent is its size and its lower bound 0. *)
Record bt : Type := mkBt { bt_id : Z; bt_size : Z }.
Definition bt_eqb (a b : bt) : bool := (bt_id a =? bt_id b) && (bt_size a =? bt_size b).

(** What a datatype means: displacements in bytes of its elements of [d_esz] bytes, and extent. *)
Record dt : Type := mkDt { d_esz : Z; d_disps : list Z; d_ext : Z }.
Definition base_dt (b : bt) : dt := mkDt (bt_size b) [0] (bt_size b).

(** MPI_Type_vector(n, 1, stride, b): negative count is an MPI error. *)
Definition type_vector (n stride : Z) (b : bt) : outcome dt :=
  if n <? 0 then Abort
  else Ok (mkDt (bt_size b) (map (fun i => i * stride * bt_size b) (zseq 0 (Z.to_nat n)))
             (if n =? 0 then 0 else ((n - 1) * Z.abs stride + 1) * bt_size b)).
(** MPI_Type_create_resized(d, 0, ext). *)
Definition type_resized (d : dt) (ext : Z) : dt := mkDt (d_esz d) (d_disps d) ext.

(** Bytes of [cnt] consecutive [d] at [base], in the order of the type map. *)
Definition elems (cnt : Z) (d : dt) : list Z :=
  flat_map (fun j => map (fun x => j * d_ext d + x) (d_disps d)) (zseq 0 (Z.to_nat cnt)).
Definition addrs (base cnt : Z) (d : dt) : list Z :=
  flat_map (fun e => zseq (base + e) (Z.to_nat (d_esz d))) (elems cnt d).
Definition pack (m : mem) (base cnt : Z) (d : dt) : list Z := map m (addrs base cnt d).

(** MPI_Recv: a message longer than the buffer is an MPI error (MPI_ERR_TRUNCATE). *)
Definition recv (m : mem) (base cnt : Z) (d : dt) (msg : list Z) : outcome mem :=
  if cnt <? 0 then Abort
  else if Z.of_nat (length (addrs base cnt d)) <? Z.of_nat (length msg) then Abort
  else Ok (write m (combine (addrs base cnt d) msg)).
(** MPI_Send, MPI_Isend. *)
Definition send (m : mem) (base cnt : Z) (d : dt) : outcome (list Z) :=
  if cnt <? 0 then Abort else Ok (pack m base cnt d).

(** MPI_Put, MPI_Get: from [sm] to [dm]; both sides must describe the same amount of data. *)
Definition mpi_move (sm : mem) (sb scnt : Z) (sd : dt) (dm : mem) (db dcnt : Z) (dd : dt) : outcome mem :=
  if (scnt <? 0) || (dcnt <? 0) then Abort
  else if Z.of_nat (length (addrs sb scnt sd)) =? Z.of_nat (length (addrs db dcnt dd)) then
    Ok (write dm (combine (addrs db dcnt dd) (pack sm sb scnt sd)))
  else Abort.

(** ** Datatype handles and the cache *)

Inductive hdl : Type := HBase (b : bt) | HDer (n : nat).

(** OSHMPI_dtype_cache_obj_t (strided_impl.h:12-19). *)
Record centry : Type := mkCe { ce_n : Z; ce_st : Z; ce_bt : bt; ce_ext : Z; ce_hdl : hdl }.

(** Derived datatypes by handle ([None] once freed) and the cache list (strided_impl.h:21-27). *)
Record dts : Type := mkDts { t_objs : list (option dt); t_cache : list centry }.
Definition t_init : dts := mkDts [] [].

Definition resolve (t : dts) (h : hdl) : outcome dt :=
  match h with
  | HBase b => Ok (base_dt b)
  | HDer n => match nth_error (t_objs t) n with Some (Some d) => Ok d | _ => UB end
  end.
Definition new_type (t : dts) (d : dt) : dts * hdl :=
  (mkDts (t_objs t ++ [Some d]) (t_cache t), HDer (length (t_objs t))).
(** MPI_Type_free: of a predefined type or a type already freed it is an error. *)
Definition type_free (t : dts) (h : hdl) : outcome dts :=
  match h with
  | HBase _ => Abort
  | HDer n =>
      match nth_error (t_objs t) n with
      | Some (Some _) => Ok (mkDts (upd (t_objs t) n None) (t_cache t))
      | _ => Abort
      end
  end.

(** strided_find_dtype_cache (strided_impl.h:55-76), a constant 0 without
    OSHMPI_ENABLE_STRIDED_DTYPE_CACHE (93-99). *)
Definition find_cache (t : dts) (n st : Z) (b : bt) (ext : Z) : option hdl :=
  option_map ce_hdl
    (find (fun e => (ce_n e =? n) && (ce_st e =? st) && bt_eqb (ce_bt e) b && (ce_ext e =? ext)) (t_cache t)).

(** The slow path of OSHMPI_create_strided_dtype (strided_impl.h:143-170). The element size is the
    one of the type (149-162: the three collective types have sizes 1, 4, 8). *)
Definition strided_dt (n st : Z) (b : bt) (ext : Z) : outcome dt :=
  do v <- type_vector (to_int n) (to_int st) b;
  Ok (if 0 <? ext then type_resized v (to_long (wrap64 (ext * bt_size b))) else v).

(** OSHMPI_create_strided_dtype (strided_impl.h:112-179): [n] size_t, [st] ptrdiff_t. The
    intermediate vector type is freed at once when it has been resized (169-170). *)
Definition create_strided (cached : bool) (t : dts) (n st : Z) (b : bt) (ext : Z)
  : outcome (dts * (Z * hdl)) :=
  if st =? 1 then Ok (t, (n, HBase b))
  else match (if cached then find_cache t n st b ext else None) with
       | Some h => Ok (t, (1, h))
       | None =>
           do v <- type_vector (to_int n) (to_int st) b;
           let '(t1, hv) := new_type t v in
           do x <- (if 0 <? ext then
                      let '(t2, h) := new_type t1 (type_resized v (to_long (wrap64 (ext * bt_size b)))) in
                      do t3 <- type_free t2 hv; Ok (t3, h)
                    else Ok (t1, hv));
           let '(t4, h) := x in
           Ok (if cached then mkDts (t_objs t4) (mkCe n st b ext h :: t_cache t4) else t4, (1, h))
       end.

Definition is_base (b : bt) (h : hdl) : bool := match h with HBase b' => bt_eqb b b' | HDer _ => false end.
(** OSHMPI_free_strided_dtype, strided_free_dtype (strided_impl.h:78-82, 101-106, 181-186). *)
Definition free_strided (cached : bool) (t : dts) (b : bt) (h : hdl) : outcome dts :=
  if cached then Ok t else if is_base b h then Ok t else type_free t h.

(** Both sides of a transfer in one process (rma_impl.h:61-78, 87-104; coll_impl.h:131-150;
    coll_activeset_impl.h:282-299): types created, used, freed; with equal strides the first is
    used for both. *)
Definition strided_pair (cached : bool) (t : dts) (n st1 st2 : Z) (b : bt) (ext1 ext2 : Z)
  : outcome (dts * (Z * dt) * (Z * dt)) :=
  do x <- create_strided cached t n st1 b ext1;
  let '(t1, (c1, h1)) := x in
  do y <- (if st1 =? st2 then Ok (t1, (c1, h1)) else create_strided cached t1 n st2 b ext2);
  let '(t2, (c2, h2)) := y in
  do d1 <- resolve t2 h1;
  do d2 <- resolve t2 h2;
  do t3 <- free_strided cached t2 b h1;
  do t4 <- (if st1 =? st2 then Ok t3 else free_strided cached t3 b h2);
  Ok (t4, (c1, d1), (c2, d2)).

(** One side (rma_am_impl.h:107-127, 153-174; rma_am_impl.c:48-59, 71-82). *)
Definition strided_one (cached : bool) (t : dts) (n st : Z) (b : bt) : outcome (dts * (Z * dt)) :=
  do x <- create_strided cached t n st b 0;
  let '(t1, (c1, h1)) := x in
  do d1 <- resolve t1 h1;
  do t2 <- free_strided cached t1 b h1;
  Ok (t2, (c1, d1)).

(** OSHMPI_strided_finalize (strided_impl.c:23-36). *)
Fixpoint finalize_cache (t : dts) (l : list centry) : outcome dts :=
  match l with
  | [] => Ok t
  | e :: r => do t1 <- type_free t (ce_hdl e); finalize_cache t1 r
  end.
Definition strided_finalize (cached : bool) (t : dts) : outcome dts :=
  if cached then do t1 <- finalize_cache t (t_cache t); Ok (mkDts (t_objs t1) []) else Ok t.

(** ** Strided puts and gets *)

(** [om], [oa]: memory and address at the calling PE; [tm], [ta]: at the target PE. [ot]: the
    datatypes of the calling PE, [tt]: those of the target PE. *)
Record xfer : Type := mkXfer { x_n : Z; x_bt : bt; x_oa : Z; x_ta : Z; x_ost : Z; x_tst : Z }.

(** OSHMPI_ctx_iput, direct path (rma_impl.h:150-170, 55-79, 13-32): counts are converted to int. *)
Definition iput_direct (cached : bool) (ot : dts) (x : xfer) (om tm : mem) : outcome (dts * mem) :=
  if x_n x =? 0 then Ok (ot, tm) else
  do r <- strided_pair cached ot (x_n x) (x_ost x) (x_tst x) (x_bt x) 0 0;
  let '(ot1, (oc, od), (tc, td)) := r in
  do tm' <- mpi_move om (x_oa x) (to_int oc) od tm (x_ta x) (to_int tc) td;
  Ok (ot1, tm').

(** OSHMPI_ctx_iget, direct path (rma_impl.h:220-240, 81-105, 34-53). *)
Definition iget_direct (cached : bool) (ot : dts) (x : xfer) (om tm : mem) : outcome (dts * mem) :=
  if x_n x =? 0 then Ok (ot, om) else
  do r <- strided_pair cached ot (x_n x) (x_ost x) (x_tst x) (x_bt x) 0 0;
  let '(ot1, (oc, od), (tc, td)) := r in
  do om' <- mpi_move tm (x_ta x) (to_int tc) td om (x_oa x) (to_int oc) od;
  Ok (ot1, om').

(** OSHMPI_rma_am_iput (rma_am_impl.h:81-127) and OSHMPI_rma_am_iput_pkt_cb (rma_am_impl.c:40-60). *)
Definition iput_am (cached : bool) (ot tt : dts) (x : xfer) (om tm : mem) : outcome (dts * dts * mem) :=
  if x_n x =? 0 then Ok (ot, tt, tm) else
  do a <- strided_one cached ot (x_n x) (x_ost x) (x_bt x);
  let '(ot1, (oc, od)) := a in
  do msg <- send om (x_oa x) (to_int oc) od;
  do b <- strided_one cached tt (x_n x) (x_tst x) (x_bt x);
  let '(tt1, (tc, td)) := b in
  do tm' <- recv tm (x_ta x) (to_int tc) td msg;
  Ok (ot1, tt1, tm').

(** OSHMPI_rma_am_iget (rma_am_impl.h:130-174) and OSHMPI_rma_am_iget_pkt_cb (rma_am_impl.c:63-83). *)
Definition iget_am (cached : bool) (ot tt : dts) (x : xfer) (om tm : mem) : outcome (dts * dts * mem) :=
  if x_n x =? 0 then Ok (ot, tt, om) else
  do a <- strided_one cached ot (x_n x) (x_ost x) (x_bt x);
  let '(ot1, (oc, od)) := a in
  do b <- strided_one cached tt (x_n x) (x_tst x) (x_bt x);
  let '(tt1, (tc, td)) := b in
  do msg <- send tm (x_ta x) (to_int tc) td;
  do om' <- recv om (x_oa x) (to_int oc) od msg;
  Ok (ot1, tt1, om').

(** ** Contiguous puts and gets *)

(** OSHMPI_ctx_put, _nbi, direct path (rma_impl.h:107-148, 13-32). *)
Definition put_direct (b : bt) (n oa ta : Z) (om tm : mem) : outcome mem :=
  if n =? 0 then Ok tm
  else mpi_move om oa (to_int n) (base_dt b) tm ta (to_int n) (base_dt b).
(** OSHMPI_ctx_get, _nbi, direct path (rma_impl.h:175-218, 34-53). *)
Definition get_direct (b : bt) (n oa ta : Z) (om tm : mem) : outcome mem :=
  if n =? 0 then Ok om
  else mpi_move tm ta (to_int n) (base_dt b) om oa (to_int n) (base_dt b).

Definition bt_byte : bt := mkBt 0 1.
(** OSHMPI_rma_am_put (rma_am_impl.h:13-46), OSHMPI_rma_am_put_pkt_cb (rma_am_impl.c:11-23): the
    packet carries typesz * nelems bytes, size_t. *)
Definition put_am (b : bt) (typesz n oa ta : Z) (om tm : mem) : outcome mem :=
  if n =? 0 then Ok tm else
  do msg <- send om oa (to_int n) (base_dt b);
  recv tm ta (to_int (wrap64 (typesz * n))) (base_dt bt_byte) msg.
(** OSHMPI_rma_am_get (rma_am_impl.h:48-79), OSHMPI_rma_am_get_pkt_cb (rma_am_impl.c:26-38). *)
Definition get_am (b : bt) (typesz n oa ta : Z) (om tm : mem) : outcome mem :=
  if n =? 0 then Ok om else
  do msg <- send tm ta (to_int (wrap64 (typesz * n))) (base_dt bt_byte);
  recv om oa (to_int n) (base_dt b) msg.

(** maint/rma_sizedef.txt and src/shmem/rma_sized.c.tpl: shmem_put8 ... shmem_get128 pass the
    first column as typesz; the second component is the size of the MPI type. *)
Definition sized_table : list (Z * Z) := [(8, 1); (16, 2); (32, 4); (64, 8); (128, 16)].

(** ** Entry points *)

(** shmem_TYPE_iput, shmem_iputN (rma_typed.c.tpl, rma_sized.c.tpl:64-76): the origin is the source,
    the target is the destination; OSHMPI_ctx_iput takes the target stride first
    (rma_impl.h:150-155). *)
Definition iput_args (b : bt) (dest source dst sst n : Z) : xfer := mkXfer n b source dest sst dst.
(** shmem_TYPE_iget, shmem_igetN (rma_sized.c.tpl:38-50): the origin is the destination;
    OSHMPI_ctx_iget takes the origin stride first (rma_impl.h:220-225). *)
Definition iget_args (b : bt) (dest source dst sst n : Z) : xfer := mkXfer n b dest source dst sst.

(** The two paths. *)
Definition shmem_iput (am cached : bool) (ot tt : dts) (b : bt) (dest source dst sst n : Z) (om tm : mem)
  : outcome (dts * dts * mem) :=
  let x := iput_args b dest source dst sst n in
  if am then iput_am cached ot tt x om tm
  else do r <- iput_direct cached ot x om tm; Ok (fst r, tt, snd r).
Definition shmem_iget (am cached : bool) (ot tt : dts) (b : bt) (dest source dst sst n : Z) (om tm : mem)
  : outcome (dts * dts * mem) :=
  let x := iget_args b dest source dst sst n in
  if am then iget_am cached ot tt x om tm
  else do r <- iget_direct cached ot x om tm; Ok (fst r, tt, snd r).
Definition shmem_put (am : bool) (b : bt) (typesz dest source n : Z) (om tm : mem) : outcome mem :=
  if am then put_am b typesz n source dest om tm else put_direct b n source dest om tm.
Definition shmem_get (am : bool) (b : bt) (typesz dest source n : Z) (om tm : mem) : outcome mem :=
  if am then get_am b typesz n dest source om tm else get_direct b n dest source om tm.
