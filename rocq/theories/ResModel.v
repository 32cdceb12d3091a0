(** What the library acquires and releases: communicators, groups, windows, access epochs, info objects,
    datatypes, memory, mappings, critical sections. Every acquisition gets a fresh number; releasing something
    that is not held, or is held as something else, is UB (MPI calls this erroneous, free and munmap undefined).
    An access epoch has the number of its window, an attachment to the dynamic window the number of its memory.
    malloc and MPI calls succeed (a NULL result aborts in the code).
    The contents of all these objects are modelled elsewhere (TeamModel, AsetModel, StrideModel, PoolModel, OrderModel). *)
From Verif Require Import Base.

Inductive rkind : Type :=
| RComm | RGroup | RWin | REpoch | RAtt | RInfo | RType | RMem | RMap | RDev (ze : bool) | RCs.
Definition rkind_eqb (a b : rkind) : bool :=
  match a, b with
  | RComm, RComm | RGroup, RGroup | RWin, RWin | REpoch, REpoch | RAtt, RAtt | RInfo, RInfo
  | RType, RType | RMem, RMem | RMap, RMap | RCs, RCs => true
  | RDev x, RDev y => Bool.eqb x y
  | _, _ => false
  end.
Definition res : Type := (Z * rkind)%type.
Definition res_eqb (a b : res) : bool := (fst a =? fst b) && rkind_eqb (snd a) (snd b).

(** Everything held, and the number the next acquisition gets. *)
Record led : Type := mkLed { ld_live : list res; ld_next : Z }.
Definition held_b (x : res) (s : led) : bool := existsb (res_eqb x) (ld_live s).
Fixpoint take_out (x : res) (l : list res) : list res :=
  match l with [] => [] | y :: r => if res_eqb x y then r else y :: take_out x r end.

Definition acq (k : rkind) (s : led) : Z * led :=
  (ld_next s, mkLed ((ld_next s, k) :: ld_live s) (ld_next s + 1)).
Definition rel (k : rkind) (i : Z) (s : led) : outcome led :=
  if held_b (i, k) s then Ok (mkLed (take_out (i, k) (ld_live s)) (ld_next s)) else UB.

(** MPI_Win_lock_all / MPI_Win_unlock_all. *)
Definition lock_all (w : Z) (s : led) : outcome led :=
  if held_b (w, RWin) s && negb (held_b (w, REpoch) s) then Ok (mkLed ((w, REpoch) :: ld_live s) (ld_next s)) else UB.
Definition unlock_all (w : Z) (s : led) : outcome led := rel REpoch w s.
(** MPI_Win_free: erroneous inside an access epoch. *)
Definition win_free (w : Z) (s : led) : outcome led :=
  if held_b (w, REpoch) s then UB else rel RWin w s.
(** MPI_Win_attach / MPI_Win_detach of the memory with number b to the one dynamic window. *)
Definition win_attach (b : Z) (s : led) : outcome led :=
  if held_b (b, RAtt) s then UB else Ok (mkLed ((b, RAtt) :: ld_live s) (ld_next s)).
Definition win_detach (b : Z) (s : led) : outcome led := rel RAtt b s.
(** MPI_Win_free of the dynamic window also detaches what is still attached. *)
Definition dyn_win_free (w : Z) (s : led) : outcome led :=
  do s1 <- win_free w s;
  Ok (mkLed (filter (fun x : res => negb (rkind_eqb (snd x) RAtt)) (ld_live s1)) (ld_next s1)).
(** Memory that may be attached (heaps): releasing it while attached is undefined. k: RMem for free, RMap for munmap, RDev for device memory. *)
Definition mem_free (k : rkind) (b : Z) (s : led) : outcome led :=
  if held_b (b, RAtt) s then UB else rel k b s.

(** Build and run-time choices: OSHMPI_ENABLE_DYNAMIC_WIN, thread level multiple, active messages used (am_impl.c:190-193),
    OSHMPI_ENABLE_STRIDED_DTYPE_CACHE. *)
Record rcfg : Type := mkRC { rc_dyn : bool; rc_mult : bool; rc_am : bool; rc_scache : bool }.

(** OSHMPI_THREAD_INIT_CS, OSHMPI_THREAD_DESTROY_CS (oshmpi_impl.h:306-321). *)
Definition cs_init (c : rcfg) (s : led) : option Z * led :=
  if rc_mult c then let '(i, s1) := acq RCs s in (Some i, s1) else (None, s).
Definition cs_destroy (o : option Z) (s : led) : outcome led :=
  match o with Some i => rel RCs i s | None => Ok s end.

(** OSHMPI_team_t: object, communicator, group. *)
Record rteam : Type := mkRT { rt_mem : Z; rt_comm : Z; rt_grp : Z }.
(** MPI_Comm_dup or MPI_Comm_split, MPI_Comm_group, OSHMPI_team_create (setup_impl.c:798-828, team_impl.c:9-33, 43-64). *)
Definition team_make (s : led) : rteam * led :=
  let '(c, s) := acq RComm s in
  let '(g, s) := acq RGroup s in
  let '(m, s) := acq RMem s in
  (mkRT m c g, s).
(** OSHMPI_team_destroy (team_impl.c:35-41). *)
Definition team_destroy_r (t : rteam) (s : led) : outcome led :=
  do s <- rel RGroup (rt_grp t) s;
  do s <- rel RComm (rt_comm t) s;
  rel RMem (rt_mem t) s.

(** OSHMPIU_check_symm_mem (symm_mem.c:176-209): the offsets array is kept when the addresses differ. *)
Definition check_symm (sym : bool) (s : led) : outcome (option Z * led) :=
  let '(o, s) := acq RMem s in
  if sym then do s1 <- rel RMem o s; Ok (None, s1) else Ok (Some o, s).
(** OSHMPI_sobj_symm_info_allgather (common.c:25-30): only in dynamic-window builds; flag 0 otherwise. *)
Definition symm_info (c : rcfg) (sym : bool) (s : led) : outcome ((bool * option Z) * led) :=
  if rc_dyn c then do r <- check_symm sym s; Ok ((sym, fst r), snd r) else Ok ((false, None), s).
(** OSHMPI_sobj_destroy_attr (common.c:43-48). *)
Definition destroy_attr (c : rcfg) (a : bool * option Z) (s : led) : outcome led :=
  if rc_dyn c then
    if fst a then Ok s else match snd a with Some o => rel RMem o s | None => UB end
  else Ok s.

(** space_ictx_create, space_ictx_destroy (space_impl.c:17-32). *)
Definition ictx_create (s : led) : outcome (Z * led) :=
  let '(w, s) := acq RWin s in
  do s <- lock_all w s; Ok (w, s).
Definition ictx_destroy (w : Z) (s : led) : outcome led :=
  do s <- unlock_all w s; win_free w s.

(** What initialize_symm_win/attach_symm_text/attach_symm_heap (setup_impl.c:116-208)
    or initialize_symm_text/initialize_symm_heap (setup_impl.c:211-300) leave. *)
Record rheap : Type := mkRH {
  rh_wins : list Z;                 (* dynamic window; or heap window, data window *)
  rh_base : option (Z * bool);      (* dynamic: heap memory, whether it was mapped (true) or came from malloc *)
  rh_data : bool * option Z;        (* symm_data_attr: symm bit, offsets *)
  rh_heap : bool * option Z;        (* symm_heap_attr *)
  rh_cs : option Z                  (* symm_heap_mspace_cs *)
}.
(** The base address of the data segment is not memory of the library: number 0. *)
Definition data_id : Z := 0.
(** What the run decides: [ag] OSHMPIU_allocate_symm_mem succeeded on every PE (symm_mem.c:108-157),
    [hs], [ds] heap and data segment have one address on all PEs. *)
Record rora : Type := mkRO { ro_ag : bool; ro_hs : bool; ro_ds : bool }.

Definition heap_init (c : rcfg) (o : rora) (s : led) : outcome (rheap * led) :=
  if rc_dyn c then
    (* initialize_symm_win, 116-137 *)
    let '(i, s) := acq RInfo s in
    let '(w, s) := acq RWin s in
    do s <- lock_all w s;
    do s <- rel RInfo i s;
    (* attach_symm_text, 139-161 *)
    do d <- symm_info c (ro_ds o) s; let s := snd d in
    do s <- win_attach data_id s;
    (* attach_symm_heap, 163-208 *)
    let '(b, s) := acq (if ro_ag o then RMap else RMem) s in
    do h <- symm_info c (ro_hs o) s; let s := snd h in
    let '(cs, s) := cs_init c s in
    do s <- win_attach b s;
    Ok (mkRH [w] (Some (b, ro_ag o)) (fst d) (fst h) cs, s)
  else
    (* initialize_symm_text, 211-246 *)
    do d <- symm_info c (ro_ds o) s; let s := snd d in
    let '(i, s) := acq RInfo s in
    let '(wd, s) := acq RWin s in
    do s <- lock_all wd s;
    do s <- rel RInfo i s;
    (* initialize_symm_heap, 248-300; MPI_Win_allocate owns its memory *)
    let '(i, s) := acq RInfo s in
    let '(wh, s) := acq RWin s in
    do h <- symm_info c (ro_hs o) s; let s := snd h in
    let '(cs, s) := cs_init c s in
    do s <- lock_all wh s;
    do s <- rel RInfo i s;
    Ok (mkRH [wh; wd] None (fst d) (fst h) cs, s).
(** The matching part of finalize_impl (setup_impl.c:872-901). *)
Definition heap_fini (c : rcfg) (h : rheap) (s : led) : outcome led :=
  do s <-
    (if rc_dyn c then
       match rh_wins h, rh_base h with
       | [w], Some (b, _) =>
           do s <- unlock_all w s;
           do s <- win_detach b s;
           do s <- win_detach data_id s;
           do s <- dyn_win_free w s;
           mem_free (if fst (rh_heap h) then RMap else RMem) b s
       | _, _ => UB
       end
     else
       match rh_wins h with
       | [wh; wd] =>
           do s <- ictx_destroy wh s;
           do s <- cs_destroy (rh_cs h) s;
           ictx_destroy wd s
       | _ => UB
       end);
  do s <- destroy_attr c (rh_data h) s;
  destroy_attr c (rh_heap h) s.

(** OSHMPI_am_initialize, OSHMPI_am_finalize (am_impl.c:188-286): two communicators, three tables, one critical section. *)
Record ram : Type := mkRA { ra_comms : Z * Z; ra_mems : Z * Z * Z; ra_cs : option Z }.
Definition am_init_r (c : rcfg) (s : led) : option ram * led :=
  if rc_am c then
    let '(c1, s) := acq RComm s in
    let '(c2, s) := acq RComm s in
    let '(m1, s) := acq RMem s in
    let '(m2, s) := acq RMem s in
    let '(m3, s) := acq RMem s in
    let '(cs, s) := cs_init c s in
    (Some (mkRA (c1, c2) (m1, m2, m3) cs), s)
  else (None, s).
Definition am_fini_r (a : option ram) (s : led) : outcome led :=
  match a with
  | None => Ok s
  | Some a =>
      do s <- cs_destroy (ra_cs a) s;
      do s <- rel RComm (fst (ra_comms a)) s;
      do s <- rel RComm (snd (ra_comms a)) s;
      do s <- rel RMem (fst (fst (ra_mems a))) s;
      do s <- rel RMem (snd (fst (ra_mems a))) s;
      rel RMem (snd (ra_mems a)) s
  end.

(** Attached space: default window (none in dynamic builds), windows of the contexts, their array, offsets. *)
Record ratt : Type := mkAtt { at_win : option Z; at_arr : option Z; at_wins : list Z; at_attr : bool * option Z }.
(** OSHMPI_space_t: object, heap (host or device memory), mempool array, critical section, number of contexts. *)
Record rspace : Type := mkRS {
  rs_obj : Z; rs_base : Z; rs_kind : rkind; rs_chunks : Z; rs_cs : option Z; rs_nctx : nat; rs_att : option ratt }.

(** OSHMPI_space_create (space_impl.c:166-221), OSHMPIU_mempool_init (mem_pool.c:13-26). *)
Definition space_make (c : rcfg) (dev : option bool) (n : nat) (s : led) : rspace * led :=
  let '(o, s) := acq RMem s in
  let k := match dev with None => RMem | Some ze => RDev ze end in
  let '(b, s) := acq k s in
  let '(ch, s) := acq RMem s in
  let '(cs, s) := cs_init c s in
  (mkRS o b k ch cs n None, s).
(** OSHMPI_space_destroy (space_impl.c:224-250), OSHMPIU_mempool_destroy (mem_pool.c:30-36).
    The memory of a space that is still attached is under a window: UB. *)
Definition space_destroy_r (p : rspace) (s : led) : outcome led :=
  match rs_att p with
  | Some _ => UB
  | None =>
      do s <- rel RMem (rs_chunks p) s;
      do s <- cs_destroy (rs_cs p) s;
      do s <- mem_free (rs_kind p) (rs_base p) s;
      rel RMem (rs_obj p) s
  end.
Fixpoint ictx_create_n (n : nat) (s : led) : outcome (list Z * led) :=
  match n with
  | O => Ok ([], s)
  | S n => do r <- ictx_create s; do q <- ictx_create_n n (snd r); Ok (fst r :: fst q, snd q)
  end.
Fixpoint ictx_destroy_l (l : list Z) (s : led) : outcome led :=
  match l with
  | [] => Ok s
  | w :: l => do s <- ictx_destroy w s; ictx_destroy_l l s
  end.
(** OSHMPI_space_attach (space_impl.c:276-331). Attaching twice: the assert on ctx_list (281) aborts if there are contexts. *)
Definition space_attach_r (c : rcfg) (sym : bool) (p : rspace) (s : led) : outcome (rspace * led) :=
  match rs_att p with
  | Some _ => match rs_nctx p with O => UB | _ => Abort end
  | None =>
      let '(i, s) := acq RInfo s in
      do a <- symm_info c sym s; let s := snd a in
      do w <- (if rc_dyn c then do s <- win_attach (rs_base p) s; Ok (None, s)
               else do r <- ictx_create s; Ok (Some (fst r), snd r));
      let s := snd w in
      let '(arr, s) := match rs_nctx p with O => (None, s) | _ => let '(m, s) := acq RMem s in (Some m, s) end in
      do q <- ictx_create_n (rs_nctx p) s; let s := snd q in
      do s <- rel RInfo i s;
      Ok (mkRS (rs_obj p) (rs_base p) (rs_kind p) (rs_chunks p) (rs_cs p) (rs_nctx p)
            (Some (mkAtt (fst w) arr (fst q) (fst a))), s)
  end.
(** OSHMPI_space_detach (space_impl.c:334-358): the window of a space that is not attached is MPI_WIN_NULL (assert, 28),
    detaching unattached memory is erroneous. *)
Definition space_detach_r (c : rcfg) (p : rspace) (s : led) : outcome (rspace * led) :=
  match rs_att p with
  | None => if rc_dyn c then UB else Abort
  | Some a =>
      do s <- (if rc_dyn c then win_detach (rs_base p) s
               else match at_win a with Some w => ictx_destroy w s | None => Abort end);
      do s <- ictx_destroy_l (at_wins a) s;
      do s <- match at_arr a with Some m => rel RMem m s | None => Ok s end;
      do s <- destroy_attr c (at_attr a) s;
      Ok (mkRS (rs_obj p) (rs_base p) (rs_kind p) (rs_chunks p) (rs_cs p) (rs_nctx p) None, s)
  end.

(** Cached communicators and datatypes: key, object, communicator and group / datatype. *)
Definition akey : Type := (Z * Z * Z)%type.
Definition akey_eqb (a b : akey) : bool :=
  (fst (fst a) =? fst (fst b)) && (snd (fst a) =? snd (fst b)) && (snd a =? snd b).
Definition tkey : Type := (Z * Z * Z * Z)%type.
Definition tkey_eqb (a b : tkey) : bool := akey_eqb (fst a) (fst b) && (snd a =? snd b).

(** Everything the library holds. *)
Record lib : Type := mkLib {
  lb_world : rteam; lb_shared : rteam;
  lb_heap : rheap;
  lb_scs : option Z;                              (* strided_dtype_cache.cs *)
  lb_types : list (tkey * (Z * Z));               (* object, datatype *)
  lb_ccs : option Z;                              (* coll_comm_cache.cs *)
  lb_comms : list (akey * (Z * Z * Z));           (* object, communicator, group *)
  lb_am : option ram;
  lb_pcs : option Z;                              (* space_list.cs *)
  lb_teams : list (option rteam);                 (* teams the user made, in order; None: destroyed *)
  lb_spaces : list (option rspace)                (* spaces the user made, in order *)
}.
Definition with_types (l : lib) x := mkLib (lb_world l) (lb_shared l) (lb_heap l) (lb_scs l) x (lb_ccs l) (lb_comms l) (lb_am l) (lb_pcs l) (lb_teams l) (lb_spaces l).
Definition with_comms (l : lib) x := mkLib (lb_world l) (lb_shared l) (lb_heap l) (lb_scs l) (lb_types l) (lb_ccs l) x (lb_am l) (lb_pcs l) (lb_teams l) (lb_spaces l).
Definition with_teams (l : lib) x := mkLib (lb_world l) (lb_shared l) (lb_heap l) (lb_scs l) (lb_types l) (lb_ccs l) (lb_comms l) (lb_am l) (lb_pcs l) x (lb_spaces l).
Definition with_spaces (l : lib) x := mkLib (lb_world l) (lb_shared l) (lb_heap l) (lb_scs l) (lb_types l) (lb_ccs l) (lb_comms l) (lb_am l) (lb_pcs l) (lb_teams l) x.

(** OSHMPI_initialize_thread (setup_impl.c:798-847), OSHMPI_strided_initialize, OSHMPI_coll_initialize (strided_impl.c:12-19,
    coll_impl.c:11-17), OSHMPI_am_initialize, OSHMPI_space_initialize (space_impl.c:150-154). *)
Definition initialize_r (c : rcfg) (o : rora) (s : led) : outcome (lib * led) :=
  let '(tw, s) := team_make s in
  let '(ts, s) := team_make s in
  do h <- heap_init c o s; let s := snd h in
  let '(scs, s) := if rc_scache c then cs_init c s else (None, s) in
  let '(ccs, s) := cs_init c s in
  let '(am, s) := am_init_r c s in
  let '(pcs, s) := cs_init c s in
  Ok (mkLib tw ts (fst h) scs [] ccs [] am pcs [] [], s).

(** OSHMPI_coll_finalize (coll_impl.c:19-35), OSHMPI_strided_finalize (strided_impl.c:21-36). *)
Fixpoint coll_fini_r (l : list (akey * (Z * Z * Z))) (s : led) : outcome led :=
  match l with
  | [] => Ok s
  | (_, (m, c, g)) :: l =>
      do s <- rel RGroup g s;
      do s <- rel RComm c s;
      do s <- rel RMem m s;
      coll_fini_r l s
  end.
Fixpoint strided_fini_r (l : list (tkey * (Z * Z))) (s : led) : outcome led :=
  match l with
  | [] => Ok s
  | (_, (m, t)) :: l =>
      do s <- rel RType t s;
      do s <- rel RMem m s;
      strided_fini_r l s
  end.
(** finalize_impl (setup_impl.c:852-909), from the barrier to MPI_Finalize. What is left in the ledger was never released. *)
Definition finalize_r (c : rcfg) (l : lib) (s : led) : outcome led :=
  do s <- coll_fini_r (lb_comms l) s;
  do s <- cs_destroy (lb_ccs l) s;
  do s <- am_fini_r (lb_am l) s;
  do s <- strided_fini_r (lb_types l) s;
  do s <- cs_destroy (lb_scs l) s;
  do s <- cs_destroy (lb_pcs l) s;
  do s <- heap_fini c (lb_heap l) s;
  do s <- team_destroy_r (lb_shared l) s;
  team_destroy_r (lb_world l) s.

(** coll_acquire_comm of an active set other than the world (coll_activeset_impl.h:73-116), coll_find_comm_cache, coll_set_comm_cache (29-71). *)
Definition aset_acquire (k : akey) (l : lib) (s : led) : outcome (lib * led) :=
  if existsb (fun e => akey_eqb (fst e) k) (lb_comms l) then Ok (l, s) else
  let '(pl, s) := acq RMem s in
  let '(g, s) := acq RGroup s in
  let '(c, s) := acq RComm s in
  do s <- rel RMem pl s;
  let '(m, s) := acq RMem s in
  Ok (with_comms l ((k, (m, c, g)) :: lb_comms l), s).

(** OSHMPI_create_strided_dtype (strided_impl.h:112-180). Result: None is the basic datatype. *)
Definition create_sdtype (c : rcfg) (k : tkey) (l : lib) (s : led) : outcome (option Z * (lib * led)) :=
  let '(n, st, ty, ext) := k in
  if st =? 1 then Ok (None, (l, s)) else
  match (if rc_scache c then find (fun e => tkey_eqb (fst e) k) (lb_types l) else None) with
  | Some e => Ok (Some (snd (snd e)), (l, s))
  | None =>
      let '(v, s) := acq RType s in
      do r <- (if 0 <? ext then let '(t, s) := acq RType s in do s <- rel RType v s; Ok (t, s) else Ok (v, s));
      let s := snd r in
      if rc_scache c then
        let '(m, s) := acq RMem s in
        Ok (Some (fst r), (with_types l ((k, (m, fst r)) :: lb_types l), s))
      else Ok (Some (fst r), (l, s))
  end.
(** OSHMPI_free_strided_dtype (strided_impl.h:77-81, 101-106, 182-186). *)
Definition free_sdtype (c : rcfg) (t : option Z) (s : led) : outcome led :=
  if rc_scache c then Ok s else match t with Some t => rel RType t s | None => Ok s end.
(** Strided transfer or strided exchange: ctx_local_nbi_iput/iget (rma_impl.h:56-106), coll_alltoalls
    (coll_activeset_impl.h:271-301, coll_impl.h:125-152); [ext]: the extent is asked for. *)
Definition ixfer (c : rcfg) (n ost tst ty : Z) (ext : bool) (l : lib) (s : led) : outcome (lib * led) :=
  let e st := if ext then wrap64 (n * st) else 0 in
  do a <- create_sdtype c (n, ost, ty, e ost) l s; let '(l, s) := snd a in
  do b <- (if ost =? tst then Ok (None, (l, s)) else create_sdtype c (n, tst, ty, e tst) l s); let '(l, s) := snd b in
  do s <- free_sdtype c (fst a) s;
  do s <- (if ost =? tst then Ok s else free_sdtype c (fst b) s);
  Ok (l, s).
(** One side only: active-message iput and iget on the caller (rma_am_impl.h:100-128, 146-175) and their handlers
    (rma_am_impl.c:41-83). *)
Definition ihalf (c : rcfg) (n st ty : Z) (l : lib) (s : led) : outcome (lib * led) :=
  do a <- create_sdtype c (n, st, ty, 0) l s; let '(l, s) := snd a in
  do s <- free_sdtype c (fst a) s;
  Ok (l, s).
(** Arrays of one call: rcounts and rdispls of collect (coll_activeset_impl.h:221-243, coll_impl.h:80-103),
    requests of the flush of active messages (am_impl.h:49-69). *)
Definition collect_r (s : led) : outcome led :=
  let '(a, s) := acq RMem s in
  let '(b, s) := acq RMem s in
  do s <- rel RMem b s;
  rel RMem a s.
Definition am_flush_r (s : led) : outcome led :=
  let '(a, s) := acq RMem s in rel RMem a s.

Inductive rop : Type :=
| UTeamSplit (mem : bool)                    (* shmem_team_split_*; the PE becomes a member or not *)
| UTeamDestroy (t : option nat)              (* shmem_team_destroy; None: world, shared or invalid, ignored (team.c:214-222) *)
| UActiveSet (k : akey)                      (* collective on an active set *)
| UStrided (n ost tst ty : Z) (ext : bool)   (* strided transfer or exchange *)
| UStridedAm (n st ty : Z)                   (* one side of an active-message transfer *)
| UCollect
| UAmFlush
| USpaceCreate (dev : option bool) (n : nat) (* shmemx_space_create with n contexts, in host or device memory *)
| USpaceAttach (i : nat) (sym : bool)        (* shmemx_space_attach; whether all PEs have it at one address *)
| USpaceDetach (i : nat)
| USpaceDestroy (i : nat).

Definition rstep (c : rcfg) (x : lib * led) (u : rop) : outcome (lib * led) :=
  let '(l, s) := x in
  match u with
  | UTeamSplit true => let '(t, s) := team_make s in Ok (with_teams l (lb_teams l ++ [Some t]), s)
  | UTeamSplit false => Ok (l, s)
  | UTeamDestroy None => Ok (l, s)
  | UTeamDestroy (Some i) =>
      match nth_error (lb_teams l) i with
      | Some (Some t) => do s <- team_destroy_r t s; Ok (with_teams l (upd (lb_teams l) i None), s)
      | _ => UB
      end
  | UActiveSet k => aset_acquire k l s
  | UStrided n ost tst ty ext => ixfer c n ost tst ty ext l s
  | UStridedAm n st ty => ihalf c n st ty l s
  | UCollect => do s <- collect_r s; Ok (l, s)
  | UAmFlush => do s <- am_flush_r s; Ok (l, s)
  | USpaceCreate dev n => let '(p, s) := space_make c dev n s in Ok (with_spaces l (lb_spaces l ++ [Some p]), s)
  | USpaceAttach i sym =>
      match nth_error (lb_spaces l) i with
      | Some (Some p) => do r <- space_attach_r c sym p s; Ok (with_spaces l (upd (lb_spaces l) i (Some (fst r))), snd r)
      | _ => UB
      end
  | USpaceDetach i =>
      match nth_error (lb_spaces l) i with
      | Some (Some p) => do r <- space_detach_r c p s; Ok (with_spaces l (upd (lb_spaces l) i (Some (fst r))), snd r)
      | _ => UB
      end
  | USpaceDestroy i =>
      match nth_error (lb_spaces l) i with
      | Some (Some p) => do s <- space_destroy_r p s; Ok (with_spaces l (upd (lb_spaces l) i None), s)
      | _ => UB
      end
  end.
Fixpoint rrun (c : rcfg) (x : lib * led) (us : list rop) : outcome (lib * led) :=
  match us with [] => Ok x | u :: r => do y <- rstep c x u; rrun c y r end.
Definition led0 : led := mkLed [] 1.
(** A whole run: start, calls; [rfull] also ends. *)
Definition rstart (c : rcfg) (o : rora) (us : list rop) : outcome (lib * led) :=
  do x <- initialize_r c o led0; rrun c x us.
Definition rfull (c : rcfg) (o : rora) (us : list rop) : outcome led :=
  do x <- rstart c o us; finalize_r c (fst x) (snd x).
