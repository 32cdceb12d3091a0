(** The mutexes behind the critical sections: when they come to life, when they go, who enters them in between.

    Thread level MULTIPLE. Every PE runs init_impl (setup_impl.c:747-851), then its threads make calls, then one of them runs
    finalize_impl (setup_impl.c:853-905). What the calls do with the critical sections is the model of LkModel; here each mutex is
    also initialised and destroyed. To enter, leave, initialise or destroy one at the wrong time is undefined behaviour (POSIX). *)
From Verif Require Import Base LkModel.

(** A build as run: active messages in use (false: direct atomics and direct RMA, am_impl.c:192, 268), progress thread,
    dynamic window, strided datatype cache. *)
Record bld : Type := mkB { b_am : bool; b_async : bool; b_dyn : bool; b_cache : bool }.

Inductive ev : Type := EInit (l : lk) | EDestroy (l : lk) | EStart | EStop.

(** init_impl (setup_impl.c:828-842): attach_symm_heap or initialize_symm_heap (193, 279), OSHMPI_strided_initialize
    (strided_impl.c:12-21, empty without the cache), OSHMPI_coll_initialize (coll_impl.c:10-19), OSHMPI_am_initialize
    (am_impl.c:189-263; the progress thread starts there), OSHMPI_space_initialize (space_impl.c:152-156). *)
Definition init_events (b : bld) : list ev :=
  [EInit LHeap] ++ (if b_cache b then [EInit LStrided] else []) ++ [EInit LComm] ++
  (if b_am b then [EInit LCb; EStart] else []) ++ [EInit LSpaces].
(** finalize_impl (setup_impl.c:867-890): OSHMPI_coll_finalize (coll_impl.c:21-35), OSHMPI_am_finalize (am_impl.c:265-284; it waits
    for the progress thread), OSHMPI_strided_finalize (strided_impl.c:23-36), OSHMPI_space_finalize (space_impl.c:158-162), and
    the mutex of the heap, only without a dynamic window (890). *)
Definition final_events (b : bld) : list ev :=
  [EDestroy LComm] ++ (if b_am b then [EStop; EDestroy LCb] else []) ++ (if b_cache b then [EDestroy LStrided] else []) ++
  [EDestroy LSpaces] ++ (if b_dyn b then [] else [EDestroy LHeap]).

(** Where a PE is: initialising; in the barrier at the end of init_impl (844); making calls; in the barrier of finalize_impl (865);
    releasing; done. *)
Inductive phase : Type := PInit (r : list ev) | PReady | PUser | PBar | PEnd (r : list ev) | PDone.
Definition init_passed (x : phase) : bool := match x with PInit _ => false | _ => true end.
Definition bar_reached (x : phase) : bool := match x with PBar | PEnd _ | PDone => true | _ => false end.

(** [x_l]: calls and sections; [x_alive]: which mutexes are initialised; [x_ph]: phases; [x_eng]: progress thread runs;
    [x_pend]: the space a thread is destroying. *)
Record xst : Type := mkX {
  x_l : lst; x_alive : Z -> lk -> bool; x_ph : Z -> phase; x_eng : Z -> bool; x_pend : Z -> Z -> option Z }.
Definition xst0 (b : bld) : xst :=
  mkX lst0 (fun _ _ => false) (fun _ => PInit (init_events b)) (fun _ => false) (fun _ _ => None).

Definition set_alive (f : Z -> lk -> bool) (p : Z) (l : lk) (v : bool) : Z -> lk -> bool :=
  fun q k => if (q =? p) && lk_eqb k l then v else f q k.
Definition set2 {A : Type} (f : Z -> Z -> A) (p i : Z) (v : A) : Z -> Z -> A :=
  fun q j => if (q =? p) && (j =? i) then v else f q j.
Definition upto (n : nat) : list Z := map Z.of_nat (seq 0 n).
Definition engine : Z := -1.

(** The sections a thread has still to enter or leave. *)
Definition names (l : lk) (a : act) : bool := match a with AEnter k | AExit k => lk_eqb k l | _ => false end.
Definition mentions (l : lk) (a : list act) : bool := existsb (names l) a.

(** Without the cache a strided lookup enters nothing (strided_impl.h:84-98): as SContig. *)
Definition no_lookup (v : slook) : bool := match v with SContig => true | _ => false end.
Definition lookups_ok (b : bld) (c : call) : bool :=
  b_cache b ||
  match c with
  | CIput _ v _ _ | CIget _ v _ _ => no_lookup v
  | CDirectStrided _ v w | CActiveSet v w _ _ | CTeam v w _ => no_lookup v && no_lookup w
  | _ => true
  end.
(** Without active messages none are sent: amo_impl.h:88-140, rma_impl.h; OSHMPI_am_flush returns at once (am_impl.h:33). *)
Definition messages_ok (b : bld) (c : call) : bool :=
  b_am b ||
  match c with
  | CPut _ _ _ | CGet _ _ _ | CIput _ _ _ _ | CIget _ _ _ _ | CFetch _ _ _ | CCswap _ _ _ | CPost _ _ _ => false
  | CQuiet _ ts n | CBarrierAll ts n _ | CAlloc ts n _ | CFree ts n _ _ | CSpaceMalloc _ ts n _ | CBarrierSet _ ts n _ =>
      match ts, n with [], O => true | _, _ => false end
  | _ => true
  end.
(** The space a call uses: given by its handle, or the one the address is in. *)
Definition uses (c : call) : option Z :=
  match c with CSpaceMalloc k _ _ _ | CSpaceFree k | CFree _ _ _ (Some (Some k)) => Some k | _ => None end.
Definition own_label (c : call) : bool := match c with CSpaceCreate | CSpaceDestroy | CEngine => true | _ => false end.

Inductive xlab : Type :=
| XEv (p : Z)                       (* the next step of initialisation or of release *)
| XReady (p : Z) (n : nat)          (* enters the barrier of init_impl, polling n times *)
| XUser (p : Z)                     (* leaves it: shmem_init returns *)
| XCall (p i : Z) (c : call)
| XCreate (p i k : Z)               (* shmemx_space_create; the space gets the address k *)
| XDestroy (p i k : Z)              (* shmemx_space_destroy is called ... *)
| XKill (p i k : Z)                 (* ... and destroys the mutex of the space (space_impl.c:232-249) *)
| XRound (p : Z)                    (* a round of the progress thread *)
| XGo (p i : Z) | XHdr (p i : Z) (n : nat) (sp : bool) (v : slook)
| XFin (p : Z) (n : nat)            (* shmem_finalize: enters its barrier *)
| XEnd (p : Z).                     (* leaves it; no thread of the PE has been in a call but this one *)

Section Steps.
Variables (b : bld) (np nt : nat).

Definition with_l (s : xst) (o : option lst) : option (outcome xst) :=
  match o with Some l => Some (Ok (mkX l (x_alive s) (x_ph s) (x_eng s) (x_pend s))) | None => None end.
Definition with_ph (s : xst) (p : Z) (f : phase) : xst :=
  mkX (x_l s) (x_alive s) (set1 (x_ph s) p f) (x_eng s) (x_pend s).
Definition idle (s : xst) (p i : Z) : bool := match l_th (x_l s) p i with [] => true | _ => false end.
(** OSHMPI_am_progress_mpi_barrier (am_progress_impl.h:72-82): as a collective on a team that needs no datatype. *)
Definition bar_call (n : nat) : call := CTeam SContig SContig n.
Definition is_user (i : Z) : bool := existsb (Z.eqb i) (upto nt).
Definition is_pe (p : Z) : bool := existsb (Z.eqb p) (upto np).

(** One step of initialisation or release. OSHMPI_THREAD_INIT_CS, OSHMPI_THREAD_DESTROY_CS (oshmpi_impl.h:307-322) with
    OSHMPIU_thread_cs_init and OSHMPIU_thread_cs_destroy (util/thread.h:22-42). To destroy a mutex that is not initialised does nothing. *)
Definition ev_step (s : xst) (p : Z) (e : ev) : option (outcome xst) :=
  match e with
  | EInit l => if x_alive s p l then Some UB
               else Some (Ok (mkX (x_l s) (set_alive (x_alive s) p l true) (x_ph s) (x_eng s) (x_pend s)))
  | EDestroy l =>
      if x_alive s p l
      then match l_own (x_l s) p l with
           | Some _ => Some UB
           | None => Some (Ok (mkX (x_l s) (set_alive (x_alive s) p l false) (x_ph s) (x_eng s) (x_pend s)))
           end
      else Some (Ok s)
  | EStart => Some (Ok (mkX (x_l s) (x_alive s) (x_ph s) (set1 (x_eng s) p (b_async b)) (x_pend s))) (* am_impl.c:132-147 *)
  | EStop => if idle s p engine                                                                    (* am_impl.c:162-173 *)
             then Some (Ok (mkX (x_l s) (x_alive s) (x_ph s) (set1 (x_eng s) p false) (x_pend s))) else None
  end.

Definition xstep (s : xst) (x : xlab) : option (outcome xst) :=
  match x with
  | XEv p =>
      if is_pe p then
        match x_ph s p with
        | PInit (e :: r) => ev_step (with_ph s p (PInit r)) p e
        | PEnd (e :: r) => ev_step (with_ph s p (PEnd r)) p e
        | PEnd [] => Some (Ok (with_ph s p PDone))
        | _ => None
        end
      else None
  | XReady p n =>
      match x_ph s p with
      | PInit [] => if is_pe p && is_user 0 then with_l (with_ph s p PReady) (lstep (b_async b) (x_l s) (LCall p 0 (bar_call n))) else None
      | _ => None
      end
  | XUser p =>
      match x_ph s p with
      | PReady => if idle s p 0 && forallb (fun q => init_passed (x_ph s q)) (upto np) then Some (Ok (with_ph s p PUser)) else None
      | _ => None
      end
  | XCall p i c =>
      match x_ph s p with
      | PUser =>
          if is_user i && negb (own_label c) && lookups_ok b c && messages_ok b c &&
             match uses c with
             | Some k => x_alive s p (LPool k) &&
                         forallb (fun j => match x_pend s p j with Some k' => negb (k' =? k) | None => true end) (upto nt)
             | None => true
             end
          then with_l s (lstep (b_async b) (x_l s) (LCall p i c)) else None
      | _ => None
      end
  | XCreate p i k =>
      match x_ph s p with
      | PUser =>
          if is_user i && negb (x_alive s p (LPool k))
          then with_l (mkX (x_l s) (set_alive (x_alive s) p (LPool k) true) (x_ph s) (x_eng s) (x_pend s))
                      (lstep (b_async b) (x_l s) (LCall p i CSpaceCreate))
          else None
      | _ => None
      end
  | XDestroy p i k =>
      match x_ph s p with
      | PUser =>
          if is_user i && x_alive s p (LPool k) &&
             forallb (fun j => negb (mentions (LPool k) (l_th (x_l s) p j)) &&
                               match x_pend s p j with Some k' => negb (k' =? k) | None => true end) (upto nt)
          then with_l (mkX (x_l s) (x_alive s) (x_ph s) (x_eng s) (set2 (x_pend s) p i (Some k)))
                      (lstep (b_async b) (x_l s) (LCall p i CSpaceDestroy))
          else None
      | _ => None
      end
  | XKill p i k =>
      match x_pend s p i, l_th (x_l s) p i with
      | Some k', [AMpi] =>
          if negb (k' =? k) then None else
          match l_own (x_l s) p (LPool k), x_alive s p (LPool k) with
          | None, true => with_l (mkX (x_l s) (set_alive (x_alive s) p (LPool k) false) (x_ph s) (x_eng s) (set2 (x_pend s) p i None))
                                 (lstep (b_async b) (x_l s) (LGo p i))
          | _, _ => Some UB
          end
      | _, _ => None
      end
  | XRound p => if x_eng s p then with_l s (lstep (b_async b) (x_l s) (LCall p engine CEngine)) else None
  | XGo p i =>
      match l_th (x_l s) p i with
      | AEnter l :: _ | AExit l :: _ => if x_alive s p l then with_l s (lstep (b_async b) (x_l s) (LGo p i)) else Some UB
      | [AMpi] => match x_pend s p i with Some _ => None | None => with_l s (lstep (b_async b) (x_l s) (LGo p i)) end
      | _ => with_l s (lstep (b_async b) (x_l s) (LGo p i))
      end
  | XHdr p i n sp v =>
      if b_cache b || no_lookup v then with_l s (lstep (b_async b) (x_l s) (LHdr p i n sp v)) else None
  | XFin p n =>
      match x_ph s p with
      | PUser => if is_user 0 && forallb (idle s p) (upto nt)
                 then with_l (with_ph s p PBar) (lstep (b_async b) (x_l s) (LCall p 0 (bar_call n))) else None
      | _ => None
      end
  | XEnd p =>
      match x_ph s p with
      | PBar => if forallb (idle s p) (upto nt) && forallb (fun q => bar_reached (x_ph s q)) (upto np)
                then Some (Ok (with_ph s p (PEnd (final_events b)))) else None
      | _ => None
      end
  end.
Fixpoint xrun (s : xst) (xs : list xlab) : option (outcome xst) :=
  match xs with
  | [] => Some (Ok s)
  | x :: r =>
      match xstep s x with
      | Some (Ok s') => xrun s' r
      | o => o
      end
  end.
End Steps.
