(** How the progress thread of a PE is stopped in shmem_finalize.

    One PE: the thread that calls shmem_finalize (am_cb_progress_end, am_impl.c:151-177) and the progress thread
    (am_cb_async_progress, am_impl.c:49-84), at the level of single pthread calls; or, without progress thread, the final MPI_Wait.
    Headers of other PEs may come in at any time before the communicators are released. What handlers do is modelled in AmModel. *)
From Verif Require Import Base.

Inductive shdr : Type := HWork (n : Z) | HTerm.
(** Thread in shmem_finalize. *)
Inductive mpc : Type :=
| MRun      (* before am_cb_progress_end *)
| MLock     (* TERMINATE sent; pthread_mutex_lock (am_impl.c:164) *)
| MTest     (* while (!async_thread_done) (165) *)
| MSleep    (* in pthread_cond_wait, mutex released (166) *)
| MUnlock   (* 168 *)
| MCondD    (* pthread_cond_destroy (169) *)
| MMutD     (* pthread_mutex_destroy (170) *)
| MWait     (* without progress thread: MPI_Wait (176) *)
| MEnd.     (* communicators released (am_impl.c:267-284), MPI_Finalize *)
(** Progress thread. *)
Inductive tpc : Type := TNone | TPoll | TLock | TSet | TUnlock | TSignal | TGone.
Inductive who : Type := WM | WT.
Record sst : Type := mkS {
  s_q : list shdr;          (* headers that arrived, in order of arrival *)
  s_handled : list Z;       (* headers handled *)
  s_lost : list Z;          (* headers received and dropped *)
  s_mx : option who;        (* async_mutex *)
  s_done : bool;            (* async_thread_done *)
  s_asleep : bool;          (* a thread waits on async_cond *)
  s_cd : bool; s_md : bool; (* condition variable, mutex destroyed *)
  s_m : mpc; s_t : tpc
}.
(** After OSHMPI_am_initialize (am_cb_progress_start, am_impl.c:123-149). *)
Definition sst0 (async : bool) : sst := mkS [] [] [] None false false false false MRun (if async then TPoll else TNone).

Inductive slab : Type :=
| GArrive (n : Z)     (* a header arrives *)
| GPoll               (* without progress thread: one am_cb_manual_progress before finalize *)
| GM                  (* the finalizing thread makes a step *)
| GT                  (* the progress thread makes a step *)
| GSpurious.          (* pthread_cond_wait wakes up without a signal *)

Definition to_m (s : sst) (m : mpc) (mx : option who) : sst :=
  mkS (s_q s) (s_handled s) (s_lost s) mx (s_done s) (s_asleep s) (s_cd s) (s_md s) m (s_t s).
Definition to_t (s : sst) (t : tpc) (mx : option who) (d : bool) : sst :=
  mkS (s_q s) (s_handled s) (s_lost s) mx d (s_asleep s) (s_cd s) (s_md s) (s_m s) t.

(** One step; [None]: blocked or nothing to do. Using a destroyed object, destroying a mutex that is locked or a condition variable
    that is waited for, and calling MPI after the communicators are gone, are UB. *)
Definition sstep (s : sst) (x : slab) : option (outcome sst) :=
  match x with
  | GArrive n =>
      match s_m s with
      | MEnd => None
      | _ => Some (Ok (mkS (s_q s ++ [HWork n]) (s_handled s) (s_lost s) (s_mx s) (s_done s) (s_asleep s) (s_cd s) (s_md s) (s_m s) (s_t s)))
      end
  | GPoll =>
      match s_t s, s_m s, s_q s with
      | TNone, MRun, HWork n :: q =>
          Some (Ok (mkS q (s_handled s ++ [n]) (s_lost s) (s_mx s) (s_done s) (s_asleep s) (s_cd s) (s_md s) (s_m s) (s_t s)))
      | _, _, _ => None
      end
  | GM =>
      match s_m s with
      | MRun =>
          Some (Ok (mkS (s_q s ++ [HTerm]) (s_handled s) (s_lost s) (s_mx s) (s_done s) (s_asleep s) (s_cd s) (s_md s)
                        (match s_t s with TNone => MWait | _ => MLock end) (s_t s)))
      | MLock =>
          match s_mx s with
          | None => Some (if s_md s then UB else Ok (to_m s MTest (Some WM)))
          | Some _ => None
          end
      | MTest =>
          if s_done s then Some (Ok (to_m s MUnlock (s_mx s)))
          else Some (if s_cd s || s_md s then UB else
                     Ok (mkS (s_q s) (s_handled s) (s_lost s) None (s_done s) true (s_cd s) (s_md s) MSleep (s_t s)))
      | MSleep => (* woken, takes the mutex again *)
          if s_asleep s then None else
          match s_mx s with None => Some (if s_md s then UB else Ok (to_m s MTest (Some WM))) | Some _ => None end
      | MUnlock => Some (if s_md s then UB else Ok (to_m s MCondD None))
      | MCondD =>
          Some (if s_asleep s then UB else
                Ok (mkS (s_q s) (s_handled s) (s_lost s) (s_mx s) (s_done s) (s_asleep s) true (s_md s) MMutD (s_t s)))
      | MMutD =>
          Some (match s_mx s with
                | Some _ => UB
                | None => Ok (mkS (s_q s) (s_handled s) (s_lost s) None (s_done s) (s_asleep s) (s_cd s) true MEnd (s_t s))
                end)
      | MWait =>
          match s_q s with
          | [] => None
          | HTerm :: q => Some (Ok (mkS q (s_handled s) (s_lost s) (s_mx s) (s_done s) (s_asleep s) (s_cd s) (s_md s) MEnd (s_t s)))
          | HWork n :: q => Some (Ok (mkS q (s_handled s) (s_lost s ++ [n]) (s_mx s) (s_done s) (s_asleep s) (s_cd s) (s_md s) MEnd (s_t s)))
          end
      | MEnd => None
      end
  | GT =>
      match s_t s with
      | TNone | TGone => None
      | TPoll => (* MPI_Test; am_cb_handle_pkt (am_impl.c:25-45, 60-75) *)
          match s_m s with
          | MEnd => Some UB
          | _ =>
              match s_q s with
              | [] => None
              | HWork n :: q => Some (Ok (mkS q (s_handled s ++ [n]) (s_lost s) (s_mx s) (s_done s) (s_asleep s) (s_cd s) (s_md s) (s_m s) TPoll))
              | HTerm :: q => Some (Ok (mkS q (s_handled s) (s_lost s) (s_mx s) (s_done s) (s_asleep s) (s_cd s) (s_md s) (s_m s) TLock))
              end
          end
      | TLock => (* am_impl.c:78 *)
          match s_mx s with None => Some (if s_md s then UB else Ok (to_t s TSet (Some WT) (s_done s))) | Some _ => None end
      | TSet => Some (Ok (to_t s TUnlock (s_mx s) true))                         (* 79 *)
      | TUnlock => Some (if s_md s then UB else Ok (to_t s TSignal None (s_done s))) (* 80 *)
      | TSignal =>                                                               (* 81 *)
          Some (if s_cd s then UB else
                Ok (mkS (s_q s) (s_handled s) (s_lost s) (s_mx s) (s_done s) false (s_cd s) (s_md s) (s_m s) TGone))
      end
  | GSpurious =>
      if s_asleep s then Some (Ok (mkS (s_q s) (s_handled s) (s_lost s) (s_mx s) (s_done s) false (s_cd s) (s_md s) (s_m s) (s_t s)))
      else None
  end.
Fixpoint srun (s : sst) (xs : list slab) : option (outcome sst) :=
  match xs with
  | [] => Some (Ok s)
  | x :: r => match sstep s x with Some (Ok s') => srun s' r | other => other end
  end.
