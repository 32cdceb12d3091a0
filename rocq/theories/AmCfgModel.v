(** When the active-message engine is set up and when it is polled (include/oshmpi_impl.h:61-112,
    internal/am_impl.c:190-194, 260-294, setup_impl.c:838-844, 852-869). *)
From Verif Require Import Base.

(** Configure-time choices: --enable-amo=direct|am|runtime, --enable-rma=direct|am|runtime,
    --enable-async-thread=yes|no|runtime. *)
Inductive choice : Type := CDirect | CAm | CRuntime.
Inductive async : Type := AYes | ANo | ARuntime.
(** OSHMPI_AMO_DBG_MODE. *)
Inductive dbg : Type := DbgAuto | DbgDirect | DbgAm.

Record cfg : Type := mkCfg {
  cf_amo : choice; cf_rma : choice; cf_async : async;
  cf_nodebug : bool;            (* OSHMPI_DISABLE_DEBUG *)
  cf_dbg : dbg;                 (* OSHMPI_env.amo_dbg_mode *)
  cf_amo_direct : bool;         (* OSHMPI_global.amo_direct *)
  cf_env_async : bool           (* OSHMPI_env.enable_async_thread *)
}.

(** OSHMPI_ENABLE_DIRECT_AMO_RUNTIME (61-74). *)
Definition direct_amo (c : cfg) : bool :=
  match cf_amo c with
  | CDirect => true
  | CAm => false
  | CRuntime =>
      if cf_nodebug c then cf_amo_direct c
      else match cf_dbg c with DbgDirect => true | DbgAuto => cf_amo_direct c | DbgAm => false end
  end.
(** OSHMPI_ENABLE_DIRECT_RMA_CONFIG (85-92). *)
Definition direct_rma_config (c : cfg) : bool := match cf_rma c with CDirect => true | _ => false end.
(** OSHMPI_ENABLE_AM_ASYNC_THREAD_RUNTIME (106-112). *)
Definition async_thread (c : cfg) : bool :=
  match cf_async c with AYes => true | ANo => false | ARuntime => cf_env_async c end.

(** The request OSHMPI_am.cb_req: never set, an outstanding receive, or completed at the end. *)
Inductive cbreq : Type := RUnset | RPosted | RDone.

(** OSHMPI_am_initialize (190-194, 270). *)
Definition am_initialize (c : cfg) : cbreq :=
  if direct_amo c && direct_rma_config c then RUnset else RPosted.
(** OSHMPI_am_cb_progress (287-294): the request it tests, if any. A completed receive is
    posted again (123-130), so the request is outstanding afterwards. *)
Definition am_cb_progress (c : cfg) (r : cbreq) : outcome cbreq :=
  if async_thread c then Ok r
  else match r with RPosted => Ok RPosted | RUnset => UB | RDone => Ok RDone end.
(** OSHMPI_am_finalize (260-266) with am_cb_progress_end (150-177). *)
Definition am_finalize (c : cfg) (r : cbreq) : outcome cbreq :=
  if direct_amo c && direct_rma_config c then Ok r
  else match r with RPosted => Ok RDone | _ => UB end.

(** A program: initialisation, then [k] calls that poll (barriers, collectives, waits, locks),
    finalisation, whose barrier polls [j] times. *)
Fixpoint polls (c : cfg) (k : nat) (r : cbreq) : outcome cbreq :=
  match k with O => Ok r | S k => do r <- am_cb_progress c r; polls c k r end.
Definition program (c : cfg) (k j : nat) : outcome cbreq :=
  do r <- polls c k (am_initialize c);
  do r <- polls c j r;
  am_finalize c r.
