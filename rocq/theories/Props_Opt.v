(** C99: the environment variables have their documented effect, and no other. *)
From Coq Require Import String.
From Verif Require Import Base AmCfgModel EnvModel EnvSpec OptModel OptSpec OptProofs.
Open Scope Z_scope.
Open Scope list_scope.

(** Each option depends on its own variable only; the progress thread also on OSHMPI_AMO_DBG_MODE. *)
Theorem C99_own : forall b e e' o o', initialize_env b e = Ok o -> initialize_env b e' = Ok o' ->
  (same_env ["SHMEM_SYMMETRIC_SIZE"%string] e e' -> op_heap o = op_heap o') /\
  (same_env ["SHMEM_DEBUG"%string] e e' -> op_debug o = op_debug o') /\
  (same_env ["SHMEM_VERSION"%string] e e' -> op_version o = op_version o') /\
  (same_env ["SHMEM_INFO"%string] e e' -> op_info o = op_info o') /\
  (same_env ["OSHMPI_VERBOSE"%string] e e' -> op_verbose o = op_verbose o') /\
  (same_env ["OSHMPI_AMO_OPS"%string] e e' -> op_amo_ops o = op_amo_ops o') /\
  (same_env ["OSHMPI_MPI_GPU_FEATURES"%string] e e' -> op_gpu o = op_gpu o') /\
  (same_env ["OSHMPI_AMO_DBG_MODE"%string] e e' -> op_amo_dbg o = op_amo_dbg o') /\
  (same_env ["OSHMPI_RMA_DBG_MODE"%string] e e' -> op_rma_dbg o = op_rma_dbg o') /\
  (same_env ["OSHMPI_ENABLE_ASYNC_THREAD"%string; "OSHMPI_AMO_DBG_MODE"%string] e e' -> op_async o = op_async o') /\
  (same_env ["OSHMPI_ENABLE_MPI_T"%string] e e' -> op_mpit o = op_mpit o').
Proof. exact own. Qed.

(** A 0/1 option is on exactly for a number other than 0; a text without a number turns it off. *)
Theorem C99_switch : forall b e o, initialize_env b e = Ok o ->
  switch false e "SHMEM_DEBUG" (op_debug o) /\ switch false e "SHMEM_VERSION" (op_version o) /\
  switch false e "SHMEM_INFO" (op_info o) /\ switch false e "OSHMPI_VERBOSE" (op_verbose o) /\
  switch true e "OSHMPI_ENABLE_MPI_T" (op_mpit o).
Proof. exact switches. Qed.

(** The progress thread follows its variable when the build leaves the choice to run time. *)
Theorem C99_async : forall b e o, initialize_env b e = Ok o ->
  (bc_async b = AYes -> op_async o = true) /\ (bc_async b = ANo -> op_async o = false) /\
  (bc_async b = ARuntime -> forall s v, e "OSHMPI_ENABLE_ASYNC_THREAD"%string = Some s -> number s v ->
     (op_async o = true <-> v <> 0)).
Proof. exact async_off. Qed.

Theorem C99_mode : forall b e o, initialize_env b e = Ok o ->
  (op_amo_dbg o = DbgAm <-> bc_nodebug b = false /\ exists s, e "OSHMPI_AMO_DBG_MODE"%string = Some s /\ starts (bytes "am") s) /\
  (op_amo_dbg o = DbgDirect <-> bc_nodebug b = false /\ exists s, e "OSHMPI_AMO_DBG_MODE"%string = Some s /\ starts (bytes "direct") s) /\
  (op_rma_dbg o = DbgAm <-> bc_nodebug b = false /\ exists s, e "OSHMPI_RMA_DBG_MODE"%string = Some s /\ starts (bytes "am") s) /\
  (op_rma_dbg o = DbgDirect <-> bc_nodebug b = false /\ exists s, e "OSHMPI_RMA_DBG_MODE"%string = Some s /\ starts (bytes "direct") s).
Proof. exact dbg_modes. Qed.

(** An environment whose numbers fit in an int and whose heap size is readable is accepted. *)
Theorem C99_accepted : forall b e h, int_sized e -> init_heap_size (e "SHMEM_SYMMETRIC_SIZE"%string) = Ok h ->
  exists o, initialize_env b e = Ok o /\ op_heap o = h.
Proof. exact accepted. Qed.

(** With nothing set the options have their documented defaults; the progress thread is left out. *)
Theorem C99_default_partial : forall b e, (forall n, In n variables -> unset e n) -> exists o, initialize_env b e = Ok o /\
  op_heap o = 2 ^ 27 /\ op_debug o = false /\ op_version o = false /\ op_info o = false /\ op_verbose o = false /\
  (forall op, Z.testbit (op_amo_ops o) (amo_bit op) = true) /\
  (forall f, Z.testbit (op_gpu o) (gpu_bit f) = true) /\
  op_amo_dbg o = DbgAuto /\ op_rma_dbg o = DbgAuto /\ op_mpit o = true.
Proof. exact defaults. Qed.

(** OSHMPI_ENABLE_ASYNC_THREAD is documented to be 0 when it is not set (README.md:134); with
    --enable-async-thread=auto and the run-time choice of atomics it is 1. *)
Theorem C99_thread_refuted : exists b e o, bc_async b = ARuntime /\ (forall n, unset e n) /\
  initialize_env b e = Ok o /\ op_async o = true.
Proof.
  exists (mkBconf CRuntime CRuntime ARuntime false), (fun _ => None). eexists.
  split; [reflexivity|]. split; [left; reflexivity|]. split; vm_compute; reflexivity.
Qed.

(** OSHMPI_AMO_OPS=all is documented to be the default, every operation (README.md:119-121); the
    code knows the word any_op instead, and takes no operation. *)
Theorem C99_all_refuted : exists b e e' o o',
  e "OSHMPI_AMO_OPS"%string = Some (bytes "all") /\ unset e' "OSHMPI_AMO_OPS" /\
  (forall n, n <> "OSHMPI_AMO_OPS"%string -> e n = e' n) /\
  initialize_env b e = Ok o /\ initialize_env b e' = Ok o' /\
  (forall op, Z.testbit (op_amo_ops o') (amo_bit op) = true) /\
  (forall op, Z.testbit (op_amo_ops o) (amo_bit op) = false).
Proof.
  exists (mkBconf CRuntime CRuntime ARuntime false).
  exists (fun n => if String.eqb n "OSHMPI_AMO_OPS" then Some (bytes "all") else None), (fun _ => None).
  do 2 eexists. split; [reflexivity|]. split; [left; reflexivity|].
  split; [intros n H; apply String.eqb_neq in H; now rewrite H|].
  split; [vm_compute; reflexivity|]. split; [vm_compute; reflexivity|].
  split; intros []; vm_compute; reflexivity.
Qed.

(** Only the first PE prints the options; the standard ones if asked for by either variable, all if asked for by the library's own. *)
Theorem C99_prints : forall b e o me, initialize_env b e = Ok o ->
  exists i v, switch false e "SHMEM_INFO" i /\ switch false e "OSHMPI_VERBOSE" v /\
  (prints_standard o me = true <-> me = 0 /\ (i = true \/ v = true)) /\ (prints_all o me = true <-> me = 0 /\ v = true).
Proof. exact prints. Qed.

(** Modes set to what was shown are the modes that were shown. *)
Theorem C99_shown_modes : forall b b' e e' o o', initialize_env b e = Ok o -> initialize_env b' e' = Ok o' -> bc_nodebug b' = false ->
  e' "OSHMPI_AMO_DBG_MODE"%string = Some (getstr_dbg_mode (op_amo_dbg o)) -> e' "OSHMPI_RMA_DBG_MODE"%string = Some (getstr_dbg_mode (op_rma_dbg o)) ->
  op_amo_dbg o' = op_amo_dbg o /\ op_rma_dbg o' = op_rma_dbg o.
Proof. exact shown_modes. Qed.

(** An environment that the theorems speak about. *)
Definition ex_env : environ := fun n =>
  if String.eqb n "SHMEM_INFO" then Some (bytes " +1") else if String.eqb n "SHMEM_DEBUG" then Some (bytes "yes")
  else if String.eqb n "OSHMPI_VERBOSE" then Some (bytes "-2x") else if String.eqb n "OSHMPI_AMO_DBG_MODE" then Some (bytes "am")
  else if String.eqb n "OSHMPI_ENABLE_ASYNC_THREAD" then Some (bytes "0") else if String.eqb n "OSHMPI_ENABLE_MPI_T" then Some (bytes "00")
  else if String.eqb n "SHMEM_SYMMETRIC_SIZE" then Some (bytes "3M") else None.
Example C99_ex : exists o, initialize_env (mkBconf CRuntime CRuntime ARuntime false) ex_env = Ok o /\
  (op_heap o, op_info o, op_debug o, op_verbose o, op_amo_dbg o, op_async o, op_mpit o) =
  (3 * 2 ^ 20, true, false, true, DbgAm, false, false).
Proof. eexists. split; vm_compute; reflexivity. Qed.

Print Assumptions C99_own.
Print Assumptions C99_switch.
Print Assumptions C99_async.
Print Assumptions C99_mode.
Print Assumptions C99_accepted.
Print Assumptions C99_default_partial.
Print Assumptions C99_thread_refuted.
Print Assumptions C99_all_refuted.
Print Assumptions C99_prints.
Print Assumptions C99_shown_modes.
