(** All options read at start: initialize_env (src/internal/setup_impl.c:598-693) with
    set_env_dbg_mode (src/internal/setup_impl.c:397-404); what print_env (src/internal/setup_impl.c:480-595) shows of them. Lists, sizes and the
    progress thread are in EnvModel. Not modelled: the text around the values. *)
From Coq Require Import String.
From Verif Require Import Base AmCfgModel EnvModel.
Open Scope Z_scope.
Open Scope list_scope.

(** The environment: the text of each variable that is set. *)
Definition environ : Type := string -> option (list Z).
(** [val && strlen(val)]. *)
Definition getenv_nonempty (e : environ) (name : string) : option (list Z) :=
  match e name with Some (c :: s) => Some (c :: s) | _ => None end.

(** atoi: blanks, an optional sign, digits; 0 without digits. Values outside int are undefined. *)
Definition is_space (c : Z) : bool := (c =? 32) || ((9 <=? c) && (c <=? 13)).
Fixpoint skip_space (s : list Z) : list Z :=
  match s with [] => [] | c :: t => if is_space c then skip_space t else s end.
Definition sign_of (u : list Z) : Z * list Z :=
  match u with 43 :: t => (1, t) | 45 :: t => (-1, t) | t => (1, t) end.
Definition atoi (s : list Z) : outcome Z :=
  let '(sg, r) := sign_of (skip_space s) in
  let v := sg * digits_val (fst (take_digits r)) in
  if (- 2 ^ 31 <=? v) && (v <? 2 ^ 31) then Ok v else UB.

(** The 0/1 options (614-642). *)
Definition flag (e : environ) (name : string) : outcome bool :=
  match getenv_nonempty e name with
  | Some s => do v <- atoi s; Ok (negb (v =? 0))
  | None => Ok false
  end.
(** 658-668, not compiled with --enable-fast=ndebug. *)
Definition set_dbg_mode (s : list Z) : dbg :=
  if prefixb (bytes "am") s then DbgAm
  else if prefixb (bytes "direct") s then DbgDirect else DbgAuto.
Definition dbg_mode (nodebug : bool) (e : environ) (name : string) : dbg :=
  if nodebug then DbgAuto
  else match getenv_nonempty e name with Some s => set_dbg_mode s | None => DbgAuto end.

(** How the library was configured. *)
Record bconf : Type := mkBconf { bc_amo : choice; bc_rma : choice; bc_async : async; bc_nodebug : bool }.

(** OSHMPI_env_t. *)
Record options : Type := mkOptions {
  op_heap : Z; op_debug : bool; op_version : bool; op_info : bool; op_verbose : bool;
  op_amo_ops : Z; op_gpu : Z; op_amo_dbg : dbg; op_rma_dbg : dbg; op_async : bool; op_mpit : bool }.

(** 670-688: amo_direct is still 0. *)
Definition async_option (b : bconf) (amo_dbg : dbg) (e : environ) : outcome bool :=
  do v <- match getenv_nonempty e "OSHMPI_ENABLE_ASYNC_THREAD" with
          | Some s => match bc_async b with ARuntime => do v <- atoi s; Ok (Some v) | _ => Ok None end
          | None => Ok None
          end;
  Ok (enable_async_thread
        {| s_build := BMultiple;
           s_cfg := mkCfg (bc_amo b) (bc_rma b) (bc_async b) (bc_nodebug b) amo_dbg false false;
           s_env_async := v |}).
(** 690-693. *)
Definition mpit_option (e : environ) : outcome bool :=
  match getenv_nonempty e "OSHMPI_ENABLE_MPI_T" with
  | Some s => do v <- atoi s; Ok (negb (v =? 0))
  | None => Ok true
  end.

Definition initialize_env (b : bconf) (e : environ) : outcome options :=
  do heap <- init_heap_size (e "SHMEM_SYMMETRIC_SIZE"%string);
  do debug <- flag e "SHMEM_DEBUG";
  do version <- flag e "SHMEM_VERSION";
  do info <- flag e "SHMEM_INFO";
  do verbose <- flag e "OSHMPI_VERBOSE";
  do ops <- init_amo_ops (e "OSHMPI_AMO_OPS"%string);
  do gpu <- init_gpu_features (e "OSHMPI_MPI_GPU_FEATURES"%string);
  let amo_dbg := dbg_mode (bc_nodebug b) e "OSHMPI_AMO_DBG_MODE" in
  let rma_dbg := dbg_mode (bc_nodebug b) e "OSHMPI_RMA_DBG_MODE" in
  do async <- async_option b amo_dbg e;
  do mpit <- mpit_option e;
  Ok (mkOptions heap debug version info verbose ops gpu amo_dbg rma_dbg async mpit).

(** Who prints what at start: print_env (482, 491): the standard variables, and all. *)
Definition prints_standard (o : options) (me : Z) : bool := (op_info o || op_verbose o) && (me =? 0).
Definition prints_all (o : options) (me : Z) : bool := op_verbose o && (me =? 0).
(** getstr_env_dbg_mode (src/internal/setup_impl.c:406-416): how print_env shows the two modes. *)
Definition getstr_dbg_mode (d : dbg) : list Z :=
  match d with DbgAm => bytes "am" | DbgDirect => bytes "direct" | _ => bytes "auto" end.
