(** Control variables of MPI that the library sets at start: set_mpit_cvar, initialize_mpit
    (src/internal/setup_impl.c:694-732), with the calls of MPI_T_init_thread and MPI_T_finalize (743, 905) and a program
    that uses the tools interface of MPI itself. Control variables are of type int. *)
From Coq Require Import String.
From Verif Require Import Base EnvModel OptModel.
Open Scope Z_scope.
Open Scope list_scope.

(** A control variable: name, value, whether MPI accepts a write (MPI may refuse with MPI_T_ERR_CVAR_SET_NEVER or
    _NOT_NOW; the library ignores the return code). *)
Record cvar : Type := mkCvar { cv_name : string; cv_val : Z; cv_writable : bool }.
(** The tools interface: initialisations not yet finalised, variables, handles allocated and not freed;
    and OSHMPI_global.is_initialized. *)
Record mpit : Type := mkMt { mt_refs : Z; mt_vars : list cvar; mt_handles : nat; mt_lib : bool }.

Definition find_var (n : string) (l : list cvar) : option cvar := find (fun c => String.eqb (cv_name c) n) l.
(** MPI_T_cvar_write through a handle of the first variable of this name. *)
Fixpoint write_var (n : string) (v : Z) (l : list cvar) : list cvar :=
  match l with
  | [] => []
  | c :: r => if String.eqb (cv_name c) n
              then (if cv_writable c then mkCvar (cv_name c) v (cv_writable c) else c) :: r
              else c :: write_var n v r
  end.
Definition set_refs (s : mpit) (r : Z) : mpit := mkMt r (mt_vars s) (mt_handles s) (mt_lib s).

(** set_mpit_cvar (694-721). Outside a session MPI_T_cvar_get_index does not set the index that is used then: UB. *)
Definition set_mpit_cvar (e : environ) (n : string) (v : Z) (s : mpit) : outcome (Z * mpit) :=
  match getenv_nonempty e n with
  | Some _ => Ok (0, s)
  | None =>
      if mt_refs s <=? 0 then UB else
      match find_var n (mt_vars s) with
      | None => Ok (0, s)
      | Some _ =>
          let s := mkMt (mt_refs s) (mt_vars s) (S (mt_handles s)) (mt_lib s) in
          let s := mkMt (mt_refs s) (write_var n v (mt_vars s)) (mt_handles s) (mt_lib s) in
          Ok (1, mkMt (mt_refs s) (mt_vars s) (mt_handles s - 1) (mt_lib s))
      end
  end.
(** initialize_mpit (723-732). *)
Definition PROGRESS_VAR : string := "MPIR_CVAR_CH4_RMA_ENABLE_DYNAMIC_AM_PROGRESS".
Definition initialize_mpit (enable : bool) (e : environ) (s : mpit) : outcome mpit :=
  if negb enable then Ok s else do r <- set_mpit_cvar e PROGRESS_VAR 1 s; Ok (snd r).

(** shmem_init, shmem_finalize as far as they concern the tools interface (setup_impl.c:738-744, 824, 845, 905, 917-925). *)
Definition lib_init (e : environ) (s : mpit) : outcome mpit :=
  if mt_lib s then Ok s else
  do enable <- mpit_option e;
  let s := set_refs s (mt_refs s + 1) in
  do s <- initialize_mpit enable e s;
  Ok (mkMt (mt_refs s) (mt_vars s) (mt_handles s) true).
Definition lib_fini (s : mpit) : outcome mpit :=
  if mt_lib s then
    if mt_refs s <=? 0 then UB else Ok (mkMt (mt_refs s - 1) (mt_vars s) (mt_handles s) false)
  else Ok s.

(** What the program does: start and end of the library, its own session, its own writes. *)
Inductive top : Type := TShmemInit | TShmemFinalize | TMpitInit | TMpitFinalize | TWrite (n : string) (v : Z).
Definition tstep (e : environ) (s : mpit) (o : top) : outcome mpit :=
  match o with
  | TShmemInit => lib_init e s
  | TShmemFinalize => lib_fini s
  | TMpitInit => Ok (set_refs s (mt_refs s + 1))
  | TMpitFinalize => if mt_refs s <=? 0 then UB else Ok (set_refs s (mt_refs s - 1))
  | TWrite n v => if mt_refs s <=? 0 then UB else
                  Ok (mkMt (mt_refs s) (write_var n v (mt_vars s)) (mt_handles s) (mt_lib s))
  end.
Fixpoint trun (e : environ) (s : mpit) (os : list top) : outcome mpit :=
  match os with [] => Ok s | o :: r => do s <- tstep e s o; trun e s r end.
Definition mpit0 (vars : list cvar) : mpit := mkMt 0 vars 0 false.
