(** Point-to-point synchronisation, operations that are not supported, library information, and
    the life cycle of the library. *)
From Coq Require Import String.
From Verif Require Import Base EnvModel.
Open Scope Z_scope.
Open Scope list_scope.

(** ** shmem_TYPE_wait_until and shmem_TYPE_test *)

(** include/shmem.h.in.tpl:133-138. *)
Definition CMP_EQ : Z := 1048577.  (* 0x100001 *)
Definition CMP_NE : Z := 1048578.
Definition CMP_GT : Z := 1048579.
Definition CMP_GE : Z := 1048580.
Definition CMP_LT : Z := 1048581.
Definition CMP_LE : Z := 1048582.

(** OSHMPI_COMP (src/internal/p2p_impl.h:13-31): [ret] is the value of the result variable before.
    The assertion of the default case is as in the source. Values of the C type as integers. *)
Definition comp (checks : bool) (a cmp b ret : Z) : outcome Z :=
  let bit (x : bool) := Ok (if x then 1 else 0) in
  if cmp =? CMP_EQ then bit (a =? b)
  else if cmp =? CMP_NE then bit (negb (a =? b))
  else if cmp =? CMP_GT then bit (b <? a)
  else if cmp =? CMP_GE then bit (b <=? a)
  else if cmp =? CMP_LT then bit (a <? b)
  else if cmp =? CMP_LE then bit (a <=? b)
  else do _ <- c_assert checks ((cmp <? CMP_EQ) || (CMP_LE <? cmp)); Ok ret.

(** The awaited variable and the active messages for it that have arrived at this PE and are not
    handled yet, oldest first; an active message is the change it makes. *)
Record pst := { p_mem : Z; p_queue : list (Z -> Z) }.
(** What can happen between two reads: a put, atomic or store changes the variable directly, an
    active message arrives, the progress thread handles the oldest one. *)
Inductive pevent := EDirect (f : Z -> Z) | EAm (f : Z -> Z) | EThread.
Definition handle (s : pst) : pst :=
  match p_queue s with
  | [] => s
  | f :: q => {| p_mem := f (p_mem s); p_queue := q |}
  end.
Definition pev (s : pst) (e : pevent) : pst :=
  match e with
  | EDirect f => {| p_mem := f (p_mem s); p_queue := p_queue s |}
  | EAm f => {| p_mem := p_mem s; p_queue := p_queue s ++ [f] |}
  | EThread => handle s
  end.
(** OSHMPI_am_cb_progress (src/internal/am_impl.c:287-294, 89-122): one message per call
    (OSHMPI_AM_CB_PROGRESS_POLL_NCNT, 86), nothing if a progress thread runs. *)
Definition cb_progress (async : bool) (s : pst) : pst := if async then s else handle s.

(** The address of the variable (p2p_impl.h:41-46, 66-71): [None] when it is in no symmetric
    object; without error checking the NULL attributes are used. *)
Definition resolve (checks : bool) (sym : bool) : outcome unit :=
  do _ <- c_assert checks sym; if sym then Ok tt else UB.

(** OSHMPI_WAIT_UNTIL (34-57): [arr i] are the events before the [i]-th read. The result is the
    value read last, the number of the read and the state. *)
Fixpoint wait_loop (fuel : nat) (checks async : bool) (arr : nat -> list pevent) (i : nat)
    (s : pst) (cmp v : Z) : outcome (Z * nat * pst) :=
  match fuel with
  | O => NoFuel
  | S fuel =>
      let s := fold_left pev (arr i) s in
      let tmp := p_mem s in
      do ret <- comp checks tmp cmp v 0;
      if negb (ret =? 0) then Ok (tmp, i, s)
      else wait_loop fuel checks async arr (S i) (cb_progress async s) cmp v
  end.
Definition wait_until (fuel : nat) (checks async sym : bool) (arr : nat -> list pevent)
    (s : pst) (cmp v : Z) : outcome (Z * nat * pst) :=
  do _ <- resolve checks sym; wait_loop fuel checks async arr 0 s cmp v.
(** shmem_int_wait and the like (src/shmem/p2p.c:18-48). *)
Definition shmem_wait (fuel : nat) (checks async sym : bool) (arr : nat -> list pevent)
    (s : pst) (v : Z) : outcome (Z * nat * pst) :=
  wait_until fuel checks async sym arr s CMP_NE v.

(** OSHMPI_TEST (59-79) with shmem_TYPENAME_test (src/shmem/p2p_typed.c.tpl:59-65). *)
Definition test (checks async sym : bool) (s : pst) (cmp v : Z) : outcome (Z * pst) :=
  do _ <- resolve checks sym;
  do ret <- comp checks (p_mem s) cmp v 0;
  Ok (ret, if ret =? 0 then cb_progress async s else s).
(** A user's loop [while (!shmem_test(...));]. *)
Fixpoint test_loop (fuel : nat) (checks async sym : bool) (arr : nat -> list pevent) (i : nat)
    (s : pst) (cmp v : Z) : outcome (nat * pst) :=
  match fuel with
  | O => NoFuel
  | S fuel =>
      do (ret, s) <- test checks async sym (fold_left pev (arr i) s) cmp v;
      if negb (ret =? 0) then Ok (i, s)
      else test_loop fuel checks async sym arr (S i) s cmp v
  end.

(** ** Operations that are not supported *)

(** All functions whose body is OSHMPI_ASSERT(0) (src/shmem/p2p_typed.c.tpl:19-57, 67-105,
    p2p.c:50-54, signal.c:10-38, signal_typed.c.tpl, signal_sized.c.tpl), with the value returned
    behind the assertion: none, an int, or an unsigned 64-bit integer. *)
Inductive retkind := RVoid | RInt | RSize.
Definition unsupported : list (string * retkind) :=
  [("shmem_TYPENAME_wait_until_all", RVoid); ("shmem_TYPENAME_wait_until_any", RSize);
   ("shmem_TYPENAME_wait_until_some", RSize); ("shmem_TYPENAME_wait_until_all_vector", RVoid);
   ("shmem_TYPENAME_wait_until_any_vector", RSize);
   ("shmem_TYPENAME_wait_until_some_vector", RSize);
   ("shmem_TYPENAME_test_all", RInt); ("shmem_TYPENAME_test_any", RSize);
   ("shmem_TYPENAME_test_some", RSize); ("shmem_TYPENAME_test_all_vector", RInt);
   ("shmem_TYPENAME_test_any_vector", RSize); ("shmem_TYPENAME_test_some_vector", RSize);
   ("shmem_signal_wait_until", RSize); ("shmem_putmem_signal", RVoid);
   ("shmem_ctx_putmem_signal", RVoid); ("shmem_putmem_signal_nbi", RVoid);
   ("shmem_ctx_putmem_signal_nbi", RVoid); ("shmem_signal_fetch", RSize);
   ("shmem_TYPENAME_put_signal", RVoid); ("shmem_ctx_TYPENAME_put_signal", RVoid);
   ("shmem_TYPENAME_put_signal_nbi", RVoid); ("shmem_ctx_TYPENAME_put_signal_nbi", RVoid);
   ("shmem_putSIZE_signal", RVoid); ("shmem_ctx_putSIZE_signal", RVoid);
   ("shmem_putSIZE_signal_nbi", RVoid); ("shmem_ctx_putSIZE_signal_nbi", RVoid)]%string.
(** A call of such a function in a state [mem] of all memories: the value and the state. *)
Definition call_unsupported {M : Type} (checks : bool) (k : retkind) (mem : M)
  : outcome (option Z * M) :=
  do _ <- c_assert checks false;
  Ok (match k with
      | RVoid => None
      | RInt => Some SHMEM_OTHER_ERR
      | RSize => Some (wrap64 SHMEM_OTHER_ERR)
      end, mem).

(** ** shmem_info_get_name *)
Definition MAX_NAME_LEN : nat := 256.
(** strncpy(dst, src, n): UB if the destination is shorter than [n]. *)
Definition strncpy (dst src : list Z) (n : nat) : outcome (list Z) :=
  if (n <=? length dst)%nat
  then Ok (firstn n src ++ repeat 0 (n - length src) ++ skipn n dst)
  else UB.
(** src/shmem/setup.c:92-96, with the vendor string as a parameter. *)
Definition info_get_name (vendor name : list Z) : outcome (list Z) :=
  do b <- strncpy name vendor MAX_NAME_LEN;
  if (MAX_NAME_LEN - 1 <? length b)%nat then Ok (upd b (MAX_NAME_LEN - 1) 0) else UB.

(** ** Life cycle *)
Inductive mpi_state := MNone | MUp | MDown.
Record life := {
  l_init : bool;        (* OSHMPI_global.is_initialized *)
  l_start : bool;       (* OSHMPI_global.is_start_pes_initialized *)
  l_atexit : nat;       (* handlers registered with atexit *)
  l_mpi : mpi_state;
  l_ninit : nat; l_nfinal : nat   (* calls of MPI_Init and MPI_Finalize *)
}.
Definition life0 : life :=
  {| l_init := false; l_start := false; l_atexit := 0; l_mpi := MNone; l_ninit := 0; l_nfinal := 0 |}.
(** MPI_Init and MPI_Finalize; an erroneous use of MPI is UB. *)
Definition mpi_init (s : life) : outcome life :=
  match l_mpi s with
  | MNone => Ok {| l_init := l_init s; l_start := l_start s; l_atexit := l_atexit s; l_mpi := MUp;
                   l_ninit := S (l_ninit s); l_nfinal := l_nfinal s |}
  | _ => UB
  end.
Definition mpi_finalize (s : life) : outcome life :=
  match l_mpi s with
  | MUp => Ok {| l_init := l_init s; l_start := l_start s; l_atexit := l_atexit s; l_mpi := MDown;
                 l_ninit := l_ninit s; l_nfinal := S (l_nfinal s) |}
  | _ => UB
  end.
Definition set_init (s : life) (b : bool) : life :=
  {| l_init := b; l_start := l_start s; l_atexit := l_atexit s; l_mpi := l_mpi s;
     l_ninit := l_ninit s; l_nfinal := l_nfinal s |}.
(** OSHMPI_initialize_thread (src/internal/setup_impl.c:738-739, 772-779, 795, 845): MPI_Initialized
    stays true after MPI_Finalize, so a later MPI_Comm_dup is erroneous. *)
Definition initialize (s : life) : outcome life :=
  if l_init s then Ok s
  else do s <- match l_mpi s with MNone => mpi_init s | _ => Ok s end;
       match l_mpi s with MUp => Ok (set_init s true) | _ => UB end.
(** finalize_impl (852-905). *)
Definition finalize_impl (s : life) : outcome life :=
  match l_mpi s with
  | MDown => Abort
  | _ => mpi_finalize (set_init s false)
  end.
(** OSHMPI_finalize (src/internal/setup_impl.c:917-925), OSHMPI_implicit_finalize (src/internal/setup_impl.c:909-915), start_pes
    (src/shmem/setup.c:101-120). *)
Definition finalize (s : life) : outcome life := if l_init s then finalize_impl s else Ok s.
Definition implicit_finalize (s : life) : outcome life :=
  if l_start s && l_init s then finalize_impl s else Ok s.
Definition start_pes (s : life) : outcome life :=
  if l_init s then Ok s
  else do s <- initialize s;
       Ok {| l_init := l_init s; l_start := true; l_atexit := S (l_atexit s); l_mpi := l_mpi s;
             l_ninit := l_ninit s; l_nfinal := l_nfinal s |}.
(** exit: all handlers. *)
Fixpoint run_atexit (n : nat) (s : life) : outcome life :=
  match n with O => Ok s | S n => do s <- implicit_finalize s; run_atexit n s end.
Inductive lcall := LInit | LStartPes | LFinalize | LMpiInit | LMpiFinalize.
Definition lstep (s : life) (c : lcall) : outcome life :=
  match c with
  | LInit => initialize s
  | LStartPes => start_pes s
  | LFinalize => finalize s
  | LMpiInit => mpi_init s
  | LMpiFinalize => mpi_finalize s
  end.
Fixpoint lrun (s : life) (cs : list lcall) : outcome life :=
  match cs with [] => Ok s | c :: cs => do s <- lstep s c; lrun s cs end.
(** A whole process: the calls of the program, then exit. *)
Definition process (cs : list lcall) : outcome life :=
  do s <- lrun life0 cs; run_atexit (l_atexit s) s.
