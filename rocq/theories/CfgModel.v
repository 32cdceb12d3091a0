(** The options of configure (configure.ac:195-280, 320-568, 580-654), the macros they define, and
    how the sources choose by these macros (include/oshmpi_impl.h:61-112, 305-345,
    include/oshmpi_util.h:236-262, internal/util/thread.h:12-63, internal/setup_impl.c:490-570,
    757-766).

    Simplifications: the shell text of an option is one word without blanks or wildcards (the for
    loop of 216 would expand those); AC_MSG_ERROR ends configure whatever its text; warnings are
    not kept; the compiler, MPI and the sizes of types are checked elsewhere in configure.ac and
    assumed found; a flag appended to CFLAGS counts as its -D macros, plus -ipo and -g. *)
From Verif Require Import Base AmCfgModel EnvModel.
From Coq Require Import String Ascii.
Open Scope string_scope.
Open Scope list_scope.

Definition macro : Type := string * string.
(** The option of each --enable-x: [None] not given, --enable-x is [Some "yes"], --disable-x is
    [Some "no"], --enable-x=v is [Some v] (rules of AC_ARG_ENABLE). *)
Record opts : Type := {
  o_fast : option string; o_g : option string; o_threads : option string;
  o_amo : option string; o_rma : option string; o_track : option string;
  o_cache : option string; o_async : option string; o_pkg : option string;
  o_win : option string; o_cuda : option string; o_ze : option string
}.
(** What configure finds on the machine: src/openpa (497), libpthread (524), pthread_mutex_lock
    (528), CUDA (601), Level Zero (636). *)
Record host : Type := {
  h_opa : bool; h_lpthread : bool; h_mutex : bool; h_cuda : bool; h_ze : bool
}.
Definition given (d : string) (o : option string) : string :=
  match o with Some v => v | None => d end.
Definition macro1 (n : string) : option (list macro) := Some [(n, "1")].
Definition macro0 : option (list macro) := Some [].

(** Word splitting of the shell with IFS="," (215-216): a comma ends a word, the last word may lack
    its comma. *)
Fixpoint fields (acc s : string) : list string :=
  match s with
  | EmptyString => match acc with EmptyString => [] | _ => [acc] end
  | String c r =>
      if Ascii.eqb c ","%char then acc :: fields "" r
      else fields (String.append acc (String c "")) r
  end.

(** enable_fast_opts, enable_fast_ndebug, enable_fast_ipo (210-212) and the body of the loop
    (217-245). *)
Record fast : Type := { f_opts : string; f_ndebug : bool; f_ipo : bool }.
Definition fast0 : fast := {| f_opts := "O2"; f_ndebug := false; f_ipo := false |}.
Definition fast_step (f : fast) (w : string) : fast :=
  if String.prefix "O" w then {| f_opts := w; f_ndebug := f_ndebug f; f_ipo := f_ipo f |}
  else if w =? "ndebug" then {| f_opts := f_opts f; f_ndebug := true; f_ipo := f_ipo f |}
  else if w =? "ipo" then {| f_opts := f_opts f; f_ndebug := f_ndebug f; f_ipo := true |}
  else if (w =? "most") || (w =? "yes") then
    {| f_opts := "O2"; f_ndebug := true; f_ipo := f_ipo f |}
  else if w =? "all" then {| f_opts := "O2"; f_ndebug := true; f_ipo := true |}
  else if (w =? "none") || (w =? "no") then
    {| f_opts := ""; f_ndebug := false; f_ipo := f_ipo f |}
  else f.
Definition fast_of (v : string) : fast := fold_left fast_step (fields "" v) fast0.
(** Lines 249-267. The sed command of 251 changes nothing, so the test of 252 holds. *)
Definition fast_sec (v : string) : option (list macro) :=
  let f := fast_of v in
  Some ((if f_opts f =? "" then [] else [("OSHMPI_FAST_OPTS", f_opts f)]) ++
        (if f_ndebug f then [("OSHMPI_DISABLE_DEBUG", "1"); ("OSHMPI_DISABLE_ERROR_CHECKING", "1")]
         else []) ++
        (if f_ipo f then [("OSHMPI_ENABLE_IPO", "1"); ("-ipo", "")] else [])).
(** --enable-g (270-280). *)
Definition g_sec (vfast v : string) : option (list macro) :=
  if vfast =? "no" then
    if v =? "yes" then Some [("-g", ""); ("OSHMPI_ENABLE_DBG", "1")] else macro0
  else macro0.
(** --enable-threads (321-355). *)
Definition threads_sec (v : string) : option (list macro) :=
  if v =? "single" then macro1 "OSHMPI_ENABLE_THREAD_SINGLE"
  else if v =? "funneled" then macro1 "OSHMPI_ENABLE_THREAD_FUNNELED"
  else if v =? "serialized" then macro1 "OSHMPI_ENABLE_THREAD_SERIALIZED"
  else if v =? "multiple" then macro1 "OSHMPI_ENABLE_THREAD_MULTIPLE"
  else None.
(** --enable-amo (357-386). *)
Definition amo_sec (v : string) : option (list macro) :=
  if v =? "direct" then macro1 "OSHMPI_ENABLE_DIRECT_AMO"
  else if v =? "am" then macro1 "OSHMPI_ENABLE_AM_AMO"
  else if v =? "auto" then macro0
  else None.
(** --enable-rma (389-416). *)
Definition rma_sec (v : string) : option (list macro) :=
  if v =? "direct" then macro1 "OSHMPI_ENABLE_DIRECT_RMA"
  else if v =? "am" then macro1 "OSHMPI_ENABLE_AM_RMA"
  else if v =? "auto" then macro0
  else None.
(** --enable-op-tracking (419-431). *)
Definition track_sec (v : string) : option (list macro) :=
  if v =? "yes" then macro1 "OSHMPI_ENABLE_OP_TRACKING" else macro0.
(** --enable-strided-cache (434-446). *)
Definition cache_sec (v : string) : option (list macro) :=
  if v =? "yes" then macro1 "OSHMPI_ENABLE_STRIDED_DTYPE_CACHE" else macro0.
(** --enable-async-thread (449-482). *)
Definition async_sec (vthreads v : string) : option (list macro) :=
  if v =? "no" then macro1 "OSHMPI_DISABLE_AM_ASYNC_THREAD"
  else if vthreads =? "multiple" then
    if v =? "yes" then macro1 "OSHMPI_ENABLE_AM_ASYNC_THREAD"
    else if v =? "auto" then macro0
    else None
  else None.
(** OpenPA and --with-thread-package (491-542). *)
Definition pkg_sec (h : host) (vthreads v : string) : option (list macro) :=
  if vthreads =? "multiple" then
    if h_opa h then
      if (v =? "default") || (v =? "posix") || (v =? "pthreads") then
        if h_lpthread h && negb (h_mutex h) then None
        else Some [("OSHMPI_THREAD_CS_LOCK", "OSHMPI_THREAD_CS_LOCK__PTHREAD_MUTEX")]
      else None
    else None
  else macro0.
(** --enable-win-type (545-568). *)
Definition win_sec (v : string) : option (list macro) :=
  if v =? "dynamic_win" then macro1 "OSHMPI_ENABLE_DYNAMIC_WIN"
  else if v =? "win_creates" then macro0
  else None.
(** --enable-cuda (580-616), --enable-ze (619-654). *)
Definition cuda_sec (h : host) (v : string) : option (list macro) :=
  if v =? "yes" then if h_cuda h then macro1 "OSHMPI_ENABLE_CUDA" else None else macro0.
Definition ze_sec (h : host) (v : string) : option (list macro) :=
  if v =? "yes" then if h_ze h then macro1 "OSHMPI_ENABLE_ZE" else None else macro0.

(** The sections in their order; [None] is AC_MSG_ERROR in one of them. *)
Fixpoint all_of (l : list (option (list macro))) : option (list macro) :=
  match l with
  | [] => Some []
  | x :: r => match x, all_of r with Some a, Some b => Some (a ++ b) | _, _ => None end
  end.
Definition v_fast (o : opts) := given "O2" (o_fast o).
Definition v_threads (o : opts) := given "multiple" (o_threads o).
Definition configure (h : host) (o : opts) : option (list macro) :=
  all_of [fast_sec (v_fast o); g_sec (v_fast o) (given "no" (o_g o));
          threads_sec (v_threads o); amo_sec (given "auto" (o_amo o));
          rma_sec (given "auto" (o_rma o)); track_sec (given "yes" (o_track o));
          cache_sec (given "yes" (o_cache o)); async_sec (v_threads o) (given "no" (o_async o));
          pkg_sec h (v_threads o) (given "default" (o_pkg o));
          win_sec (given "win_creates" (o_win o)); cuda_sec h (given "no" (o_cuda o));
          ze_sec h (given "no" (o_ze o))].

(** #ifdef and the value of a macro. *)
Definition def (n : string) (ms : list macro) : bool := existsb (fun m => n =? fst m) ms.
Fixpoint value (n : string) (ms : list macro) : string :=
  match ms with [] => "" | m :: r => if n =? fst m then snd m else value n r end.

(** setup_impl.c:757-766: the level the library was built for. *)
Definition build_of (ms : list macro) : build_level :=
  if def "OSHMPI_ENABLE_THREAD_SINGLE" ms then BSingle
  else if def "OSHMPI_ENABLE_THREAD_FUNNELED" ms then BFunneled
  else if def "OSHMPI_ENABLE_THREAD_SERIALIZED" ms then BSerialized
  else BMultiple.
(** oshmpi_impl.h:61-74. *)
Definition amo_of (ms : list macro) : choice :=
  if def "OSHMPI_ENABLE_DIRECT_AMO" ms then CDirect
  else if def "OSHMPI_ENABLE_AM_AMO" ms then CAm else CRuntime.
(** oshmpi_impl.h:85-104. *)
Definition rma_of (ms : list macro) : choice :=
  if def "OSHMPI_ENABLE_AM_RMA" ms then CAm
  else if def "OSHMPI_ENABLE_DIRECT_RMA" ms then CDirect else CRuntime.
(** oshmpi_impl.h:106-112. *)
Definition async_of (ms : list macro) : async :=
  if def "OSHMPI_ENABLE_AM_ASYNC_THREAD" ms then AYes
  else if def "OSHMPI_DISABLE_AM_ASYNC_THREAD" ms then ANo else ARuntime.
(** internal/util/thread.h:14: the critical sections are mutexes. *)
Definition mutex_of (ms : list macro) : bool :=
  def "OSHMPI_THREAD_CS_LOCK" ms &&
  (value "OSHMPI_THREAD_CS_LOCK" ms =? "OSHMPI_THREAD_CS_LOCK__PTHREAD_MUTEX").
(** oshmpi_impl.h:306-345: OSHMPI_THREAD_ENTER_CS takes a mutex when the level of the program is
    [level]. *)
Definition enter_cs_locks (ms : list macro) (level : Z) : bool :=
  def "OSHMPI_ENABLE_THREAD_MULTIPLE" ms && (level =? t_multiple)%Z && mutex_of ms.
(** oshmpi_util.h:236-262: the counters and flags are those of OpenPA. *)
Definition atomics_of (ms : list macro) : bool := def "OSHMPI_ENABLE_THREAD_MULTIPLE" ms.
(** order_impl.h:11, strided_impl.h:11, oshmpi_impl.h:119, oshmpi_impl.h:67. *)
Definition track_of (ms : list macro) : bool := def "OSHMPI_ENABLE_OP_TRACKING" ms.
Definition cache_of (ms : list macro) : bool := def "OSHMPI_ENABLE_STRIDED_DTYPE_CACHE" ms.
Definition dynamic_of (ms : list macro) : bool := def "OSHMPI_ENABLE_DYNAMIC_WIN" ms.
Definition nodebug_of (ms : list macro) : bool := def "OSHMPI_DISABLE_DEBUG" ms.
(** The choices of the build together with those of the environment of the run, as used by
    AmCfgModel and EnvModel. *)
Definition setup_of (ms : list macro) (d : dbg) (direct : bool) (env : option Z) (e : bool) : setup :=
  {| s_build := build_of ms;
     s_cfg := {| cf_amo := amo_of ms; cf_rma := rma_of ms; cf_async := async_of ms;
                 cf_nodebug := nodebug_of ms; cf_dbg := d; cf_amo_direct := direct;
                 cf_env_async := e |};
     s_env_async := env |}.

(** print_env (setup_impl.c:490-570): the configuration printed with OSHMPI_VERBOSE, macro1 text for
    each option. *)
Definition print_fast (ms : list macro) : string :=
  String.append (if def "OSHMPI_FAST_OPTS" ms
                 then String.append (value "OSHMPI_FAST_OPTS" ms) "," else "")
  (String.append (if def "OSHMPI_DISABLE_DEBUG" ms then "ndebug," else "")
  (String.append (if def "OSHMPI_ENABLE_IPO" ms then "ipo," else "")
     (if negb (def "OSHMPI_FAST_OPTS" ms) && negb (def "OSHMPI_DISABLE_DEBUG" ms) &&
         negb (def "OSHMPI_ENABLE_IPO" ms) then "no" else ""))).
Definition print_threads (ms : list macro) : string :=
  if def "OSHMPI_ENABLE_THREAD_SINGLE" ms then "single"
  else if def "OSHMPI_ENABLE_THREAD_FUNNELED" ms then "funneled"
  else if def "OSHMPI_ENABLE_THREAD_SERIALIZED" ms then "serialized" else "multiple".
Definition print_amo (ms : list macro) : string :=
  if def "OSHMPI_ENABLE_DIRECT_AMO" ms then "direct"
  else if def "OSHMPI_ENABLE_AM_AMO" ms then "am" else "auto".
Definition print_async (ms : list macro) : string :=
  if def "OSHMPI_ENABLE_AM_ASYNC_THREAD" ms then "yes"
  else if def "OSHMPI_DISABLE_AM_ASYNC_THREAD" ms then "no" else "auto".
Definition print_rma (ms : list macro) : string :=
  if def "OSHMPI_ENABLE_AM_RMA" ms then "am"
  else if def "OSHMPI_ENABLE_DIRECT_RMA" ms then "direct" else "auto".
Definition yes_no (b : bool) : string := if b then "yes" else "no".
Definition print_track (ms : list macro) := yes_no (def "OSHMPI_ENABLE_OP_TRACKING" ms).
Definition print_cache (ms : list macro) := yes_no (def "OSHMPI_ENABLE_STRIDED_DTYPE_CACHE" ms).
Definition print_win (ms : list macro) : string :=
  if def "OSHMPI_ENABLE_DYNAMIC_WIN" ms then "dynamic_win" else "win_creates".
Definition print_cuda (ms : list macro) := yes_no (def "OSHMPI_ENABLE_CUDA" ms).
