(** C105: the options of configure select what their help texts say, the library prints them, and
    locks exist whenever threads may call at the same time. *)
From Verif Require Import Base AmCfgModel EnvModel EnvSpec CfgModel CfgSpec CfgProofs CfgProofs2.
From Coq Require Import String Ascii.
Open Scope string_scope.
Open Scope list_scope.

(** Configure takes exactly the documented values (and a thread package by one of three names),
    and a progress thread only with thread level multiple. *)
Theorem C105_accepts_partial : forall h o,
  (exists ms, configure h o = Some ms) <-> accepted o /\ possible h o.
Proof. exact configure_accepts. Qed.

(** What the sources choose by the macros is what each option asks for. *)
Theorem C105_choices : forall h o ms, configure h o = Some ms ->
  In (asked "multiple" (o_threads o), build_of ms) threads_doc /\
  In (asked "auto" (o_amo o), amo_of ms) method_doc /\
  In (asked "auto" (o_rma o), rma_of ms) method_doc /\
  In (asked "no" (o_async o), async_of ms) async_doc /\
  In (asked "win_creates" (o_win o), dynamic_of ms) win_doc /\
  (track_of ms = true <-> asked "yes" (o_track o) = "yes") /\
  (cache_of ms = true <-> asked "yes" (o_cache o) = "yes") /\
  (def "OSHMPI_ENABLE_CUDA" ms = true <-> asked "no" (o_cuda o) = "yes") /\
  (def "OSHMPI_ENABLE_ZE" ms = true <-> asked "no" (o_ze o) = "yes").
Proof. exact configure_choices. Qed.

(** Critical sections are mutexes and counters are atomic exactly in a build for level multiple; a
    build that can have a progress thread is one; and the hypothesis of C49 about builds holds. *)
Theorem C105_locks : forall h o ms, configure h o = Some ms ->
  (build_of ms = BMultiple <-> mutex_of ms = true) /\
  (build_of ms = BMultiple <-> atomics_of ms = true) /\
  (forall d b e e', configured (setup_of ms d b e e')).
Proof.
  intros h o ms H. destruct (configure_locks _ _ _ H) as (A & B & C).
  split; [exact A|]. split; [exact B|]. intros d b e e' N. exact (C N).
Qed.

(** Whatever configuration, environment and MPI: a program given level multiple by
    shmem_init_thread has its critical sections locked. *)
Theorem C105_multiple_locked : forall h o ms d b e e' w r st ret,
  configure h o = Some ms ->
  shmem_init_thread (setup_of ms d b e e') w None r = Ok (st, t_multiple, ret) ->
  enter_cs_locks ms st = true /\ atomics_of ms = true.
Proof. exact locks_when_multiple. Qed.

(** --enable-fast with any list of words: the last word about a flag decides; -ipo stays once
    asked for. *)
Theorem C105_fast_partial : forall h o ms ws, configure h o = Some ms -> Forall word ws ->
  asked "O2" (o_fast o) = String.concat "," ws ->
  fast_flags ws {| f_opts := value "OSHMPI_FAST_OPTS" ms; f_ndebug := nodebug_of ms;
                   f_ipo := def "OSHMPI_ENABLE_IPO" ms |} /\
  def "-ipo" ms = def "OSHMPI_ENABLE_IPO" ms /\
  def "OSHMPI_DISABLE_ERROR_CHECKING" ms = nodebug_of ms.
Proof. exact configure_fast. Qed.

(** The texts printed with OSHMPI_VERBOSE are the options given. *)
Theorem C105_printed : forall h o ms, configure h o = Some ms ->
  print_threads ms = asked "multiple" (o_threads o) /\
  print_amo ms = asked "auto" (o_amo o) /\ print_rma ms = asked "auto" (o_rma o) /\
  print_async ms = asked "no" (o_async o) /\ print_win ms = asked "win_creates" (o_win o) /\
  (print_track ms = "yes" <-> asked "yes" (o_track o) = "yes") /\
  (print_cache ms = "yes" <-> asked "yes" (o_cache o) = "yes") /\
  (print_cuda ms = "yes" <-> asked "no" (o_cuda o) = "yes").
Proof. exact configure_printed. Qed.

(** Configuring again with the printed texts gives the same macros, unless the optimisation flag
    alone was taken away, or --enable-g was ignored. *)
Theorem C105_repeat_partial : forall h o ms, configure h o = Some ms ->
  (def "OSHMPI_FAST_OPTS" ms = true \/
   (nodebug_of ms = false /\ def "OSHMPI_ENABLE_IPO" ms = false)) ->
  (asked "no" (o_g o) = "yes" -> asked "O2" (o_fast o) = "no") ->
  configure h (printed o ms) = Some ms.
Proof. exact configure_again. Qed.

(** An example: several options at once. *)
Example C105_nonvacuous : exists ms, configure machine ex_opts = Some ms /\
  build_of ms = BMultiple /\ amo_of ms = CDirect /\ rma_of ms = CAm /\ async_of ms = ARuntime /\
  print_fast ms = "O3,ndebug,ipo," /\ configure machine (printed ex_opts ms) = Some ms /\
  (exists st ret, shmem_init_thread (setup_of ms DbgAuto false None false)
     {| mpi_already := None; mpi_init_thread := fun q => q |} None 3 = Ok (st, t_multiple, ret)) /\
  Forall word ["O3"; "ndebug"; "ipo"].
Proof.
  eexists. split; [vm_compute; reflexivity|].
  do 5 (split; [vm_compute; reflexivity|]). split; [vm_compute; reflexivity|].
  split; [exists 3%Z, 0%Z; vm_compute; reflexivity|].
  repeat constructor; try discriminate; intro I; simpl in I;
    repeat (destruct I as [I|I]; [discriminate I|]); destruct I.
Qed.
(** Without a thread level of multiple, a progress thread is refused. *)
Example C105_refused : configure machine
  {| o_fast := None; o_g := None; o_threads := Some "serialized"; o_amo := None; o_rma := None;
     o_track := None; o_cache := None; o_async := Some "auto"; o_pkg := None; o_win := None;
     o_cuda := None; o_ze := None |} = None.
Proof. reflexivity. Qed.

(** "none - None of above options": not so for ipo. *)
Theorem C105_none_refuted : exists v ms, v = "all,none" /\
  configure machine (with_fast v None) = Some ms /\ def "-ipo" ms = true /\
  def "OSHMPI_FAST_OPTS" ms = false /\ nodebug_of ms = false.
Proof. eexists. eexists. repeat (split; [vm_compute; reflexivity|]). vm_compute; reflexivity. Qed.
(** "none ... i.e. --disable-fast": --enable-g works with the latter only. *)
Theorem C105_debug_refuted : exists ms1 ms2,
  configure machine (with_fast "no" (Some "yes")) = Some ms1 /\ def "-g" ms1 = true /\
  configure machine (with_fast "none" (Some "yes")) = Some ms2 /\ def "-g" ms2 = false.
Proof. eexists. eexists. repeat (split; [vm_compute; reflexivity|]). vm_compute; reflexivity. Qed.
(** "--with-thread-package=posix|pthread": the second is refused. *)
Theorem C105_package_refuted : exists o, o_pkg o = Some "pthread" /\ possible machine o /\
  configure machine o = None.
Proof.
  exists {| o_fast := None; o_g := None; o_threads := None; o_amo := None; o_rma := None;
     o_track := None; o_cache := None; o_async := None; o_pkg := Some "pthread"; o_win := None;
     o_cuda := None; o_ze := None |}.
  split; [reflexivity|]. split; [|reflexivity]. unfold possible. simpl. auto.
Qed.
(** A value that no help text lists is not always refused: it turns tracking off, or is passed to
    the compiler. *)
Theorem C105_unknown_refuted : exists o ms, o_track o = Some "on" /\ o_fast o = Some "Oops" /\
  ~ listed "on" yes_no_doc /\ configure machine o = Some ms /\ track_of ms = false /\
  value "OSHMPI_FAST_OPTS" ms = "Oops".
Proof.
  exists {| o_fast := Some "Oops"; o_g := None; o_threads := None; o_amo := None; o_rma := None;
     o_track := Some "on"; o_cache := None; o_async := None; o_pkg := None; o_win := None;
     o_cuda := None; o_ze := None |}. eexists.
  split; [reflexivity|]. split; [reflexivity|].
  split; [intros [a [E|[E|[]]]]; discriminate E|].
  repeat (split; [vm_compute; reflexivity|]). vm_compute; reflexivity.
Qed.
(** The printed options do not always give the same build: without the optimisation flag it comes
    back, and --enable-ze is not printed. *)
Theorem C105_repeat_refuted : exists o ms ms', configure machine o = Some ms /\
  configure machine (printed o ms) = Some ms' /\
  def "OSHMPI_FAST_OPTS" ms = false /\ def "OSHMPI_FAST_OPTS" ms' = true.
Proof.
  exists (with_fast "none,ndebug" None). eexists. eexists.
  repeat (split; [vm_compute; reflexivity|]). vm_compute; reflexivity.
Qed.
Theorem C105_ze_refuted : exists ms ms', configure machine ex_opts = Some ms /\
  configure machine (printed_only ms) = Some ms' /\
  def "OSHMPI_ENABLE_ZE" ms = true /\ def "OSHMPI_ENABLE_ZE" ms' = false.
Proof. eexists. eexists. repeat (split; [vm_compute; reflexivity|]). vm_compute; reflexivity. Qed.

Print Assumptions C105_accepts_partial.
Print Assumptions C105_choices.
Print Assumptions C105_locks.
Print Assumptions C105_multiple_locked.
Print Assumptions C105_fast_partial.
Print Assumptions C105_printed.
Print Assumptions C105_repeat_partial.
Print Assumptions C105_none_refuted.
Print Assumptions C105_debug_refuted.
Print Assumptions C105_package_refuted.
Print Assumptions C105_unknown_refuted.
Print Assumptions C105_repeat_refuted.
Print Assumptions C105_ze_refuted.
