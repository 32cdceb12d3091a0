(** Property theorems C104 (control variables of MPI). *)
From Coq Require Import String.
From Verif Require Import Base EnvModel OptModel MpitModel MpitSpec MpitProofs.
Open Scope Z_scope.
Open Scope list_scope.

(** The library opens and closes its own session: whenever it is started and ended, the sessions of the program are
    as many as it opened, and no handle is left. *)
Theorem C104_sessions : forall e on vars os, option_ok e on -> legal 0 os ->
  exists s, trun e (mpit0 vars) os = Ok s /\ mt_handles s = 0%nat /\
    mt_refs s = Z.of_nat (sessions 0 os) + (if up false os then 1 else 0).
Proof. exact sessions_balanced. Qed.
Print Assumptions C104_sessions.

(** Every variable other than the one for progress has the value the program or MPI gave it, and so has that one when
    it is set in the environment or OSHMPI_ENABLE_MPI_T is 0. *)
Theorem C104_others_partial : forall e on vars os n c, option_ok e on -> legal 0 os -> untouched e n ->
  find_var n vars = Some c ->
  exists s, trun e (mpit0 vars) os = Ok s /\
    value s n = Some (if cv_writable c then written n (cv_val c) os else cv_val c).
Proof. exact untouched_vars. Qed.
Print Assumptions C104_others_partial.

(** Otherwise the start of the library sets it to 1, if MPI has it and accepts the write. *)
Theorem C104_set : forall e vars os s c, option_ok e true -> legal 0 os -> up false os = false ->
  trun e (mpit0 vars) os = Ok s -> find_var PROGRESS_VAR (mt_vars s) = Some c -> cv_writable c = true ->
  getenv_nonempty e PROGRESS_VAR = None ->
  exists s1, tstep e s TShmemInit = Ok s1 /\ value s1 PROGRESS_VAR = Some 1.
Proof. exact started. Qed.
Print Assumptions C104_set.

(** A value the program wrote through the tools interface before shmem_init is lost. *)
Theorem C104_written_refuted : exists e vars os s,
  option_ok e true /\ legal 0 os /\ trun e (mpit0 vars) os = Ok s /\
  In (TWrite PROGRESS_VAR 0) os /\ written PROGRESS_VAR 7 os = 0 /\ value s PROGRESS_VAR = Some 1.
Proof.
  exists (fun _ => None), [mkCvar PROGRESS_VAR 7 true], [TMpitInit; TWrite PROGRESS_VAR 0; TShmemInit].
  eexists. split; [reflexivity|]. split; [cbn; lia|]. split; [vm_compute; reflexivity|].
  split; [right; now left|]. split; vm_compute; reflexivity.
Qed.
Print Assumptions C104_written_refuted.

(** Two variables, a program with two sessions, the library started and ended in between, the option off. *)
Definition ex_env : environ := fun n => if String.eqb n "OSHMPI_ENABLE_MPI_T" then Some [48] else None.
Definition ex_ops : list top :=
  [TMpitInit; TWrite "A" 3; TShmemInit; TMpitInit; TWrite PROGRESS_VAR 5; TMpitFinalize; TShmemFinalize; TWrite "A" 4].
Example C104_nonvacuous :
  option_ok ex_env false /\ option_ok (fun _ => None) true /\ legal 0 ex_ops /\ untouched ex_env PROGRESS_VAR /\
  untouched (fun _ => None) "A" /\ sessions 0 ex_ops = 1%nat /\ up false ex_ops = false /\
  written "A" 1 ex_ops = 4 /\ written PROGRESS_VAR 1 ex_ops = 5.
Proof.
  split; [reflexivity|]. split; [reflexivity|]. split; [cbn; lia|]. split; [right; right; reflexivity|].
  split; [left; discriminate|]. repeat split; reflexivity.
Qed.
