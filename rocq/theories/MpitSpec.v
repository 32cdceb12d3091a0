(** What C104 says: values of control variables as a program sees them. *)
From Coq Require Import String.
From Verif Require Import Base EnvModel OptModel MpitModel.
Open Scope Z_scope.
Open Scope list_scope.

(** The value of a variable, if MPI has it. *)
Definition value (s : mpit) (n : string) : option Z := option_map cv_val (find_var n (mt_vars s)).
(** The environment gives a number for OSHMPI_ENABLE_MPI_T if it gives anything. *)
Definition option_ok (e : environ) (on : bool) : Prop := mpit_option e = Ok on.

(** A program that uses its own session correctly: [u] is the number of its sessions. *)
Fixpoint legal (u : nat) (os : list top) : Prop :=
  match os with
  | [] => True
  | TMpitInit :: r => legal (S u) r
  | TMpitFinalize :: r => (0 < u)%nat /\ legal (pred u) r
  | TWrite _ _ :: r => (0 < u)%nat /\ legal u r
  | _ :: r => legal u r
  end.
Fixpoint sessions (u : nat) (os : list top) : nat :=
  match os with
  | [] => u
  | TMpitInit :: r => sessions (S u) r
  | TMpitFinalize :: r => sessions (pred u) r
  | _ :: r => sessions u r
  end.
(** Whether the library is up after the calls. *)
Fixpoint up (b : bool) (os : list top) : bool :=
  match os with
  | [] => b
  | TShmemInit :: r => up true r
  | TShmemFinalize :: r => up false r
  | _ :: r => up b r
  end.
(** The last value the program itself wrote into a variable that accepts writes; [v]: before. *)
Fixpoint written (n : string) (v : Z) (os : list top) : Z :=
  match os with
  | [] => v
  | TWrite m w :: r => written n (if String.eqb m n then w else v) r
  | _ :: r => written n v r
  end.
(** The library leaves the variable alone. *)
Definition untouched (e : environ) (n : string) : Prop :=
  n <> "MPIR_CVAR_CH4_RMA_ENABLE_DYNAMIC_AM_PROGRESS"%string \/ getenv_nonempty e n <> None \/ option_ok e false.
