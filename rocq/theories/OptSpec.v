(** What the options are documented to mean (README.md:87-145). *)
From Coq Require Import String.
From Verif Require Import Base AmCfgModel EnvModel EnvSpec OptModel.
Open Scope Z_scope.
Open Scope list_scope.

(** A text begins with an integer: blanks, a sign, digits, then something that is no digit. *)
Definition blank (c : Z) : Prop := c = 32 \/ 9 <= c <= 13.
Inductive number : list Z -> Z -> Prop :=
| Num : forall bl sg ds rest v, Forall blank bl -> decimal ds ->
    (forall c t, rest = c :: t -> c < 48 \/ 57 < c) ->
    (sg = [] /\ v = dec_val ds \/ sg = bytes "+" /\ v = dec_val ds \/ sg = bytes "-" /\ v = - dec_val ds) ->
    number (bl ++ sg ++ ds ++ rest) v.
(** A text that begins with no integer. *)
Definition no_number (s : list Z) : Prop := forall v, ~ number s v.

Definition unset (e : environ) (name : string) : Prop := e name = None \/ e name = Some [].

(** The value of a 0/1 option. *)
Definition switch (dflt : bool) (e : environ) (name : string) (on : bool) : Prop :=
  (unset e name /\ on = dflt) \/
  (exists s v, e name = Some s /\ s <> [] /\ number s v /\ (on = true <-> v <> 0)) \/
  (exists s, e name = Some s /\ s <> [] /\ no_number s /\ on = false).

(** The variables that decide an option. *)
Definition same_env (names : list string) (e e' : environ) : Prop :=
  forall n, In n names -> e n = e' n \/ unset e n /\ unset e' n.

(** All variables, and those that are read as an int. *)
Definition variables : list string :=
  ["SHMEM_SYMMETRIC_SIZE"; "SHMEM_DEBUG"; "SHMEM_VERSION"; "SHMEM_INFO"; "OSHMPI_VERBOSE"; "OSHMPI_AMO_OPS";
   "OSHMPI_MPI_GPU_FEATURES"; "OSHMPI_AMO_DBG_MODE"; "OSHMPI_RMA_DBG_MODE"; "OSHMPI_ENABLE_ASYNC_THREAD";
   "OSHMPI_ENABLE_MPI_T"]%string.
Definition int_variables : list string :=
  ["SHMEM_DEBUG"; "SHMEM_VERSION"; "SHMEM_INFO"; "OSHMPI_VERBOSE"; "OSHMPI_ENABLE_ASYNC_THREAD";
   "OSHMPI_ENABLE_MPI_T"]%string.
(** Their numbers fit in an int. *)
Definition int_sized (e : environ) : Prop :=
  forall n, In n int_variables -> forall s v, e n = Some s -> number s v -> - 2 ^ 31 <= v < 2 ^ 31.
