(** What the active-message properties talk about. *)
From Verif Require Import Base AmModel AmCfgModel.

Definition prefix {X : Type} (a b : list X) : Prop := exists c, b = a ++ c.

(** Only thread 0 of PE [p] uses the library. *)
Definition one_thread {A D : Type} (p : Z) (ls : list (label A D)) : Prop :=
  forall l, In l ls ->
    match l with LOp q i _ _ | LFlush q i _ | LFin q i | LGo q i => q = p -> i = 0 | LCb _ _ _ => True end.

(** PE [p] makes no call in [ls]. *)
Definition no_calls {A D : Type} (p : Z) (ls : list (label A D)) : Prop :=
  forall l, In l ls -> match l with LOp q _ _ _ => q <> p | _ => True end.

(** The operations of PE [p] in the history of a target, in the order they took effect. *)
Definition applied {A D R : Type} (p : Z) (log : list (Z * req A D * R)) : list (req A D) :=
  map (fun e => snd (fst e)) (filter (fun e => fst (fst e) =? p) log).

(** [log] is a sequential execution from [m] to [m'], each operation with the arguments and the
    payload its caller gave, each reply the one of that execution. *)
Fixpoint seq_exec {A D M R : Type} (exec : A -> option D -> M -> outcome (M * R))
    (m : M) (log : list (Z * req A D * R)) (m' : M) : Prop :=
  match log with
  | [] => m' = m
  | (_, r, x) :: rest => exists m1, exec (rq_args r) (rq_data r) m = Ok (m1, x) /\ seq_exec exec m1 rest m'
  end.

(** The tag a thread is using. *)
Definition tag_of {A D R : Type} (x : tst A D R) : option Z :=
  match x with
  | TTag _ g _ | TData _ g _ | TAck _ g _ | TFSend _ g _ _ | TFWait _ g _ => Some g
  | _ => None
  end.

(** The requests of thread [i], when [tid] tells the thread of a request. *)
Definition of_thread {A D : Type} (tid : req A D -> Z) (i : Z) (l : list (req A D)) : list (req A D) :=
  filter (fun r => tid r =? i) l.
Definition tells_thread {A D : Type} (tid : req A D -> Z) (l : label A D) : Prop :=
  match l with LOp _ i _ r => tid r = i | _ => True end.

(** Atomics are mapped on MPI atomics: --enable-amo=direct, or decided at start by the window hints
    unless a debug build is told otherwise by OSHMPI_AMO_DBG_MODE. *)
Definition atomics_by_mpi (c : cfg) : Prop :=
  cf_amo c = CDirect \/
  cf_amo c = CRuntime /\
    ((cf_nodebug c = true \/ cf_dbg c = DbgAuto) /\ cf_amo_direct c = true \/
     cf_nodebug c = false /\ cf_dbg c = DbgDirect).
(** A progress thread runs. *)
Definition has_thread (c : cfg) : Prop :=
  cf_async c = AYes \/ cf_async c = ARuntime /\ cf_env_async c = true.
