(** What the options are documented to mean. *)
From Coq Require Import String.
From Verif Require Import Base AmCfgModel EnvModel.
Open Scope Z_scope.
Open Scope list_scope.

(** The atomic operations a user can name, and the GPU features. *)
Inductive amo := Acswap | Afinc | Ainc | Afadd | Aadd | Afetch | Aset | Aswap
               | Afand | Aand | Afor | Aor | Afxor | Axor.
Definition amo_name (o : amo) : string :=
  match o with
  | Acswap => "cswap" | Afinc => "finc" | Ainc => "inc" | Afadd => "fadd" | Aadd => "add"
  | Afetch => "fetch" | Aset => "set" | Aswap => "swap" | Afand => "fand" | Aand => "and"
  | Afor => "for" | Aor => "or" | Afxor => "fxor" | Axor => "xor"
  end.
Definition amo_bit (o : amo) : Z :=
  match o with
  | Acswap => 0 | Afinc => 1 | Ainc => 2 | Afadd => 3 | Aadd => 4 | Afetch => 5 | Aset => 6
  | Aswap => 7 | Afand => 8 | Aand => 9 | Afor => 10 | Aor => 11 | Afxor => 12 | Axor => 13
  end.
Inductive gpuf := Gpt2pt | Gput | Gget | Gacc.
Definition gpu_name (o : gpuf) : string :=
  match o with Gpt2pt => "pt2pt" | Gput => "put" | Gget => "get" | Gacc => "acc" end.
Definition gpu_bit (o : gpuf) : Z :=
  match o with Gpt2pt => 0 | Gput => 1 | Gget => 2 | Gacc => 3 end.

(** A comma separated list. *)
Fixpoint commas (l : list (list Z)) : list Z :=
  match l with
  | [] => []
  | [x] => x
  | x :: t => x ++ 44 :: commas t
  end.
Definition starts (p s : list Z) : Prop := exists r, s = p ++ r.
(** [tok] is one of the fields between the commas of [s]. *)
Definition field (s tok : list Z) : Prop :=
  exists pre post, s = pre ++ tok ++ post /\ ~ In 44 tok /\ tok <> [] /\
    (pre = [] \/ exists p, pre = p ++ [44]) /\ (post = [] \/ exists q, post = 44 :: q).

(** The set [m] of operations, as a bit mask of [n] bits. *)
Definition is_mask (n m : Z) : Prop := 0 <= m < 2 ^ n.

(** What MPI promises under a value of "accumulate_ops": concurrent accumulates to one address
    are atomic if they all use one operation, or that and MPI_NO_OP. *)
Definition atomic_under (h : acc_hint) (l : list mpi_op) : Prop :=
  exists op, forall o, In o l -> o = op \/ (h = HSameOpNoOp /\ o = ONoOp).

(** A decimal number: digits, each a character code. *)
Definition decimal (ds : list Z) : Prop := ds <> [] /\ Forall (fun c => 48 <= c <= 57) ds.
Fixpoint dec_val (ds : list Z) : Z :=
  match ds with
  | [] => 0
  | d :: t => (d - 48) * 10 ^ Z.of_nat (length t) + dec_val t
  end.
(** The suffix and its power of 1024. Only the first character after the number counts; one that is
    no unit and does not continue the number stands for bytes. *)
Definition unit_char (c k : Z) : Prop :=
  In ([c], k) [(bytes "K", 1); (bytes "k", 1); (bytes "M", 2); (bytes "m", 2);
               (bytes "G", 3); (bytes "g", 3); (bytes "T", 4); (bytes "t", 4)] \/
  ~ In [c] (map (fun s => bytes s) ["K"; "k"; "M"; "m"; "G"; "g"; "T"; "t";
                                    "."; "e"; "E"; "x"; "X"]%string) /\
    (c < 48 \/ 57 < c) /\ k = 0.
Inductive size_suffix : list Z -> Z -> Prop :=
| SufNone : size_suffix [] 0
| SufUnit : forall c t k, unit_char c k -> size_suffix (c :: t) k.

(** Thread levels. *)
Definition level (l : Z) : Prop := 0 <= l <= 3.
Definition build_max (b : build_level) : Z :=
  match b with BSingle => 0 | BFunneled => 1 | BSerialized => 2 | BMultiple => 3 end.
(** What MPI gives the process, whichever way it was initialised. *)
Definition mpi_level (w : mpi_env) (requested : Z) : Z :=
  match mpi_already w with Some l => l | None => mpi_init_thread w requested end.

(** configure (configure.ac:464-483) accepts a progress thread only for thread level multiple. *)
Definition configured (s : setup) : Prop :=
  cf_async (s_cfg s) <> ANo -> s_build s = BMultiple.
(** The configuration once the windows are created with the hints for the declared operations. *)
Definition final_cfg (s : setup) (ops : Z) : cfg :=
  {| cf_amo := cf_amo (s_cfg s); cf_rma := cf_rma (s_cfg s); cf_async := cf_async (s_cfg s);
     cf_nodebug := cf_nodebug (s_cfg s); cf_dbg := cf_dbg (s_cfg s);
     cf_amo_direct := h_direct (set_mpi_info_args ops); cf_env_async := enable_async_thread s |}.
