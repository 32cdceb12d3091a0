(** Environment options and setup: the lists OSHMPI_AMO_OPS and OSHMPI_MPI_GPU_FEATURES, the
    window hints derived from them, the size option, and the negotiation of the thread level.
    C strings are lists of bytes without the terminating NUL. *)
From Coq Require Import Ascii String.
From Verif Require Import Base AmCfgModel.
Open Scope Z_scope.
Open Scope list_scope.

Definition bytes (s : string) : list Z :=
  map (fun c => Z.of_N (N_of_ascii c)) (list_ascii_of_string s).
Definition comma : Z := 44.

(** !strncmp(s, p, strlen(p)). *)
Fixpoint prefixb (p s : list Z) : bool :=
  match p, s with
  | [], _ => true
  | _ :: _, [] => false
  | a :: p, b :: s => (a =? b) && prefixb p s
  end.

(** strtok_r with the delimiter ",": skip delimiters, then cut at the next one. *)
Fixpoint skip_delim (s : list Z) : list Z :=
  match s with
  | [] => []
  | c :: t => if c =? comma then skip_delim t else s
  end.
Fixpoint span_tok (s : list Z) : list Z * list Z :=
  match s with
  | [] => ([], [])
  | c :: t => if c =? comma then ([], t)
              else let '(a, b) := span_tok t in (c :: a, b)
  end.
Definition strtok (s : list Z) : option (list Z * list Z) :=
  match skip_delim s with [] => None | s' => Some (span_tok s') end.

(** One token (src/internal/setup_impl.c:318-345, 440-447): the first name of the else-if chain
    that is a prefix of the token sets its bit. *)
Fixpoint add_token (table : list (list Z * Z)) (tok : list Z) (mask : Z) : Z :=
  match table with
  | [] => mask
  | (name, bit) :: rest =>
      if prefixb name tok then Z.lor mask (2 ^ bit) else add_token rest tok mask
  end.
(** The loop over tokens (315-348, 438-449). *)
Fixpoint parse_loop (fuel : nat) (table : list (list Z * Z)) (s : list Z) (mask : Z)
  : outcome Z :=
  match fuel with
  | O => NoFuel
  | S f => match strtok s with
           | None => Ok mask
           | Some (tok, rest) => parse_loop f table rest (add_token table tok mask)
           end
  end.
(** set_env_amo_ops (294-354) and set_env_mpi_gpu_features (419-454): the two special values are
    tested as prefixes of the whole string; [old] is the value of the variable before the call,
    kept when no name is found. *)
Definition set_env (all : list Z) (all_mask : Z) (table : list (list Z * Z))
    (s : list Z) (old : Z) : outcome Z :=
  if prefixb (bytes "none") s then Ok 0
  else if prefixb all s then Ok all_mask
  else do m <- parse_loop (S (length s)) table s 0;
       Ok (if m =? 0 then old else m).
(** initialize_env (644-656): the value of the environment variable, [None] when it is not set;
    an empty value counts as not set. The variable is 0 before. *)
Definition init_env (all : list Z) (all_mask : Z) (table : list (list Z * Z))
    (v : option (list Z)) : outcome Z :=
  match v with
  | Some (c :: s) => set_env all all_mask table (c :: s) 0
  | _ => set_env all all_mask table all 0
  end.
(** What getenv returns after the call: strtok_r overwrites the delimiter behind every token
    with a NUL, so the string ends with its first token. *)
Fixpoint cut_first (s : list Z) : list Z :=
  match s with
  | [] => []
  | c :: t => if c =? comma then c :: cut_first t else c :: fst (span_tok t)
  end.
Definition env_after (all : list Z) (s : list Z) : list Z :=
  if prefixb (bytes "none") s then s
  else if prefixb all s then s
  else cut_first s.

(** The enums OSHMPI_amo_op_shift_t (src/include/oshmpi_impl.h:226-242) and
    OSHMPI_mpi_gpu_feature_shift_t (244-249) with the names of the options. *)
Definition amo_table : list (list Z * Z) :=
  [(bytes "cswap", 0); (bytes "finc", 1); (bytes "inc", 2); (bytes "fadd", 3);
   (bytes "add", 4); (bytes "fetch", 5); (bytes "set", 6); (bytes "swap", 7);
   (bytes "fand", 8); (bytes "and", 9); (bytes "for", 10); (bytes "or", 11);
   (bytes "fxor", 12); (bytes "xor", 13)].
Definition amo_last : Z := 14.
Definition gpu_table : list (list Z * Z) :=
  [(bytes "pt2pt", 0); (bytes "put", 1); (bytes "get", 2); (bytes "acc", 3)].

(** The loop over all operations (307-311). *)
Fixpoint all_ops (n : nat) (shift mask : Z) : Z :=
  match n with
  | O => mask
  | S n => if shift <? amo_last then all_ops n (shift + 1) (Z.lor mask (2 ^ shift)) else mask
  end.
Definition init_amo_ops (v : option (list Z)) : outcome Z :=
  init_env (bytes "any_op") (all_ops 14 0 0) amo_table v.
Definition init_gpu_features (v : option (list Z)) : outcome Z :=
  init_env (bytes "all") (Z.lor (2 ^ 0) (Z.lor (2 ^ 1) (Z.lor (2 ^ 2) (2 ^ 3)))) gpu_table v.

(** getstr_env_amo_ops (src/internal/setup_impl.c:356-394), getstr_env_mpi_gpu_features (src/internal/setup_impl.c:456-475): names of the set bits in
    table order, separated by commas, "none" when there is none. A text that does not fit in
    [maxlen] bytes with its NUL is reported as UB (snprintf would return the untruncated length
    and [maxlen - c] wrap around). *)
Fixpoint getstr_loop (maxlen : Z) (table : list (list Z * Z)) (val : Z) (buf : list Z)
  : outcome (list Z) :=
  match table with
  | [] => Ok buf
  | (name, bit) :: rest =>
      if Z.testbit val bit then
        let buf' := buf ++ (if 0 <? Z.of_nat (length buf) then [comma] else []) ++ name in
        if Z.of_nat (length buf') <? maxlen then getstr_loop maxlen rest val buf' else UB
      else getstr_loop maxlen rest val buf
  end.
Definition getstr (maxlen : Z) (table : list (list Z * Z)) (val : Z) : outcome (list Z) :=
  do buf <- getstr_loop maxlen table val [];
  Ok (match buf with [] => bytes "none" | _ => buf end).
(** print_env (src/internal/setup_impl.c:492-493, 571-572): buffers of 256 bytes; the assertion (360-361, 460). *)
Definition getstr_amo (checks : bool) (val : Z) : outcome (list Z) :=
  do _ <- c_assert checks
    (Z.of_nat (length (bytes "cswap,finc,inc,fadd,add,fetch,set,swap,fadd,and,for,or,fxor,xor"))
     + 1 <=? 256);
  getstr 256 amo_table val.
Definition getstr_gpu (checks : bool) (val : Z) : outcome (list Z) :=
  do _ <- c_assert checks (Z.of_nat (length (bytes "pt2pt,put,get,acc")) + 1 <=? 256);
  getstr 256 gpu_table val.

(** ** Window hints *)

(** Operations of MPI accumulates. *)
Inductive mpi_op := OCas | OSum | ONoOp | OReplace | OBand | OBor | OBxor.
Inductive acc_hint := HSameOp | HSameOpNoOp.
Record hints := { h_which : list mpi_op; h_acc : acc_hint; h_direct : bool }.

(** OSHMPI_set_mpi_info_args (39-112): the values set for "which_accumulate_ops" and
    "accumulate_ops", and OSHMPI_global.amo_direct. Line 60 tests [OSHMPI_env.amo_ops] instead of
    its INC bit. *)
Definition set_mpi_info_args (ops : Z) : hints :=
  let b i := Z.testbit ops i in
  let which :=
    (if b 0 then [OCas] else []) ++
    (if b 1 || negb (ops =? 0) || b 3 || b 4 then [OSum] else []) ++
    (if b 5 then [ONoOp] else []) ++
    (if b 6 || b 7 then [OReplace] else []) ++
    (if b 8 || b 9 then [OBand] else []) ++
    (if b 10 || b 11 then [OBor] else []) ++
    (if b 12 || b 13 then [OBxor] else []) in
  let nops := Z.of_nat (length which) in
  if nops =? 1 then {| h_which := which; h_acc := HSameOp; h_direct := true |}
  else if (nops =? 2) && b 5 then {| h_which := which; h_acc := HSameOpNoOp; h_direct := true |}
  else {| h_which := which; h_acc := HSameOpNoOp; h_direct := false |}.

(** The MPI operation an atomic routine passes when it is mapped directly on MPI
    (src/shmem/amo_std_typed.c.tpl, amo_ext_typed.c.tpl, amo_bitws_typed.c.tpl with
    src/internal/amo_impl.h:23-27, 45-49, 66-68), by bit of the option. *)
Definition direct_op (bit : Z) : mpi_op :=
  match bit with
  | 0 => OCas
  | 1 | 2 | 3 | 4 => OSum
  | 5 => ONoOp
  | 6 | 7 => OReplace
  | 8 | 9 => OBand
  | 10 | 11 => OBor
  | _ => OBxor
  end.
(** The operations of the lock (src/internal/lock_impl.h:56, 64, 71, 107, 116, 131, 158) and of
    wait_until and test (src/internal/p2p_impl.h:48, 73): always MPI, whatever the options. *)
Definition lock_ops : list mpi_op := [OReplace; OReplace; ONoOp; OCas; ONoOp; OReplace; OCas].
Definition wait_op : mpi_op := ONoOp.

(** OSHMPI_check_gpu_direct_rma (oshmpi_impl.h:753-787): [gpu] is whether the symmetric object or
    the local buffer is on a device; the result is whether the transfer is mapped on MPI RMA. *)
Inductive rma_kind := KPut | KGet.
Definition check_gpu_direct_rma (features : Z) (gpu : bool) (rma : rma_kind) : outcome bool :=
  if negb gpu then Ok true
  else let direct := match rma with KPut => Z.testbit features 1 | KGet => Z.testbit features 2 end in
       if negb direct && negb (Z.testbit features 0) then Abort else Ok direct.

(** ** Sizes *)

(** Round to nearest, ties to even, of [n / d] with [n >= 0] and [d > 0]. *)
Definition round_ne (n d : Z) : Z :=
  let q := n / d in let r := n mod d in
  if 2 * r <? d then q else if d <? 2 * r then q + 1 else if Z.even q then q else q + 1.
(** The single-precision number nearest to [a / b], as [(m, e)] for [m * 2^e]. *)
Definition to_float (a b : Z) : Z * Z :=
  if a =? 0 then (0, 0)
  else
    let e0 := Z.log2 a - Z.log2 b in
    let ge := if 0 <=? e0 then b * 2 ^ e0 <=? a else b <=? a * 2 ^ (- e0) in
    let e := Z.max (if ge then e0 - 23 else e0 - 24) (-149) in
    (if 0 <=? e then round_ne a (b * 2 ^ e) else round_ne (a * 2 ^ (- e)) b, e).

Definition is_digit (c : Z) : bool := (48 <=? c) && (c <=? 57).
Fixpoint take_digits (s : list Z) : list Z * list Z :=
  match s with
  | [] => ([], [])
  | c :: t => if is_digit c then let '(a, b) := take_digits t in (c :: a, b) else ([], s)
  end.
Definition digits_val (ds : list Z) : Z := fold_left (fun v d => 10 * v + (d - 48)) ds 0.

(** strtof on a decimal numeral without sign and exponent: the float and the rest of the string.
    Anything else strtof accepts (blanks, sign, exponent, hexadecimal, inf, nan) is outside the
    model and reported as NoFuel. *)
Definition strtof (s : list Z) : outcome (Z * Z * list Z) :=
  let '(ip, r1) := take_digits s in
  let '(fp, r2) := match r1 with
                   | 46 :: t => take_digits t
                   | _ => ([], r1)
                   end in
  match ip, r2 with
  | [], _ => NoFuel
  | _, 69 :: _ | _, 101 :: _ | _, 88 :: _ | _, 120 :: _ => NoFuel
  | _, _ => let '(m, e) := to_float (digits_val (ip ++ fp)) (10 ^ Z.of_nat (length fp)) in
            Ok (m, e, r2)
  end.
(** Conversion of [m * 2^e] to uint64_t, towards zero, and of its ceiling; UB out of range. *)
Definition to_u64 (z : Z) : outcome Z := if z <? 2 ^ 64 then Ok z else UB.
Definition ftrunc (m e : Z) : Z := if 0 <=? e then m * 2 ^ e else m / 2 ^ (- e).
Definition fceil (m e : Z) : Z := if 0 <=? e then m * 2 ^ e else - (- m / 2 ^ (- e)).
(** OSHMPIU_str_to_size (src/include/oshmpi_util.h:145-168). The products by powers of two are
    exact in double. *)
Definition suffix_exp (c : Z) : Z :=
  if (c =? 75) || (c =? 107) then 10
  else if (c =? 77) || (c =? 109) then 20
  else if (c =? 71) || (c =? 103) then 30
  else if (c =? 84) || (c =? 116) then 40
  else 0.
Definition str_to_size (s : list Z) : outcome Z :=
  do (m, e, rest) <- strtof s;
  match rest with
  | [] => to_u64 (ftrunc m e)
  | c :: _ => to_u64 (fceil m (e + suffix_exp c))
  end.
(** initialize_env (602-608): SHMEM_SYMMETRIC_SIZE; the default is 1 << 27
    (src/include/oshmpi_impl.h:24). *)
Definition default_heap : Z := 2 ^ 27.
Definition init_heap_size (v : option (list Z)) : outcome Z :=
  do sz <- match v with
           | Some (c :: s) => do u <- str_to_size (c :: s); Ok (to_long u)
           | _ => Ok default_heap
           end;
  if sz <? 0 then Abort else Ok sz.

(** ** Thread level *)

(** SHMEM_THREAD_* equal MPI_THREAD_* (include/shmem.h.in.tpl:81-84): 0 single, 1 funneled,
    2 serialized, 3 multiple, in this order. *)
Definition t_single : Z := 0.
Definition t_multiple : Z := 3.
Inductive build_level := BSingle | BFunneled | BSerialized | BMultiple.
(** The rest of the environment: whether MPI is already initialised and with which level, else
    the level MPI_Init_thread gives for a required one. *)
Record mpi_env := { mpi_already : option Z; mpi_init_thread : Z -> Z }.
Record setup := {
  s_build : build_level;
  s_cfg : cfg;                  (* as in AmCfgModel; cf_amo_direct is ignored: still 0 here *)
  s_env_async : option Z        (* atoi of OSHMPI_ENABLE_ASYNC_THREAD, if set and not empty *)
}.

(** initialize_env (671-688): OSHMPI_env.enable_async_thread. OSHMPI_global.amo_direct is set
    later (817-827, when the windows are created), hence 0 at this point. *)
Definition enable_async_thread (s : setup) : bool :=
  let c := s_cfg s in
  let c0 := {| cf_amo := cf_amo c; cf_rma := cf_rma c; cf_async := cf_async c;
               cf_nodebug := cf_nodebug c; cf_dbg := cf_dbg c; cf_amo_direct := false;
               cf_env_async := false |} in
  match cf_async c with
  | AYes => true
  | ANo => false
  | ARuntime =>
      let dflt := negb (direct_amo c0) || negb (direct_rma_config c0) in
      match s_env_async s with Some v => negb (v =? 0) | None => dflt end
  end.

(** OSHMPI_initialize_thread (734-793), from the test of the level to the stored level. *)
Definition degrade (b : build_level) (required : Z) : Z :=
  match b with
  | BSingle => if t_single <? required then t_single else required
  | BFunneled => if 1 <? required then 1 else required
  | BSerialized => if 2 <? required then 2 else required
  | BMultiple => required
  end.
Definition initialize_thread (s : setup) (w : mpi_env) (required : Z) : outcome Z :=
  if negb ((required =? 0) || (required =? 1) || (required =? 2) || (required =? 3)) then Abort
  else
    let required := if enable_async_thread s then t_multiple else required in
    let shm := degrade (s_build s) required in
    let mpi := match mpi_already w with Some l => l | None => mpi_init_thread w shm end in
    let shm := if mpi <? shm then mpi else shm in
    if enable_async_thread s && (shm <? t_multiple) then Abort else Ok shm.
(** shmem_init_thread (src/shmem/setup.c:45-61): the state is the stored level, [None] before
    initialisation; result: stored level, *provided, return value. *)
Definition SHMEM_SUCCESS : Z := 0.
Definition SHMEM_OTHER_ERR : Z := -2.
Definition shmem_init_thread (s : setup) (w : mpi_env) (level : option Z) (requested : Z)
  : outcome (Z * Z * Z) :=
  do l <- match level with Some l => Ok l | None => initialize_thread s w requested end;
  Ok (l, l, if requested <=? l then SHMEM_SUCCESS else SHMEM_OTHER_ERR).
