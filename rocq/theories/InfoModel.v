(** Hints of windows and memory of spaces: the MPI_Info each window is created with (setup_impl.c:40-115, 118-140, 222-275,
    space_impl.c:17-24, 70-87, 276-331) and the allocator each space's memory comes from and goes back to (space_impl.c:89-149, 166-249). *)
From Coq Require Import String.
From Verif Require Import Base EnvModel.
Open Scope string_scope.
Open Scope Z_scope.

(** MPI_Info: MPI_Info_create gives an empty one, MPI_Info_set adds a key or replaces its value. *)
Definition info : Type := string -> option string.
Definition info_create : info := fun _ => None.
Definition info_set (i : info) (key value : string) : info := fun k => if String.eqb k key then Some value else i k.

(** The names of setup_impl.c:57-86 *)
Definition op_text (o : mpi_op) : string :=
  match o with
  | OCas => "cswap" | OSum => "sum" | ONoOp => "no_op" | OReplace => "replace" | OBand => "band" | OBor => "bor" | OBxor => "bxor"
  end.
(** One snprintf at [c] with [maxlen - c] bytes left (setup_impl.c:57-86): what does not fit is cut off while [c] counts all of it, so
    that the next one writes out of bounds: UB. *)
Fixpoint op_list (maxlen : Z) (l : list mpi_op) (buf : string) : outcome string :=
  match l with
  | [] => Ok buf
  | o :: r =>
      let buf' := buf ++ (if (0 <? String.length buf)%nat then "," else "") ++ op_text o in
      if Z.of_nat (String.length buf') <? maxlen then op_list maxlen r buf' else UB
  end.
Definition acc_text (h : acc_hint) : string := match h with HSameOp => "same_op" | HSameOpNoOp => "same_op_no_op" end.

(** OSHMPI_set_mpi_info_args (setup_impl.c:40-115); [maxlen] is MPI_MAX_INFO_VAL. Which operations and which value of accumulate_ops:
    EnvModel. *)
Definition set_args (checks : bool) (maxlen ops : Z) (i : info) : outcome info :=
  let h := set_mpi_info_args ops in
  do _ <- c_assert checks (Z.of_nat (String.length "cswap,sum,band,bor,bxor,no_op,replace") + 1 <=? maxlen);
  do buf <- op_list maxlen (h_which h) "";
  let text := if (String.length buf =? 0)%nat then "none" else buf in
  let i := info_set i "which_accumulate_ops" text in
  let i := info_set i "accumulate_ops" (acc_text (h_acc h)) in
  let i := info_set i "disable_shm_accumulate" "true" in
  Ok (info_set i "accumulate_ordering" "none").

(** space_set_mpi_info_args (space_impl.c:70-87); the bits of shmemx.h.in:26-29 *)
Definition LAT_PREFERRED : Z := 1.
Definition MR_PREFERRED : Z := 2.
Definition has (hints bit : Z) : bool := negb (Z.land hints bit =? 0).
Definition space_args (hints : Z) (i : info) : info :=
  let text := if has hints MR_PREFERRED then "mr" else if has hints LAT_PREFERRED then "lat" else "" in
  if (0 <? String.length text)%nat then info_set i "perf_preference" text else i.

(** Windows: the dynamic one; of symmetric data and heap; the default one of a space and those of its contexts. *)
Inductive win : Type := WSymm | WData | WHeap | WDefault (id : Z) | WCtx (id : Z) (k : nat).

(** Allocators, and the features of the build: --enable-cuda, --enable-ze *)
Inductive alloc : Type := AMalloc | ACuda | AZe.
Record build : Type := mkBuild { b_dyn : bool; b_cuda : bool; b_ze : bool; b_checks : bool; b_maxlen : Z; b_ops : Z }.

(** shmemx_memkind_t (shmemx.h.in:20-24), an int *)
Definition MEM_HOST : Z := 0.
Definition MEM_CUDA : Z := 1.
Definition MEM_ZE : Z := 2.

(** OSHMPI_space_t: config.memkind, config.num_contexts, config.hints, the memory kind and base of sobj_attr, and the length of ctx_list
    unless it is NULL. *)
Record space : Type := mkSp { sp_kind : Z; sp_nctx : nat; sp_hints : Z; sp_attr_kind : Z; sp_base : Z; sp_ctx : option nat }.
(** Blocks the allocators have given out, spaces by number, windows with the info they were created with. *)
Record st : Type := mkSt { s_live : list (alloc * Z); s_spaces : list (Z * space); s_wins : list (win * info) }.

Definition lookup (l : list (Z * space)) (id : Z) : option space := option_map snd (find (fun e => fst e =? id) l).
Definition remove (l : list (Z * space)) (id : Z) : list (Z * space) := filter (fun e => negb (fst e =? id)) l.
Definition alloc_eqb (a b : alloc) : bool := match a, b with AMalloc, AMalloc | ACuda, ACuda | AZe, AZe => true | _, _ => false end.
Definition is_block (a : alloc) (base : Z) (e : alloc * Z) : bool := alloc_eqb (fst e) a && (snd e =? base).

(** space_cuda_malloc, space_ze_malloc (space_impl.c:89-149) and OSHMPIU_malloc: abort when the kind is not built. *)
Definition take (b : build) (a : alloc) (base : Z) (s : st) : outcome st :=
  let ok := match a with AMalloc => true | ACuda => b_cuda b | AZe => b_ze b end in
  if ok then Ok (mkSt ((a, base) :: s_live s) (s_spaces s) (s_wins s)) else Abort.
(** space_cuda_free, space_ze_free, OSHMPIU_free: undefined for what the allocator has not given out. *)
Definition give (b : build) (a : alloc) (base : Z) (s : st) : outcome st :=
  let ok := match a with AMalloc => true | ACuda => b_cuda b | AZe => b_ze b end in
  if negb ok then Abort
  else if existsb (is_block a base) (s_live s) then Ok (mkSt (filter (fun e => negb (is_block a base e)) (s_live s)) (s_spaces s) (s_wins s))
  else UB.

(** OSHMPI_space_create (space_impl.c:166-222): [base] is what the allocator returns. *)
Definition create (b : build) (id kind : Z) (nctx : nat) (hints base : Z) (s : st) : outcome st :=
  let '(a, k) := if kind =? MEM_CUDA then (ACuda, kind) else if kind =? MEM_ZE then (AZe, kind) else (AMalloc, MEM_HOST) in
  do s1 <- take b a base s;
  do _ <- c_assert (b_checks b) (negb (base =? 0));
  Ok (mkSt (s_live s1) (s_spaces s1 ++ [(id, mkSp k nctx hints k base None)])%list (s_wins s1)).
(** OSHMPI_space_destroy (space_impl.c:225-249) *)
Definition destroy (b : build) (id : Z) (s : st) : outcome st :=
  match lookup (s_spaces s) id with
  | None => UB
  | Some x =>
      let s1 := mkSt (s_live s) (remove (s_spaces s) id) (s_wins s) in
      give b (if sp_kind x =? MEM_CUDA then ACuda else if sp_kind x =? MEM_ZE then AZe else AMalloc) (sp_base x) s1
  end.

(** space_ictx_create (space_impl.c:17-24) *)
Definition ictx_create (w : win) (i : info) (s : st) : st := mkSt (s_live s) (s_spaces s) (s_wins s ++ [(w, i)])%list.
Fixpoint ctx_wins (id : Z) (n k : nat) (i : info) (s : st) : st :=
  match n with O => s | S n' => ctx_wins id n' (S k) i (ictx_create (WCtx id k) i s) end.
Definition set_space (id : Z) (x : space) (l : list (Z * space)) : list (Z * space) :=
  map (fun e => if fst e =? id then (id, x) else e) l.
Definition with_ctx (x : space) (c : option nat) : space := mkSp (sp_kind x) (sp_nctx x) (sp_hints x) (sp_attr_kind x) (sp_base x) c.
(** OSHMPI_space_attach (space_impl.c:276-331) *)
Definition attach (b : build) (id : Z) (s : st) : outcome st :=
  match lookup (s_spaces s) id with
  | None => UB
  | Some x =>
      do _ <- c_assert (b_checks b) (match sp_ctx x with None => true | Some _ => false end);
      do i <- set_args (b_checks b) (b_maxlen b) (b_ops b) info_create;
      let i := space_args (sp_hints x) i in
      let s1 := if b_dyn b then s else ictx_create (WDefault id) i s in
      let s2 := ctx_wins id (sp_nctx x) 0 i s1 in
      Ok (if (0 <? sp_nctx x)%nat then mkSt (s_live s2) (set_space id (with_ctx x (Some (sp_nctx x))) (s_spaces s2)) (s_wins s2) else s2)
  end.
(** OSHMPI_space_detach (space_impl.c:334-359): the windows of the space go. Contexts in use are a precondition (assertion of line 351). *)
Definition of_space (id : Z) (w : win) : bool := match w with WDefault j | WCtx j _ => j =? id | _ => false end.
Definition detach (b : build) (id : Z) (s : st) : outcome st :=
  match lookup (s_spaces s) id with
  | None => UB
  | Some x =>
      do _ <- c_assert (b_checks b) ((sp_nctx x =? 0)%nat || match sp_ctx x with None => false | Some _ => true end);
      Ok (mkSt (s_live s) (set_space id (with_ctx x None) (s_spaces s)) (filter (fun e => negb (of_space id (fst e))) (s_wins s)))
  end.

(** Initialisation: the dynamic window (setup_impl.c:118-140), or symmetric data (224-233) and heap (258-266). *)
Definition init (b : build) : outcome st :=
  if b_dyn b then
    do i <- set_args (b_checks b) (b_maxlen b) (b_ops b) info_create;
    Ok (mkSt [] [] [(WSymm, info_set i "coll_attach" "true")])
  else
    do i <- set_args (b_checks b) (b_maxlen b) (b_ops b) info_create;
    do j <- set_args (b_checks b) (b_maxlen b) (b_ops b) (info_set info_create "alloc_shm" "true");
    Ok (mkSt [] [] [(WData, i); (WHeap, j)]).

Inductive op : Type := Create (id kind : Z) (nctx : nat) (hints base : Z) | Destroy (id : Z) | Attach (id : Z) | Detach (id : Z).
Definition step (b : build) (o : op) (s : st) : outcome st :=
  match o with
  | Create id k n h a => create b id k n h a s
  | Destroy id => destroy b id s
  | Attach id => attach b id s
  | Detach id => detach b id s
  end.
Fixpoint run (b : build) (l : list op) (s : st) : outcome st :=
  match l with [] => Ok s | o :: r => do s' <- step b o s; run b r s' end.

(** The window of an access to a space: through the default context (include/oshmpi_impl.h, SobjModel) or its [k]-th context. *)
Definition default_win (b : build) (id : Z) : win := if b_dyn b then WSymm else WDefault id.

(** space_memkind_str and space_hints_str (space_impl.c:38-67): what the debug message of OSHMPI_space_create shows (space_impl.c:212-219).
    Text that does not fit in [maxlen] bytes is UB here. *)
Definition memkind_str (kind : Z) : string := if kind =? MEM_CUDA then "cuda" else if kind =? MEM_ZE then "ze" else "host".
Definition put_text (maxlen : Z) (buf more : string) : outcome string :=
  let t := buf ++ more in if Z.of_nat (String.length t) <? maxlen then Ok t else UB.
Definition hints_str (checks : bool) (maxlen hints : Z) : outcome string :=
  do buf <- (if has hints LAT_PREFERRED then put_text maxlen "" "lat" else Ok "");
  if has hints MR_PREFERRED then
    do _ <- c_assert checks (Z.of_nat (String.length buf) <? 64);
    put_text maxlen buf ((if (0 <? String.length buf)%nat then "," else "") ++ "mr")
  else Ok buf.
