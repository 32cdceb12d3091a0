(** Specification of symmetric objects, independent of handles, windows, displacements and
    caches: an object has a base address on each PE, and a put/get of symmetric address
    "offset d of object o" touches offset d of object o on the target. *)
From Verif Require Import Base SobjModel.

(** A symmetric object of the program: the heap, the data segment, or the space the program
    calls [name]. *)
Inductive obj : Type := OHeap | OData | OSpace (name : Z).

(** A space of one PE: its heap [ss_base, ss_base+ss_size) and number of contexts. *)
Record sspace : Type := mkSS { ss_name : Z; ss_base : Z; ss_size : Z; ss_nctx : Z }.

(** Abstract state: per-PE bases, per-PE spaces, the attached spaces (with the ordinal of
    their attach call), and every PE's memory. *)
Record sst : Type := mkS {
  s_n : Z;
  s_heap : Z -> Z; s_hsize : Z; s_htrue : Z;
  s_data : Z -> Z; s_dsize : Z;
  s_sp : Z -> list sspace;
  s_att : list (Z * Z); s_cnt : Z;
  s_mem : Z -> Z -> Z }.

Definition in_pes (s : sst) (p : Z) : Prop := 0 <= p < s_n s.

(** Base and size of an object on PE [p]. *)
Definition slookup (s : sst) (p name : Z) : option sspace :=
  find (fun x => ss_name x =? name) (s_sp s p).
Definition sbase (s : sst) (p : Z) (o : obj) : option Z :=
  match o with
  | OHeap => Some (s_heap s p)
  | OData => Some (s_data s p)
  | OSpace name => option_map ss_base (slookup s p name)
  end.
Definition ssize (s : sst) (p : Z) (o : obj) : option Z :=
  match o with
  | OHeap => Some (s_hsize s)
  | OData => Some (s_dsize s)
  | OSpace name => option_map ss_size (slookup s p name)
  end.

(** Objects usable for communication: heap, data, attached spaces. *)
Definition live (s : sst) (o : obj) : Prop :=
  match o with
  | OHeap | OData => True
  | OSpace name => In name (map fst (s_att s))
  end.

(** Memory regions occupied on PE [p] by objects (the heap with its allocator book-keeping). *)
Definition regions (s : sst) (p : Z) : list (Z * Z) :=
  (s_heap s p, s_htrue s) :: (s_data s p, s_dsize s) ::
  map (fun x => (ss_base x, ss_size x)) (s_sp s p).
Definition disj (r q : Z * Z) : Prop :=
  fst r + snd r <= fst q \/ fst q + snd q <= fst r.

(** The context argument may be used for object [o]: the default context for every object, an
    explicit context only for the space it belongs to. *)
Definition ctx_ok (s : sst) (p : Z) (c : ctxarg) (o : obj) : Prop :=
  match c with
  | CtxDefault => True
  | CtxSpace name j =>
      o = OSpace name /\ exists x, slookup s p name = Some x /\ 0 <= j < ss_nctx x
  end.

(** Symmetric address [a] on PE [p] is [d] bytes into live object [o], with room for [len]. *)
Definition sym_addr (s : sst) (p : Z) (c : ctxarg) (a : Z) (o : obj) (d len : Z) : Prop :=
  live s o /\ ctx_ok s p c o /\ 0 <= d /\
  exists b z, sbase s p o = Some b /\ ssize s p o = Some z /\ a = b + d /\ d + len <= z.

(** Transfer sizes that fit MPI's int counts; active messages count bytes. *)
Definition count_ok (direct : bool) (esz nelems : Z) : Prop :=
  0 < esz /\ 0 <= nelems <= INT_MAX /\ (direct = false -> esz * nelems <= INT_MAX).

(** Memory [m] of all PEs where the [len] bytes at [a] on PE [t] are [src 0], [src 1], ... *)
Definition smem_write (m : Z -> Z -> Z) (t a len : Z) (src : Z -> Z) : Z -> Z -> Z :=
  fun q x => if (q =? t) && (a <=? x) && (x <? a + len) then src (x - a) else m q x.

Definition set_smem (s : sst) (m : Z -> Z -> Z) : sst :=
  mkS (s_n s) (s_heap s) (s_hsize s) (s_htrue s) (s_data s) (s_dsize s) (s_sp s) (s_att s)
      (s_cnt s) m.
Definition set_sp (s : sst) (p : Z) (l : list sspace) : sst :=
  mkS (s_n s) (s_heap s) (s_hsize s) (s_htrue s) (s_data s) (s_dsize s)
      (fun q => if q =? p then l else s_sp s q) (s_att s) (s_cnt s) (s_mem s).
Definition set_att (s : sst) (l : list (Z * Z)) (c : Z) : sst :=
  mkS (s_n s) (s_heap s) (s_hsize s) (s_htrue s) (s_data s) (s_dsize s) (s_sp s) l c (s_mem s).

(** One user call and its intended effect. The premises are the API's rules (spaces are attached
    once, collectively, with the same configuration; only detached spaces are destroyed) and the
    fact that memory returned by an allocator overlaps nothing. *)
Inductive sstep : sst -> wop -> sst -> Prop :=
| SCreate : forall s p name base size nctx,
    in_pes s p -> slookup s p name = None ->
    0 < base -> 0 < size -> 0 <= nctx -> base + size <= 2 ^ 62 ->
    Forall (disj (base, size)) (regions s p) ->
    sstep s (WCreate p name base size nctx)
          (set_sp s p (s_sp s p ++ [mkSS name base size nctx]))
| SDestroy : forall s p name,
    in_pes s p -> ~ In name (map fst (s_att s)) ->
    sstep s (WDestroy p name)
          (set_sp s p (filter (fun x => negb (ss_name x =? name)) (s_sp s p)))
| SAttach : forall s name size nctx,
    ~ In name (map fst (s_att s)) -> s_cnt s < 2 ^ 29 ->
    (forall p, in_pes s p -> exists b, slookup s p name = Some (mkSS name b size nctx)) ->
    sstep s (WAttach name) (set_att s ((name, s_cnt s) :: s_att s) (s_cnt s + 1))
| SDetach : forall s name,
    In name (map fst (s_att s)) ->
    sstep s (WDetach name)
          (set_att s (filter (fun e => negb (fst e =? name)) (s_att s)) (s_cnt s))
| SPut : forall s p c direct esz origin addr nelems t o d b,
    in_pes s p -> in_pes s t -> count_ok direct esz nelems ->
    sym_addr s p c addr o d (esz * nelems) -> sbase s t o = Some b ->
    sstep s (WPut p c direct esz origin addr nelems t)
          (set_smem s (smem_write (s_mem s) t (b + d) (esz * nelems)
                                  (fun k => s_mem s p (origin + k))))
| SGet : forall s p c direct esz origin addr nelems t o d b,
    in_pes s p -> in_pes s t -> count_ok direct esz nelems ->
    sym_addr s p c addr o d (esz * nelems) -> sbase s t o = Some b ->
    sstep s (WGet p c direct esz origin addr nelems t)
          (set_smem s (smem_write (s_mem s) p origin (esz * nelems)
                                  (fun k => s_mem s t (b + d + k)))).

Inductive srun : sst -> list wop -> sst -> Prop :=
| SNil : forall s, srun s [] s
| SCons : forall s o s1 r s2, sstep s o s1 -> srun s1 r s2 -> srun s (o :: r) s2.

(** Initial state: [lay] gives the heap and data base of each PE. *)
Definition s_init (page env_size dsize : Z) (lay : list (Z * Z)) (mem : Z -> Z -> Z) : sst :=
  mkS (Z.of_nat (length lay))
      (fun p => fst (nth (Z.to_nat p) lay (0, 0))) (heap_size env_size page)
      (heap_true_size env_size page)
      (fun p => snd (nth (Z.to_nat p) lay (0, 0))) dsize
      (fun _ => []) [] 0 mem.

(** Sane configuration: at least one PE, power-of-two page, sizes without overflow, and on each PE a heap and a
    data segment that do not overlap. *)
Definition config_ok (page env_size dsize : Z) (lay : list (Z * Z)) : Prop :=
  lay <> [] /\ (exists k, 0 <= k < 32 /\ page = 2 ^ k) /\ 0 < env_size <= 2 ^ 60 /\ 0 < dsize /\
  Forall (fun hd => 0 < fst hd /\ fst hd + heap_true_size env_size page <= 2 ^ 62 /\
                    0 < snd hd /\ snd hd + dsize <= 2 ^ 62 /\
                    disj (fst hd, heap_true_size env_size page) (snd hd, dsize)) lay.

(** What an observer sees: every byte of every PE. *)
Definition mem_agrees (s : sst) (w : world) : Prop :=
  Z.of_nat (length (w_pes w)) = s_n s /\
  forall p q x, aget (w_pes w) p = Some q -> pe_mem q x = s_mem s p x.

(** Byte address [a] of PE [p] lies in object [o] (attached or not). *)
Definition contains (s : sst) (p a : Z) (o : obj) : Prop :=
  exists b z, sbase s p o = Some b /\ ssize s p o = Some z /\ b <= a < b + z.

(** [s] and [w] are the specification's and the implementation's state after the history
    [ops] of valid calls, starting from library initialisation. *)
Definition reached (dyn checks : bool) (page env_size dsize : Z) (lay : list (Z * Z))
    (mem : Z -> Z -> Z) (ops : list wop) (s : sst) (w : world) : Prop :=
  config_ok page env_size dsize lay /\ srun (s_init page env_size dsize lay mem) ops s /\
  exists w0, w_init dyn env_size page dsize lay mem = Ok w0 /\ wrun checks w0 ops = Ok w.

(** The handle a PE's copy of space [name] carries. *)
Definition space_handle (q : pe) (name : Z) : option Z :=
  option_map (fun x => a_handle (sp_attr x)) (find_space q name).
