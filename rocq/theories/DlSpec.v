(** What a program may rely on for the place that mspace_malloc gives it, in terms of the free
    blocks of the heap. *)
From Verif Require Import Base SobjModel HeapModel HeapSpec DlModel.

(** The free blocks of the heap, with their lengths; top is not one of them. *)
Fixpoint free_at (o : Z) (l : list chunk) : list (Z * Z) :=
  match l with
  | [] => []
  | c :: r => (if is_free c then [(o, c_sz c)] else []) ++ free_at (o + c_sz c) r
  end.
Definition free_blocks (h : heap) : list (Z * Z) := free_at MSIZE (h_ch h).

(** The block at [o] is free, large enough for [nb] bytes, and no smaller one is. *)
Definition best_fit (h : heap) (nb o fs : Z) : Prop :=
  In (o, fs) (free_blocks h) /\ nb <= fs /\
  forall o' s', In (o', s') (free_blocks h) -> nb <= s' -> fs <= s'.

(** No free block, and not top either, can hold [nb] bytes. *)
Definition full (h : heap) (nb : Z) : Prop :=
  (forall o s, In (o, s) (free_blocks h) -> s < nb) /\
  (forall t, h_top h = Some t -> t <= nb).

(** How much of a free block of [fs] bytes is handed out. *)
Definition handed (nb fs : Z) : Z := if MIN_CHUNK <=? fs - nb then nb else fs.

(** Where a request is served. A small one may also be cut from the block that was split last
    (the "designated victim") when no block has just the right size. *)
Definition placed (d : dl) (bytes : Z) (r : mres) : Prop :=
  let nb := request2size bytes in
  match r with
  | MHeap o s =>
      (exists fs, In (o, fs) (free_blocks (d_h d)) /\ s = handed nb fs /\
         (best_fit (d_h d) nb o fs \/
          bytes <= MAX_SMALL_REQUEST /\ o = dv (d_b d) /\ nb <= fs /\
          forall o' s', In (o', s') (free_blocks (d_h d)) -> s' <> nb)) \/
      (o = MSIZE + total (h_ch (d_h d)) /\ s = nb /\
       forall o' s', In (o', s') (free_blocks (d_h d)) -> s' < nb)
  | _ => MAX_REQUEST <= bytes \/ full (d_h d) nb
  end.

(** Start of a PE and a history of calls, the system answering each request for more memory by
    nothing or by a mapping of its own. *)
Definition dreaches (env page b : Z) (ops : list (hop * (pick * Z))) (st : dst) : Prop :=
  exists mem st0,
    setting env page b /\ Forall (fun x => sane (fst x)) ops /\
    dstart env page mem = Ok st0 /\ drun b (heap_size env page) st0 ops = Ok st.

(** The state without the bins. *)
Definition plain (st : dst) : hst := Hst (d_h (t_dl st)) (t_mem st) (t_tbl st) (t_leak st).

(** The same calls, and the system gives memory to both or to none. *)
Definition alike (ops1 ops2 : list (hop * (pick * Z))) : Prop :=
  map fst ops1 = map fst ops2 /\
  map (fun x => fst (snd x)) ops1 = map (fun x => fst (snd x)) ops2.

(** The chunks that the bins lead to: the designated victim, the marked small bins, whose
    chunks all have the size of the bin, and the marked trees. *)
Fixpoint in_tree (t : tree) : list (Z * Z) :=
  match t with
  | Leaf => []
  | Node o s ring l r => (o, s) :: map (fun x => (x, s)) ring ++ in_tree l ++ in_tree r
  end.
Definition rows : list Z := map Z.of_nat (seq 0 32).
Definition binned (b : bins) : list (Z * Z) :=
  (if dv b =? 0 then [] else [(dv b, dvs b)]) ++
  flat_map (fun i => if Z.testbit (smap b) i then map (fun o => (o, 8 * i)) (sb b i) else []) rows ++
  flat_map (fun i => if Z.testbit (tmap b) i then in_tree (tb b i) else []) rows.
