(** Specification vocabulary for allocation from a space; independent of the pool's table. *)
From Verif Require Import Base MemPoolModel.

(** A live block: start address and requested size. *)
Definition block := (Z * Z)%type.

(** The blocks a user holds after a history: an allocation that returned a pointer adds a
    block, a free removes the block whose first page contains the pointer. *)
Definition live_step (page : Z) (o : pop) (r : option Z) (live : list block) : list block :=
  match o, r with
  | PMalloc size, Some p => (p, size) :: live
  | PMalloc _, None => live
  | PFree ptr, _ =>
      filter (fun b => negb ((fst b <=? ptr) && (ptr <? fst b + page))) live
  end.

Fixpoint live_after (page : Z) (ops : list pop) (rs : list (option Z)) (live : list block)
  : list block :=
  match ops, rs with
  | o :: ops', r :: rs' => live_after page ops' rs' (live_step page o r live)
  | _, _ => live
  end.

(** Whole pages occupied by a block of [size] bytes. *)
Definition pages (page size : Z) : Z := (size + page - 1) / page.

(** Requests the specification talks about: at least one byte, and at most INT_MAX pages
    (the pool counts pages in an int). *)
Definition ok_req (page : Z) (o : pop) : Prop :=
  match o with
  | PMalloc size => 0 < size /\ size <= page * INT_MAX
  | PFree _ => True
  end.

(** Two byte ranges are disjoint. *)
Definition disjoint (a n b m : Z) : Prop := a + n <= b \/ b + m <= a.

(** Page [i] of the heap (counted from its base) is not touched by any live block. *)
Definition page_free (base page : Z) (live : list block) (i : Z) : Prop :=
  forall a s, In (a, s) live ->
    disjoint a s (base + i * page) page.

(** [k] consecutive free pages starting at page [o] of a heap of [n] pages. *)
Definition free_run (base page n : Z) (live : list block) (o k : Z) : Prop :=
  0 <= o /\ o + k <= n /\ forall i, o <= i < o + k -> page_free base page live i.

(** Heap parameters for which spaces are specified: page size a power of two, heap a
    positive whole number of pages (at most INT_MAX of them), and the heap fits in the
    64-bit address space. *)
Definition heap_ok (base size page : Z) : Prop :=
  (exists k, 0 <= k < 32 /\ page = 2 ^ k) /\
  0 <= base /\ 0 < size /\ (size mod page = 0) /\ size / page <= INT_MAX /\
  base + size <= 2 ^ 63.

(** A collective operation on a space as all PEs issue it: a block is named by its offset
    from the local base of the space. *)
Inductive sop :=
| SMalloc (size : Z)
| SFree (off : Z).

(** The operation as performed on the PE whose space starts at [base]. *)
Definition at_base (base : Z) (o : sop) : pop :=
  match o with
  | SMalloc size => PMalloc size
  | SFree off => PFree (base + off)
  end.

(** Results of a history as offsets from [base]; the final pool is forgotten. *)
Definition offsets (base : Z) (r : outcome (pool * list (option Z)))
  : outcome (list (option Z)) :=
  match r with
  | Ok (_, rs) => Ok (map (option_map (fun p => p - base)) rs)
  | Abort => Abort
  | UB => UB
  | NoFuel => NoFuel
  end.

(** [reached base size page checks ops p rs]: a space whose heap of [size] bytes starts at
    [base] was created, the history [ops] was run to completion with results [rs], and the
    pool is now in state [p]. *)
Definition reached (base size page : Z) (checks : bool) (ops : list pop)
                   (p : pool) (rs : list (option Z)) : Prop :=
  exists p0, mempool_init base size page = Ok p0 /\ prun checks p0 ops = Ok (p, rs).

(** The blocks the user holds after such a history. *)
Definition held (page : Z) (ops : list pop) (rs : list (option Z)) : list block :=
  live_after page ops rs [].
