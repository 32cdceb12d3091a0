(** PEs that run in any interleaving and meet in barriers, and the collective allocation calls. *)
From Verif Require Import Base.
Open Scope nat_scope.
Open Scope list_scope.

(** ** PEs and barriers *)

(** A PE does actions, one at a time, and calls barriers over all PEs. A barrier (MPI_Barrier
    behind OSHMPI_barrier_all, src/internal/coll_impl.h:12-33) is entered in one step and left in
    another one, which is possible when every PE has entered it. What else the barrier does
    (completing communication) is the subject of OrderModel. *)
Inductive ins (A : Type) := IBar | IAct (a : A).
Arguments IBar {A}.
Arguments IAct {A} a.
Record pe (A : Type) := { prog : list (ins A); ent : nat; waiting : bool }.
Arguments Build_pe {A}.
Arguments prog {A}.
Arguments ent {A}.
Arguments waiting {A}.

(** One step of PE [p]: a trace entry has the PE, the number of barriers it has entered before,
    and the action. A PE that cannot continue does nothing. *)
Definition sstep {A} (st : list (pe A)) (p : nat) : list (pe A) * list (nat * nat * A) :=
  match nth_error st p with
  | None => (st, [])
  | Some x =>
      if waiting x then
        if forallb (fun y => ent x <=? ent y) st
        then (upd st p {| prog := prog x; ent := ent x; waiting := false |}, [])
        else (st, [])
      else match prog x with
           | [] => (st, [])
           | IBar :: r => (upd st p {| prog := r; ent := S (ent x); waiting := true |}, [])
           | IAct a :: r =>
               (upd st p {| prog := r; ent := ent x; waiting := false |}, [(p, ent x, a)])
           end
  end.
Fixpoint srun {A} (st : list (pe A)) (sched : list nat) : list (pe A) * list (nat * nat * A) :=
  match sched with
  | [] => (st, [])
  | p :: sched =>
      let '(st1, t1) := sstep st p in
      let '(st2, t2) := srun st1 sched in
      (st2, t1 ++ t2)
  end.
Definition sinit {A} (ps : list (list (ins A))) : list (pe A) :=
  map (fun l => {| prog := l; ent := 0; waiting := false |}) ps.
Definition strip {A} (e : nat * nat * A) : nat * A := (fst (fst e), snd e).

(** ** Collective allocation *)

(** What a PE does inside the calls, in terms of blocks (a block is named by the number of the call
    that allocates it). *)
Inductive mact :=
| AAlloc                        (* the local allocator assigns the block *)
| AZero                         (* the local copy of the block is set to zero *)
| AEnter                        (* shmem_free is called *)
| ARelease                      (* the local allocator takes the block back *)
| AMove                         (* the local allocator moves the block *)
| ARet                          (* the call returns *)
| APut (blk q : nat) (v : Z).   (* the user writes to the block on PE q *)
(** Calls made by all PEs, in the same order; in between each PE does accesses of its own. *)
Inductive mcall :=
| CMalloc (size : Z)            (* shmem_malloc, shmem_malloc_with_hints *)
| CAlign                        (* shmem_align *)
| CCalloc (count size : Z)      (* shmem_calloc *)
| CFree (blk : nat)             (* shmem_free, of a heap or a space block *)
| CRealloc (blk : nat)          (* shmem_realloc of a block *)
| CSpaceMalloc                  (* shmemx_space_malloc, shmemx_space_align *)
| CSpaceCalloc                  (* shmemx_space_calloc *)
| CUser (f : nat -> list (nat * nat * Z)).

(** Statement order of the calls: OSHMPI_malloc (src/internal/mem_impl.c:10-25), OSHMPI_align
    (67-78), OSHMPI_calloc (80-95; the memset is in mspace_calloc) behind shmem_calloc
    (src/shmem/mem.c:53-68), OSHMPI_free (27-49), OSHMPI_realloc (51-65), OSHMPI_space_malloc
    (src/internal/space_impl.c:362-374), shmemx_space_calloc (src/shmemx/space.c:49-56). The
    critical sections of threads are left out: one thread per PE. *)
Definition expand (j p : nat) (c : mcall) : list (ins (nat * mact)) :=
  match c with
  | CMalloc size =>
      if (size =? 0)%Z then [IAct (j, ARet)] else [IAct (j, AAlloc); IBar; IAct (j, ARet)]
  | CAlign => [IAct (j, AAlloc); IBar; IAct (j, ARet)]
  | CCalloc count size =>
      if (count =? 0)%Z || (size =? 0)%Z then [IAct (j, ARet)]
      else [IAct (j, AAlloc); IAct (j, AZero); IBar; IAct (j, ARet)]
  | CFree _ => [IAct (j, AEnter); IBar; IAct (j, ARelease); IAct (j, ARet)]
  | CRealloc _ => [IAct (j, AMove); IBar; IAct (j, ARet)]
  | CSpaceMalloc => [IAct (j, AAlloc); IBar; IAct (j, ARet)]
  | CSpaceCalloc => [IAct (j, AAlloc); IBar; IAct (j, AZero); IAct (j, ARet)]
  | CUser f => map (fun '(blk, q, v) => IAct (j, APut blk q v)) (f p)
  end.
Fixpoint program (j p : nat) (cs : list mcall) : list (ins (nat * mact)) :=
  match cs with [] => [] | c :: cs => expand j p c ++ program (S j) p cs end.
Definition programs (n : nat) (cs : list mcall) : list (list (ins (nat * mact))) :=
  map (fun p => program 0 p cs) (seq 0 n).
(** The trace of a run: PE, number of the call, action. *)
Definition mtrace (n : nat) (cs : list mcall) (sched : list nat) : list (nat * (nat * mact)) :=
  map strip (snd (srun (sinit (programs n cs)) sched)).

(** The first word of block [blk] on PE [q] after a trace. *)
Fixpoint word (q blk : nat) (v0 : Z) (tr : list (nat * (nat * mact))) : Z :=
  match tr with
  | [] => v0
  | (p, (j, a)) :: tr =>
      word q blk (match a with
                  | AZero => if (p =? q) && (j =? blk) then 0%Z else v0
                  | APut b q' v => if (q' =? q) && (b =? blk) then v else v0
                  | _ => v0
                  end) tr
  end.
