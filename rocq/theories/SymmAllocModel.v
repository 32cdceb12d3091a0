(** Collective allocation of memory at one common address (src/internal/util/symm_mem.c). *)
From Verif Require Import Base.

(** One process's address space: which pages are mapped (by page number). *)
Definition aspace : Type := Z -> bool.

(** __MAP_POINTER (symm_mem.c:64-65) for page size [pg]: masks the high bits and the bits inside
    a page. *)
Definition map_pointer (pg r : Z) : Z :=
  Z.land r (Z.lor (Z.land 0x00006FFFFFFFFFFF (Z.ldiff (2 ^ 64 - 1) (pg - 1))) 0x0000600000000000).

(** check_maprange_ok (symm_mem.c:37-57): msync on a page fails with ENOMEM iff it is not
    mapped. [n] pages from page number [k] on. *)
Fixpoint maprange_ok (m : aspace) (k : Z) (n : nat) : bool :=
  match n with
  | O => true
  | S n' => if m k then false else maprange_ok m (k + 1) n'
  end.
Definition check_maprange_ok (pg : Z) (m : aspace) (start size : Z) : bool :=
  maprange_ok m (start / pg) (Z.to_nat (size / pg)).

(** generate_random_addr (symm_mem.c:59-98): [rnd] are the numbers random_r yields; [iter]
    candidates are tried, then -1ULL. *)
Fixpoint gen_addr (pg : Z) (m : aspace) (size : Z) (rnd : nat -> Z) (k iter : nat) : option Z :=
  match iter with
  | O => None
  | S i =>
      let a := map_pointer pg (rnd k) in
      if check_maprange_ok pg m a size then Some a else gen_addr pg m size rnd (S k) i
  end.
Definition RANDOM_ADDR_RETRY : nat := 100.
Definition ALLOC_SYMM_MEM_RETRY : nat := 100.

(** mmap(MAP_FIXED) of [size] bytes at [a] and munmap: pages become mapped / unmapped. Whatever
    was mapped in the range before is replaced (that is MAP_FIXED). *)
Definition in_pages (pg a size k : Z) : bool := (a / pg <=? k) && (k <? a / pg + size / pg).
Definition mmap_fixed (pg : Z) (m : aspace) (a size : Z) : aspace :=
  fun k => if in_pages pg a size k then true else m k.
Definition munmap (pg : Z) (m : aspace) (a size : Z) : aspace :=
  fun k => if in_pages pg a size k then false else m k.

(** One PE's part of an attempt (symm_mem.c:130-137): [ok] says whether the system lets mmap
    succeed. [None] is MAP_FAILED. *)
Definition try_map (pg : Z) (m : aspace) (a size : Z) (ok : bool) : aspace * option Z :=
  if check_maprange_ok pg m a size then
    if ok then (mmap_fixed pg m a size, Some a) else (m, None)
  else (m, None).

Fixpoint try_all (pg a size : Z) (ok : Z -> bool) (i : Z) (ms : list aspace)
  : list (aspace * option Z) :=
  match ms with
  | [] => []
  | m :: r => try_map pg m a size (ok i) :: try_all pg a size ok (i + 1) r
  end.

(** munmap(local_addr, size) after a failure (symm_mem.c:144-145); munmap(MAP_FAILED) is an error
    without effect since -1 is not page aligned. *)
Definition cleanup (pg size : Z) (r : aspace * option Z) : aspace :=
  match snd r with
  | Some a => munmap pg (fst r) a size
  | None => fst r
  end.

(** MPI_Allreduce with MPI_BOR over the failure flags. *)
Definition any_fail (l : list (aspace * option Z)) : bool :=
  existsb (fun r => match snd r with None => true | Some _ => false end) l.

(** OSHMPIU_allocate_symm_mem (symm_mem.c:110-157) run by all PEs: attempt loop. [rnd] and [ok]
    depend on the attempt. Result per PE: its address space, the returned value and what is
    stored through local_addr_ptr ([None]: nothing is stored). *)
Fixpoint alloc_loop (pg size : Z) (rnd : nat -> nat -> Z) (ok : nat -> Z -> bool) (att iter : nat)
    (ms : list aspace) : list (aspace * (Z * option Z)) :=
  match iter with
  | O => map (fun m => (m, (1, None))) ms
  | S i =>
      match ms with
      | [] => []
      | m0 :: _ =>
          match gen_addr pg m0 size (rnd att) 0 RANDOM_ADDR_RETRY with
          | None => map (fun m => (m, (1, None))) ms
          | Some a =>
              let l := try_all pg a size (ok att) 0 ms in
              if any_fail l then alloc_loop pg size rnd ok (S att) i (map (cleanup pg size) l)
              else map (fun r => (fst r, (0, snd r))) l
          end
      end
  end.
Definition allocate_symm_mem (pg size : Z) (rnd : nat -> nat -> Z) (ok : nat -> Z -> bool)
    (ms : list aspace) : list (aspace * (Z * option Z)) :=
  alloc_loop pg size rnd ok 0 ALLOC_SYMM_MEM_RETRY ms.

(** OSHMPIU_free_symm_mem (symm_mem.c:159-166). *)
Definition free_symm_mem (pg : Z) (m : aspace) (a size : Z) : aspace := munmap pg m a size.
