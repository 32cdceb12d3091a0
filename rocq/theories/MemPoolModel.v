(** Model of the per-space memory pool (src/internal/util/mem_pool.c) and of the
    allocation entry points of spaces (src/internal/space_impl.c, src/shmemx/space.c). *)
From Verif Require Import Base.

(** OSUMPIU_mempool_t (src/include/oshmpi_util.h:198-206). Pointers are integers. *)
Record pool := mkPool {
  pl_base : Z;            (* void *base *)
  pl_size : Z;            (* size_t size *)
  pl_chunk : Z;           (* size_t chunk_size *)
  pl_nchunks : Z;         (* int nchunks *)
  pl_nused : list Z       (* unsigned int *chunks_nused; length = nchunks *)
}.

(** OSHMPIU_mempool_init (src/internal/util/mem_pool.c:13-25).
    The table allocation is assumed to succeed when the count is not negative; a negative
    [nchunks] asks malloc for about 2^64 bytes, which fails (assert, line 22). *)
Definition mempool_init (base size chunk : Z) : outcome pool :=
  if chunk =? 0 then UB (* division by zero, line 19 *)
  else
    let nchunks := to_int (size / chunk) in
    if nchunks <? 0 then Abort
    else Ok (mkPool base size chunk nchunks (repeat 0 (Z.to_nat nchunks))).

(** The while loop of OSHMPIU_mempool_alloc (mem_pool.c:48-63). Returns (off, navail).
    [off += nused] is computed in unsigned int and converted back to int. *)
Fixpoint scan (fuel : nat) (nchunks : Z) (tbl : list Z) (nalloc off navail : Z)
  : outcome (Z * Z) :=
  if off <? nchunks then
    match fuel with
    | O => NoFuel
    | S fuel' =>
        do nused <- of_opt (aget tbl off);
        if negb (nused =? 0) then
          scan fuel' nchunks tbl nalloc (to_int (off + nused)) 0
        else
          let navail' := navail + 1 in
          let off' := off + 1 in
          if navail' =? nalloc then Ok (off', navail')
          else scan fuel' nchunks tbl nalloc off' navail'
    end
  else Ok (off, navail).

(** OSHMPIU_mempool_alloc (mem_pool.c:40-72). NULL is [None]. *)
Definition mempool_alloc (p : pool) (size : Z) : outcome (pool * option Z) :=
  let aligned_sz := c_align size (pl_chunk p) in
  let nalloc := to_int (aligned_sz / pl_chunk p) in
  do r <- scan (S (length (pl_nused p))) (pl_nchunks p) (pl_nused p) nalloc 0 0;
  let '(off, navail) := r in
  if navail =? nalloc then
    let first_off := off - navail in
    let ptr := pl_base p + first_off * pl_chunk p in
    do tbl <- of_opt (aset (pl_nused p) first_off (wrap32 nalloc));  (* line 68 *)
    Ok (mkPool (pl_base p) (pl_size p) (pl_chunk p) (pl_nchunks p) tbl, Some ptr)
  else Ok (p, None).

(** OSHMPIU_mempool_free (mem_pool.c:75-82). The pointer difference is converted to
    size_t by the division with [chunk_size] (line 79), then to int. *)
Definition mempool_free (checks : bool) (p : pool) (ptr : Z) : outcome pool :=
  let off := to_int (wrap64 (ptr - pl_base p) / pl_chunk p) in
  do _ <- c_assert checks
            ((0 <=? off) && (off <? pl_nchunks p) &&
             match aget (pl_nused p) off with Some n => negb (n =? 0) | None => false end);
  do tbl <- of_opt (aset (pl_nused p) off 0);
  Ok (mkPool (pl_base p) (pl_size p) (pl_chunk p) (pl_nchunks p) tbl).

(** OSHMPIU_mempool_destroy (mem_pool.c:29-36), with error checking. *)
Definition mempool_destroy (p : pool) : outcome unit :=
  if forallb (fun n => n =? 0) (pl_nused p) then Ok tt else Abort.

(** OSHMPI_space_malloc (src/internal/space_impl.c:362-374) = shmemx_space_malloc
    (src/shmemx/space.c:41-47). The closing barrier is modelled in HeapModel.v. *)
Definition space_malloc (p : pool) (size : Z) : outcome (pool * option Z) :=
  mempool_alloc p size.

(** OSHMPI_space_align (space_impl.c:377-380) = shmemx_space_align (space.c:58-64). *)
Definition space_align (p : pool) (alignment size : Z) : outcome (pool * option Z) :=
  space_malloc p (c_align size alignment).

(** The part of OSHMPI_space_create that lays out the heap (space_impl.c:175, 194):
    size = OSHMPI_ALIGN(sheap_size, page_sz), pool over [base, base+size) with page chunks. *)
Definition space_pool (base sheap_size page_sz : Z) : outcome pool :=
  mempool_init base (c_align sheap_size page_sz) page_sz.

(** Byte memory of one PE: a total map from addresses to byte values (addresses that are
    not mapped are simply never asked about). *)
Definition bytes := Z -> Z.

(** memset(ptr, 0, n). *)
Definition memset0 (m : bytes) (ptr n : Z) : bytes :=
  fun a => if (ptr <=? a) && (a <? ptr + n) then 0 else m a.

(** shmemx_space_calloc (src/shmemx/space.c:49-56). [count] is not used by the code.
    memset through a NULL pointer is undefined. *)
Definition space_calloc (p : pool) (m : bytes) (count size : Z)
  : outcome (pool * bytes * option Z) :=
  do r <- space_malloc p size;
  let '(p', o) := r in
  match o with
  | Some ptr => Ok (p', memset0 m ptr size, Some ptr)
  | None => UB
  end.

(** Operations a user performs on one space. Free goes through shmem_free, which finds the
    space by address (src/internal/mem_impl.c:27-49) and calls OSHMPI_space_free
    (space_impl.c:383-391); an address outside the space never reaches its pool. *)
Inductive pop :=
| PMalloc (size : Z)
| PFree (ptr : Z).

(** OSHMPI_sobj_check_range on the space (src/include/oshmpi_impl.h:629-634; the space's
    sobj_attr has the pool's base and size, space_impl.c:194,197). *)
Definition in_pool (p : pool) (ptr : Z) : bool :=
  (pl_base p <=? ptr) && (ptr <? pl_base p + pl_size p).

(** One user operation; the result is the pointer for an allocation. *)
Definition pstep (checks : bool) (p : pool) (o : pop) : outcome (pool * option Z) :=
  match o with
  | PMalloc size => space_malloc p size
  | PFree ptr =>
      if in_pool p ptr then
        do p' <- mempool_free checks p ptr; Ok (p', None)
      else Ok (p, None)
  end.

(** A history: operations in order, with the results they returned. *)
Fixpoint prun (checks : bool) (p : pool) (ops : list pop) : outcome (pool * list (option Z)) :=
  match ops with
  | [] => Ok (p, [])
  | o :: ops' =>
      do r <- pstep checks p o;
      let '(p1, res) := r in
      do r2 <- prun checks p1 ops';
      let '(p2, rs) := r2 in
      Ok (p2, res :: rs)
  end.
